(** * More tests of the code, as tests of the model

    Not proofs of properties, see TestsReader.v: the tests of [transfer_to] and of
    the [Debug] output (src/reader/stream_reader.rs, src/writer/stream_writer.rs),
    and of src/json_number.rs. *)

From Coq Require Import String.
From Verif Require Import Base Utf8Model NumberModel WriterModel SourceModel ReaderModel TransferModel SpecCost DebugModel SpecDebug.
Local Open Scope list_scope.

Notation txt := bytes_of_string (only parsing).
Definition rep {A : Type} (n : N) (l : list A) : list A := concat (repeat l (N.to_nat n)).
Definition vec_sink : sink := Sink [] [] [] 0.

Ltac run_test :=
  lazymatch goal with |- _ /\ _ => apply conj; run_test | |- _ => vm_compute; reflexivity end.

(** ** [number_validation], src/json_number.rs:177-204 *)
Example test_number_validation :
  map (fun s => is_valid_json_number (txt s)) ["0"; "-0"; "1230.1"; "1.01e1"; "12.120e+01"; "12.120e-10"]%string = repeat true 6 /\
  map (fun s => is_valid_json_number (txt s)) ["00"; "-00"; "+1"; ".1"; "1.-1"; "1e"; "1e+-1"; "1e.1"]%string = repeat false 8 /\
  map (fun s => is_valid_json_number (txt s)) [""; "1a"; "NaN"; "nan"; "NAN"; "Infinity"; "-Infinity"; "inf"]%string = repeat false 8.
Proof. run_test. Qed.

(** ** [transfer_to], src/reader/stream_reader.rs:4289-4500 *)

(** [transfer_to] of everything, [consume_trailing_whitespace] and
    [finish_document] succeed, and [out] is written *)
Definition transfers (s : settings) (json out : bytes) : Prop :=
  match transfer_session s [EvData json] (stream_writer default_wsettings) (new_session vec_sink) [] [ReaderModel.CConsumeTrailingWhitespace] with
  | Some (_, Some (Ok _), w, [OOk RUnit]) => let (r, out') := wfinish w in r = RDone /\ received out' = out
  | _ => False
  end.
(** How [transfer_to] ends *)
Definition transfer_ends (json : bytes) (before : list rcall) (r : res (transfer_error wresult) unit) : Prop :=
  match transfer_session default_settings [EvData json] (stream_writer default_wsettings)
    (snd (wrun default_wsettings [WriterModel.CBeginArray] (new_session vec_sink))) before [] with
  | Some (_, Some r', _, _) => r' = r
  | _ => False
  end.
Ltac run_transfer := vm_compute; try (apply conj); reflexivity.

(** [transfer_to], lines 4290-4327; the whole document at once *)
Example test_transfer_to :
  transfers default_settings
    (txt "[true, null, 123, 123.0e+0, ""a\""b\\c\u0064"", [1], {""a"": 1, ""a\""b\\c\u0064"": 2, ""c"":[{""d"":[3]}]},""" ++ encode_utf8 [0x10FFFF] ++ txt """]")
    (txt "[true,null,123,123.0e+0,""a\""b\\cd"",[1],{""a"":1,""a\""b\\cd"":2,""c"":[{""d"":[3]}]},""" ++ encode_utf8 [0x10FFFF] ++ txt """]").
Proof. run_transfer. Qed.
Example test_transfer_to_missing_value :
  transfer_ends (txt "[true, 1]") [ReaderModel.CBeginArray; ReaderModel.CSkipValue; ReaderModel.CSkipValue]
    (Err (inl (EUnexpectedStructure FewerElementsThanExpected (Position (Some [PIndex 2]) 0 8 8)))).
Proof. run_transfer. Qed.

(** [transfer_to_large_string], lines 4329-4356, with 8 instead of 1000 repetitions *)
Example test_transfer_to_large_string :
  transfers default_settings
    (txt """" ++ rep 8 (txt "a\u0062 \n \u0000 " ++ encode_utf8 [0x7F; 0x80; 0x7FF; 0x800; 0xFFFF; 0x10000; 0x10FFFF]) ++ txt """")
    (txt """" ++ rep 8 (txt "ab \n \u0000 " ++ encode_utf8 [0x7F; 0x80; 0x7FF; 0x800; 0xFFFF; 0x10000; 0x10FFFF]) ++ txt """").
Proof. run_transfer. Qed.

(** [transfer_to_string_syntax_error], lines 4358-4373 *)
Example test_transfer_to_string_syntax_error :
  transfer_ends (txt """\X""") [] (Err (inl (ESyntax UnknownEscapeSequence (Position (Some []) 0 1 1)))).
Proof. run_transfer. Qed.

(** [transfer_to_name], lines 4375-4386 *)
Example test_transfer_to_name : transfer_ends (txt "{""a"": 1}") [ReaderModel.CBeginObject] (Panic Misuse).
Proof. run_transfer. Qed.

(** [transfer_to_comments], lines 4388-4404 *)
Example test_transfer_to_comments :
  transfers (Settings true false false true (Some 128) true) (txt "[" ++ [0x0A] ++ txt "// test" ++ [0x0A] ++ txt "1,/* */2]") (txt "[1,2]").
Proof. run_transfer. Qed.

(** [transfer_to_writer_error], lines 4406-4519: a writer which always fails *)
Definition failing_writer : handler N unit := fun _ w => (Err 7, w).
Example test_transfer_to_writer_error :
  map (fun json => match transfer_session default_settings [EvData (txt json)] failing_writer tt [] [] with
                   | Some (_, r, _, _) => r
                   | None => None
                   end) ["true"; "null"; "123"; """a"""; "[]"; "{}"]%string =
  repeat (Some (Err (inr 7))) 6.
Proof. run_test. Qed.

(** [excessive_whitespace], lines 4521-4561; CR is not used by the test *)
Example test_excessive_whitespace :
  transfers default_settings
    (rep 3 [0x0A] ++ txt "            {" ++ [0x0A] ++ txt "                ""a""" ++ [0x0A] ++ txt "   :" ++ [0x0A] ++ txt " [" ++
     [0x0A; 0x20; 0x0A] ++ txt "  true," ++ [0x0A; 0x0A] ++ txt "  false" ++ [0x0A; 0x0A] ++ txt " ,      {          }" ++ [0x0A; 0x0A] ++ txt "   ]," ++
     [0x0A; 0x0A] ++ txt "    ""b""   :     true" ++ [0x0A] ++ txt " ,         ""c""" ++ [0x0A] ++ txt "  :   false" ++ [0x0A] ++ txt "   }" ++ rep 3 [0x0A])
    (txt "{""a"":[true,false,{}],""b"":true,""c"":false}").
Proof. run_transfer. Qed.

(** ** [Debug] of the reader, src/reader/stream_reader.rs:5718-5799: the fields about the buffer *)

Example test_debug_reader :
  session_debug default_settings [EvData (txt "123")] [] = Some (RdBuf 0 [] None) /\
  session_debug default_settings [EvData (txt "123")] [ReaderModel.CPeek] = Some (RdBuf 3 (txt "123") None).
Proof. run_test. Qed.
Example test_debug_reader_long :
  session_debug default_settings [EvData (rep 100 (txt "123456"))] [ReaderModel.CPeek] =
    Some (RdBuf (N.to_nat 600) (txt "123456123456123456123456123456123456123456123...") None).
Proof. run_test. Qed.
Example test_debug_reader_incomplete :
  session_debug default_settings [EvData (txt """this is a test" ++ [0xC3])] [ReaderModel.CPeek] =
    Some (RdBuf 15 (txt "this is a test...") (Some [195])).
Proof. run_test. Qed.
Example test_debug_reader_invalid_short :
  session_debug default_settings [EvData (txt """a" ++ [0xFF])] [ReaderModel.CPeek] = Some (RdBuf 2 (txt "a...") (Some [255])).
Proof. run_test. Qed.
Example test_debug_reader_invalid_long :
  session_debug default_settings [EvData (txt """" ++ rep 20 (txt "abcdef") ++ [0xFF])] [ReaderModel.CPeek] =
    Some (RdBuf (N.to_nat 121) (txt "abcdefabcdefabcdefabcdefabcdefabcdefabcdefabc...") None).
Proof. run_test. Qed.

(** ** [Debug] of the writer, src/writer/stream_writer.rs:1748-1815 *)

Definition writer_debug_after (cs : list wcall) : option writer_debug :=
  debug_writer (ws_writer (snd (wrun default_wsettings cs (new_session vec_sink)))).
Example test_debug_writer :
  writer_debug_after [] = Some (WDebug 0 None []) /\
  writer_debug_after [CString (txt "test")] = Some (WDebug 6 None (txt """test""")).
Proof. run_test. Qed.
Example test_debug_writer_long :
  writer_debug_after [CString (rep 100 (txt "test"))] =
    Some (WDebug (N.to_nat 402) None (txt """testtesttesttesttesttest ... testtesttesttesttesttest""")).
Proof. run_test. Qed.
Example test_debug_writer_incomplete_with_suffix :
  writer_debug_after [CString (rep 1022 (txt "a") ++ [0x10FFFF] ++ txt "test")] =
    Some (WDebug 8 (Some [143; 191; 191]) (txt "...test""")).
Proof. run_test. Qed.
Example test_debug_writer_incomplete_with_long_suffix :
  writer_debug_after [CString (rep 1022 (txt "a") ++ [0x10FFFF] ++ rep 100 (txt "test"))] =
    Some (WDebug (N.to_nat 404) (Some [143; 191; 191]) (txt "...testtesttesttesttesttestt ... testtesttesttesttesttest""")).
Proof. run_test. Qed.
