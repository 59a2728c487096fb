(** * The tests of src/writer/stream_writer.rs, as tests of the model

    Not proofs of properties: each [Example] performs the calls of a unit test of
    the code and compares all results and what was written with what the test
    expects.  Messages of errors are not modelled.  The tests of the Debug output
    and of [serialize_value] are in other files. *)

From Coq Require Import String.
From Verif Require Import Base Utf8Model NumberModel WriterModel.
Local Open Scope list_scope.

Notation txt := bytes_of_string (only parsing).
Definition rep {A : Type} (n : N) (l : list A) : list A := concat (repeat l (N.to_nat n)).

Ltac run_test :=
  lazymatch goal with |- _ /\ _ => apply conj; run_test | |- _ => vm_compute; repeat apply conj; reflexivity end.

(** [Vec<u8>] as [Write] *)
Definition vec_sink : sink := Sink [] [] [] 0.

(** [MaxCapacityWriter], lines 1292-1312 *)
Definition max_capacity (n : N) : sink :=
  Sink [] (repeat (SAccept 1) (N.to_nat n) ++ repeat (SErr 7) 10) [] 0.

(** [InterruptedWriter], lines 1628-1664 *)
Definition interrupted_sink : sink :=
  Sink [] (rep 100 [SInterrupted; SInterrupted; SInterrupted; SAccept 1]) [] 0.

(** All calls have the given results *)
Definition results (cfg : wsettings) (s : sink) (steps : list (wcall * wresult)) : Prop :=
  fst (wrun cfg (map fst steps) (new_session s)) = map snd steps.

(** Afterwards [finish_document] succeeds and [out] has been written *)
Definition writes (cfg : wsettings) (s : sink) (steps : list (wcall * wresult)) (out : bytes)
  : Prop :=
  results cfg s steps /\
  let (r, s') := wfinish (snd (wrun cfg (map fst steps) (new_session s))) in
  r = RDone /\ received s' = out.

(** What the sink has received without [finish_document] *)
Definition received_so_far (cfg : wsettings) (s : sink) (steps : list (wcall * wresult))
  (out : bytes) : Prop :=
  results cfg s steps /\
  received (w_sink (ws_writer (snd (wrun cfg (map fst steps) (new_session s))))) = out.

(** [finish_document] panics *)
Definition finish_panics (cfg : wsettings) (steps : list (wcall * wresult)) : Prop :=
  results cfg vec_sink steps /\
  fst (wfinish (snd (wrun cfg (map fst steps) (new_session vec_sink)))) = RPanic Misuse.

(** [is_string_value_writer_active] is set afterwards *)
Definition still_active (s : sink) (steps : list (wcall * wresult)) : Prop :=
  results default_wsettings s steps /\
  w_string_active (ws_writer (snd (wrun default_wsettings (map fst steps) (new_session s)))) = true.

(** [numbers], lines 812-845 *)
Example test_numbers :
  writes default_wsettings vec_sink
    [(CBeginArray, RDone);
     (CNumber (8), RDone);
     (CNumber (-8), RDone);
     (CNumber (16), RDone);
     (CNumber (-16), RDone);
     (CNumber (32), RDone);
     (CNumber (-32), RDone);
     (CNumber (64), RDone);
     (CNumber (-64), RDone);
     (CNumber (128), RDone);
     (CNumber (-128), RDone);
     (CFloat (Some (txt "1.5")), RDone);
     (CFloat (Some (txt "-1.5")), RDone);
     (CFloat (Some (txt "2.5")), RDone);
     (CFloat (Some (txt "-2.5")), RDone);
     (CNumberFromString (txt "123.45e-12"), RDone);
     (CEndArray, RDone)]
    (txt "[8,-8,16,-16,32,-32,64,-64,128,-128,1.5,-1.5,2.5,-2.5,123.45e-12]").
Proof. run_test. Qed.

(** [numbers_invalid], lines 847-893 *)
Example test_numbers_invalid :
  results default_wsettings vec_sink
    [(CFloat None, RInvalidNumber);
     (CFloat None, RInvalidNumber);
     (CNumberFromString (txt "NaN"), RInvalidNumber);
     (CNumberFromString (txt "+1"), RInvalidNumber);
     (CNumberFromString (txt "00"), RInvalidNumber);
     (CNumberFromString (txt "1e"), RInvalidNumber);
     (CNumberFromString (txt "12a"), RInvalidNumber)].
Proof. run_test. Qed.

(** [literals], lines 895-910 *)
Example test_literals :
  writes default_wsettings vec_sink
    [(CBeginArray, RDone);
     (CBool true, RDone);
     (CBool false, RDone);
     (CNull, RDone);
     (CEndArray, RDone)]
    (txt "[true,false,null]").
Proof. run_test. Qed.

(** [arrays], lines 912-930 *)
Example test_arrays :
  writes default_wsettings vec_sink
    [(CBeginArray, RDone);
     (CBeginArray, RDone);
     (CNumber (1), RDone);
     (CEndArray, RDone);
     (CBeginArray, RDone);
     (CEndArray, RDone);
     (CEndArray, RDone)]
    (txt "[[1],[]]").
Proof. run_test. Qed.

(** [end_array_not_in_array], lines 932-940 *)
Example test_end_array_not_in_array :
  results default_wsettings vec_sink
    [(CBeginObject, RDone);
     (CEndArray, RPanic Misuse)].
Proof. run_test. Qed.

(** [objects], lines 942-967 *)
Example test_objects :
  writes default_wsettings vec_sink
    [(CBeginObject, RDone);
     (CName (txt "a"), RDone);
     (CNumber (1), RDone);
     (CName [], RDone);
     (CNumber (2), RDone);
     (CName (txt "a"), RDone);
     (CBeginObject, RDone);
     (CName (txt "c"), RDone);
     (CBeginObject, RDone);
     (CEndObject, RDone);
     (CEndObject, RDone);
     (CEndObject, RDone)]
    (txt "{""a"":1,"""":2,""a"":{""c"":{}}}").
Proof. run_test. Qed.

(** [end_object_not_in_object], lines 969-977 *)
Example test_end_object_not_in_object :
  results default_wsettings vec_sink
    [(CBeginArray, RDone);
     (CEndObject, RPanic Misuse)].
Proof. run_test. Qed.

(** [end_object_expecting_value], lines 979-990 *)
Example test_end_object_expecting_value :
  results default_wsettings vec_sink
    [(CBeginObject, RDone);
     (CName (txt "a"), RDone);
     (CEndObject, RPanic Misuse)].
Proof. run_test. Qed.

(** [arrays_objects_mixed], lines 992-1028 *)
Example test_arrays_objects_mixed :
  writes default_wsettings vec_sink
    [(CBeginObject, RDone);
     (CName (txt "a"), RDone);
     (CBeginObject, RDone);
     (CName (txt "b"), RDone);
     (CBeginArray, RDone);
     (CBeginObject, RDone);
     (CEndObject, RDone);
     (CBeginObject, RDone);
     (CName (txt "c"), RDone);
     (CBeginArray, RDone);
     (CBeginArray, RDone);
     (CEndArray, RDone);
     (CEndArray, RDone);
     (CEndObject, RDone);
     (CEndArray, RDone);
     (CName (txt "d"), RDone);
     (CBeginArray, RDone);
     (CEndArray, RDone);
     (CEndObject, RDone);
     (CEndObject, RDone)]
    (txt "{""a"":{""b"":[{},{""c"":[[]]}],""d"":[]}}").
Proof. run_test. Qed.

(** [strings], lines 1030-1053 *)
Example test_strings :
  writes default_wsettings vec_sink
    [(CBeginArray, RDone);
     (CString [], RDone);
     (CString (txt "ab"), RDone);
     (CString [0x0; 0x1F], RDone);
     (CString (txt "a b"), RDone);
     (CString (txt """\/" ++ [0x8; 0xC; 0xA; 0xD; 0x9]), RDone);
     (CString [0x10FFFF], RDone);
     (CEndArray, RDone)]
    (txt "["""",""ab"",""\u0000\u001F"",""a b"",""\""\\/\b\f\n\r\t"",""" ++ [0xF4; 0x8F; 0xBF; 0xBF] ++ txt """]").
Proof. run_test. Qed.

(** [string_writer], lines 1055-1098 *)
Example test_string_writer :
  writes default_wsettings vec_sink
    [(CBeginArray, RDone);
     (CStringWriter, RDone);
     (CWrite [], RCount 0);
     (CWrite (txt "a b"), RCount 3);
     (CWrite [0x0; 0x1F], RCount 2);
     (CWrite (txt """\/" ++ [0x8; 0xC; 0xA; 0xD; 0x9]), RCount 8);
     (CWrite [0x7F; 0xF4; 0x8F; 0xBF; 0xBF], RCount 5);
     (CWrite [0x7F], RCount 1);
     (CWrite [0xC2], RCount 1);
     (CWrite [0x80], RCount 1);
     (CWrite [0xDF], RCount 1);
     (CWrite [0xBF], RCount 1);
     (CWrite [0xE0], RCount 1);
     (CWrite [0xA0], RCount 1);
     (CWrite [0x80], RCount 1);
     (CWrite [0xEF], RCount 1);
     (CWrite [0xBF], RCount 1);
     (CWrite [0xBF], RCount 1);
     (CWrite [0xF0], RCount 1);
     (CWrite [0x90], RCount 1);
     (CWrite [0x80], RCount 1);
     (CWrite [0x80], RCount 1);
     (CWrite [0xF4], RCount 1);
     (CWrite [0x8F], RCount 1);
     (CWrite [0xBF], RCount 1);
     (CWrite [0xBF], RCount 1);
     (CFinishValue, RDone);
     (CStringWriter, RDone);
     (CWrite [0xF4; 0x8F; 0xBF; 0xBF], RCount 4);
     (CWriteStr (txt "a " ++ [0x10FFFF]), RDone);
     (CWrite (txt "b"), RCount 1);
     (CWriteStr [], RDone);
     (CWrite (txt "c"), RCount 1);
     (CFinishValue, RDone);
     (CStringWriter, RDone);
     (CFinishValue, RDone);
     (CEndArray, RDone)]
    (txt "[""a b\u0000\u001F\""\\/\b\f\n\r\t" ++ [0x7F; 0xF4; 0x8F; 0xBF; 0xBF; 0x7F; 0xC2; 0x80; 0xDF; 0xBF; 0xE0; 0xA0; 0x80; 0xEF; 0xBF; 0xBF; 0xF0; 0x90; 0x80; 0x80; 0xF4; 0x8F; 0xBF; 0xBF] ++ txt """,""" ++ [0xF4; 0x8F; 0xBF; 0xBF] ++ txt "a " ++ [0xF4; 0x8F; 0xBF; 0xBF] ++ txt "bc"",""""]").
Proof. run_test. Qed.

(** [string_writer_flush], lines 1100-1114 *)
Example test_string_writer_flush :
  received_so_far default_wsettings vec_sink
    [(CStringWriter, RDone);
     (CWrite (txt "abcd"), RCount 4);
     (CFlush, RDone);
     (CWrite (txt "efgh"), RCount 4);
     (CFlush, RDone)]
    (txt """abcdefgh").
Proof. run_test. Qed.

(** [string_writer_invalid], lines 1116-1231 *)
Example test_string_writer_invalid :
  results default_wsettings vec_sink
    [(CStringWriter, RDone);
     (CWrite [0xF8], RError (WInvalidData))] /\
  results default_wsettings vec_sink
    [(CStringWriter, RDone);
     (CWrite [0xED; 0xA0; 0x80], RError (WInvalidData))] /\
  results default_wsettings vec_sink
    [(CStringWriter, RDone);
     (CWrite [0xF4], RCount 1);
     (CWrite [0x90], RCount 1);
     (CWrite [0x80], RCount 1);
     (CWrite [0x80], RError (WInvalidData))] /\
  results default_wsettings vec_sink
    [(CStringWriter, RDone);
     (CWrite [0xC1; 0xBF], RError (WInvalidData))] /\
  results default_wsettings vec_sink
    [(CStringWriter, RDone);
     (CWrite [0xF0], RCount 1);
     (CWrite [0x90], RCount 1);
     (CWrite [0x80], RCount 1);
     (CFinishValue, RError (WInvalidData))] /\
  results default_wsettings vec_sink
    [(CStringWriter, RDone);
     (CWrite [0x80], RError (WInvalidData))] /\
  results default_wsettings vec_sink
    [(CStringWriter, RDone);
     (CWrite [0xC2], RCount 1);
     (CWrite [0x80], RCount 1);
     (CWrite [0x80], RError (WInvalidData))] /\
  results default_wsettings vec_sink
    [(CStringWriter, RDone);
     (CWrite [0xF0], RCount 1);
     (CWriteStr [], RError (WInvalidData))].
Proof. run_test. Qed.

(** [string_writer_repeats_error], lines 1233-1336 *)
Example test_string_writer_repeats_error :
  results default_wsettings vec_sink
    [(CStringWriter, RDone);
     (CWrite [0xF8], RError (WInvalidData));
     (CWrite (txt "test"), RError (WPrevious (WInvalidData)));
     (CWriteStr (txt "test"), RError (WPrevious (WInvalidData)));
     (CFlush, RError (WPrevious (WInvalidData)));
     (CFinishValue, RError (WPrevious (WInvalidData)))] /\
  still_active vec_sink
    [(CStringWriter, RDone);
     (CWrite [0xF8], RError (WInvalidData));
     (CFinishValue, RError (WPrevious (WInvalidData)))] /\
  results default_wsettings (max_capacity 2)
    [(CStringWriter, RDone);
     (CWriteStr (rep 1034 (txt "a")), RError (WSink 7));
     (CWrite (txt "test"), RError (WPrevious (WSink 7)));
     (CWriteStr (txt "test"), RError (WPrevious (WSink 7)));
     (CFlush, RError (WPrevious (WSink 7)));
     (CFinishValue, RError (WPrevious (WSink 7)))] /\
  still_active (max_capacity 2)
    [(CStringWriter, RDone);
     (CWriteStr (rep 1034 (txt "a")), RError (WSink 7));
     (CFinishValue, RError (WPrevious (WSink 7)))] /\
  results default_wsettings (max_capacity 2)
    [(CStringWriter, RDone);
     (CWriteStr (txt "test"), RDone);
     (CFlush, RError (WSink 7));
     (CWrite (txt "test"), RError (WPrevious (WSink 7)));
     (CWriteStr (txt "test"), RError (WPrevious (WSink 7)));
     (CFlush, RError (WPrevious (WSink 7)));
     (CFinishValue, RError (WPrevious (WSink 7)))] /\
  still_active (max_capacity 2)
    [(CStringWriter, RDone);
     (CWriteStr (txt "test"), RDone);
     (CFlush, RError (WSink 7));
     (CFinishValue, RError (WPrevious (WSink 7)))].
Proof. run_test. Qed.

(** [string_writer_array_incomplete], lines 1338-1351 *)
Example test_string_writer_array_incomplete :
  results default_wsettings vec_sink
    [(CBeginArray, RDone);
     (CStringWriter, RDone);
     (CEndArray, RPanic Misuse)].
Proof. run_test. Qed.

(** [string_writer_object_incomplete], lines 1353-1367 *)
Example test_string_writer_object_incomplete :
  results default_wsettings vec_sink
    [(CBeginObject, RDone);
     (CName (txt "a"), RDone);
     (CStringWriter, RDone);
     (CEndObject, RPanic Misuse)].
Proof. run_test. Qed.

(** [string_writer_incomplete_top_level], lines 1369-1381 *)
Example test_string_writer_incomplete_top_level :
  finish_panics default_wsettings
    [(CStringWriter, RDone)].
Proof. run_test. Qed.

(** [string_writer_for_name], lines 1383-1391 *)
Example test_string_writer_for_name :
  results default_wsettings vec_sink
    [(CBeginObject, RDone);
     (CStringWriter, RPanic Misuse)].
Proof. run_test. Qed.

(** [name_as_value], lines 1393-1402 *)
Example test_name_as_value :
  results default_wsettings vec_sink
    [(CName (txt "test"), RPanic Misuse)].
Proof. run_test. Qed.

(** [name_as_member_value], lines 1404-1415 *)
Example test_name_as_member_value :
  results default_wsettings vec_sink
    [(CBeginObject, RDone);
     (CName (txt "a"), RDone);
     (CName (txt "test"), RPanic Misuse)].
Proof. run_test. Qed.

(** [automatic_buffer_flush], lines 1417-1429 (with 200 instead of 1024 repetitions) *)
Example test_automatic_buffer_flush :
  writes default_wsettings vec_sink
    [(CString (rep 200 (txt "abc""def")), RDone)]
    (txt """" ++ rep 200 (txt "abc\""def") ++ txt """").
Proof. run_test. Qed.

(** [multiple_top_level], lines 1431-1470 *)
Example test_multiple_top_level :
  writes (WSettings false false false (Some [])) vec_sink
    [(CBeginArray, RDone);
     (CEndArray, RDone)]
    (txt "[]") /\
  writes (WSettings false false false (Some [])) vec_sink
    [(CBeginArray, RDone);
     (CEndArray, RDone);
     (CBeginArray, RDone);
     (CEndArray, RDone)]
    (txt "[][]") /\
  writes (WSettings false false false (Some (txt "#" ++ [0xA] ++ txt "#"))) vec_sink
    [(CBeginArray, RDone);
     (CEndArray, RDone);
     (CBeginArray, RDone);
     (CEndArray, RDone)]
    (txt "[]#" ++ [0xA] ++ txt "#[]").
Proof. run_test. Qed.

(** [multiple_top_level_disallowed], lines 1472-1482 *)
Example test_multiple_top_level_disallowed :
  results default_wsettings vec_sink
    [(CBool true, RDone);
     (CBool false, RPanic Misuse)].
Proof. run_test. Qed.

(** [pretty_print], lines 1484-1533 *)
Example test_pretty_print :
  writes (WSettings true false false (Some (txt "#"))) vec_sink
    [(CBeginArray, RDone);
     (CBeginArray, RDone);
     (CEndArray, RDone);
     (CBeginArray, RDone);
     (CNumber (1), RDone);
     (CEndArray, RDone);
     (CBeginObject, RDone);
     (CName (txt "a"), RDone);
     (CBeginArray, RDone);
     (CBeginObject, RDone);
     (CName (txt "b"), RDone);
     (CNumber (2), RDone);
     (CEndObject, RDone);
     (CBeginObject, RDone);
     (CEndObject, RDone);
     (CEndArray, RDone);
     (CName (txt "c"), RDone);
     (CNumber (3), RDone);
     (CEndObject, RDone);
     (CEndArray, RDone);
     (CBeginArray, RDone);
     (CNumber (4), RDone);
     (CEndArray, RDone)]
    (txt "[" ++ [0xA] ++ txt "  []," ++ [0xA] ++ txt "  [" ++ [0xA] ++ txt "    1" ++ [0xA] ++ txt "  ]," ++ [0xA] ++ txt "  {" ++ [0xA] ++ txt "    ""a"": [" ++ [0xA] ++ txt "      {" ++ [0xA] ++ txt "        ""b"": 2" ++ [0xA] ++ txt "      }," ++ [0xA] ++ txt "      {}" ++ [0xA] ++ txt "    ]," ++ [0xA] ++ txt "    ""c"": 3" ++ [0xA] ++ txt "  }" ++ [0xA] ++ txt "]#[" ++ [0xA] ++ txt "  4" ++ [0xA] ++ txt "]").
Proof. run_test. Qed.

(** [escape_all_control_chars], lines 1535-1555 *)
Example test_escape_all_control_chars :
  writes (WSettings false true false None) vec_sink
    [(CString ([0x0; 0x1F] ++ txt " test "" ~" ++ [0x7F; 0x80; 0x9F; 0xA0]), RDone)]
    (txt """\u0000\u001F test \"" ~\u007F\u0080\u009F" ++ [0xC2; 0xA0] ++ txt """").
Proof. run_test. Qed.

(** [escape_all_non_ascii], lines 1557-1592 *)
Example test_escape_all_non_ascii :
  writes (WSettings false false true None) vec_sink
    [(CString ([0x0; 0x1F] ++ txt " test "" " ++ [0x7F; 0x80; 0x10000; 0x10FFFF]), RDone)]
    (txt """\u0000\u001F test \"" " ++ [0x7F] ++ txt "\u0080\uD800\uDC00\uDBFF\uDFFF""") /\
  writes (WSettings false true true None) vec_sink
    [(CString ([0x0] ++ txt " test "" " ++ [0x7F; 0x80; 0x10FFFF]), RDone)]
    (txt """\u0000 test \"" \u007F\u0080\uDBFF\uDFFF""").
Proof. run_test. Qed.

(** [finish_document_result], lines 1594-1603 *)
Example test_finish_document_result :
  writes default_wsettings vec_sink
    [(CString (txt "text"), RDone)]
    (txt """text""").
Proof. run_test. Qed.

(** [finish_empty_document], lines 1605-1614 *)
Example test_finish_empty_document :
  finish_panics default_wsettings
    [].
Proof. run_test. Qed.

(** [finish_incomplete_document], lines 1616-1626 *)
Example test_finish_incomplete_document :
  finish_panics default_wsettings
    [(CBeginArray, RDone)].
Proof. run_test. Qed.

(** [string_writer_interrupted], lines 1671-1694 *)
Example test_string_writer_interrupted :
  writes default_wsettings interrupted_sink
    [(CStringWriter, RDone);
     (CWrite (txt "test "" " ++ [0xF4; 0x8F; 0xBF; 0xBF]), RCount 11);
     (CFinishValue, RDone)]
    (txt """test \"" " ++ [0xF4; 0x8F; 0xBF; 0xBF] ++ txt """").
Proof. run_test. Qed.

(** [writer_interrupted], lines 1696-1721 *)
Example test_writer_interrupted :
  writes default_wsettings interrupted_sink
    [(CBeginArray, RDone);
     (CBool true, RDone);
     (CNumberFromString (txt "123.4e5"), RDone);
     (CString (txt "test "" 1 " ++ [0x10FFFF]), RDone);
     (CStringWriter, RDone);
     (CWrite (txt "test "" 2 " ++ [0xF4; 0x8F; 0xBF; 0xBF] ++ txt ", "), RCount 15);
     (CWriteStr (txt "test "" 3 " ++ [0x10FFFF]), RDone);
     (CFinishValue, RDone);
     (CEndArray, RDone)]
    (txt "[true,123.4e5,""test \"" 1 " ++ [0xF4; 0x8F; 0xBF; 0xBF] ++ txt """,""test \"" 2 " ++ [0xF4; 0x8F; 0xBF; 0xBF] ++ txt ", test \"" 3 " ++ [0xF4; 0x8F; 0xBF; 0xBF] ++ txt """]").
Proof. run_test. Qed.
