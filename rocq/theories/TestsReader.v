(** * The tests of src/reader/stream_reader.rs, as tests of the model

    Not proofs of properties: each [Example] runs the model on the input of a
    unit test of the code and compares all results with those which the test
    expects.  They support the claim that the model is the code.  Calls which the
    tests make after an error which is not recoverable are left out, since
    sessions of the model end there.  Some tests with long values have been shortened
    (they are still longer than the buffer of the reader); tests which use other parts of the code are
    in the other files. *)

From Coq Require Import String.
From Verif Require Import Base Utf8Model SourceModel ReaderModel.
Local Open Scope list_scope.

Notation txt := bytes_of_string (only parsing).
Definition rep {A : Type} (n : N) (l : list A) : list A := concat (repeat l (N.to_nat n)).

(** All calls have the given results *)
Definition passes (s : settings) (evs : list event) (steps : list (rcall * outcome)) : Prop :=
  read_session s evs (map fst steps) = map snd steps.

(** [read] returns at most [n] bytes each time *)
Fixpoint pieces_loop (fuel : nat) (n : nat) (bs : bytes) : list event :=
  match fuel, bs with
  | S f, _ :: _ => EvData (firstn n bs) :: pieces_loop f n (skipn n bs)
  | _, _ => []
  end.
Definition pieces_of (n : N) (bs : bytes) : list event := pieces_loop (length bs) (N.to_nat n) bs.

(** [InterruptedReader], src/reader/stream_reader.rs:5605-5637 *)
Definition interrupted (bs : bytes) : list event :=
  flat_map (fun b => [EvInterrupted; EvInterrupted; EvInterrupted; EvData [b]]) bs.

(** [assert_invalid_utf8], src/reader/stream_reader.rs:2998-3014 *)
Definition invalid_utf8_within_string (bs : bytes) : Prop :=
  match read_session default_settings [EvData bs] [CNextString] with
  | [OErr (EIo IoInvalidUtf8 p)] => match p_path p with Some [] => p_line p =? 0 | _ => false end
  | _ => false
  end = true.

(** [literals], src/reader/stream_reader.rs:2587-2601 *)
Example test_literals :
  passes default_settings [EvData (txt "[true, false, null]")]
    [(CBeginArray, OOk RUnit);
     (CNextBool, OOk (RBool true));
     (CNextBool, OOk (RBool false));
     (CNextNull, OOk RUnit);
     (CEndArray, OOk RUnit);
     (CConsumeTrailingWhitespace, OOk RUnit)].
Proof. repeat (apply conj; [vm_compute; reflexivity|]). vm_compute. repeat split. Qed.

(** [literals_invalid], src/reader/stream_reader.rs:2603-2627 *)
Example test_literals_invalid :
  passes default_settings [EvData (txt "truE")]
    [(CNextNumberString, OErr (ESyntax InvalidLiteral (Position (Some []) 0 0 0)))] /\
  passes default_settings [EvData (txt "tru")]
    [(CNextNumberString, OErr (ESyntax InvalidLiteral (Position (Some []) 0 0 0)))] /\
  passes default_settings [EvData (txt "falsE")]
    [(CNextNumberString, OErr (ESyntax InvalidLiteral (Position (Some []) 0 0 0)))] /\
  passes default_settings [EvData (txt "fal")]
    [(CNextNumberString, OErr (ESyntax InvalidLiteral (Position (Some []) 0 0 0)))] /\
  passes default_settings [EvData (txt "nuLl")]
    [(CNextNumberString, OErr (ESyntax InvalidLiteral (Position (Some []) 0 0 0)))] /\
  passes default_settings [EvData (txt "nu")]
    [(CNextNumberString, OErr (ESyntax InvalidLiteral (Position (Some []) 0 0 0)))] /\
  passes default_settings [EvData (txt "truey")]
    [(CPeek, OErr (ESyntax TrailingDataAfterLiteral (Position (Some []) 0 0 0)))].
Proof. repeat (apply conj; [vm_compute; reflexivity|]). vm_compute. repeat split. Qed.

(** [literals_valid_trailing_data], src/reader/stream_reader.rs:2629-2658 *)
Example test_literals_valid_trailing_data :
  passes default_settings [EvData (txt "true")]
    [(CNextBool, OOk (RBool true));
     (CConsumeTrailingWhitespace, OOk RUnit)] /\
  passes default_settings [EvData (txt "true ")]
    [(CNextBool, OOk (RBool true));
     (CConsumeTrailingWhitespace, OOk RUnit)] /\
  passes default_settings [EvData (txt "true" ++ [0x9])]
    [(CNextBool, OOk (RBool true));
     (CConsumeTrailingWhitespace, OOk RUnit)] /\
  passes default_settings [EvData (txt "true" ++ [0xD])]
    [(CNextBool, OOk (RBool true));
     (CConsumeTrailingWhitespace, OOk RUnit)] /\
  passes default_settings [EvData (txt "true" ++ [0xA])]
    [(CNextBool, OOk (RBool true));
     (CConsumeTrailingWhitespace, OOk RUnit)] /\
  passes default_settings [EvData (txt "true" ++ [0xD; 0xA])]
    [(CNextBool, OOk (RBool true));
     (CConsumeTrailingWhitespace, OOk RUnit)] /\
  passes default_settings [EvData (txt "[true,true]")]
    [(CBeginArray, OOk RUnit);
     (CNextBool, OOk (RBool true));
     (CNextBool, OOk (RBool true));
     (CEndArray, OOk RUnit)] /\
  passes default_settings [EvData (txt "{""a"":true}")]
    [(CBeginObject, OOk RUnit);
     (CNextNameOwned, OOk (RStr (txt "a")));
     (CNextBool, OOk (RBool true));
     (CEndObject, OOk RUnit)] /\
  passes (Settings true false false true (Some 128) true) [EvData (txt "true// a")]
    [(CNextBool, OOk (RBool true));
     (CConsumeTrailingWhitespace, OOk RUnit)].
Proof. repeat (apply conj; [vm_compute; reflexivity|]). vm_compute. repeat split. Qed.

(** [next_number_as_str], src/reader/stream_reader.rs:2660-2722 *)
Example test_next_number_as_str :
  passes default_settings [EvData (txt "[0, -0, -1, -9, 123, 56.0030, -0.1, 1.01e+03, -4.50E-40]")]
    [(CBeginArray, OOk RUnit);
     (CNextNumberStr, OOk (RStr (txt "0")));
     (CNextNumberStr, OOk (RStr (txt "-0")));
     (CNextNumberStr, OOk (RStr (txt "-1")));
     (CNextNumberStr, OOk (RStr (txt "-9")));
     (CNextNumberStr, OOk (RStr (txt "123")));
     (CNextNumberStr, OOk (RStr (txt "56.0030")));
     (CNextNumberStr, OOk (RStr (txt "-0.1")));
     (CNextNumberStr, OOk (RStr (txt "1.01e+03")));
     (CNextNumberStr, OOk (RStr (txt "-4.50E-40")));
     (CEndArray, OOk RUnit);
     (CConsumeTrailingWhitespace, OOk RUnit)] /\
  passes (Settings false false false true (Some 128) false) [EvData (concat [txt "[1, "; (rep 350 (txt "123")); txt ", "; (rep 350 (txt "123")); txt ", 2, "; (rep 350 (txt "123")); txt ", 3]"])]
    [(CBeginArray, OOk RUnit);
     (CNextNumberStr, OOk (RStr (txt "1")));
     (CNextNumberStr, OOk (RStr (rep 350 (txt "123"))));
     (CNextNumberStr, OOk (RStr (rep 350 (txt "123"))));
     (CNextNumberStr, OOk (RStr (txt "2")));
     (CNextNumberStr, OOk (RStr (rep 350 (txt "123"))));
     (CNextNumberStr, OOk (RStr (txt "3")));
     (CEndArray, OOk RUnit);
     (CConsumeTrailingWhitespace, OOk RUnit)].
Proof. repeat (apply conj; [vm_compute; reflexivity|]). vm_compute. repeat split. Qed.

(** [next_number_as_string], src/reader/stream_reader.rs:2660-2722 *)
Example test_next_number_as_string :
  passes default_settings [EvData (txt "[0, -0, -1, -9, 123, 56.0030, -0.1, 1.01e+03, -4.50E-40]")]
    [(CBeginArray, OOk RUnit);
     (CNextNumberString, OOk (RStr (txt "0")));
     (CNextNumberString, OOk (RStr (txt "-0")));
     (CNextNumberString, OOk (RStr (txt "-1")));
     (CNextNumberString, OOk (RStr (txt "-9")));
     (CNextNumberString, OOk (RStr (txt "123")));
     (CNextNumberString, OOk (RStr (txt "56.0030")));
     (CNextNumberString, OOk (RStr (txt "-0.1")));
     (CNextNumberString, OOk (RStr (txt "1.01e+03")));
     (CNextNumberString, OOk (RStr (txt "-4.50E-40")));
     (CEndArray, OOk RUnit);
     (CConsumeTrailingWhitespace, OOk RUnit)] /\
  passes (Settings false false false true (Some 128) false) [EvData (concat [txt "[1, "; (rep 350 (txt "123")); txt ", "; (rep 350 (txt "123")); txt ", 2, "; (rep 350 (txt "123")); txt ", 3]"])]
    [(CBeginArray, OOk RUnit);
     (CNextNumberString, OOk (RStr (txt "1")));
     (CNextNumberString, OOk (RStr (rep 350 (txt "123"))));
     (CNextNumberString, OOk (RStr (rep 350 (txt "123"))));
     (CNextNumberString, OOk (RStr (txt "2")));
     (CNextNumberString, OOk (RStr (rep 350 (txt "123"))));
     (CNextNumberString, OOk (RStr (txt "3")));
     (CEndArray, OOk RUnit);
     (CConsumeTrailingWhitespace, OOk RUnit)].
Proof. repeat (apply conj; [vm_compute; reflexivity|]). vm_compute. repeat split. Qed.

(** [numbers_invalid], src/reader/stream_reader.rs:2740-2774 *)
Example test_numbers_invalid :
  passes default_settings [EvData (txt "-")]
    [(CNextNumberString, OErr (ESyntax MalformedNumber (Position (Some []) 0 0 0)))] /\
  passes default_settings [EvData (txt "--1")]
    [(CNextNumberString, OErr (ESyntax MalformedNumber (Position (Some []) 0 0 0)))] /\
  passes default_settings [EvData (txt "-.1")]
    [(CNextNumberString, OErr (ESyntax MalformedNumber (Position (Some []) 0 0 0)))] /\
  passes default_settings [EvData (txt "00")]
    [(CNextNumberString, OErr (ESyntax MalformedNumber (Position (Some []) 0 0 0)))] /\
  passes default_settings [EvData (txt "01")]
    [(CNextNumberString, OErr (ESyntax MalformedNumber (Position (Some []) 0 0 0)))] /\
  passes default_settings [EvData (txt "1.")]
    [(CNextNumberString, OErr (ESyntax MalformedNumber (Position (Some []) 0 0 0)))] /\
  passes default_settings [EvData (txt "1.-1")]
    [(CNextNumberString, OErr (ESyntax MalformedNumber (Position (Some []) 0 0 0)))] /\
  passes default_settings [EvData (txt "1.e1")]
    [(CNextNumberString, OErr (ESyntax MalformedNumber (Position (Some []) 0 0 0)))] /\
  passes default_settings [EvData (txt "1e")]
    [(CNextNumberString, OErr (ESyntax MalformedNumber (Position (Some []) 0 0 0)))] /\
  passes default_settings [EvData (txt "1ee1")]
    [(CNextNumberString, OErr (ESyntax MalformedNumber (Position (Some []) 0 0 0)))] /\
  passes default_settings [EvData (txt "1eE1")]
    [(CNextNumberString, OErr (ESyntax MalformedNumber (Position (Some []) 0 0 0)))] /\
  passes default_settings [EvData (txt "1e-")]
    [(CNextNumberString, OErr (ESyntax MalformedNumber (Position (Some []) 0 0 0)))] /\
  passes default_settings [EvData (txt "1e+")]
    [(CNextNumberString, OErr (ESyntax MalformedNumber (Position (Some []) 0 0 0)))] /\
  passes default_settings [EvData (txt "1e--1")]
    [(CNextNumberString, OErr (ESyntax MalformedNumber (Position (Some []) 0 0 0)))] /\
  passes default_settings [EvData (txt "1e+-1")]
    [(CNextNumberString, OErr (ESyntax MalformedNumber (Position (Some []) 0 0 0)))] /\
  passes default_settings [EvData (txt "1e.1")]
    [(CNextNumberString, OErr (ESyntax MalformedNumber (Position (Some []) 0 0 0)))] /\
  passes default_settings [EvData (txt "1e1.1")]
    [(CNextNumberString, OErr (ESyntax MalformedNumber (Position (Some []) 0 0 0)))] /\
  passes default_settings [EvData (txt "1e1-1")]
    [(CNextNumberString, OErr (ESyntax MalformedNumber (Position (Some []) 0 0 0)))] /\
  passes default_settings [EvData (txt "1e1e1")]
    [(CNextNumberString, OErr (ESyntax MalformedNumber (Position (Some []) 0 0 0)))] /\
  passes default_settings [EvData (txt "+1")]
    [(CNextNumberString, OErr (ESyntax MalformedJson (Position (Some []) 0 0 0)))] /\
  passes default_settings [EvData (txt "123a")]
    [(CNextNumberString, OErr (ESyntax TrailingDataAfterNumber (Position (Some []) 0 3 3)))].
Proof. repeat (apply conj; [vm_compute; reflexivity|]). vm_compute. repeat split. Qed.

(** [numbers_restriction], src/reader/stream_reader.rs:2776-2857 *)
Example test_numbers_restriction :
  passes default_settings [EvData (txt "1e99")]
    [(CNextNumberString, OOk (RStr (txt "1e99")));
     (CConsumeTrailingWhitespace, OOk RUnit)] /\
  passes default_settings [EvData (txt "1e+99")]
    [(CNextNumberString, OOk (RStr (txt "1e+99")));
     (CConsumeTrailingWhitespace, OOk RUnit)] /\
  passes default_settings [EvData (txt "1e-99")]
    [(CNextNumberString, OOk (RStr (txt "1e-99")));
     (CConsumeTrailingWhitespace, OOk RUnit)] /\
  passes default_settings [EvData (txt "1e000000")]
    [(CNextNumberString, OOk (RStr (txt "1e000000")));
     (CConsumeTrailingWhitespace, OOk RUnit)] /\
  passes default_settings [EvData (txt "1e0000001")]
    [(CNextNumberString, OOk (RStr (txt "1e0000001")));
     (CConsumeTrailingWhitespace, OOk RUnit)] /\
  passes default_settings [EvData (txt "1e+0000001")]
    [(CNextNumberString, OOk (RStr (txt "1e+0000001")));
     (CConsumeTrailingWhitespace, OOk RUnit)] /\
  passes default_settings [EvData (txt "1e-0000001")]
    [(CNextNumberString, OOk (RStr (txt "1e-0000001")));
     (CConsumeTrailingWhitespace, OOk RUnit)] /\
  passes default_settings [EvData (txt "1111111111111111111111111111111111111111111111111111111111111111111111111111111111111111111111111111")]
    [(CNextNumberString, OOk (RStr (txt "1111111111111111111111111111111111111111111111111111111111111111111111111111111111111111111111111111")));
     (CConsumeTrailingWhitespace, OOk RUnit)] /\
  passes default_settings [EvData (txt "1e100")]
    [(CNextNumberString, OErr (EUnsupportedNumber (txt "1e100") (Position (Some []) 0 0 0)))] /\
  passes default_settings [EvData (txt "1e+100")]
    [(CNextNumberString, OErr (EUnsupportedNumber (txt "1e+100") (Position (Some []) 0 0 0)))] /\
  passes default_settings [EvData (txt "1e-100")]
    [(CNextNumberString, OErr (EUnsupportedNumber (txt "1e-100") (Position (Some []) 0 0 0)))] /\
  passes default_settings [EvData (txt "1e000100")]
    [(CNextNumberString, OErr (EUnsupportedNumber (txt "1e000100") (Position (Some []) 0 0 0)))] /\
  passes default_settings [EvData (txt "11111111111111111111111111111111111111111111111111111111111111111111111111111111111111111111111111111")]
    [(CNextNumberString, OErr (EUnsupportedNumber (txt "11111111111111111111111111111111111111111111111111111111111111111111111111111111111111111111111111111") (Position (Some []) 0 0 0)))] /\
  passes default_settings [EvData (txt "1e100")]
    [(CSkipValue, OOk RUnit);
     (CConsumeTrailingWhitespace, OOk RUnit)] /\
  passes (Settings false false false true (Some 128) false) [EvData (txt "1e100")]
    [(CNextNumberString, OOk (RStr (txt "1e100")))] /\
  passes (Settings false false false true (Some 128) false) [EvData (txt "1e+100")]
    [(CNextNumberString, OOk (RStr (txt "1e+100")))] /\
  passes (Settings false false false true (Some 128) false) [EvData (txt "1e-100")]
    [(CNextNumberString, OOk (RStr (txt "1e-100")))] /\
  passes (Settings false false false true (Some 128) false) [EvData (txt "11111111111111111111111111111111111111111111111111111111111111111111111111111111111111111111111111111")]
    [(CNextNumberString, OOk (RStr (txt "11111111111111111111111111111111111111111111111111111111111111111111111111111111111111111111111111111")))].
Proof. repeat (apply conj; [vm_compute; reflexivity|]). vm_compute. repeat split. Qed.

(** [next_str], src/reader/stream_reader.rs:2859-2902 *)
Example test_next_str :
  passes default_settings [EvData (txt """""")]
    [(CNextStr, OOk (RStr []));
     (CConsumeTrailingWhitespace, OOk RUnit)] /\
  passes default_settings [EvData (txt """a""")]
    [(CNextStr, OOk (RStr (txt "a")));
     (CConsumeTrailingWhitespace, OOk RUnit)] /\
  passes default_settings [EvData (txt """\n""")]
    [(CNextStr, OOk (RStr [0xA]));
     (CConsumeTrailingWhitespace, OOk RUnit)] /\
  passes default_settings [EvData (txt """\na""")]
    [(CNextStr, OOk (RStr ([0xA] ++ txt "a")));
     (CConsumeTrailingWhitespace, OOk RUnit)] /\
  passes default_settings [EvData (txt """\n\na""")]
    [(CNextStr, OOk (RStr ([0xA; 0xA] ++ txt "a")));
     (CConsumeTrailingWhitespace, OOk RUnit)] /\
  passes default_settings [EvData (txt """a\n""")]
    [(CNextStr, OOk (RStr (txt "a" ++ [0xA])));
     (CConsumeTrailingWhitespace, OOk RUnit)] /\
  passes default_settings [EvData (txt """a\na\n\na""")]
    [(CNextStr, OOk (RStr (txt "a" ++ [0xA] ++ txt "a" ++ [0xA; 0xA] ++ txt "a")));
     (CConsumeTrailingWhitespace, OOk RUnit)] /\
  passes default_settings [EvData (txt """a" ++ [0xF4; 0x8F; 0xBF; 0xBF] ++ txt """")]
    [(CNextStr, OOk (RStr (txt "a" ++ [0x10FFFF])));
     (CConsumeTrailingWhitespace, OOk RUnit)] /\
  passes default_settings [EvData (txt """" ++ (rep 1022 (txt "a")) ++ txt """")]
    [(CNextStr, OOk (RStr ((rep 1022 (txt "a")))));
     (CConsumeTrailingWhitespace, OOk RUnit)] /\
  passes default_settings [EvData (txt """" ++ (rep 1023 (txt "a")) ++ txt """")]
    [(CNextStr, OOk (RStr ((rep 1023 (txt "a")))));
     (CConsumeTrailingWhitespace, OOk RUnit)] /\
  passes default_settings [EvData (txt """" ++ (rep 1023 (txt "a")) ++ txt "\n" ++ txt """")]
    [(CNextStr, OOk (RStr ((rep 1023 (txt "a")) ++ [0xA])));
     (CConsumeTrailingWhitespace, OOk RUnit)] /\
  passes default_settings [EvData (txt "[""a"", """ ++ (rep 350 (txt "abc")) ++ txt """, ""\n"", """ ++ (rep 350 (txt "abc")) ++ txt """, ""a"", ""\n""]")]
    [(CBeginArray, OOk RUnit);
     (CNextStr, OOk (RStr (txt "a")));
     (CNextStr, OOk (RStr (rep 350 (txt "abc"))));
     (CNextStr, OOk (RStr [0xA]));
     (CNextStr, OOk (RStr (rep 350 (txt "abc"))));
     (CNextStr, OOk (RStr (txt "a")));
     (CNextStr, OOk (RStr [0xA]));
     (CEndArray, OOk RUnit);
     (CConsumeTrailingWhitespace, OOk RUnit)].
Proof. repeat (apply conj; [vm_compute; reflexivity|]). vm_compute. repeat split. Qed.

(** [next_string], src/reader/stream_reader.rs:2859-2902 *)
Example test_next_string :
  passes default_settings [EvData (txt """""")]
    [(CNextString, OOk (RStr []));
     (CConsumeTrailingWhitespace, OOk RUnit)] /\
  passes default_settings [EvData (txt """a""")]
    [(CNextString, OOk (RStr (txt "a")));
     (CConsumeTrailingWhitespace, OOk RUnit)] /\
  passes default_settings [EvData (txt """\n""")]
    [(CNextString, OOk (RStr [0xA]));
     (CConsumeTrailingWhitespace, OOk RUnit)] /\
  passes default_settings [EvData (txt """\na""")]
    [(CNextString, OOk (RStr ([0xA] ++ txt "a")));
     (CConsumeTrailingWhitespace, OOk RUnit)] /\
  passes default_settings [EvData (txt """\n\na""")]
    [(CNextString, OOk (RStr ([0xA; 0xA] ++ txt "a")));
     (CConsumeTrailingWhitespace, OOk RUnit)] /\
  passes default_settings [EvData (txt """a\n""")]
    [(CNextString, OOk (RStr (txt "a" ++ [0xA])));
     (CConsumeTrailingWhitespace, OOk RUnit)] /\
  passes default_settings [EvData (txt """a\na\n\na""")]
    [(CNextString, OOk (RStr (txt "a" ++ [0xA] ++ txt "a" ++ [0xA; 0xA] ++ txt "a")));
     (CConsumeTrailingWhitespace, OOk RUnit)] /\
  passes default_settings [EvData (txt """a" ++ [0xF4; 0x8F; 0xBF; 0xBF] ++ txt """")]
    [(CNextString, OOk (RStr (txt "a" ++ [0x10FFFF])));
     (CConsumeTrailingWhitespace, OOk RUnit)] /\
  passes default_settings [EvData (txt """" ++ (rep 1022 (txt "a")) ++ txt """")]
    [(CNextString, OOk (RStr ((rep 1022 (txt "a")))));
     (CConsumeTrailingWhitespace, OOk RUnit)] /\
  passes default_settings [EvData (txt """" ++ (rep 1023 (txt "a")) ++ txt """")]
    [(CNextString, OOk (RStr ((rep 1023 (txt "a")))));
     (CConsumeTrailingWhitespace, OOk RUnit)] /\
  passes default_settings [EvData (txt """" ++ (rep 1023 (txt "a")) ++ txt "\n" ++ txt """")]
    [(CNextString, OOk (RStr ((rep 1023 (txt "a")) ++ [0xA])));
     (CConsumeTrailingWhitespace, OOk RUnit)] /\
  passes default_settings [EvData (txt "[""a"", """ ++ (rep 350 (txt "abc")) ++ txt """, ""\n"", """ ++ (rep 350 (txt "abc")) ++ txt """, ""a"", ""\n""]")]
    [(CBeginArray, OOk RUnit);
     (CNextString, OOk (RStr (txt "a")));
     (CNextString, OOk (RStr (rep 350 (txt "abc"))));
     (CNextString, OOk (RStr [0xA]));
     (CNextString, OOk (RStr (rep 350 (txt "abc"))));
     (CNextString, OOk (RStr (txt "a")));
     (CNextString, OOk (RStr [0xA]));
     (CEndArray, OOk RUnit);
     (CConsumeTrailingWhitespace, OOk RUnit)].
Proof. repeat (apply conj; [vm_compute; reflexivity|]). vm_compute. repeat split. Qed.

(** [strings], src/reader/stream_reader.rs:2904-2933 *)
Example test_strings :
  passes default_settings [EvData (txt "["""", ""a b"", ""a\""b"", ""a\\\\\""b"", ""a\\"", ""\""\\\/\b\f\n\r\t\u0000\u0080\u0800\u12345\uD852\uDF62 \u1234\u5678\u90AB\uCDEF\uabcd\uefEF"",""" ++ [0x7F; 0xC2; 0x80; 0xDF; 0xBF; 0xE0; 0xA0; 0x80; 0xEF; 0xBF; 0xBF; 0xF0; 0x90; 0x80; 0x80; 0xF4; 0x8F; 0xBF; 0xBF] ++ txt """,""" ++ [0xE2; 0x80; 0xA8; 0xE2; 0x80; 0xA9] ++ txt """]")]
    [(CBeginArray, OOk RUnit);
     (CNextString, OOk (RStr []));
     (CNextString, OOk (RStr (txt "a b")));
     (CNextString, OOk (RStr (txt "a""b")));
     (CNextString, OOk (RStr (txt "a\\""b")));
     (CNextString, OOk (RStr (txt "a\")));
     (CNextString, OOk (RStr (txt """\/" ++ [0x8; 0xC; 0xA; 0xD; 0x9; 0x0; 0x80; 0x800; 0x1234] ++ txt "5" ++ [0x24B62] ++ txt " " ++ [0x1234; 0x5678; 0x90AB; 0xCDEF; 0xABCD; 0xEFEF])));
     (CNextString, OOk (RStr [0x7F; 0x80; 0x7FF; 0x800; 0xFFFF; 0x10000; 0x10FFFF]));
     (CNextString, OOk (RStr [0x2028; 0x2029]));
     (CEndArray, OOk RUnit);
     (CConsumeTrailingWhitespace, OOk RUnit)].
Proof. repeat (apply conj; [vm_compute; reflexivity|]). vm_compute. repeat split. Qed.

(** [strings_invalid], src/reader/stream_reader.rs:2935-3057 *)
Example test_strings_invalid :
  passes default_settings [EvData (txt """")]
    [(CNextString, OErr (ESyntax IncompleteDocument (Position (Some []) 0 1 1)))] /\
  passes default_settings [EvData (txt """\")]
    [(CNextString, OErr (ESyntax MalformedEscapeSequence (Position (Some []) 0 1 1)))] /\
  passes default_settings [EvData (txt """" ++ [0x0] ++ txt """")]
    [(CNextString, OErr (ESyntax NotEscapedControlCharacter (Position (Some []) 0 1 1)))] /\
  passes default_settings [EvData (txt """" ++ [0x1F] ++ txt """")]
    [(CNextString, OErr (ESyntax NotEscapedControlCharacter (Position (Some []) 0 1 1)))] /\
  passes default_settings [EvData (txt """" ++ [0xA] ++ txt """")]
    [(CNextString, OErr (ESyntax NotEscapedControlCharacter (Position (Some []) 0 1 1)))] /\
  passes default_settings [EvData (txt """" ++ [0xD] ++ txt """")]
    [(CNextString, OErr (ESyntax NotEscapedControlCharacter (Position (Some []) 0 1 1)))] /\
  passes default_settings [EvData (txt """\x12""")]
    [(CNextString, OErr (ESyntax UnknownEscapeSequence (Position (Some []) 0 1 1)))] /\
  passes default_settings [EvData (txt """\1234""")]
    [(CNextString, OErr (ESyntax UnknownEscapeSequence (Position (Some []) 0 1 1)))] /\
  passes default_settings [EvData (txt """\U1234""")]
    [(CNextString, OErr (ESyntax UnknownEscapeSequence (Position (Some []) 0 1 1)))] /\
  passes default_settings [EvData (txt """\" ++ [0xA] ++ txt """")]
    [(CNextString, OErr (ESyntax UnknownEscapeSequence (Position (Some []) 0 1 1)))] /\
  passes default_settings [EvData (txt """\u12")]
    [(CNextString, OErr (ESyntax MalformedEscapeSequence (Position (Some []) 0 1 1)))] /\
  passes default_settings [EvData (txt """\u12""")]
    [(CNextString, OErr (ESyntax MalformedEscapeSequence (Position (Some []) 0 1 1)))] /\
  passes default_settings [EvData (txt """\uDEFG""")]
    [(CNextString, OErr (ESyntax MalformedEscapeSequence (Position (Some []) 0 1 1)))] /\
  passes default_settings [EvData (txt """\uu1234""")]
    [(CNextString, OErr (ESyntax MalformedEscapeSequence (Position (Some []) 0 1 1)))] /\
  passes default_settings [EvData (txt """\uDC00\uD800""")]
    [(CNextString, OErr (ESyntax UnpairedSurrogatePairEscapeSequence (Position (Some []) 0 1 1)))] /\
  passes default_settings [EvData (txt """\uD800")]
    [(CNextString, OErr (ESyntax UnpairedSurrogatePairEscapeSequence (Position (Some []) 0 1 1)))] /\
  passes default_settings [EvData (txt """\uD800""")]
    [(CNextString, OErr (ESyntax UnpairedSurrogatePairEscapeSequence (Position (Some []) 0 1 1)))] /\
  passes default_settings [EvData (txt """\uD800" ++ [0xED; 0xB0; 0x80] ++ txt """")]
    [(CNextString, OErr (ESyntax UnpairedSurrogatePairEscapeSequence (Position (Some []) 0 1 1)))] /\
  invalid_utf8_within_string (txt """" ++ [0xED; 0xA0; 0x80] ++ txt """") /\
  invalid_utf8_within_string (txt """" ++ [0xED; 0xBF; 0xBF] ++ txt """") /\
  invalid_utf8_within_string (txt """" ++ [0xC1; 0xBF] ++ txt """") /\
  invalid_utf8_within_string (txt """" ++ [0xE0; 0x9F; 0xBF] ++ txt """") /\
  invalid_utf8_within_string (txt """" ++ [0xF0; 0x8F; 0xBF; 0xBF] ++ txt """") /\
  invalid_utf8_within_string (txt """" ++ [0xF4; 0x90; 0x80; 0x80] ++ txt """") /\
  invalid_utf8_within_string (txt """" ++ [0x80] ++ txt """") /\
  invalid_utf8_within_string (txt """" ++ [0xC2; 0x0] ++ txt """") /\
  invalid_utf8_within_string (txt """" ++ [0xC2] ++ txt """") /\
  invalid_utf8_within_string (txt """" ++ [0xE0; 0xA0; 0x0] ++ txt """") /\
  invalid_utf8_within_string (txt """" ++ [0xE0; 0xA0] ++ txt """") /\
  invalid_utf8_within_string (txt """" ++ [0xF0; 0x90; 0x80; 0x0] ++ txt """") /\
  invalid_utf8_within_string (txt """" ++ [0xF0; 0x90; 0x80] ++ txt """").
Proof. repeat (apply conj; [vm_compute; reflexivity|]). vm_compute. repeat split. Qed.

(** [string_reader], src/reader/stream_reader.rs:3059-3101 *)
Example test_string_reader :
  passes default_settings [EvData (txt "[""test" ++ [0xF4; 0x8F; 0xBF; 0xBF] ++ txt """, true, ""ab""]")]
    [(CBeginArray, OOk RUnit);
     (CNextStringReader, OOk RUnit);
     (CRead 0, OOk (RBytes []));
     (CRead 1, OOk (RBytes (txt "t")));
     (CRead 1, OOk (RBytes (txt "e")));
     (CRead 1, OOk (RBytes (txt "s")));
     (CRead 1, OOk (RBytes (txt "t")));
     (CRead 1, OOk (RBytes [0xF4]));
     (CRead 1, OOk (RBytes [0x8F]));
     (CRead 1, OOk (RBytes [0xBF]));
     (CRead 1, OOk (RBytes [0xBF]));
     (CRead 1, OOk (RBytes []));
     (CRead 1, OOk (RBytes []));
     (CNextBool, OOk (RBool true));
     (CNextStringReader, OOk RUnit);
     (CRead 1, OOk (RBytes (txt "a")));
     (CRead 1, OOk (RBytes (txt "b")));
     (CRead 1, OOk (RBytes []));
     (CEndArray, OOk RUnit);
     (CConsumeTrailingWhitespace, OOk RUnit)].
Proof. repeat (apply conj; [vm_compute; reflexivity|]). vm_compute. repeat split. Qed.

(** [string_reader_syntax_error], src/reader/stream_reader.rs:3103-3137 *)
Example test_string_reader_syntax_error :
  passes default_settings [EvData (txt """\12""")]
    [(CNextStringReader, OOk RUnit);
     (CRead 32, OReadErr (SvError (ESyntax UnknownEscapeSequence (Position (Some []) 0 1 1))))].
Proof. repeat (apply conj; [vm_compute; reflexivity|]). vm_compute. repeat split. Qed.

(** [string_reader_utf8_error], src/reader/stream_reader.rs:3139-3154 *)
Example test_string_reader_utf8_error :
  passes default_settings [EvData (txt """" ++ [0x80] ++ txt """")]
    [(CNextStringReader, OOk RUnit);
     (CRead 32, OReadErr (SvError (EIo IoInvalidUtf8 (Position (Some []) 0 1 1))))].
Proof. repeat (apply conj; [vm_compute; reflexivity|]). vm_compute. repeat split. Qed.

(** [string_reader_repeats_error], src/reader/stream_reader.rs:3156-3228 *)
Example test_string_reader_repeats_error :
  passes default_settings [EvData (txt """test"); EvErr 7; EvErr 7; EvErr 7]
    [(CNextStringReader, OOk RUnit);
     (CRead 10, OReadErr (SvError (EIo (IoSource 7) (Position (Some []) 0 5 5))));
     (CRead 10, OReadErr SvPreviousError)].
Proof. repeat (apply conj; [vm_compute; reflexivity|]). vm_compute. repeat split. Qed.

(** [string_reader_incomplete], src/reader/stream_reader.rs:3230-3245 *)
Example test_string_reader_incomplete :
  passes default_settings [EvData (txt "[""ab"", true]")]
    [(CBeginArray, OOk RUnit);
     (CNextStringReader, OOk RUnit);
     (CRead 1, OOk (RBytes (txt "a")));
     (CNextBool, OPanic Misuse)].
Proof. repeat (apply conj; [vm_compute; reflexivity|]). vm_compute. repeat split. Qed.

(** [strings_single_byte_reader], src/reader/stream_reader.rs:3247-3292 *)
Example test_strings_single_byte_reader :
  passes default_settings (pieces_of 1 (txt "{""name1 " ++ [0xF4; 0x8F; 0xBF; 0xBF] ++ txt """: ""value1 " ++ [0xF4; 0x8F; 0xBF; 0xBF] ++ txt """, ""name2 " ++ [0xF4; 0x8F; 0xBF; 0xBF] ++ txt """: ""value2 " ++ [0xF4; 0x8F; 0xBF; 0xBF] ++ txt """, ""name3 " ++ [0xF4; 0x8F; 0xBF; 0xBF] ++ txt """: ""value3 " ++ [0xF4; 0x8F; 0xBF; 0xBF] ++ txt """}"))
    [(CBeginObject, OOk RUnit);
     (CNextName, OOk (RStr (txt "name1 " ++ [0x10FFFF])));
     (CNextStr, OOk (RStr (txt "value1 " ++ [0x10FFFF])));
     (CNextNameOwned, OOk (RStr (txt "name2 " ++ [0x10FFFF])));
     (CNextString, OOk (RStr (txt "value2 " ++ [0x10FFFF])));
     (CNextName, OOk (RStr (txt "name3 " ++ [0x10FFFF])));
     (CNextStringReader, OOk RUnit);
     (CRead 32, OOk (RBytes (txt "value3 " ++ [0xF4; 0x8F; 0xBF; 0xBF])));
     (CRead 32, OOk (RBytes []));
     (CEndObject, OOk RUnit);
     (CConsumeTrailingWhitespace, OOk RUnit)].
Proof. repeat (apply conj; [vm_compute; reflexivity|]). vm_compute. repeat split. Qed.

(** [array_trailing_comma], src/reader/stream_reader.rs:3303-3389 *)
Example test_array_trailing_comma :
  passes default_settings [EvData (txt "[,]")]
    [(CBeginArray, OOk RUnit);
     (CPeek, OErr (ESyntax UnexpectedComma (Position (Some [PIndex 0]) 0 1 1)))] /\
  passes default_settings [EvData (txt "[1,]")]
    [(CBeginArray, OOk RUnit);
     (CNextNumberString, OOk (RStr (txt "1")));
     (CPeek, OErr (ESyntax TrailingCommaNotEnabled (Position (Some [PIndex 1]) 0 2 2)))] /\
  passes default_settings [EvData (txt "[1," ++ [0xA] ++ txt "]")]
    [(CBeginArray, OOk RUnit);
     (CNextNumberString, OOk (RStr (txt "1")));
     (CPeek, OErr (ESyntax TrailingCommaNotEnabled (Position (Some [PIndex 1]) 0 2 2)))] /\
  passes default_settings [EvData (txt "[1,]")]
    [(CBeginArray, OOk RUnit);
     (CNextNumberString, OOk (RStr (txt "1")));
     (CHasNext, OErr (ESyntax TrailingCommaNotEnabled (Position (Some [PIndex 1]) 0 2 2)))] /\
  passes (Settings false true false true (Some 128) true) [EvData (txt "[1,]")]
    [(CBeginArray, OOk RUnit);
     (CNextNumberString, OOk (RStr (txt "1")));
     (CHasNext, OOk (RBool false));
     (CEndArray, OOk RUnit);
     (CConsumeTrailingWhitespace, OOk RUnit)] /\
  passes (Settings false true false true (Some 128) true) [EvData (txt "[,]")]
    [(CBeginArray, OOk RUnit);
     (CPeek, OErr (ESyntax UnexpectedComma (Position (Some [PIndex 0]) 0 1 1)))] /\
  passes (Settings false true false true (Some 128) true) [EvData (txt "[1,,]")]
    [(CBeginArray, OOk RUnit);
     (CNextNumberString, OOk (RStr (txt "1")));
     (CPeek, OErr (ESyntax UnexpectedComma (Position (Some [PIndex 1]) 0 3 3)))] /\
  passes (Settings false true true true (Some 128) true) [EvData (txt "1, 2")]
    [(CNextNumberString, OOk (RStr (txt "1")));
     (CPeek, OErr (ESyntax UnexpectedComma (Position (Some []) 0 1 1)))].
Proof. repeat (apply conj; [vm_compute; reflexivity|]). vm_compute. repeat split. Qed.

(** [array_malformed], src/reader/stream_reader.rs:3391-3441 *)
Example test_array_malformed :
  passes default_settings [EvData (txt "[1 2]")]
    [(CBeginArray, OOk RUnit);
     (CNextNumberString, OOk (RStr (txt "1")));
     (CHasNext, OErr (ESyntax MissingComma (Position (Some [PIndex 1]) 0 3 3)))] /\
  passes default_settings [EvData (txt "[1: 2]")]
    [(CBeginArray, OOk RUnit);
     (CNextNumberString, OOk (RStr (txt "1")));
     (CHasNext, OErr (ESyntax UnexpectedColon (Position (Some [PIndex 1]) 0 2 2)))] /\
  passes default_settings [EvData (txt "[""a"": 1]")]
    [(CBeginArray, OOk RUnit);
     (CNextString, OOk (RStr (txt "a")));
     (CHasNext, OErr (ESyntax UnexpectedColon (Position (Some [PIndex 1]) 0 4 4)))] /\
  passes default_settings [EvData (txt "[1}")]
    [(CBeginArray, OOk RUnit);
     (CNextNumberString, OOk (RStr (txt "1")));
     (CHasNext, OErr (ESyntax UnexpectedClosingBracket (Position (Some [PIndex 1]) 0 2 2)))] /\
  passes default_settings [EvData (txt "[1}")]
    [(CBeginArray, OOk RUnit);
     (CNextNumberString, OOk (RStr (txt "1")));
     (CEndArray, OErr (ESyntax UnexpectedClosingBracket (Position (Some [PIndex 1]) 0 2 2)))].
Proof. repeat (apply conj; [vm_compute; reflexivity|]). vm_compute. repeat split. Qed.

(** [array_end_as_object], src/reader/stream_reader.rs:3443-3450 *)
Example test_array_end_as_object :
  passes default_settings [EvData (txt "[}")]
    [(CBeginArray, OOk RUnit);
     (CEndObject, OPanic Misuse)].
Proof. repeat (apply conj; [vm_compute; reflexivity|]). vm_compute. repeat split. Qed.

(** [object_trailing_comma], src/reader/stream_reader.rs:3452-3511 *)
Example test_object_trailing_comma :
  passes default_settings [EvData (txt "{,}")]
    [(CBeginObject, OOk RUnit);
     (CHasNext, OErr (ESyntax UnexpectedComma (Position (Some [PName (txt "<?>")]) 0 1 1)))] /\
  passes default_settings [EvData (txt "{""a"":1,}")]
    [(CBeginObject, OOk RUnit);
     (CNextNameOwned, OOk (RStr (txt "a")));
     (CNextNumberString, OOk (RStr (txt "1")));
     (CHasNext, OErr (ESyntax TrailingCommaNotEnabled (Position (Some [PName (txt "a")]) 0 6 6)))] /\
  passes (Settings false true false true (Some 128) true) [EvData (txt "{""a"":1,}")]
    [(CBeginObject, OOk RUnit);
     (CNextNameOwned, OOk (RStr (txt "a")));
     (CNextNumberString, OOk (RStr (txt "1")));
     (CHasNext, OOk (RBool false));
     (CEndObject, OOk RUnit);
     (CConsumeTrailingWhitespace, OOk RUnit)] /\
  passes (Settings false true false true (Some 128) true) [EvData (txt "{,}")]
    [(CBeginObject, OOk RUnit);
     (CHasNext, OErr (ESyntax UnexpectedComma (Position (Some [PName (txt "<?>")]) 0 1 1)))] /\
  passes (Settings false true false true (Some 128) true) [EvData (txt "{""a"":1,,}")]
    [(CBeginObject, OOk RUnit);
     (CNextNameOwned, OOk (RStr (txt "a")));
     (CNextNumberString, OOk (RStr (txt "1")));
     (CHasNext, OErr (ESyntax ExpectingMemberNameOrObjectEnd (Position (Some [PName (txt "a")]) 0 7 7)))].
Proof. repeat (apply conj; [vm_compute; reflexivity|]). vm_compute. repeat split. Qed.

(** [next_name], src/reader/stream_reader.rs:3513-3590 *)
Example test_next_name :
  passes default_settings [EvData (txt "{"""": 1}")]
    [(CBeginObject, OOk RUnit);
     (CNextName, OOk (RStr []));
     (CNextNumberString, OOk (RStr (txt "1")));
     (CEndObject, OOk RUnit);
     (CConsumeTrailingWhitespace, OOk RUnit)] /\
  passes default_settings [EvData (txt "{""a"": 1}")]
    [(CBeginObject, OOk RUnit);
     (CNextName, OOk (RStr (txt "a")));
     (CNextNumberString, OOk (RStr (txt "1")));
     (CEndObject, OOk RUnit);
     (CConsumeTrailingWhitespace, OOk RUnit)] /\
  passes default_settings [EvData (txt "{""\n"": 1}")]
    [(CBeginObject, OOk RUnit);
     (CNextName, OOk (RStr [0xA]));
     (CNextNumberString, OOk (RStr (txt "1")));
     (CEndObject, OOk RUnit);
     (CConsumeTrailingWhitespace, OOk RUnit)] /\
  passes default_settings [EvData (txt "{""\na"": 1}")]
    [(CBeginObject, OOk RUnit);
     (CNextName, OOk (RStr ([0xA] ++ txt "a")));
     (CNextNumberString, OOk (RStr (txt "1")));
     (CEndObject, OOk RUnit);
     (CConsumeTrailingWhitespace, OOk RUnit)] /\
  passes default_settings [EvData (txt "{""a\n"": 1}")]
    [(CBeginObject, OOk RUnit);
     (CNextName, OOk (RStr (txt "a" ++ [0xA])));
     (CNextNumberString, OOk (RStr (txt "1")));
     (CEndObject, OOk RUnit);
     (CConsumeTrailingWhitespace, OOk RUnit)] /\
  passes default_settings [EvData (txt "{""a\na\n\na"": 1}")]
    [(CBeginObject, OOk RUnit);
     (CNextName, OOk (RStr (txt "a" ++ [0xA] ++ txt "a" ++ [0xA; 0xA] ++ txt "a")));
     (CNextNumberString, OOk (RStr (txt "1")));
     (CEndObject, OOk RUnit);
     (CConsumeTrailingWhitespace, OOk RUnit)] /\
  passes default_settings [EvData (txt "{""a" ++ [0xF4; 0x8F; 0xBF; 0xBF] ++ txt """: 1}")]
    [(CBeginObject, OOk RUnit);
     (CNextName, OOk (RStr (txt "a" ++ [0x10FFFF])));
     (CNextNumberString, OOk (RStr (txt "1")));
     (CEndObject, OOk RUnit);
     (CConsumeTrailingWhitespace, OOk RUnit)] /\
  passes default_settings [EvData (txt "{""" ++ (rep 1014 (txt "a")) ++ txt """: 1}")]
    [(CBeginObject, OOk RUnit);
     (CNextName, OOk (RStr ((rep 1014 (txt "a")))));
     (CNextNumberString, OOk (RStr (txt "1")));
     (CEndObject, OOk RUnit);
     (CConsumeTrailingWhitespace, OOk RUnit)] /\
  passes default_settings [EvData (txt "{""" ++ (rep 1024 (txt "a")) ++ txt "\na" ++ txt """: 1}")]
    [(CBeginObject, OOk RUnit);
     (CNextName, OOk (RStr ((rep 1024 (txt "a")) ++ [0xA; 0x61])));
     (CNextNumberString, OOk (RStr (txt "1")));
     (CEndObject, OOk RUnit);
     (CConsumeTrailingWhitespace, OOk RUnit)] /\
  passes default_settings [EvData (txt "{""a"": 1, """ ++ (rep 350 (txt "abc")) ++ txt """: 2, ""\n"": 3, ""b"": 4, """ ++ (rep 350 (txt "abc")) ++ txt """: {""c"": {""\n"": 5}}}")]
    [(CBeginObject, OOk RUnit);
     (CNextName, OOk (RStr (txt "a")));
     (CNextNumberString, OOk (RStr (txt "1")));
     (CNextName, OOk (RStr (rep 350 (txt "abc"))));
     (CNextNumberString, OOk (RStr (txt "2")));
     (CNextName, OOk (RStr [0xA]));
     (CNextNumberString, OOk (RStr (txt "3")));
     (CNextName, OOk (RStr (txt "b")));
     (CNextNumberString, OOk (RStr (txt "4")));
     (CNextName, OOk (RStr (rep 350 (txt "abc"))));
     (CBeginObject, OOk RUnit);
     (CNextName, OOk (RStr (txt "c")));
     (CBeginObject, OOk RUnit);
     (CNextName, OOk (RStr [0xA]));
     (CNextNumberString, OOk (RStr (txt "5")));
     (CPosition true, OOk (RPos (Position (Some [PName (rep 350 (txt "abc")); PName (txt "c"); PName [0xA]]) 0 2151 2151)));
     (CEndObject, OOk RUnit);
     (CEndObject, OOk RUnit);
     (CEndObject, OOk RUnit);
     (CConsumeTrailingWhitespace, OOk RUnit)].
Proof. repeat (apply conj; [vm_compute; reflexivity|]). vm_compute. repeat split. Qed.

(** [next_name_owned], src/reader/stream_reader.rs:3513-3590 *)
Example test_next_name_owned :
  passes default_settings [EvData (txt "{"""": 1}")]
    [(CBeginObject, OOk RUnit);
     (CNextNameOwned, OOk (RStr []));
     (CNextNumberString, OOk (RStr (txt "1")));
     (CEndObject, OOk RUnit);
     (CConsumeTrailingWhitespace, OOk RUnit)] /\
  passes default_settings [EvData (txt "{""a"": 1}")]
    [(CBeginObject, OOk RUnit);
     (CNextNameOwned, OOk (RStr (txt "a")));
     (CNextNumberString, OOk (RStr (txt "1")));
     (CEndObject, OOk RUnit);
     (CConsumeTrailingWhitespace, OOk RUnit)] /\
  passes default_settings [EvData (txt "{""\n"": 1}")]
    [(CBeginObject, OOk RUnit);
     (CNextNameOwned, OOk (RStr [0xA]));
     (CNextNumberString, OOk (RStr (txt "1")));
     (CEndObject, OOk RUnit);
     (CConsumeTrailingWhitespace, OOk RUnit)] /\
  passes default_settings [EvData (txt "{""\na"": 1}")]
    [(CBeginObject, OOk RUnit);
     (CNextNameOwned, OOk (RStr ([0xA] ++ txt "a")));
     (CNextNumberString, OOk (RStr (txt "1")));
     (CEndObject, OOk RUnit);
     (CConsumeTrailingWhitespace, OOk RUnit)] /\
  passes default_settings [EvData (txt "{""a\n"": 1}")]
    [(CBeginObject, OOk RUnit);
     (CNextNameOwned, OOk (RStr (txt "a" ++ [0xA])));
     (CNextNumberString, OOk (RStr (txt "1")));
     (CEndObject, OOk RUnit);
     (CConsumeTrailingWhitespace, OOk RUnit)] /\
  passes default_settings [EvData (txt "{""a\na\n\na"": 1}")]
    [(CBeginObject, OOk RUnit);
     (CNextNameOwned, OOk (RStr (txt "a" ++ [0xA] ++ txt "a" ++ [0xA; 0xA] ++ txt "a")));
     (CNextNumberString, OOk (RStr (txt "1")));
     (CEndObject, OOk RUnit);
     (CConsumeTrailingWhitespace, OOk RUnit)] /\
  passes default_settings [EvData (txt "{""a" ++ [0xF4; 0x8F; 0xBF; 0xBF] ++ txt """: 1}")]
    [(CBeginObject, OOk RUnit);
     (CNextNameOwned, OOk (RStr (txt "a" ++ [0x10FFFF])));
     (CNextNumberString, OOk (RStr (txt "1")));
     (CEndObject, OOk RUnit);
     (CConsumeTrailingWhitespace, OOk RUnit)] /\
  passes default_settings [EvData (txt "{""" ++ (rep 1014 (txt "a")) ++ txt """: 1}")]
    [(CBeginObject, OOk RUnit);
     (CNextNameOwned, OOk (RStr ((rep 1014 (txt "a")))));
     (CNextNumberString, OOk (RStr (txt "1")));
     (CEndObject, OOk RUnit);
     (CConsumeTrailingWhitespace, OOk RUnit)] /\
  passes default_settings [EvData (txt "{""" ++ (rep 1024 (txt "a")) ++ txt "\na" ++ txt """: 1}")]
    [(CBeginObject, OOk RUnit);
     (CNextNameOwned, OOk (RStr ((rep 1024 (txt "a")) ++ [0xA; 0x61])));
     (CNextNumberString, OOk (RStr (txt "1")));
     (CEndObject, OOk RUnit);
     (CConsumeTrailingWhitespace, OOk RUnit)] /\
  passes default_settings [EvData (txt "{""a"": 1, """ ++ (rep 350 (txt "abc")) ++ txt """: 2, ""\n"": 3, ""b"": 4, """ ++ (rep 350 (txt "abc")) ++ txt """: {""c"": {""\n"": 5}}}")]
    [(CBeginObject, OOk RUnit);
     (CNextNameOwned, OOk (RStr (txt "a")));
     (CNextNumberString, OOk (RStr (txt "1")));
     (CNextNameOwned, OOk (RStr (rep 350 (txt "abc"))));
     (CNextNumberString, OOk (RStr (txt "2")));
     (CNextNameOwned, OOk (RStr [0xA]));
     (CNextNumberString, OOk (RStr (txt "3")));
     (CNextNameOwned, OOk (RStr (txt "b")));
     (CNextNumberString, OOk (RStr (txt "4")));
     (CNextNameOwned, OOk (RStr (rep 350 (txt "abc"))));
     (CBeginObject, OOk RUnit);
     (CNextNameOwned, OOk (RStr (txt "c")));
     (CBeginObject, OOk RUnit);
     (CNextNameOwned, OOk (RStr [0xA]));
     (CNextNumberString, OOk (RStr (txt "5")));
     (CPosition true, OOk (RPos (Position (Some [PName (rep 350 (txt "abc")); PName (txt "c"); PName [0xA]]) 0 2151 2151)));
     (CEndObject, OOk RUnit);
     (CEndObject, OOk RUnit);
     (CEndObject, OOk RUnit);
     (CConsumeTrailingWhitespace, OOk RUnit)].
Proof. repeat (apply conj; [vm_compute; reflexivity|]). vm_compute. repeat split. Qed.

(** [object_member_names], src/reader/stream_reader.rs:3592-3613 *)
Example test_object_member_names :
  passes default_settings [EvData (txt "{"""": 1, ""a"": 2, """": 3, ""a"": 4}")]
    [(CBeginObject, OOk RUnit);
     (CNextNameOwned, OOk (RStr []));
     (CNextNumberString, OOk (RStr (txt "1")));
     (CNextNameOwned, OOk (RStr (txt "a")));
     (CNextNumberString, OOk (RStr (txt "2")));
     (CNextNameOwned, OOk (RStr []));
     (CNextNumberString, OOk (RStr (txt "3")));
     (CNextNameOwned, OOk (RStr (txt "a")));
     (CNextNumberString, OOk (RStr (txt "4")));
     (CEndObject, OOk RUnit);
     (CConsumeTrailingWhitespace, OOk RUnit)].
Proof. repeat (apply conj; [vm_compute; reflexivity|]). vm_compute. repeat split. Qed.

(** [object_malformed], src/reader/stream_reader.rs:3615-3852 *)
Example test_object_malformed :
  passes default_settings [EvData (txt "{true: 1}")]
    [(CBeginObject, OOk RUnit);
     (CHasNext, OErr (ESyntax ExpectingMemberNameOrObjectEnd (Position (Some [PName (txt "<?>")]) 0 1 1)))] /\
  passes default_settings [EvData (txt "{true: 1}")]
    [(CBeginObject, OOk RUnit);
     (CNextNameOwned, OErr (ESyntax ExpectingMemberNameOrObjectEnd (Position (Some [PName (txt "<?>")]) 0 1 1)))] /\
  passes default_settings [EvData (txt "{test: 1}")]
    [(CBeginObject, OOk RUnit);
     (CHasNext, OErr (ESyntax ExpectingMemberNameOrObjectEnd (Position (Some [PName (txt "<?>")]) 0 1 1)))] /\
  passes default_settings [EvData (txt "{test: 1}")]
    [(CBeginObject, OOk RUnit);
     (CNextNameOwned, OErr (ESyntax ExpectingMemberNameOrObjectEnd (Position (Some [PName (txt "<?>")]) 0 1 1)))] /\
  passes default_settings [EvData (txt "{: 1}")]
    [(CBeginObject, OOk RUnit);
     (CHasNext, OErr (ESyntax ExpectingMemberNameOrObjectEnd (Position (Some [PName (txt "<?>")]) 0 1 1)))] /\
  passes default_settings [EvData (txt "{: 1}")]
    [(CBeginObject, OOk RUnit);
     (CNextNameOwned, OErr (ESyntax ExpectingMemberNameOrObjectEnd (Position (Some [PName (txt "<?>")]) 0 1 1)))] /\
  passes default_settings [EvData (txt "{""a"":: 1}")]
    [(CBeginObject, OOk RUnit);
     (CHasNext, OOk (RBool true));
     (CNextNameOwned, OOk (RStr (txt "a")));
     (CNextNumberString, OErr (ESyntax UnexpectedColon (Position (Some [PName (txt "a")]) 0 5 5)))] /\
  passes default_settings [EvData (txt "{""a""}")]
    [(CBeginObject, OOk RUnit);
     (CHasNext, OOk (RBool true));
     (CNextNameOwned, OOk (RStr (txt "a")));
     (CPeek, OErr (ESyntax MissingColon (Position (Some [PName (txt "a")]) 0 4 4)))] /\
  passes default_settings [EvData (txt "{""a"":}")]
    [(CBeginObject, OOk RUnit);
     (CHasNext, OOk (RBool true));
     (CNextNameOwned, OOk (RStr (txt "a")));
     (CPeek, OErr (ESyntax UnexpectedClosingBracket (Position (Some [PName (txt "a")]) 0 5 5)))] /\
  passes default_settings [EvData (txt "{""a"" 1}")]
    [(CBeginObject, OOk RUnit);
     (CHasNext, OOk (RBool true));
     (CNextNameOwned, OOk (RStr (txt "a")));
     (CPeek, OErr (ESyntax MissingColon (Position (Some [PName (txt "a")]) 0 5 5)))] /\
  passes default_settings [EvData (txt "{""a"", ""b"": 2}")]
    [(CBeginObject, OOk RUnit);
     (CHasNext, OOk (RBool true));
     (CNextNameOwned, OOk (RStr (txt "a")));
     (CPeek, OErr (ESyntax MissingColon (Position (Some [PName (txt "a")]) 0 4 4)))] /\
  passes default_settings [EvData (txt "{""a"": 1 ""b"": 2}")]
    [(CBeginObject, OOk RUnit);
     (CHasNext, OOk (RBool true));
     (CNextNameOwned, OOk (RStr (txt "a")));
     (CNextNumberString, OOk (RStr (txt "1")));
     (CHasNext, OErr (ESyntax MissingComma (Position (Some [PName (txt "a")]) 0 8 8)))] /\
  passes default_settings [EvData (txt "{""a"": 1 ""b"": 2}")]
    [(CBeginObject, OOk RUnit);
     (CHasNext, OOk (RBool true));
     (CNextNameOwned, OOk (RStr (txt "a")));
     (CNextNumberString, OOk (RStr (txt "1")));
     (CNextNameOwned, OErr (ESyntax MissingComma (Position (Some [PName (txt "a")]) 0 8 8)))] /\
  passes default_settings [EvData (txt "{""a"": 1,, ""b"": 2}")]
    [(CBeginObject, OOk RUnit);
     (CHasNext, OOk (RBool true));
     (CNextNameOwned, OOk (RStr (txt "a")));
     (CNextNumberString, OOk (RStr (txt "1")));
     (CHasNext, OErr (ESyntax ExpectingMemberNameOrObjectEnd (Position (Some [PName (txt "a")]) 0 8 8)))] /\
  passes default_settings [EvData (txt "{""a"": 1: ""b"": 2}")]
    [(CBeginObject, OOk RUnit);
     (CHasNext, OOk (RBool true));
     (CNextNameOwned, OOk (RStr (txt "a")));
     (CNextNumberString, OOk (RStr (txt "1")));
     (CHasNext, OErr (ESyntax ExpectingMemberNameOrObjectEnd (Position (Some [PName (txt "a")]) 0 7 7)))] /\
  passes default_settings [EvData (txt "{""a"": 1: ""b"": 2}")]
    [(CBeginObject, OOk RUnit);
     (CHasNext, OOk (RBool true));
     (CNextNameOwned, OOk (RStr (txt "a")));
     (CNextNumberString, OOk (RStr (txt "1")));
     (CNextNameOwned, OErr (ESyntax ExpectingMemberNameOrObjectEnd (Position (Some [PName (txt "a")]) 0 7 7)))] /\
  passes default_settings [EvData (txt "{]")]
    [(CBeginObject, OOk RUnit);
     (CHasNext, OErr (ESyntax ExpectingMemberNameOrObjectEnd (Position (Some [PName (txt "<?>")]) 0 1 1)))] /\
  passes default_settings [EvData (txt "{]")]
    [(CBeginObject, OOk RUnit);
     (CNextNameOwned, OErr (ESyntax ExpectingMemberNameOrObjectEnd (Position (Some [PName (txt "<?>")]) 0 1 1)))] /\
  passes default_settings [EvData (txt "{]")]
    [(CBeginObject, OOk RUnit);
     (CEndObject, OErr (ESyntax ExpectingMemberNameOrObjectEnd (Position (Some [PName (txt "<?>")]) 0 1 1)))].
Proof. repeat (apply conj; [vm_compute; reflexivity|]). vm_compute. repeat split. Qed.

(** [object_name_as_bool], src/reader/stream_reader.rs:3854-3863 *)
Example test_object_name_as_bool :
  passes default_settings [EvData (txt "{true: 1}")]
    [(CBeginObject, OOk RUnit);
     (CNextBool, OPanic Misuse)].
Proof. repeat (apply conj; [vm_compute; reflexivity|]). vm_compute. repeat split. Qed.

(** [object_name_as_string], src/reader/stream_reader.rs:3865-3874 *)
Example test_object_name_as_string :
  passes default_settings [EvData (txt "{""a"": 1}")]
    [(CBeginObject, OOk RUnit);
     (CNextString, OPanic Misuse)].
Proof. repeat (apply conj; [vm_compute; reflexivity|]). vm_compute. repeat split. Qed.

(** [object_end_as_array], src/reader/stream_reader.rs:3876-3883 *)
Example test_object_end_as_array :
  passes default_settings [EvData (txt "{]")]
    [(CBeginObject, OOk RUnit);
     (CEndArray, OPanic Misuse)].
Proof. repeat (apply conj; [vm_compute; reflexivity|]). vm_compute. repeat split. Qed.

(** [object_end_expecting_member_value], src/reader/stream_reader.rs:3885-3895 *)
Example test_object_end_expecting_member_value :
  passes default_settings [EvData (txt "{""a"":1}")]
    [(CBeginObject, OOk RUnit);
     (CNextNameOwned, OOk (RStr (txt "a")));
     (CEndObject, OPanic Misuse)].
Proof. repeat (apply conj; [vm_compute; reflexivity|]). vm_compute. repeat split. Qed.

(** [nesting_limit], src/reader/stream_reader.rs:3907-3989 *)
Example test_nesting_limit :
  passes default_settings [EvData (txt "[[[[[[[[[[[[[[[[[[[[[[[[[[[[[[[[[[[[[[[[[[[[[[[[[[[[[[[[[[[[[[[[[[[[[[[[[[[[[[[[[[[[[[[[[[[[[[[[[[[[[[[[[[[[[[[[[[[[[[[[[[[[[[[[true]")]
    [(CBeginArray, OOk RUnit);
     (CBeginArray, OOk RUnit);
     (CBeginArray, OOk RUnit);
     (CBeginArray, OOk RUnit);
     (CBeginArray, OOk RUnit);
     (CBeginArray, OOk RUnit);
     (CBeginArray, OOk RUnit);
     (CBeginArray, OOk RUnit);
     (CBeginArray, OOk RUnit);
     (CBeginArray, OOk RUnit);
     (CBeginArray, OOk RUnit);
     (CBeginArray, OOk RUnit);
     (CBeginArray, OOk RUnit);
     (CBeginArray, OOk RUnit);
     (CBeginArray, OOk RUnit);
     (CBeginArray, OOk RUnit);
     (CBeginArray, OOk RUnit);
     (CBeginArray, OOk RUnit);
     (CBeginArray, OOk RUnit);
     (CBeginArray, OOk RUnit);
     (CBeginArray, OOk RUnit);
     (CBeginArray, OOk RUnit);
     (CBeginArray, OOk RUnit);
     (CBeginArray, OOk RUnit);
     (CBeginArray, OOk RUnit);
     (CBeginArray, OOk RUnit);
     (CBeginArray, OOk RUnit);
     (CBeginArray, OOk RUnit);
     (CBeginArray, OOk RUnit);
     (CBeginArray, OOk RUnit);
     (CBeginArray, OOk RUnit);
     (CBeginArray, OOk RUnit);
     (CBeginArray, OOk RUnit);
     (CBeginArray, OOk RUnit);
     (CBeginArray, OOk RUnit);
     (CBeginArray, OOk RUnit);
     (CBeginArray, OOk RUnit);
     (CBeginArray, OOk RUnit);
     (CBeginArray, OOk RUnit);
     (CBeginArray, OOk RUnit);
     (CBeginArray, OOk RUnit);
     (CBeginArray, OOk RUnit);
     (CBeginArray, OOk RUnit);
     (CBeginArray, OOk RUnit);
     (CBeginArray, OOk RUnit);
     (CBeginArray, OOk RUnit);
     (CBeginArray, OOk RUnit);
     (CBeginArray, OOk RUnit);
     (CBeginArray, OOk RUnit);
     (CBeginArray, OOk RUnit);
     (CBeginArray, OOk RUnit);
     (CBeginArray, OOk RUnit);
     (CBeginArray, OOk RUnit);
     (CBeginArray, OOk RUnit);
     (CBeginArray, OOk RUnit);
     (CBeginArray, OOk RUnit);
     (CBeginArray, OOk RUnit);
     (CBeginArray, OOk RUnit);
     (CBeginArray, OOk RUnit);
     (CBeginArray, OOk RUnit);
     (CBeginArray, OOk RUnit);
     (CBeginArray, OOk RUnit);
     (CBeginArray, OOk RUnit);
     (CBeginArray, OOk RUnit);
     (CBeginArray, OOk RUnit);
     (CBeginArray, OOk RUnit);
     (CBeginArray, OOk RUnit);
     (CBeginArray, OOk RUnit);
     (CBeginArray, OOk RUnit);
     (CBeginArray, OOk RUnit);
     (CBeginArray, OOk RUnit);
     (CBeginArray, OOk RUnit);
     (CBeginArray, OOk RUnit);
     (CBeginArray, OOk RUnit);
     (CBeginArray, OOk RUnit);
     (CBeginArray, OOk RUnit);
     (CBeginArray, OOk RUnit);
     (CBeginArray, OOk RUnit);
     (CBeginArray, OOk RUnit);
     (CBeginArray, OOk RUnit);
     (CBeginArray, OOk RUnit);
     (CBeginArray, OOk RUnit);
     (CBeginArray, OOk RUnit);
     (CBeginArray, OOk RUnit);
     (CBeginArray, OOk RUnit);
     (CBeginArray, OOk RUnit);
     (CBeginArray, OOk RUnit);
     (CBeginArray, OOk RUnit);
     (CBeginArray, OOk RUnit);
     (CBeginArray, OOk RUnit);
     (CBeginArray, OOk RUnit);
     (CBeginArray, OOk RUnit);
     (CBeginArray, OOk RUnit);
     (CBeginArray, OOk RUnit);
     (CBeginArray, OOk RUnit);
     (CBeginArray, OOk RUnit);
     (CBeginArray, OOk RUnit);
     (CBeginArray, OOk RUnit);
     (CBeginArray, OOk RUnit);
     (CBeginArray, OOk RUnit);
     (CBeginArray, OOk RUnit);
     (CBeginArray, OOk RUnit);
     (CBeginArray, OOk RUnit);
     (CBeginArray, OOk RUnit);
     (CBeginArray, OOk RUnit);
     (CBeginArray, OOk RUnit);
     (CBeginArray, OOk RUnit);
     (CBeginArray, OOk RUnit);
     (CBeginArray, OOk RUnit);
     (CBeginArray, OOk RUnit);
     (CBeginArray, OOk RUnit);
     (CBeginArray, OOk RUnit);
     (CBeginArray, OOk RUnit);
     (CBeginArray, OOk RUnit);
     (CBeginArray, OOk RUnit);
     (CBeginArray, OOk RUnit);
     (CBeginArray, OOk RUnit);
     (CBeginArray, OOk RUnit);
     (CBeginArray, OOk RUnit);
     (CBeginArray, OOk RUnit);
     (CBeginArray, OOk RUnit);
     (CBeginArray, OOk RUnit);
     (CBeginArray, OOk RUnit);
     (CBeginArray, OOk RUnit);
     (CBeginArray, OOk RUnit);
     (CBeginArray, OOk RUnit);
     (CBeginArray, OOk RUnit);
     (CBeginArray, OOk RUnit);
     (CNextBool, OOk (RBool true))] /\
  passes default_settings [EvData (txt "[[[[[[[[[[[[[[[[[[[[[[[[[[[[[[[[[[[[[[[[[[[[[[[[[[[[[[[[[[[[[[[[[[[[[[[[[[[[[[[[[[[[[[[[[[[[[[[[[[[[[[[[[[[[[[[[[[[[[[[[[[[[[[[[[true]")]
    [(CBeginArray, OOk RUnit);
     (CBeginArray, OOk RUnit);
     (CBeginArray, OOk RUnit);
     (CBeginArray, OOk RUnit);
     (CBeginArray, OOk RUnit);
     (CBeginArray, OOk RUnit);
     (CBeginArray, OOk RUnit);
     (CBeginArray, OOk RUnit);
     (CBeginArray, OOk RUnit);
     (CBeginArray, OOk RUnit);
     (CBeginArray, OOk RUnit);
     (CBeginArray, OOk RUnit);
     (CBeginArray, OOk RUnit);
     (CBeginArray, OOk RUnit);
     (CBeginArray, OOk RUnit);
     (CBeginArray, OOk RUnit);
     (CBeginArray, OOk RUnit);
     (CBeginArray, OOk RUnit);
     (CBeginArray, OOk RUnit);
     (CBeginArray, OOk RUnit);
     (CBeginArray, OOk RUnit);
     (CBeginArray, OOk RUnit);
     (CBeginArray, OOk RUnit);
     (CBeginArray, OOk RUnit);
     (CBeginArray, OOk RUnit);
     (CBeginArray, OOk RUnit);
     (CBeginArray, OOk RUnit);
     (CBeginArray, OOk RUnit);
     (CBeginArray, OOk RUnit);
     (CBeginArray, OOk RUnit);
     (CBeginArray, OOk RUnit);
     (CBeginArray, OOk RUnit);
     (CBeginArray, OOk RUnit);
     (CBeginArray, OOk RUnit);
     (CBeginArray, OOk RUnit);
     (CBeginArray, OOk RUnit);
     (CBeginArray, OOk RUnit);
     (CBeginArray, OOk RUnit);
     (CBeginArray, OOk RUnit);
     (CBeginArray, OOk RUnit);
     (CBeginArray, OOk RUnit);
     (CBeginArray, OOk RUnit);
     (CBeginArray, OOk RUnit);
     (CBeginArray, OOk RUnit);
     (CBeginArray, OOk RUnit);
     (CBeginArray, OOk RUnit);
     (CBeginArray, OOk RUnit);
     (CBeginArray, OOk RUnit);
     (CBeginArray, OOk RUnit);
     (CBeginArray, OOk RUnit);
     (CBeginArray, OOk RUnit);
     (CBeginArray, OOk RUnit);
     (CBeginArray, OOk RUnit);
     (CBeginArray, OOk RUnit);
     (CBeginArray, OOk RUnit);
     (CBeginArray, OOk RUnit);
     (CBeginArray, OOk RUnit);
     (CBeginArray, OOk RUnit);
     (CBeginArray, OOk RUnit);
     (CBeginArray, OOk RUnit);
     (CBeginArray, OOk RUnit);
     (CBeginArray, OOk RUnit);
     (CBeginArray, OOk RUnit);
     (CBeginArray, OOk RUnit);
     (CBeginArray, OOk RUnit);
     (CBeginArray, OOk RUnit);
     (CBeginArray, OOk RUnit);
     (CBeginArray, OOk RUnit);
     (CBeginArray, OOk RUnit);
     (CBeginArray, OOk RUnit);
     (CBeginArray, OOk RUnit);
     (CBeginArray, OOk RUnit);
     (CBeginArray, OOk RUnit);
     (CBeginArray, OOk RUnit);
     (CBeginArray, OOk RUnit);
     (CBeginArray, OOk RUnit);
     (CBeginArray, OOk RUnit);
     (CBeginArray, OOk RUnit);
     (CBeginArray, OOk RUnit);
     (CBeginArray, OOk RUnit);
     (CBeginArray, OOk RUnit);
     (CBeginArray, OOk RUnit);
     (CBeginArray, OOk RUnit);
     (CBeginArray, OOk RUnit);
     (CBeginArray, OOk RUnit);
     (CBeginArray, OOk RUnit);
     (CBeginArray, OOk RUnit);
     (CBeginArray, OOk RUnit);
     (CBeginArray, OOk RUnit);
     (CBeginArray, OOk RUnit);
     (CBeginArray, OOk RUnit);
     (CBeginArray, OOk RUnit);
     (CBeginArray, OOk RUnit);
     (CBeginArray, OOk RUnit);
     (CBeginArray, OOk RUnit);
     (CBeginArray, OOk RUnit);
     (CBeginArray, OOk RUnit);
     (CBeginArray, OOk RUnit);
     (CBeginArray, OOk RUnit);
     (CBeginArray, OOk RUnit);
     (CBeginArray, OOk RUnit);
     (CBeginArray, OOk RUnit);
     (CBeginArray, OOk RUnit);
     (CBeginArray, OOk RUnit);
     (CBeginArray, OOk RUnit);
     (CBeginArray, OOk RUnit);
     (CBeginArray, OOk RUnit);
     (CBeginArray, OOk RUnit);
     (CBeginArray, OOk RUnit);
     (CBeginArray, OOk RUnit);
     (CBeginArray, OOk RUnit);
     (CBeginArray, OOk RUnit);
     (CBeginArray, OOk RUnit);
     (CBeginArray, OOk RUnit);
     (CBeginArray, OOk RUnit);
     (CBeginArray, OOk RUnit);
     (CBeginArray, OOk RUnit);
     (CBeginArray, OOk RUnit);
     (CBeginArray, OOk RUnit);
     (CBeginArray, OOk RUnit);
     (CBeginArray, OOk RUnit);
     (CBeginArray, OOk RUnit);
     (CBeginArray, OOk RUnit);
     (CBeginArray, OOk RUnit);
     (CBeginArray, OOk RUnit);
     (CBeginArray, OOk RUnit);
     (CBeginArray, OOk RUnit);
     (CBeginArray, OOk RUnit);
     (CBeginArray, OErr (EMaxNestingDepth 128 (Position (Some [PIndex 0; PIndex 0; PIndex 0; PIndex 0; PIndex 0; PIndex 0; PIndex 0; PIndex 0; PIndex 0; PIndex 0; PIndex 0; PIndex 0; PIndex 0; PIndex 0; PIndex 0; PIndex 0; PIndex 0; PIndex 0; PIndex 0; PIndex 0; PIndex 0; PIndex 0; PIndex 0; PIndex 0; PIndex 0; PIndex 0; PIndex 0; PIndex 0; PIndex 0; PIndex 0; PIndex 0; PIndex 0; PIndex 0; PIndex 0; PIndex 0; PIndex 0; PIndex 0; PIndex 0; PIndex 0; PIndex 0; PIndex 0; PIndex 0; PIndex 0; PIndex 0; PIndex 0; PIndex 0; PIndex 0; PIndex 0; PIndex 0; PIndex 0; PIndex 0; PIndex 0; PIndex 0; PIndex 0; PIndex 0; PIndex 0; PIndex 0; PIndex 0; PIndex 0; PIndex 0; PIndex 0; PIndex 0; PIndex 0; PIndex 0; PIndex 0; PIndex 0; PIndex 0; PIndex 0; PIndex 0; PIndex 0; PIndex 0; PIndex 0; PIndex 0; PIndex 0; PIndex 0; PIndex 0; PIndex 0; PIndex 0; PIndex 0; PIndex 0; PIndex 0; PIndex 0; PIndex 0; PIndex 0; PIndex 0; PIndex 0; PIndex 0; PIndex 0; PIndex 0; PIndex 0; PIndex 0; PIndex 0; PIndex 0; PIndex 0; PIndex 0; PIndex 0; PIndex 0; PIndex 0; PIndex 0; PIndex 0; PIndex 0; PIndex 0; PIndex 0; PIndex 0; PIndex 0; PIndex 0; PIndex 0; PIndex 0; PIndex 0; PIndex 0; PIndex 0; PIndex 0; PIndex 0; PIndex 0; PIndex 0; PIndex 0; PIndex 0; PIndex 0; PIndex 0; PIndex 0; PIndex 0; PIndex 0; PIndex 0; PIndex 0; PIndex 0; PIndex 0; PIndex 0; PIndex 0]) 0 128 128)))] /\
  passes (Settings false false false true None true) [EvData (txt "[[[[[[[[[[[[[[[[[[[[[[[[[[[[[[[[[[[[[[[[[[[[[[[[[[[[[[[[[[[[[[[[[[[[[[[[[[[[[[[[[[[[[[[[[[[[[[[[[[[[[[[[[[[[[[[[[[[[[[[[[[[[[[[[[[[[[[[[[[true]")]
    [(CBeginArray, OOk RUnit);
     (CBeginArray, OOk RUnit);
     (CBeginArray, OOk RUnit);
     (CBeginArray, OOk RUnit);
     (CBeginArray, OOk RUnit);
     (CBeginArray, OOk RUnit);
     (CBeginArray, OOk RUnit);
     (CBeginArray, OOk RUnit);
     (CBeginArray, OOk RUnit);
     (CBeginArray, OOk RUnit);
     (CBeginArray, OOk RUnit);
     (CBeginArray, OOk RUnit);
     (CBeginArray, OOk RUnit);
     (CBeginArray, OOk RUnit);
     (CBeginArray, OOk RUnit);
     (CBeginArray, OOk RUnit);
     (CBeginArray, OOk RUnit);
     (CBeginArray, OOk RUnit);
     (CBeginArray, OOk RUnit);
     (CBeginArray, OOk RUnit);
     (CBeginArray, OOk RUnit);
     (CBeginArray, OOk RUnit);
     (CBeginArray, OOk RUnit);
     (CBeginArray, OOk RUnit);
     (CBeginArray, OOk RUnit);
     (CBeginArray, OOk RUnit);
     (CBeginArray, OOk RUnit);
     (CBeginArray, OOk RUnit);
     (CBeginArray, OOk RUnit);
     (CBeginArray, OOk RUnit);
     (CBeginArray, OOk RUnit);
     (CBeginArray, OOk RUnit);
     (CBeginArray, OOk RUnit);
     (CBeginArray, OOk RUnit);
     (CBeginArray, OOk RUnit);
     (CBeginArray, OOk RUnit);
     (CBeginArray, OOk RUnit);
     (CBeginArray, OOk RUnit);
     (CBeginArray, OOk RUnit);
     (CBeginArray, OOk RUnit);
     (CBeginArray, OOk RUnit);
     (CBeginArray, OOk RUnit);
     (CBeginArray, OOk RUnit);
     (CBeginArray, OOk RUnit);
     (CBeginArray, OOk RUnit);
     (CBeginArray, OOk RUnit);
     (CBeginArray, OOk RUnit);
     (CBeginArray, OOk RUnit);
     (CBeginArray, OOk RUnit);
     (CBeginArray, OOk RUnit);
     (CBeginArray, OOk RUnit);
     (CBeginArray, OOk RUnit);
     (CBeginArray, OOk RUnit);
     (CBeginArray, OOk RUnit);
     (CBeginArray, OOk RUnit);
     (CBeginArray, OOk RUnit);
     (CBeginArray, OOk RUnit);
     (CBeginArray, OOk RUnit);
     (CBeginArray, OOk RUnit);
     (CBeginArray, OOk RUnit);
     (CBeginArray, OOk RUnit);
     (CBeginArray, OOk RUnit);
     (CBeginArray, OOk RUnit);
     (CBeginArray, OOk RUnit);
     (CBeginArray, OOk RUnit);
     (CBeginArray, OOk RUnit);
     (CBeginArray, OOk RUnit);
     (CBeginArray, OOk RUnit);
     (CBeginArray, OOk RUnit);
     (CBeginArray, OOk RUnit);
     (CBeginArray, OOk RUnit);
     (CBeginArray, OOk RUnit);
     (CBeginArray, OOk RUnit);
     (CBeginArray, OOk RUnit);
     (CBeginArray, OOk RUnit);
     (CBeginArray, OOk RUnit);
     (CBeginArray, OOk RUnit);
     (CBeginArray, OOk RUnit);
     (CBeginArray, OOk RUnit);
     (CBeginArray, OOk RUnit);
     (CBeginArray, OOk RUnit);
     (CBeginArray, OOk RUnit);
     (CBeginArray, OOk RUnit);
     (CBeginArray, OOk RUnit);
     (CBeginArray, OOk RUnit);
     (CBeginArray, OOk RUnit);
     (CBeginArray, OOk RUnit);
     (CBeginArray, OOk RUnit);
     (CBeginArray, OOk RUnit);
     (CBeginArray, OOk RUnit);
     (CBeginArray, OOk RUnit);
     (CBeginArray, OOk RUnit);
     (CBeginArray, OOk RUnit);
     (CBeginArray, OOk RUnit);
     (CBeginArray, OOk RUnit);
     (CBeginArray, OOk RUnit);
     (CBeginArray, OOk RUnit);
     (CBeginArray, OOk RUnit);
     (CBeginArray, OOk RUnit);
     (CBeginArray, OOk RUnit);
     (CBeginArray, OOk RUnit);
     (CBeginArray, OOk RUnit);
     (CBeginArray, OOk RUnit);
     (CBeginArray, OOk RUnit);
     (CBeginArray, OOk RUnit);
     (CBeginArray, OOk RUnit);
     (CBeginArray, OOk RUnit);
     (CBeginArray, OOk RUnit);
     (CBeginArray, OOk RUnit);
     (CBeginArray, OOk RUnit);
     (CBeginArray, OOk RUnit);
     (CBeginArray, OOk RUnit);
     (CBeginArray, OOk RUnit);
     (CBeginArray, OOk RUnit);
     (CBeginArray, OOk RUnit);
     (CBeginArray, OOk RUnit);
     (CBeginArray, OOk RUnit);
     (CBeginArray, OOk RUnit);
     (CBeginArray, OOk RUnit);
     (CBeginArray, OOk RUnit);
     (CBeginArray, OOk RUnit);
     (CBeginArray, OOk RUnit);
     (CBeginArray, OOk RUnit);
     (CBeginArray, OOk RUnit);
     (CBeginArray, OOk RUnit);
     (CBeginArray, OOk RUnit);
     (CBeginArray, OOk RUnit);
     (CBeginArray, OOk RUnit);
     (CBeginArray, OOk RUnit);
     (CBeginArray, OOk RUnit);
     (CBeginArray, OOk RUnit);
     (CBeginArray, OOk RUnit);
     (CBeginArray, OOk RUnit);
     (CBeginArray, OOk RUnit);
     (CBeginArray, OOk RUnit);
     (CBeginArray, OOk RUnit);
     (CBeginArray, OOk RUnit);
     (CBeginArray, OOk RUnit);
     (CNextBool, OOk (RBool true))] /\
  passes (Settings false false false true (Some 0) true) [EvData (txt "[")]
    [(CBeginArray, OErr (EMaxNestingDepth 0 (Position (Some []) 0 0 0)))] /\
  passes (Settings false false false true (Some 0) true) [EvData (txt "{")]
    [(CBeginObject, OErr (EMaxNestingDepth 0 (Position (Some []) 0 0 0)))] /\
  passes (Settings false false false true (Some 0) true) [EvData (txt "true")]
    [(CBeginArray, OErr (EUnexpectedType TArray TBoolean (Position (Some []) 0 0 0)));
     (CNextBool, OOk (RBool true))] /\
  passes (Settings false false false true (Some 1) true) [EvData (txt "[{")]
    [(CBeginArray, OOk RUnit);
     (CBeginObject, OErr (EMaxNestingDepth 1 (Position (Some [PIndex 0]) 0 1 1)))] /\
  passes (Settings false false false true (Some 1) true) [EvData (txt "{""a"": [")]
    [(CBeginObject, OOk RUnit);
     (CNextName, OOk (RStr (txt "a")));
     (CBeginArray, OErr (EMaxNestingDepth 1 (Position (Some [PName (txt "a")]) 0 6 6)))] /\
  passes (Settings false false false true (Some 3) true) [EvData (txt "[[{}], {""a"": [{}]}")]
    [(CBeginArray, OOk RUnit);
     (CBeginArray, OOk RUnit);
     (CBeginObject, OOk RUnit);
     (CEndObject, OOk RUnit);
     (CEndArray, OOk RUnit);
     (CBeginObject, OOk RUnit);
     (CNextName, OOk (RStr (txt "a")));
     (CBeginArray, OOk RUnit);
     (CBeginObject, OErr (EMaxNestingDepth 3 (Position (Some [PIndex 1; PName (txt "a"); PIndex 0]) 0 14 14)))] /\
  passes (Settings false false false true (Some 1) true) [EvData (txt "[[")]
    [(CSkipValue, OErr (EMaxNestingDepth 1 (Position (Some [PIndex 0]) 0 1 1)))] /\
  passes (Settings false false false true (Some 1) true) [EvData (txt "[[")]
    [(CSeekTo [PIndex 0; PIndex 0], OErr (EMaxNestingDepth 1 (Position (Some [PIndex 0]) 0 1 1)))].
Proof. repeat (apply conj; [vm_compute; reflexivity|]). vm_compute. repeat split. Qed.

(** [skip_array], src/reader/stream_reader.rs:3991-4014 *)
Example test_skip_array :
  passes default_settings [EvData (txt "[true, 1, false, 2, null, 3, 123, 4, ""ab"", 5, [1, [2]], 6, {""a"": [{""b"":1}]}, 7]")]
    [(CBeginArray, OOk RUnit);
     (CSkipValue, OOk RUnit);
     (CNextNumberString, OOk (RStr (txt "1")));
     (CSkipValue, OOk RUnit);
     (CNextNumberString, OOk (RStr (txt "2")));
     (CSkipValue, OOk RUnit);
     (CNextNumberString, OOk (RStr (txt "3")));
     (CSkipValue, OOk RUnit);
     (CNextNumberString, OOk (RStr (txt "4")));
     (CSkipValue, OOk RUnit);
     (CNextNumberString, OOk (RStr (txt "5")));
     (CSkipValue, OOk RUnit);
     (CNextNumberString, OOk (RStr (txt "6")));
     (CSkipValue, OOk RUnit);
     (CNextNumberString, OOk (RStr (txt "7")));
     (CSkipValue, OErr (EUnexpectedStructure FewerElementsThanExpected (Position (Some [PIndex 14]) 0 78 78)));
     (CEndArray, OOk RUnit);
     (CConsumeTrailingWhitespace, OOk RUnit)].
Proof. repeat (apply conj; [vm_compute; reflexivity|]). vm_compute. repeat split. Qed.

(** [skip_array_deeply_nested], src/reader/stream_reader.rs:4016-4039 (with a depth of 100 instead of 20000) *)
Example test_skip_array_deeply_nested :
  passes (Settings false false false true None true) [EvData (rep 100 (txt "[") ++ txt "true" ++ rep 100 (txt "]"))]
    [(CSkipValue, OOk RUnit);
     (CConsumeTrailingWhitespace, OOk RUnit)] /\
  passes (Settings false false false true None true) [EvData (rep 100 (txt "[") ++ txt "@" ++ rep 100 (txt "]"))]
    [(CSkipValue, OErr (ESyntax MalformedJson (Position (Some (rep 100 [PIndex 0])) 0 100 100)))].
Proof. repeat (apply conj; [vm_compute; reflexivity|]). vm_compute. repeat split. Qed.

(** [skip_object], src/reader/stream_reader.rs:4041-4059 *)
Example test_skip_object :
  passes default_settings [EvData (txt "{""a"": {""a1"": [1, []]}, ""b"": 2, ""c"": 3}")]
    [(CBeginObject, OOk RUnit);
     (CNextNameOwned, OOk (RStr (txt "a")));
     (CSkipValue, OOk RUnit);
     (CNextNameOwned, OOk (RStr (txt "b")));
     (CNextNumberString, OOk (RStr (txt "2")));
     (CSkipName, OOk RUnit);
     (CNextNumberString, OOk (RStr (txt "3")));
     (CEndObject, OOk RUnit);
     (CConsumeTrailingWhitespace, OOk RUnit)].
Proof. repeat (apply conj; [vm_compute; reflexivity|]). vm_compute. repeat split. Qed.

(** [skip_object_deeply_nested], src/reader/stream_reader.rs:4061-4085 (with a depth of 100 instead of 20000) *)
Example test_skip_object_deeply_nested :
  passes (Settings false false false true None true) [EvData (rep 100 (txt "{""a"":") ++ txt "true" ++ rep 100 (txt "}"))]
    [(CSkipValue, OOk RUnit);
     (CConsumeTrailingWhitespace, OOk RUnit)] /\
  passes (Settings false false false true None true) [EvData (rep 100 (txt "{""a"":") ++ txt "@" ++ rep 100 (txt "}"))]
    [(CSkipValue, OErr (ESyntax MalformedJson (Position (Some (rep 100 [PName (txt "a")])) 0 500 500)))].
Proof. repeat (apply conj; [vm_compute; reflexivity|]). vm_compute. repeat split. Qed.

(** [skip_top_level], src/reader/stream_reader.rs:4087-4125 *)
Example test_skip_top_level :
  passes default_settings [EvData (txt "true")]
    [(CSkipValue, OOk RUnit);
     (CConsumeTrailingWhitespace, OOk RUnit)] /\
  passes default_settings [EvData (txt "false")]
    [(CSkipValue, OOk RUnit);
     (CConsumeTrailingWhitespace, OOk RUnit)] /\
  passes default_settings [EvData (txt "null")]
    [(CSkipValue, OOk RUnit);
     (CConsumeTrailingWhitespace, OOk RUnit)] /\
  passes default_settings [EvData (txt "12")]
    [(CSkipValue, OOk RUnit);
     (CConsumeTrailingWhitespace, OOk RUnit)] /\
  passes default_settings [EvData (txt """ab""")]
    [(CSkipValue, OOk RUnit);
     (CConsumeTrailingWhitespace, OOk RUnit)] /\
  passes default_settings [EvData (txt "[true, [{""a"":[2]}]]")]
    [(CSkipValue, OOk RUnit);
     (CConsumeTrailingWhitespace, OOk RUnit)] /\
  passes default_settings [EvData (txt "{""a"":[[{""a1"":2}]], ""b"":2}")]
    [(CSkipValue, OOk RUnit);
     (CConsumeTrailingWhitespace, OOk RUnit)] /\
  passes default_settings [EvData (txt "[]")]
    [(CBeginArray, OOk RUnit);
     (CSkipValue, OErr (EUnexpectedStructure FewerElementsThanExpected (Position (Some [PIndex 0]) 0 1 1)))] /\
  passes default_settings [EvData []]
    [(CSkipValue, OErr (ESyntax IncompleteDocument (Position (Some []) 0 0 0)))].
Proof. repeat (apply conj; [vm_compute; reflexivity|]). vm_compute. repeat split. Qed.

(** [skip_value_expecting_name], src/reader/stream_reader.rs:4127-4136 *)
Example test_skip_value_expecting_name :
  passes default_settings [EvData (txt "{""a"": 1}")]
    [(CBeginObject, OOk RUnit);
     (CSkipValue, OPanic Misuse)].
Proof. repeat (apply conj; [vm_compute; reflexivity|]). vm_compute. repeat split. Qed.

(** [skip_name_expecting_value], src/reader/stream_reader.rs:4138-4146 *)
Example test_skip_name_expecting_value :
  passes default_settings [EvData (txt """a""")]
    [(CSkipName, OPanic Misuse)].
Proof. repeat (apply conj; [vm_compute; reflexivity|]). vm_compute. repeat split. Qed.

(** [seek_to], src/reader/stream_reader.rs:4148-4160 *)
Example test_seek_to :
  passes default_settings [EvData (txt "[1, {""a"": 2, ""b"": {""c"": [3, 4]}, ""b"": 5}]")]
    [(CSeekTo [PIndex 1; PName (txt "b"); PName (txt "c"); PIndex 0], OOk RUnit);
     (CNextNumberString, OOk (RStr (txt "3")));
     (CPeek, OOk (RType TNumber));
     (CSeekTo [], OOk RUnit);
     (CNextNumberString, OOk (RStr (txt "4")))].
Proof. repeat (apply conj; [vm_compute; reflexivity|]). vm_compute. repeat split. Qed.

(** [seek_back], src/reader/stream_reader.rs:4162-4220 *)
Example test_seek_back :
  passes default_settings [EvData (txt "1")]
    [(CSeekTo [], OOk RUnit);
     (CNextNumberStr, OOk (RStr (txt "1")));
     (CSeekBack [], OOk RUnit);
     (CConsumeTrailingWhitespace, OOk RUnit)] /\
  passes default_settings [EvData (txt "[1]")]
    [(CBeginArray, OOk RUnit);
     (CSeekTo [], OOk RUnit);
     (CNextNumberStr, OOk (RStr (txt "1")));
     (CSeekBack [], OOk RUnit);
     (CEndArray, OOk RUnit);
     (CConsumeTrailingWhitespace, OOk RUnit)] /\
  passes default_settings [EvData (txt "{""a"": 1}")]
    [(CBeginObject, OOk RUnit);
     (CNextName, OOk (RStr (txt "a")));
     (CSeekTo [], OOk RUnit);
     (CNextNumberStr, OOk (RStr (txt "1")));
     (CSeekBack [], OOk RUnit);
     (CEndObject, OOk RUnit);
     (CConsumeTrailingWhitespace, OOk RUnit)] /\
  passes default_settings [EvData (txt "[1, 2, 3]")]
    [(CSeekTo [PIndex 0], OOk RUnit);
     (CNextNumberStr, OOk (RStr (txt "1")));
     (CNextNumberStr, OOk (RStr (txt "2")));
     (CSeekBack [PIndex 0], OOk RUnit);
     (CConsumeTrailingWhitespace, OOk RUnit)] /\
  passes default_settings [EvData (txt "{""a"": 1, ""b"": 2, ""c"": 3}")]
    [(CSeekTo [PName (txt "a")], OOk RUnit);
     (CNextNumberStr, OOk (RStr (txt "1")));
     (CNextName, OOk (RStr (txt "b")));
     (CNextNumberStr, OOk (RStr (txt "2")));
     (CSeekBack [PName (txt "a")], OOk RUnit);
     (CConsumeTrailingWhitespace, OOk RUnit)] /\
  passes default_settings [EvData (txt "{""a"": [1, 2, 3], ""b"": 4}")]
    [(CSeekTo [PName (txt "a"); PIndex 0], OOk RUnit);
     (CNextNumberStr, OOk (RStr (txt "1")));
     (CSeekBack [PName (txt "a"); PIndex 0], OOk RUnit);
     (CConsumeTrailingWhitespace, OOk RUnit)].
Proof. repeat (apply conj; [vm_compute; reflexivity|]). vm_compute. repeat split. Qed.

(** [skip_to_top_level], src/reader/stream_reader.rs:4222-4259 *)
Example test_skip_to_top_level :
  passes default_settings [EvData (txt "null")]
    [(CSkipToTopLevel, OOk RUnit);
     (CNextNull, OOk RUnit);
     (CSkipToTopLevel, OOk RUnit);
     (CSkipToTopLevel, OOk RUnit);
     (CConsumeTrailingWhitespace, OOk RUnit)] /\
  passes default_settings [EvData (txt "[1, {""a"": 2, ""b"": {""c"": [3, 4]}, ""b"": 5}]")]
    [(CSeekTo [PIndex 1; PName (txt "b"); PName (txt "c"); PIndex 0], OOk RUnit);
     (CNextNumberString, OOk (RStr (txt "3")));
     (CSkipToTopLevel, OOk RUnit);
     (CConsumeTrailingWhitespace, OOk RUnit)] /\
  passes default_settings [EvData (txt "{""a"": 1}")]
    [(CBeginObject, OOk RUnit);
     (CNextNameOwned, OOk (RStr (txt "a")));
     (CSkipToTopLevel, OOk RUnit);
     (CConsumeTrailingWhitespace, OOk RUnit)] /\
  passes default_settings [EvData (txt "[@]")]
    [(CBeginArray, OOk RUnit);
     (CSkipToTopLevel, OErr (ESyntax MalformedJson (Position (Some [PIndex 0]) 0 1 1)))].
Proof. repeat (apply conj; [vm_compute; reflexivity|]). vm_compute. repeat split. Qed.

(** [skip_to_top_level_multi_top_level], src/reader/stream_reader.rs:4261-4287 *)
Example test_skip_to_top_level_multi_top_level :
  passes (Settings false false true true (Some 128) true) [EvData (txt "[1] [2] [3]")]
    [(CBeginArray, OOk RUnit);
     (CSkipToTopLevel, OOk RUnit);
     (CBeginArray, OOk RUnit);
     (CNextNumberString, OOk (RStr (txt "2")));
     (CSkipToTopLevel, OOk RUnit);
     (CSkipToTopLevel, OOk RUnit);
     (CSkipToTopLevel, OOk RUnit);
     (CBeginArray, OOk RUnit);
     (CNextNumberString, OOk (RStr (txt "3")));
     (CSkipToTopLevel, OOk RUnit);
     (CConsumeTrailingWhitespace, OOk RUnit)].
Proof. repeat (apply conj; [vm_compute; reflexivity|]). vm_compute. repeat split. Qed.

(** [excessive_whitespace], src/reader/stream_reader.rs:4522-4561 (the part about skip_value) *)
Example test_excessive_whitespace :
  passes default_settings [EvData ([0xA; 0xA; 0xA] ++ txt "            {" ++ [0xA] ++ txt "                ""a""" ++ [0xA] ++ txt "                :" ++ [0xA] ++ txt "                [" ++ [0xA] ++ txt "                    " ++ [0xA] ++ txt "                    true," ++ [0xA; 0xA] ++ txt "                    false" ++ [0xA; 0xA] ++ txt "                    ,      {          }" ++ [0xA; 0xA] ++ txt "                ]," ++ [0xA; 0xA] ++ txt "                ""b""   :     true" ++ [0xA] ++ txt "                ,         ""c""" ++ [0xA] ++ txt "                :   false" ++ [0xA] ++ txt "            }" ++ [0xA; 0xA; 0xA] ++ txt "        ")]
    [(CSkipValue, OOk RUnit);
     (CConsumeTrailingWhitespace, OOk RUnit)].
Proof. repeat (apply conj; [vm_compute; reflexivity|]). vm_compute. repeat split. Qed.

(** [trailing_data], src/reader/stream_reader.rs:4563-4574 *)
Example test_trailing_data :
  passes default_settings [EvData (txt "1 2")]
    [(CNextNumberString, OOk (RStr (txt "1")));
     (CConsumeTrailingWhitespace, OErr (ESyntax TrailingData (Position (Some []) 0 2 2)))].
Proof. repeat (apply conj; [vm_compute; reflexivity|]). vm_compute. repeat split. Qed.

(** [consume_trailing_whitespace_top_level_not_started], src/reader/stream_reader.rs:4576-4584 *)
Example test_consume_trailing_whitespace_top_level_not_started :
  passes default_settings [EvData []]
    [(CConsumeTrailingWhitespace, OPanic Misuse)].
Proof. repeat (apply conj; [vm_compute; reflexivity|]). vm_compute. repeat split. Qed.

(** [consume_trailing_whitespace_top_level_not_finished], src/reader/stream_reader.rs:4586-4595 *)
Example test_consume_trailing_whitespace_top_level_not_finished :
  passes default_settings [EvData (txt "[]")]
    [(CBeginArray, OOk RUnit);
     (CConsumeTrailingWhitespace, OPanic Misuse)].
Proof. repeat (apply conj; [vm_compute; reflexivity|]). vm_compute. repeat split. Qed.

(** [byte_order_mark], src/reader/stream_reader.rs:4597-4607 *)
Example test_byte_order_mark :
  passes default_settings [EvData ([0xEF; 0xBB; 0xBF] ++ txt "1")]
    [(CNextNumberString, OErr (ESyntax MalformedJson (Position (Some []) 0 0 0)))].
Proof. repeat (apply conj; [vm_compute; reflexivity|]). vm_compute. repeat split. Qed.

(** [seek_to_unexpected_structure], src/reader/stream_reader.rs:4684-4729 *)
Example test_seek_to_unexpected_structure :
  passes default_settings [EvData (txt "[]")]
    [(CSeekTo [PIndex 0], OErr (EUnexpectedStructure (TooShortArray 0) (Position (Some [PIndex 0]) 0 1 1)))] /\
  passes default_settings [EvData (txt "[1]")]
    [(CSeekTo [PIndex 1], OErr (EUnexpectedStructure (TooShortArray 1) (Position (Some [PIndex 1]) 0 2 2)))] /\
  passes default_settings [EvData (txt "{""a"": 1}")]
    [(CSeekTo [PName (txt "b")], OErr (EUnexpectedStructure (MissingObjectMember (txt "b")) (Position (Some [PName (txt "a")]) 0 7 7)))] /\
  passes default_settings [EvData (txt "1")]
    [(CSeekTo [PIndex 0], OErr (EUnexpectedType TArray TNumber (Position (Some []) 0 0 0)))] /\
  passes default_settings [EvData (txt "1")]
    [(CSeekTo [PName (txt "a")], OErr (EUnexpectedType TObject TNumber (Position (Some []) 0 0 0)))].
Proof. repeat (apply conj; [vm_compute; reflexivity|]). vm_compute. repeat split. Qed.

(** [unexpected_structure], src/reader/stream_reader.rs:4731-4776 *)
Example test_unexpected_structure :
  passes default_settings [EvData (txt "[]")]
    [(CBeginArray, OOk RUnit);
     (CPeek, OErr (EUnexpectedStructure FewerElementsThanExpected (Position (Some [PIndex 0]) 0 1 1)));
     (CNextBool, OErr (EUnexpectedStructure FewerElementsThanExpected (Position (Some [PIndex 0]) 0 1 1)))] /\
  passes default_settings [EvData (txt "[1]")]
    [(CBeginArray, OOk RUnit);
     (CEndArray, OErr (EUnexpectedStructure MoreElementsThanExpected (Position (Some [PIndex 0]) 0 1 1)))] /\
  passes default_settings [EvData (txt "{}")]
    [(CBeginObject, OOk RUnit);
     (CNextNameOwned, OErr (EUnexpectedStructure FewerElementsThanExpected (Position (Some [PName (txt "<?>")]) 0 1 1)))] /\
  passes default_settings [EvData (txt "{""a"": 1}")]
    [(CBeginObject, OOk RUnit);
     (CEndObject, OErr (EUnexpectedStructure MoreElementsThanExpected (Position (Some [PName (txt "<?>")]) 0 1 1)))].
Proof. repeat (apply conj; [vm_compute; reflexivity|]). vm_compute. repeat split. Qed.

(** [unexpected_value_type], src/reader/stream_reader.rs:4778-4870 *)
Example test_unexpected_value_type :
  passes default_settings [EvData (txt "1")]
    [(CNextBool, OErr (EUnexpectedType TBoolean TNumber (Position (Some []) 0 0 0)));
     (CNextNull, OErr (EUnexpectedType TNull TNumber (Position (Some []) 0 0 0)));
     (CNextString, OErr (EUnexpectedType TString TNumber (Position (Some []) 0 0 0)));
     (CBeginArray, OErr (EUnexpectedType TArray TNumber (Position (Some []) 0 0 0)));
     (CBeginObject, OErr (EUnexpectedType TObject TNumber (Position (Some []) 0 0 0)))] /\
  passes default_settings [EvData (txt "true")]
    [(CNextNumberString, OErr (EUnexpectedType TNumber TBoolean (Position (Some []) 0 0 0)))] /\
  passes default_settings [EvData (txt "false")]
    [(CNextNull, OErr (EUnexpectedType TNull TBoolean (Position (Some []) 0 0 0)))] /\
  passes default_settings [EvData (txt "null")]
    [(CNextBool, OErr (EUnexpectedType TBoolean TNull (Position (Some []) 0 0 0)))] /\
  passes default_settings [EvData (txt """ab""")]
    [(CNextBool, OErr (EUnexpectedType TBoolean TString (Position (Some []) 0 0 0)))] /\
  passes default_settings [EvData (txt "[]")]
    [(CNextBool, OErr (EUnexpectedType TBoolean TArray (Position (Some []) 0 0 0)))] /\
  passes default_settings [EvData (txt "{}")]
    [(CNextBool, OErr (EUnexpectedType TBoolean TObject (Position (Some []) 0 0 0)))].
Proof. repeat (apply conj; [vm_compute; reflexivity|]). vm_compute. repeat split. Qed.

(** [multiple_top_level], src/reader/stream_reader.rs:4872-4910 *)
Example test_multiple_top_level :
  passes (Settings false false true true (Some 128) true) [EvData (txt "[1] [2]")]
    [(CPeek, OOk (RType TArray));
     (CBeginArray, OOk RUnit);
     (CNextNumberString, OOk (RStr (txt "1")));
     (CEndArray, OOk RUnit);
     (CHasNext, OOk (RBool true));
     (CPeek, OOk (RType TArray));
     (CBeginArray, OOk RUnit);
     (CNextNumberString, OOk (RStr (txt "2")));
     (CEndArray, OOk RUnit);
     (CHasNext, OOk (RBool false));
     (CPeek, OErr (EUnexpectedStructure FewerElementsThanExpected (Position (Some []) 0 7 7)));
     (CNextBool, OErr (EUnexpectedStructure FewerElementsThanExpected (Position (Some []) 0 7 7)));
     (CConsumeTrailingWhitespace, OOk RUnit)].
Proof. repeat (apply conj; [vm_compute; reflexivity|]). vm_compute. repeat split. Qed.

(** [multiple_top_level_disallowed], src/reader/stream_reader.rs:4912-4921 *)
Example test_multiple_top_level_disallowed :
  passes default_settings [EvData (txt "1 2")]
    [(CNextNumberString, OOk (RStr (txt "1")));
     (CNextNumberString, OPanic Misuse)].
Proof. repeat (apply conj; [vm_compute; reflexivity|]). vm_compute. repeat split. Qed.

(** [has_next_start_of_document], src/reader/stream_reader.rs:4923-4936 *)
Example test_has_next_start_of_document :
  passes (Settings false false true true (Some 128) true) [EvData (txt "[1]")]
    [(CHasNext, OPanic Misuse)].
Proof. repeat (apply conj; [vm_compute; reflexivity|]). vm_compute. repeat split. Qed.

(** [has_next_member_value], src/reader/stream_reader.rs:4938-4949 *)
Example test_has_next_member_value :
  passes default_settings [EvData (txt "{""a"": 1}")]
    [(CBeginObject, OOk RUnit);
     (CNextNameOwned, OOk (RStr (txt "a")));
     (CHasNext, OPanic Misuse)].
Proof. repeat (apply conj; [vm_compute; reflexivity|]). vm_compute. repeat split. Qed.

(** [malformed_whitespace], src/reader/stream_reader.rs:4951-4977 *)
Example test_malformed_whitespace :
  passes default_settings [EvData (txt "\u0020")]
    [(CPeek, OErr (ESyntax MalformedJson (Position (Some []) 0 0 0)))] /\
  passes default_settings [EvData (txt "\n")]
    [(CPeek, OErr (ESyntax MalformedJson (Position (Some []) 0 0 0)))] /\
  passes default_settings [EvData (txt "\r")]
    [(CPeek, OErr (ESyntax MalformedJson (Position (Some []) 0 0 0)))] /\
  passes default_settings [EvData (txt "\t")]
    [(CPeek, OErr (ESyntax MalformedJson (Position (Some []) 0 0 0)))] /\
  passes default_settings [EvData [0xC]]
    [(CPeek, OErr (ESyntax MalformedJson (Position (Some []) 0 0 0)))] /\
  passes default_settings [EvData [0xE2; 0x80; 0xA8]]
    [(CPeek, OErr (ESyntax MalformedJson (Position (Some []) 0 0 0)))] /\
  passes default_settings [EvData [0xE2; 0x80; 0xA9]]
    [(CPeek, OErr (ESyntax MalformedJson (Position (Some []) 0 0 0)))].
Proof. repeat (apply conj; [vm_compute; reflexivity|]). vm_compute. repeat split. Qed.

(** [comments], src/reader/stream_reader.rs:4989-5069 *)
Example test_comments :
  passes default_settings [EvData (txt "/")]
    [(CPeek, OErr (ESyntax CommentsNotEnabled (Position (Some []) 0 0 0)))] /\
  passes (Settings true false false true (Some 128) true) [EvData (txt "/* a */1")]
    [(CNextNumberString, OOk (RStr (txt "1")));
     (CConsumeTrailingWhitespace, OOk RUnit)] /\
  passes (Settings true false false true (Some 128) true) [EvData (txt " /* a */ 1")]
    [(CNextNumberString, OOk (RStr (txt "1")));
     (CConsumeTrailingWhitespace, OOk RUnit)] /\
  passes (Settings true false false true (Some 128) true) [EvData (txt "/**/1")]
    [(CNextNumberString, OOk (RStr (txt "1")));
     (CConsumeTrailingWhitespace, OOk RUnit)] /\
  passes (Settings true false false true (Some 128) true) [EvData (txt "/***/1")]
    [(CNextNumberString, OOk (RStr (txt "1")));
     (CConsumeTrailingWhitespace, OOk RUnit)] /\
  passes (Settings true false false true (Some 128) true) [EvData (txt "/* // */1")]
    [(CNextNumberString, OOk (RStr (txt "1")));
     (CConsumeTrailingWhitespace, OOk RUnit)] /\
  passes (Settings true false false true (Some 128) true) [EvData (txt "/* " ++ [0xA] ++ txt " " ++ [0xD] ++ txt " " ++ [0xD; 0xA] ++ txt " " ++ [0x9] ++ txt " */1")]
    [(CNextNumberString, OOk (RStr (txt "1")));
     (CConsumeTrailingWhitespace, OOk RUnit)] /\
  passes (Settings true false false true (Some 128) true) [EvData (txt "/* " ++ [0x7F] ++ txt " " ++ [0xC2; 0x80] ++ txt " */1")]
    [(CNextNumberString, OOk (RStr (txt "1")));
     (CConsumeTrailingWhitespace, OOk RUnit)] /\
  passes (Settings true false false true (Some 128) true) [EvData (txt "1/* 1 */")]
    [(CNextNumberString, OOk (RStr (txt "1")));
     (CConsumeTrailingWhitespace, OOk RUnit)] /\
  passes (Settings true false false true (Some 128) true) [EvData (txt "//" ++ [0xA] ++ txt "1")]
    [(CNextNumberString, OOk (RStr (txt "1")));
     (CConsumeTrailingWhitespace, OOk RUnit)] /\
  passes (Settings true false false true (Some 128) true) [EvData (txt "// a" ++ [0xA] ++ txt "1")]
    [(CNextNumberString, OOk (RStr (txt "1")));
     (CConsumeTrailingWhitespace, OOk RUnit)] /\
  passes (Settings true false false true (Some 128) true) [EvData (txt "// /* a" ++ [0xA] ++ txt "1")]
    [(CNextNumberString, OOk (RStr (txt "1")));
     (CConsumeTrailingWhitespace, OOk RUnit)] /\
  passes (Settings true false false true (Some 128) true) [EvData (txt "// a" ++ [0xA] ++ txt "// b" ++ [0xD] ++ txt "// " ++ [0x9] ++ txt " c" ++ [0xD; 0xA] ++ txt "1")]
    [(CNextNumberString, OOk (RStr (txt "1")));
     (CConsumeTrailingWhitespace, OOk RUnit)] /\
  passes (Settings true false false true (Some 128) true) [EvData (txt "1// a")]
    [(CNextNumberString, OOk (RStr (txt "1")));
     (CConsumeTrailingWhitespace, OOk RUnit)] /\
  passes (Settings true false false true (Some 128) true) [EvData (txt "1// a" ++ [0xA])]
    [(CNextNumberString, OOk (RStr (txt "1")));
     (CConsumeTrailingWhitespace, OOk RUnit)] /\
  passes (Settings true false false true (Some 128) true) [EvData (txt "1//")]
    [(CNextNumberString, OOk (RStr (txt "1")));
     (CConsumeTrailingWhitespace, OOk RUnit)] /\
  passes (Settings true false false true (Some 128) true) [EvData (txt "/* a */ /* a * b * / */ [/* // a, ] */1/**/,/**/ /***/2, {/**/""a""/**/:/**/1/**/,""b""/**/:/**/2/**/}/**/]/**/")]
    [(CBeginArray, OOk RUnit);
     (CNextNumberString, OOk (RStr (txt "1")));
     (CNextNumberString, OOk (RStr (txt "2")));
     (CBeginObject, OOk RUnit);
     (CNextNameOwned, OOk (RStr (txt "a")));
     (CNextNumberString, OOk (RStr (txt "1")));
     (CNextNameOwned, OOk (RStr (txt "b")));
     (CNextNumberString, OOk (RStr (txt "2")));
     (CEndObject, OOk RUnit);
     (CEndArray, OOk RUnit);
     (CConsumeTrailingWhitespace, OOk RUnit)] /\
  passes (Settings true false false true (Some 128) true) [EvData (txt "[// */ a]" ++ [0xA] ++ txt "1//, 4 // 5" ++ [0xD] ++ txt "// first" ++ [0xD; 0xA] ++ txt "//second" ++ [0xA] ++ txt ", 2]// test")]
    [(CBeginArray, OOk RUnit);
     (CNextNumberString, OOk (RStr (txt "1")));
     (CNextNumberString, OOk (RStr (txt "2")));
     (CEndArray, OOk RUnit);
     (CConsumeTrailingWhitespace, OOk RUnit)] /\
  passes (Settings true false false true (Some 128) true) [EvData (txt "/* a */")]
    [(CPeek, OErr (ESyntax IncompleteDocument (Position (Some []) 0 7 7)))] /\
  passes (Settings true false false true (Some 128) true) [EvData (txt "// a")]
    [(CPeek, OErr (ESyntax IncompleteDocument (Position (Some []) 0 4 4)))].
Proof. repeat (apply conj; [vm_compute; reflexivity|]). vm_compute. repeat split. Qed.

(** [comments_malformed], src/reader/stream_reader.rs:5071-5217 *)
Example test_comments_malformed :
  passes (Settings true false false true (Some 128) true) [EvData (txt "/ a")]
    [(CPeek, OErr (ESyntax IncompleteComment (Position (Some []) 0 1 1)))] /\
  passes (Settings true false false true (Some 128) true) [EvData (txt "/")]
    [(CPeek, OErr (ESyntax IncompleteComment (Position (Some []) 0 1 1)))] /\
  passes (Settings true false false true (Some 128) true) [EvData (txt "1/")]
    [(CNextNumberString, OOk (RStr (txt "1")));
     (CConsumeTrailingWhitespace, OErr (ESyntax IncompleteComment (Position (Some []) 0 2 2)))] /\
  passes (Settings true false false true (Some 128) true) [EvData (txt "/*")]
    [(CPeek, OErr (ESyntax BlockCommentNotClosed (Position (Some []) 0 2 2)))] /\
  passes (Settings true false false true (Some 128) true) [EvData (txt "/* a")]
    [(CPeek, OErr (ESyntax BlockCommentNotClosed (Position (Some []) 0 4 4)))] /\
  passes (Settings true false false true (Some 128) true) [EvData (txt "/* a /")]
    [(CPeek, OErr (ESyntax BlockCommentNotClosed (Position (Some []) 0 6 6)))] /\
  passes (Settings true false false true (Some 128) true) [EvData (txt "/* a //")]
    [(CPeek, OErr (ESyntax BlockCommentNotClosed (Position (Some []) 0 7 7)))] /\
  passes (Settings true false false true (Some 128) true) [EvData (txt "/*/")]
    [(CPeek, OErr (ESyntax BlockCommentNotClosed (Position (Some []) 0 3 3)))] /\
  passes (Settings true false false true (Some 128) true) [EvData (txt "1/*")]
    [(CNextNumberString, OOk (RStr (txt "1")));
     (CConsumeTrailingWhitespace, OErr (ESyntax BlockCommentNotClosed (Position (Some []) 0 3 3)))] /\
  passes (Settings true false false true (Some 128) true) [EvData (txt "*/")]
    [(CPeek, OErr (ESyntax MalformedJson (Position (Some []) 0 0 0)))] /\
  passes (Settings true false false true (Some 128) true) [EvData (txt "/* " ++ [0x0] ++ txt " */ true")]
    [(CPeek, OErr (ESyntax NotEscapedControlCharacter (Position (Some []) 0 3 3)))] /\
  passes (Settings true false false true (Some 128) true) [EvData (txt "// " ++ [0x0] ++ txt " " ++ [0xA] ++ txt " true")]
    [(CPeek, OErr (ESyntax NotEscapedControlCharacter (Position (Some []) 0 3 3)))] /\
  passes (Settings true false false true (Some 128) true) [EvData (txt "/* " ++ [0x8] ++ txt " */ true")]
    [(CPeek, OErr (ESyntax NotEscapedControlCharacter (Position (Some []) 0 3 3)))] /\
  passes (Settings true false false true (Some 128) true) [EvData (txt "// " ++ [0x8] ++ txt " " ++ [0xA] ++ txt " true")]
    [(CPeek, OErr (ESyntax NotEscapedControlCharacter (Position (Some []) 0 3 3)))] /\
  passes (Settings true false false true (Some 128) true) [EvData (txt "/* " ++ [0xB] ++ txt " */ true")]
    [(CPeek, OErr (ESyntax NotEscapedControlCharacter (Position (Some []) 0 3 3)))] /\
  passes (Settings true false false true (Some 128) true) [EvData (txt "// " ++ [0xB] ++ txt " " ++ [0xA] ++ txt " true")]
    [(CPeek, OErr (ESyntax NotEscapedControlCharacter (Position (Some []) 0 3 3)))] /\
  passes (Settings true false false true (Some 128) true) [EvData (txt "/* " ++ [0xC] ++ txt " */ true")]
    [(CPeek, OErr (ESyntax NotEscapedControlCharacter (Position (Some []) 0 3 3)))] /\
  passes (Settings true false false true (Some 128) true) [EvData (txt "// " ++ [0xC] ++ txt " " ++ [0xA] ++ txt " true")]
    [(CPeek, OErr (ESyntax NotEscapedControlCharacter (Position (Some []) 0 3 3)))] /\
  passes (Settings true false false true (Some 128) true) [EvData (txt "/* " ++ [0xE] ++ txt " */ true")]
    [(CPeek, OErr (ESyntax NotEscapedControlCharacter (Position (Some []) 0 3 3)))] /\
  passes (Settings true false false true (Some 128) true) [EvData (txt "// " ++ [0xE] ++ txt " " ++ [0xA] ++ txt " true")]
    [(CPeek, OErr (ESyntax NotEscapedControlCharacter (Position (Some []) 0 3 3)))] /\
  passes (Settings true false false true (Some 128) true) [EvData (txt "/* " ++ [0x1F] ++ txt " */ true")]
    [(CPeek, OErr (ESyntax NotEscapedControlCharacter (Position (Some []) 0 3 3)))] /\
  passes (Settings true false false true (Some 128) true) [EvData (txt "// " ++ [0x1F] ++ txt " " ++ [0xA] ++ txt " true")]
    [(CPeek, OErr (ESyntax NotEscapedControlCharacter (Position (Some []) 0 3 3)))] /\
  passes (Settings true false false true (Some 128) true) [EvData (txt "/*" ++ [0x80] ++ txt "*/")]
    [(CPeek, OErr (EIo IoInvalidUtf8 (Position (Some []) 0 2 2)))].
Proof. repeat (apply conj; [vm_compute; reflexivity|]). vm_compute. repeat split. Qed.

(** [current_position], src/reader/stream_reader.rs:5219-5307 *)
Example test_current_position :
  passes (Settings false false true true (Some 128) true) [EvData (txt "  [  1  , {  ""a""  : true  }  ]  ")]
    [(CPosition true, OOk (RPos (Position (Some []) 0 0 0)));
     (CPosition false, OOk (RPos (Position None 0 0 0)));
     (CPosition true, OOk (RPos (Position (Some []) 0 0 0)));
     (CPeek, OOk (RType TArray));
     (CPosition true, OOk (RPos (Position (Some []) 0 2 2)));
     (CBeginArray, OOk RUnit);
     (CPosition true, OOk (RPos (Position (Some [PIndex 0]) 0 3 3)));
     (CHasNext, OOk (RBool true));
     (CPosition true, OOk (RPos (Position (Some [PIndex 0]) 0 5 5)));
     (CNextNumberStr, OOk (RStr (txt "1")));
     (CPosition true, OOk (RPos (Position (Some [PIndex 1]) 0 6 6)));
     (CHasNext, OOk (RBool true));
     (CPosition true, OOk (RPos (Position (Some [PIndex 1]) 0 10 10)));
     (CBeginObject, OOk RUnit);
     (CPosition true, OOk (RPos (Position (Some [PIndex 1; PName (txt "<?>")]) 0 11 11)));
     (CHasNext, OOk (RBool true));
     (CPosition true, OOk (RPos (Position (Some [PIndex 1; PName (txt "<?>")]) 0 13 13)));
     (CNextName, OOk (RStr (txt "a")));
     (CPosition true, OOk (RPos (Position (Some [PIndex 1; PName (txt "a")]) 0 16 16)));
     (CPeek, OOk (RType TBoolean));
     (CPosition true, OOk (RPos (Position (Some [PIndex 1; PName (txt "a")]) 0 20 20)));
     (CNextBool, OOk (RBool true));
     (CPosition true, OOk (RPos (Position (Some [PIndex 1; PName (txt "a")]) 0 24 24)));
     (CHasNext, OOk (RBool false));
     (CPosition true, OOk (RPos (Position (Some [PIndex 1; PName (txt "a")]) 0 26 26)));
     (CEndObject, OOk RUnit);
     (CPosition true, OOk (RPos (Position (Some [PIndex 2]) 0 27 27)));
     (CHasNext, OOk (RBool false));
     (CPosition true, OOk (RPos (Position (Some [PIndex 2]) 0 29 29)));
     (CEndArray, OOk RUnit);
     (CPosition true, OOk (RPos (Position (Some []) 0 30 30)));
     (CHasNext, OOk (RBool false));
     (CPosition true, OOk (RPos (Position (Some []) 0 32 32)))].
Proof. repeat (apply conj; [vm_compute; reflexivity|]). vm_compute. repeat split. Qed.

(** [location_whitespace], src/reader/stream_reader.rs:5309-5371 *)
Example test_location_whitespace :
  passes (Settings true false false true (Some 128) true) [EvData []]
    [(CPeek, OErr (ESyntax IncompleteDocument (Position (Some []) 0 0 0)))] /\
  passes (Settings true false false true (Some 128) true) [EvData (txt " ")]
    [(CPeek, OErr (ESyntax IncompleteDocument (Position (Some []) 0 1 1)))] /\
  passes (Settings true false false true (Some 128) true) [EvData [0x9]]
    [(CPeek, OErr (ESyntax IncompleteDocument (Position (Some []) 0 1 1)))] /\
  passes (Settings true false false true (Some 128) true) [EvData [0xA]]
    [(CPeek, OErr (ESyntax IncompleteDocument (Position (Some []) 1 0 1)))] /\
  passes (Settings true false false true (Some 128) true) [EvData [0xD]]
    [(CPeek, OErr (ESyntax IncompleteDocument (Position (Some []) 1 0 1)))] /\
  passes (Settings true false false true (Some 128) true) [EvData [0xD; 0xA]]
    [(CPeek, OErr (ESyntax IncompleteDocument (Position (Some []) 1 0 2)))] /\
  passes (Settings true false false true (Some 128) true) [EvData ([0xD] ++ txt " " ++ [0xA])]
    [(CPeek, OErr (ESyntax IncompleteDocument (Position (Some []) 2 0 3)))] /\
  passes (Settings true false false true (Some 128) true) [EvData [0xA; 0xD]]
    [(CPeek, OErr (ESyntax IncompleteDocument (Position (Some []) 2 0 2)))] /\
  passes (Settings true false false true (Some 128) true) [EvData [0xD; 0xA; 0xA]]
    [(CPeek, OErr (ESyntax IncompleteDocument (Position (Some []) 2 0 3)))] /\
  passes (Settings true false false true (Some 128) true) [EvData [0xD; 0xD]]
    [(CPeek, OErr (ESyntax IncompleteDocument (Position (Some []) 2 0 2)))] /\
  passes (Settings true false false true (Some 128) true) [EvData [0xD; 0xD; 0xA]]
    [(CPeek, OErr (ESyntax IncompleteDocument (Position (Some []) 2 0 3)))] /\
  passes (Settings true false false true (Some 128) true) [EvData ([0xA] ++ txt "  " ++ [0xD] ++ txt " " ++ [0x9] ++ txt " " ++ [0xD; 0xA] ++ txt "    " ++ [0x9; 0x9] ++ txt " ")]
    [(CPeek, OErr (ESyntax IncompleteDocument (Position (Some []) 3 7 16)))] /\
  passes (Settings true false false true (Some 128) true) [EvData (txt "//" ++ [0xA])]
    [(CPeek, OErr (ESyntax IncompleteDocument (Position (Some []) 1 0 3)))] /\
  passes (Settings true false false true (Some 128) true) [EvData (txt "//" ++ [0xA] ++ txt "  ")]
    [(CPeek, OErr (ESyntax IncompleteDocument (Position (Some []) 1 2 5)))] /\
  passes (Settings true false false true (Some 128) true) [EvData (txt "//" ++ [0xA] ++ txt "  //" ++ [0xD] ++ txt "  // a")]
    [(CPeek, OErr (ESyntax IncompleteDocument (Position (Some []) 2 6 14)))] /\
  passes (Settings true false false true (Some 128) true) [EvData (txt "// " ++ [0xD; 0xA])]
    [(CPeek, OErr (ESyntax IncompleteDocument (Position (Some []) 1 0 5)))] /\
  passes (Settings true false false true (Some 128) true) [EvData (txt "// " ++ [0xA; 0xD])]
    [(CPeek, OErr (ESyntax IncompleteDocument (Position (Some []) 2 0 5)))] /\
  passes (Settings true false false true (Some 128) true) [EvData (txt "/* */")]
    [(CPeek, OErr (ESyntax IncompleteDocument (Position (Some []) 0 5 5)))] /\
  passes (Settings true false false true (Some 128) true) [EvData (txt "/* */" ++ [0xA] ++ txt " ")]
    [(CPeek, OErr (ESyntax IncompleteDocument (Position (Some []) 1 1 7)))] /\
  passes (Settings true false false true (Some 128) true) [EvData (txt "/* " ++ [0xA] ++ txt " " ++ [0xD] ++ txt " */  ")]
    [(CPeek, OErr (ESyntax IncompleteDocument (Position (Some []) 2 5 11)))] /\
  passes (Settings true false false true (Some 128) true) [EvData (txt "/*" ++ [0xF4; 0x8F; 0xBF; 0xBF] ++ txt "*/")]
    [(CPeek, OErr (ESyntax IncompleteDocument (Position (Some []) 0 5 8)))].
Proof. repeat (apply conj; [vm_compute; reflexivity|]). vm_compute. repeat split. Qed.

(** [location_value], src/reader/stream_reader.rs:5373-5407 *)
Example test_location_value :
  passes default_settings [EvData (txt "[true,")]
    [(CBeginArray, OOk RUnit);
     (CSkipValue, OOk RUnit);
     (CPeek, OErr (ESyntax IncompleteDocument (Position (Some [PIndex 1]) 0 6 6)))] /\
  passes default_settings [EvData (txt "[false,")]
    [(CBeginArray, OOk RUnit);
     (CSkipValue, OOk RUnit);
     (CPeek, OErr (ESyntax IncompleteDocument (Position (Some [PIndex 1]) 0 7 7)))] /\
  passes default_settings [EvData (txt "[null,")]
    [(CBeginArray, OOk RUnit);
     (CSkipValue, OOk RUnit);
     (CPeek, OErr (ESyntax IncompleteDocument (Position (Some [PIndex 1]) 0 6 6)))] /\
  passes default_settings [EvData (txt "[123e1,")]
    [(CBeginArray, OOk RUnit);
     (CSkipValue, OOk RUnit);
     (CPeek, OErr (ESyntax IncompleteDocument (Position (Some [PIndex 1]) 0 7 7)))] /\
  passes default_settings [EvData (txt "["""",")]
    [(CBeginArray, OOk RUnit);
     (CSkipValue, OOk RUnit);
     (CPeek, OErr (ESyntax IncompleteDocument (Position (Some [PIndex 1]) 0 4 4)))] /\
  passes default_settings [EvData (txt "[""\""\\\/\b\f\n\r\t\u1234"",")]
    [(CBeginArray, OOk RUnit);
     (CSkipValue, OOk RUnit);
     (CPeek, OErr (ESyntax IncompleteDocument (Position (Some [PIndex 1]) 0 26 26)))] /\
  passes default_settings [EvData (txt "[""\n \r"",")]
    [(CBeginArray, OOk RUnit);
     (CSkipValue, OOk RUnit);
     (CPeek, OErr (ESyntax IncompleteDocument (Position (Some [PIndex 1]) 0 9 9)))] /\
  passes default_settings [EvData (txt "[""\u000A \u000D"",")]
    [(CBeginArray, OOk RUnit);
     (CSkipValue, OOk RUnit);
     (CPeek, OErr (ESyntax IncompleteDocument (Position (Some [PIndex 1]) 0 17 17)))] /\
  passes default_settings [EvData (txt "[""" ++ [0xF4; 0x8F; 0xBF; 0xBF] ++ txt """,")]
    [(CBeginArray, OOk RUnit);
     (CSkipValue, OOk RUnit);
     (CPeek, OErr (ESyntax IncompleteDocument (Position (Some [PIndex 1]) 0 5 8)))] /\
  passes default_settings [EvData (txt "[""" ++ [0xE2; 0x80; 0xA8; 0xE2; 0x80; 0xA9] ++ txt """,")]
    [(CBeginArray, OOk RUnit);
     (CSkipValue, OOk RUnit);
     (CPeek, OErr (ESyntax IncompleteDocument (Position (Some [PIndex 1]) 0 6 10)))] /\
  passes default_settings [EvData (txt "[[],")]
    [(CBeginArray, OOk RUnit);
     (CSkipValue, OOk RUnit);
     (CPeek, OErr (ESyntax IncompleteDocument (Position (Some [PIndex 1]) 0 4 4)))] /\
  passes default_settings [EvData (txt "[[1, 2],")]
    [(CBeginArray, OOk RUnit);
     (CSkipValue, OOk RUnit);
     (CPeek, OErr (ESyntax IncompleteDocument (Position (Some [PIndex 1]) 0 8 8)))] /\
  passes default_settings [EvData (txt "[{},")]
    [(CBeginArray, OOk RUnit);
     (CSkipValue, OOk RUnit);
     (CPeek, OErr (ESyntax IncompleteDocument (Position (Some [PIndex 1]) 0 4 4)))] /\
  passes default_settings [EvData (txt "[{""a"": 1},")]
    [(CBeginArray, OOk RUnit);
     (CSkipValue, OOk RUnit);
     (CPeek, OErr (ESyntax IncompleteDocument (Position (Some [PIndex 1]) 0 10 10)))].
Proof. repeat (apply conj; [vm_compute; reflexivity|]). vm_compute. repeat split. Qed.

(** [location_malformed_name], src/reader/stream_reader.rs:5409-5424 *)
Example test_location_malformed_name :
  passes default_settings [EvData (txt "{""a"": 1, ""b\X"": 2}")]
    [(CBeginObject, OOk RUnit);
     (CNextNameOwned, OOk (RStr (txt "a")));
     (CNextNumberString, OOk (RStr (txt "1")));
     (CNextNameOwned, OErr (ESyntax UnknownEscapeSequence (Position (Some [PName (txt "a")]) 0 11 11)))].
Proof. repeat (apply conj; [vm_compute; reflexivity|]). vm_compute. repeat split. Qed.

(** [location_skip], src/reader/stream_reader.rs:5426-5493 *)
Example test_location_skip :
  passes default_settings [EvData (txt "[true, false, null, 12, ""test"", [], [34], {}, {""a"": 1}]")]
    [(CBeginArray, OOk RUnit);
     (CEndArray, OErr (EUnexpectedStructure MoreElementsThanExpected (Position (Some [PIndex 0]) 0 1 1)));
     (CSkipValue, OOk RUnit);
     (CEndArray, OErr (EUnexpectedStructure MoreElementsThanExpected (Position (Some [PIndex 1]) 0 7 7)));
     (CSkipValue, OOk RUnit);
     (CEndArray, OErr (EUnexpectedStructure MoreElementsThanExpected (Position (Some [PIndex 2]) 0 14 14)));
     (CSkipValue, OOk RUnit);
     (CEndArray, OErr (EUnexpectedStructure MoreElementsThanExpected (Position (Some [PIndex 3]) 0 20 20)));
     (CSkipValue, OOk RUnit);
     (CEndArray, OErr (EUnexpectedStructure MoreElementsThanExpected (Position (Some [PIndex 4]) 0 24 24)));
     (CSkipValue, OOk RUnit);
     (CEndArray, OErr (EUnexpectedStructure MoreElementsThanExpected (Position (Some [PIndex 5]) 0 32 32)));
     (CSkipValue, OOk RUnit);
     (CEndArray, OErr (EUnexpectedStructure MoreElementsThanExpected (Position (Some [PIndex 6]) 0 36 36)));
     (CSkipValue, OOk RUnit);
     (CEndArray, OErr (EUnexpectedStructure MoreElementsThanExpected (Position (Some [PIndex 7]) 0 42 42)));
     (CSkipValue, OOk RUnit);
     (CEndArray, OErr (EUnexpectedStructure MoreElementsThanExpected (Position (Some [PIndex 8]) 0 46 46)));
     (CSkipValue, OOk RUnit);
     (CEndArray, OOk RUnit)] /\
  passes default_settings [EvData (txt "{""a"": 1, ""b"": 2}")]
    [(CBeginObject, OOk RUnit);
     (CEndObject, OErr (EUnexpectedStructure MoreElementsThanExpected (Position (Some [PName (txt "<?>")]) 0 1 1)));
     (CSkipName, OOk RUnit);
     (CNextBool, OErr (EUnexpectedType TBoolean TNumber (Position (Some [PName (txt "a")]) 0 6 6)));
     (CSkipValue, OOk RUnit);
     (CEndObject, OErr (EUnexpectedStructure MoreElementsThanExpected (Position (Some [PName (txt "a")]) 0 9 9)));
     (CSkipName, OOk RUnit);
     (CNextBool, OErr (EUnexpectedType TBoolean TNumber (Position (Some [PName (txt "b")]) 0 14 14)));
     (CSkipValue, OOk RUnit);
     (CNextNameOwned, OErr (EUnexpectedStructure FewerElementsThanExpected (Position (Some [PName (txt "b")]) 0 15 15)));
     (CEndObject, OOk RUnit)].
Proof. repeat (apply conj; [vm_compute; reflexivity|]). vm_compute. repeat split. Qed.

(** [few_bytes_reader], src/reader/stream_reader.rs:5514-5530 *)
Example test_few_bytes_reader :
  passes default_settings (pieces_of 3 (txt "[" ++ rep 229 (txt "true,") ++ txt "true]"))
    ([(CBeginArray, OOk RUnit)] ++ rep 230 [(CNextBool, OOk (RBool true))] ++ [(CEndArray, OOk RUnit); (CConsumeTrailingWhitespace, OOk RUnit)]).
Proof. repeat (apply conj; [vm_compute; reflexivity|]). vm_compute. repeat split. Qed.

(** [large_document], src/reader/stream_reader.rs:5532-5547 *)
Example test_large_document :
  passes default_settings [EvData (txt "[" ++ rep 229 (txt "true,") ++ txt "true]")]
    ([(CBeginArray, OOk RUnit)] ++ rep 230 [(CNextBool, OOk (RBool true))] ++ [(CEndArray, OOk RUnit); (CPosition false, OOk (RPos (Position None 0 1151 1151))); (CConsumeTrailingWhitespace, OOk RUnit)]).
Proof. repeat (apply conj; [vm_compute; reflexivity|]). vm_compute. repeat split. Qed.

(** [no_path_tracking], src/reader/stream_reader.rs:5549-5603 *)
Example test_no_path_tracking :
  passes (Settings false false false false (Some 128) true) [EvData (txt "[{""a"": [[], [1], {}, {""b"": 1}, {""c"": 2}, {""d"": 3}, @]}]")]
    [(CBeginArray, OOk RUnit);
     (CBeginObject, OOk RUnit);
     (CNextNameOwned, OOk (RStr (txt "a")));
     (CBeginArray, OOk RUnit);
     (CBeginArray, OOk RUnit);
     (CEndArray, OOk RUnit);
     (CBeginArray, OOk RUnit);
     (CNextNumberString, OOk (RStr (txt "1")));
     (CEndArray, OOk RUnit);
     (CBeginObject, OOk RUnit);
     (CEndObject, OOk RUnit);
     (CBeginObject, OOk RUnit);
     (CNextNameOwned, OOk (RStr (txt "b")));
     (CNextNumberString, OOk (RStr (txt "1")));
     (CEndObject, OOk RUnit);
     (CBeginObject, OOk RUnit);
     (CNextName, OOk (RStr (txt "c")));
     (CNextNumberString, OOk (RStr (txt "2")));
     (CEndObject, OOk RUnit);
     (CSkipValue, OOk RUnit);
     (CPeek, OErr (ESyntax MalformedJson (Position None 0 51 51)))].
Proof. repeat (apply conj; [vm_compute; reflexivity|]). vm_compute. repeat split. Qed.

(** [string_reader_interrupted], src/reader/stream_reader.rs:5641-5666 *)
Example test_string_reader_interrupted :
  passes default_settings (interrupted (txt """test \"" " ++ [0xF4; 0x8F; 0xBF; 0xBF] ++ txt """"))
    [(CNextStringReader, OOk RUnit);
     (CRead 11, OOk (RBytes (txt "test "" " ++ [0xF4; 0x8F; 0xBF; 0xBF])));
     (CRead 11, OOk (RBytes []));
     (CConsumeTrailingWhitespace, OOk RUnit)].
Proof. repeat (apply conj; [vm_compute; reflexivity|]). vm_compute. repeat split. Qed.

(** [reader_interrupted], src/reader/stream_reader.rs:5668-5690 *)
Example test_reader_interrupted :
  passes default_settings (interrupted (txt "[true, 123.4e5, ""test \"" 1 " ++ [0xF4; 0x8F; 0xBF; 0xBF] ++ txt """, ""test \"" 2 " ++ [0xF4; 0x8F; 0xBF; 0xBF] ++ txt """]"))
    [(CBeginArray, OOk RUnit);
     (CNextBool, OOk (RBool true));
     (CNextNumberStr, OOk (RStr (txt "123.4e5")));
     (CNextStr, OOk (RStr (txt "test "" 1 " ++ [0x10FFFF])));
     (CNextStringReader, OOk RUnit);
     (CRead 32, OOk (RBytes (txt "test "" 2 " ++ [0xF4; 0x8F; 0xBF; 0xBF])));
     (CRead 32, OOk (RBytes []));
     (CEndArray, OOk RUnit);
     (CConsumeTrailingWhitespace, OOk RUnit)].
Proof. repeat (apply conj; [vm_compute; reflexivity|]). vm_compute. repeat split. Qed.

(** [large_number], src/reader/stream_reader.rs:5813-5828 *)
Example test_large_number :
  passes (Settings false false false true (Some 128) false) [EvData (rep 350 (txt "123"))]
    [(CNextNumberString, OOk (RStr (rep 350 (txt "123"))));
     (CPosition false, OOk (RPos (Position None 0 1050 1050)));
     (CConsumeTrailingWhitespace, OOk RUnit)].
Proof. repeat (apply conj; [vm_compute; reflexivity|]). vm_compute. repeat split. Qed.

(** [large_string], src/reader/stream_reader.rs:5830-5844 *)
Example test_large_string :
  passes default_settings [EvData (txt """" ++ rep 90 (txt "abc" ++ [0xF4; 0x8F; 0xBF; 0xBF] ++ txt "d\u1234e\n") ++ txt """")]
    [(CNextString, OOk (RStr (rep 90 (txt "abc" ++ [0x10FFFF] ++ txt "d" ++ [0x1234] ++ txt "e" ++ [0xA]))));
     (CPosition false, OOk (RPos (Position None 0 1262 1532)));
     (CConsumeTrailingWhitespace, OOk RUnit)].
Proof. repeat (apply conj; [vm_compute; reflexivity|]). vm_compute. repeat split. Qed.
