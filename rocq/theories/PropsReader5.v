(** * Properties of reading: the kind and the location of errors (C03, C04, C05, C32, C35) *)

From Verif Require Import Base Utf8Model SpecNumber SpecJson SourceModel ReaderModel SpecCursor SpecText SpecErrors
  ReaderFinal5.


(** Behind a call which announces a string, every error of reading or skipping this string names the first
  problem of the literal: the kind of the error, and its location directly behind the part of the literal which is
  correct. *)
Theorem C05_string_errors : forall (s : settings) (evs : list event) (cs : list rcall) (b : bool) (c : rcall) (os : list outcome) (p : position) (e : reader_error),
  Forall is_byte (fst (supplied evs)) ->
  In c [CNextString; CNextStr; CSkipValue] ->
  read_session s evs (cs ++ [CPeek; CPosition b; c]) = os ++ [OOk (RType TString); OOk (RPos p); OErr e] ->
  exists pre rest t1 F, fst (supplied evs) = pre ++ rest /\ is_behind p pre /\
    literal_string_error rest t1 F /\ reports (snd (supplied evs)) F e /\ is_behind (error_position e) (pre ++ t1).
Proof. exact C05_string_errors_holds. Qed.
Print Assumptions C05_string_errors.
(** A string with an unpaired surrogate, and one which ends within the escape sequence of the second surrogate *)
Example C05_string_errors_case :
  read_session default_settings [EvData [0x5B; 0x20; 0x22; 0x61; 0x5C; 0x75; 0x44]; EvData [0x38; 0x30; 0x30; 0x22]]
    ([CBeginArray] ++ [CPeek; CPosition true; CNextStr]) =
    [OOk RUnit] ++ [OOk (RType TString); OOk (RPos (Position (Some [PIndex 0]) 0 2 2));
      OErr (ESyntax UnpairedSurrogatePairEscapeSequence (Position (Some [PIndex 0]) 0 4 4))] /\
  read_session default_settings [EvData [0x5B; 0x22; 0x5C; 0x75; 0x44; 0x38; 0x30; 0x30; 0x5C; 0x75; 0x30; 0x30; 0x34]]
    ([CBeginArray] ++ [CPeek; CPosition true; CSkipValue]) =
    [OOk RUnit] ++ [OOk (RType TString); OOk (RPos (Position (Some [PIndex 0]) 0 1 1));
      OErr (ESyntax MalformedEscapeSequence (Position (Some [PIndex 0]) 0 2 2))].
Proof. split; vm_compute; reflexivity. Qed.


(** Conversely, if the literal has an error, reading or skipping it fails, with this error: the kind and the
  location of the error are determined by the text. *)
Theorem C05_malformed_strings_fail : forall (s : settings) (evs : list event) (cs : list rcall) (b : bool) (c : rcall) (os : list outcome) (p : position) (o : outcome)
    (pre rest t1 : bytes) (F : failure),
  Forall is_byte (fst (supplied evs)) ->
  In c [CNextString; CNextStr; CSkipValue] ->
  read_session s evs (cs ++ [CPeek; CPosition b; c]) = os ++ [OOk (RType TString); OOk (RPos p); o] ->
  fst (supplied evs) = pre ++ rest -> is_behind p pre -> literal_string_error rest t1 F ->
  exists e, o = OErr e /\ reports (snd (supplied evs)) F e /\ is_behind (error_position e) (pre ++ t1).
Proof. exact C05_malformed_strings_fail_holds. Qed.
Print Assumptions C05_malformed_strings_fail.
(** Both parts of the example above meet the hypotheses: the literals have these errors *)
Example C05_malformed_strings_case :
  literal_string_error [0x22; 0x61; 0x5C; 0x75; 0x44; 0x38; 0x30; 0x30; 0x22] [0x22; 0x61] (FSyntax UnpairedSurrogatePairEscapeSequence) /\
  literal_string_error [0x22; 0x5C; 0x75; 0x44; 0x38; 0x30; 0x30; 0x5C; 0x75; 0x30; 0x30; 0x34] [0x22] (FEnd MalformedEscapeSequence).
Proof.
  assert (H4 : hex4 [0x44; 0x38; 0x30; 0x30] 0xD800).
  { exists 0x44, 0x38, 0x30, 0x30, 13, 8, 0, 0. unfold hex_value, digit. repeat split; lia. }
  split.
  - apply (LSE [0x61] [0x61] [0x5C; 0x75; 0x44; 0x38; 0x30; 0x30; 0x22]).
    + exact plain_a.
    + apply (SE_high [0x44; 0x38; 0x30; 0x30] 0xD800 [0x22]); [exact H4|lia|]. apply LE_backslash. lia.
  - apply (LSE [] [] [0x5C; 0x75; 0x44; 0x38; 0x30; 0x30; 0x5C; 0x75; 0x30; 0x30; 0x34]); [constructor|].
    apply (SE_high [0x44; 0x38; 0x30; 0x30] 0xD800 [0x5C; 0x75; 0x30; 0x30; 0x34]); [exact H4|lia|].
    apply (LE_hex [0x30; 0x30; 0x34]). apply HE_end; [cbn; lia|]. repeat constructor; eexists; unfold hex_value, digit; left; split; try lia; reflexivity.
Qed.


(** If the literal is well-formed, its value is returned. *)
Theorem C05_well_formed_strings_are_decoded : forall (s : settings) (evs : list event) (cs : list rcall) (b : bool) (c : rcall) (os : list outcome) (p : position) (o : outcome)
    (pre lit rest : bytes) (v : str),
  Forall is_byte (fst (supplied evs)) ->
  In c [CNextString; CNextStr] ->
  read_session s evs (cs ++ [CPeek; CPosition b; c]) = os ++ [OOk (RType TString); OOk (RPos p); o] ->
  fst (supplied evs) = pre ++ lit ++ rest -> is_behind p pre -> quoted lit v ->
  o = OOk (RStr v).
Proof. exact C05_well_formed_strings_are_decoded_holds. Qed.
Print Assumptions C05_well_formed_strings_are_decoded.
(** [😀] in a string is U+1F600 *)
Example C05_well_formed_strings_case :
  read_session default_settings [EvData [0x22; 0x61; 0x5C; 0x75; 0x44; 0x38; 0x33; 0x44; 0x5C; 0x75; 0x44; 0x45; 0x30; 0x30; 0x22]]
    ([] ++ [CPeek; CPosition true; CNextStr]) =
    [] ++ [OOk (RType TString); OOk (RPos (Position (Some []) 0 0 0)); OOk (RStr [0x61; 0x1F600])] /\
  quoted [0x22; 0x61; 0x5C; 0x75; 0x44; 0x38; 0x33; 0x44; 0x5C; 0x75; 0x44; 0x45; 0x30; 0x30; 0x22] [0x61; 0x1F600].
Proof.
  split; [vm_compute; reflexivity|]. exists [0x61; 0x5C; 0x75; 0x44; 0x38; 0x33; 0x44; 0x5C; 0x75; 0x44; 0x45; 0x30; 0x30]. split; [reflexivity|].
  apply (ST_raw 0x61 [0x5C; 0x75; 0x44; 0x38; 0x33; 0x44; 0x5C; 0x75; 0x44; 0x45; 0x30; 0x30] [0x1F600]); [unfold unescaped, is_char; lia|].
  apply (ST_pair [0x44; 0x38; 0x33; 0x44] 0xD83D [0x44; 0x45; 0x30; 0x30] 0xDE00 [] []); [| |lia|lia|constructor].
  - exists 0x44, 0x38, 0x33, 0x44, 13, 8, 3, 13. unfold hex_value, digit. repeat split; lia.
  - exists 0x44, 0x45, 0x30, 0x30, 13, 14, 0, 0. unfold hex_value, digit. repeat split; lia.
Qed.


(** A string literal without escape sequences is accepted exactly if its bytes are well-formed UTF-8, that is,
  the encoding of Unicode scalar values; it is rejected with an I/O error otherwise. *)
Theorem C04_utf8_validation_is_exact : forall (s : settings) (evs : list event) (cs : list rcall) (b : bool) (c : rcall) (os : list outcome) (p : position) (o : outcome)
    (pre body rest : bytes),
  Forall is_byte (fst (supplied evs)) ->
  In c [CNextString; CNextStr] ->
  read_session s evs (cs ++ [CPeek; CPosition b; c]) = os ++ [OOk (RType TString); OOk (RPos p); o] ->
  fst (supplied evs) = pre ++ [0x22] ++ body ++ [0x22] ++ rest -> is_behind p pre ->
  Forall (fun x => 0x20 <= x /\ x <> 0x22 /\ x <> 0x5C) body ->
  (forall v, o = OOk (RStr v) <-> body = encode_utf8 v /\ Forall is_char v) /\
  (~ (exists v, body = encode_utf8 v /\ Forall is_char v) -> exists q, o = OErr (EIo IoInvalidUtf8 q)).
Proof. exact C04_utf8_validation_is_exact_holds. Qed.
Print Assumptions C04_utf8_validation_is_exact.
(** An overlong encoding and a surrogate are rejected *)
Example C04_utf8_validation_case :
  read_session default_settings [EvData [0x5B; 0x22; 0x61; 0xE0; 0x80]; EvData [0xAF; 0x22]] ([CBeginArray] ++ [CPeek; CPosition false; CNextStr]) =
    [OOk RUnit] ++ [OOk (RType TString); OOk (RPos (Position None 0 1 1)); OErr (EIo IoInvalidUtf8 (Position (Some [PIndex 0]) 0 3 3))] /\
  read_session default_settings [EvData [0x5B; 0x22; 0xED; 0xA0; 0x80; 0x22]] ([CBeginArray] ++ [CPeek; CPosition false; CNextString]) =
    [OOk RUnit] ++ [OOk (RType TString); OOk (RPos (Position None 0 1 1)); OErr (EIo IoInvalidUtf8 (Position (Some [PIndex 0]) 0 2 2))] /\
  read_session default_settings [EvData [0x5B; 0x22; 0xED; 0x9F; 0xBF; 0x22]] ([CBeginArray] ++ [CPeek; CPosition false; CNextString]) =
    [OOk RUnit] ++ [OOk (RType TString); OOk (RPos (Position None 0 1 1)); OOk (RStr [0xD7FF])].
Proof. repeat split; vm_compute; reflexivity. Qed.


(** The same for member names, behind a [has_next] call which announces a member. *)
Theorem C05_name_errors : forall (s : settings) (evs : list event) (cs : list rcall) (b : bool) (c : rcall) (os : list outcome) (p : position) (e : reader_error),
  Forall is_byte (fst (supplied evs)) ->
  In c [CNextName; CNextNameOwned; CSkipName] ->
  read_session s evs (cs ++ [CHasNext; CPosition b; c]) = os ++ [OOk (RBool true); OOk (RPos p); OErr e] ->
  exists pre rest t1 F, fst (supplied evs) = pre ++ rest /\ is_behind p pre /\
    literal_string_error rest t1 F /\ reports (snd (supplied evs)) F e /\ is_behind (error_position e) (pre ++ t1).
Proof. exact C05_name_errors_holds. Qed.
Print Assumptions C05_name_errors.
(** A member name with bytes which are not UTF-8 *)
Example C05_name_errors_case :
  read_session default_settings [EvData [0x7B; 0x22; 0x61; 0xC0; 0x80; 0x22]]
    ([CBeginObject] ++ [CHasNext; CPosition false; CSkipName]) =
    [OOk RUnit] ++ [OOk (RBool true); OOk (RPos (Position None 0 1 1)); OErr (EIo IoInvalidUtf8 (Position (Some [PName name_placeholder]) 0 3 3))].
Proof. vm_compute. reflexivity. Qed.


Theorem C05_malformed_names_fail : forall (s : settings) (evs : list event) (cs : list rcall) (b : bool) (c : rcall) (os : list outcome) (p : position) (o : outcome)
    (pre rest t1 : bytes) (F : failure),
  Forall is_byte (fst (supplied evs)) ->
  In c [CNextName; CNextNameOwned; CSkipName] ->
  read_session s evs (cs ++ [CHasNext; CPosition b; c]) = os ++ [OOk (RBool true); OOk (RPos p); o] ->
  fst (supplied evs) = pre ++ rest -> is_behind p pre -> literal_string_error rest t1 F ->
  o = OPanic Misuse \/ exists e, o = OErr e /\ reports (snd (supplied evs)) F e /\ is_behind (error_position e) (pre ++ t1).
Proof. exact C05_malformed_names_fail_holds. Qed.
Print Assumptions C05_malformed_names_fail.
(** The name of the example above has this error; the call panics if names are not expected, as in arrays *)
Example C05_malformed_names_case :
  literal_string_error [0x22; 0x61; 0xC0; 0x80; 0x22] [0x22; 0x61] FUtf8 /\
  read_session default_settings [EvData [0x5B; 0x22; 0x61; 0xC0; 0x80; 0x22]]
    ([CBeginArray] ++ [CHasNext; CPosition false; CSkipName]) =
    [OOk RUnit] ++ [OOk (RBool true); OOk (RPos (Position None 0 1 1)); OPanic Misuse].
Proof.
  split; [|vm_compute; reflexivity]. apply (LSE [0x61] [0x61] [0xC0; 0x80; 0x22]); [exact plain_a|]. apply SE_char. apply UE_malformed; [lia| |].
  - intros (b0 & l & [= <- <-] & Hl & _). vm_compute in Hl. lia.
  - exact not_char_C0.
Qed.


(** Numbers: every error of reading or skipping a number behind a call which announces it is one which its text has. *)
Theorem C03_number_errors : forall (s : settings) (evs : list event) (cs : list rcall) (b : bool) (c : rcall) (os : list outcome) (p : position) (e : reader_error),
  Forall is_byte (fst (supplied evs)) ->
  In c [CNextNumberStr; CNextNumberString; CSkipValue] ->
  read_session s evs (cs ++ [CPeek; CPosition b; c]) = os ++ [OOk (RType TNumber); OOk (RPos p); OErr e] ->
  exists pre rest t1 F, fst (supplied evs) = pre ++ rest /\ is_behind p pre /\
    number_error (snd (supplied evs)) (match c with CSkipValue => false | _ => restrict_number_values s end) rest t1 F /\
    reports (snd (supplied evs)) F e /\ is_behind (error_position e) (pre ++ t1).
Proof. exact C03_number_errors_holds. Qed.
Print Assumptions C03_number_errors.
(** [[1.]] is malformed; [[1.5x]]; the end of the input; an exponent which is too large *)
Example C03_number_errors_case :
  read_session default_settings [EvData [0x5B; 0x31; 0x2E; 0x5D]] ([CBeginArray] ++ [CPeek; CPosition false; CNextNumberStr]) =
    [OOk RUnit] ++ [OOk (RType TNumber); OOk (RPos (Position None 0 1 1)); OErr (ESyntax MalformedNumber (Position (Some [PIndex 0]) 0 1 1))] /\
  read_session default_settings [EvData [0x5B; 0x31; 0x2E; 0x35; 0x78]] ([CBeginArray] ++ [CPeek; CPosition false; CSkipValue]) =
    [OOk RUnit] ++ [OOk (RType TNumber); OOk (RPos (Position None 0 1 1)); OErr (ESyntax TrailingDataAfterNumber (Position (Some [PIndex 0]) 0 4 4))] /\
  read_session default_settings [EvData [0x5B; 0x31; 0x65; 0x31; 0x30; 0x30]] ([CBeginArray] ++ [CPeek; CPosition false; CNextNumberString]) =
    [OOk RUnit] ++ [OOk (RType TNumber); OOk (RPos (Position None 0 1 1));
      OErr (EUnsupportedNumber [0x31; 0x65; 0x31; 0x30; 0x30] (Position (Some [PIndex 0]) 0 1 1))].
Proof. repeat split; vm_compute; reflexivity. Qed.


(** If the text of the number has an error, the call fails with it. *)
Theorem C03_malformed_numbers_fail : forall (s : settings) (evs : list event) (cs : list rcall) (b : bool) (c : rcall) (os : list outcome) (p : position) (o : outcome)
    (pre rest t1 : bytes) (F : failure),
  Forall is_byte (fst (supplied evs)) ->
  In c [CNextNumberStr; CNextNumberString; CSkipValue] ->
  read_session s evs (cs ++ [CPeek; CPosition b; c]) = os ++ [OOk (RType TNumber); OOk (RPos p); o] ->
  fst (supplied evs) = pre ++ rest -> is_behind p pre ->
  number_error (snd (supplied evs)) (match c with CSkipValue => false | _ => restrict_number_values s end) rest t1 F ->
  exists e, o = OErr e /\ reports (snd (supplied evs)) F e /\ is_behind (error_position e) (pre ++ t1).
Proof. exact C03_malformed_numbers_fail_holds. Qed.
Print Assumptions C03_malformed_numbers_fail.
Example C03_malformed_numbers_case :
  number_error TEof true [0x31; 0x2E; 0x35; 0x78] [0x31; 0x2E; 0x35] (FSyntax TrailingDataAfterNumber) /\
  number_error TEof true [0x31; 0x65; 0x31; 0x30; 0x30] [] (FUnsupported [0x31; 0x65; 0x31; 0x30; 0x30]).
Proof.
  split.
  - apply (NE_trailing TEof true [0x31; 0x2E; 0x35] 0x78 []).
    + exact number_1_5.
    + unfold number_char, digit. lia.
    + unfold separator. cbn. lia.
    + reflexivity.
  - apply (NE_unsupported TEof true [0x31; 0x65; 0x31; 0x30; 0x30] []); [exact number_1e100|exact I|reflexivity|reflexivity|reflexivity].
Qed.


(** A number in the document is returned verbatim unless the restriction applies to it. *)
Theorem C03_numbers_are_returned_verbatim : forall (s : settings) (evs : list event) (cs : list rcall) (b : bool) (c : rcall) (os : list outcome) (p : position) (o : outcome)
    (pre n rest : bytes),
  Forall is_byte (fst (supplied evs)) ->
  In c [CNextNumberStr; CNextNumberString] ->
  read_session s evs (cs ++ [CPeek; CPosition b; c]) = os ++ [OOk (RType TNumber); OOk (RPos p); o] ->
  fst (supplied evs) = pre ++ n ++ rest -> is_behind p pre ->
  number_text n -> match rest with [] => snd (supplied evs) = TEof | x :: _ => separator x end ->
  (restrict_number_values s = true -> unsupported_number n = false) ->
  o = OOk (RStr n).
Proof. exact C03_numbers_are_returned_verbatim_holds. Qed.
Print Assumptions C03_numbers_are_returned_verbatim.
(** The restriction: more than two digits of the exponent (leading zeros do not count), more than 100 bytes *)
Example C03_numbers_case :
  read_session default_settings [EvData [0x5B; 0x31; 0x65]; EvData [0x30; 0x30; 0x30; 0x39; 0x39; 0x5D]] ([CBeginArray] ++ [CPeek; CPosition false; CNextNumberStr]) =
    [OOk RUnit] ++ [OOk (RType TNumber); OOk (RPos (Position None 0 1 1)); OOk (RStr [0x31; 0x65; 0x30; 0x30; 0x30; 0x39; 0x39])] /\
  unsupported_number [0x31; 0x65; 0x30; 0x30; 0x30; 0x39; 0x39] = false /\
  unsupported_number [0x31; 0x65; 0x31; 0x30; 0x30] = true.
Proof. repeat split; vm_compute; reflexivity. Qed.


(** Structure: if looking for the next element fails, the error is one which the remaining input has at the spot
  where the reader is.  This spot is known from the results of the earlier calls alone. *)
Theorem C35_structure_errors : forall (s : settings) (evs : list event) (cs : list rcall) (b : bool) (q : rcall) (os : list outcome) (p : position) (e : reader_error)
    (open : list bool) (pl : place),
  Forall is_byte (fst (supplied evs)) ->
  q = CPeek \/ q = CHasNext ->
  read_session s evs (cs ++ [CPosition b; q]) = os ++ [OOk (RPos p); OErr e] ->
  recoverable e = false ->
  spot_behind cs os first_spot = Some (open, pl) ->
  exists pre rest t1 F, fst (supplied evs) = pre ++ rest /\ is_behind p pre /\
    next_error (snd (supplied evs)) (Syntax (allow_comments s) (allow_trailing_comma s)) pl rest t1 F /\
    reports (snd (supplied evs)) F e /\ is_behind (error_position e) (pre ++ t1).
Proof. exact C35_structure_errors_holds. Qed.
Print Assumptions C35_structure_errors.
(** [[1 2]], [[1,]] and [{"a" 1}] *)
Example C35_structure_errors_case :
  let cs := [CBeginArray; CNextNumberStr] in
  let os := [OOk RUnit; OOk (RStr [0x31])] in
  spot_behind cs os first_spot = Some ([true], AtItem false) /\
  read_session default_settings [EvData [0x5B; 0x31; 0x20; 0x32; 0x5D]] (cs ++ [CPosition false; CPeek]) =
    os ++ [OOk (RPos (Position None 0 2 2)); OErr (ESyntax MissingComma (Position (Some [PIndex 1]) 0 3 3))] /\
  read_session default_settings [EvData [0x5B; 0x31; 0x2C; 0x5D]] (cs ++ [CPosition false; CHasNext]) =
    os ++ [OOk (RPos (Position None 0 2 2)); OErr (ESyntax TrailingCommaNotEnabled (Position (Some [PIndex 1]) 0 2 2))] /\
  spot_behind [CBeginObject; CSkipName] [OOk RUnit; OOk RUnit] first_spot = Some ([false], AtMember) /\
  read_session default_settings [EvData [0x7B; 0x22; 0x61; 0x22; 0x20; 0x31; 0x7D]] ([CBeginObject; CSkipName] ++ [CPosition false; CPeek]) =
    [OOk RUnit; OOk RUnit] ++ [OOk (RPos (Position None 0 4 4)); OErr (ESyntax MissingColon (Position (Some [PName [0x61]]) 0 5 5))].
Proof. repeat split; vm_compute; reflexivity. Qed.


(** Behind a call which reads an element, [consume_trailing_whitespace] only fails if the whitespace and comments
  which follow are malformed or if something else follows. *)
Theorem C32_trailing_data_errors : forall (s : settings) (evs : list event) (cs : list rcall) (b : bool) (c : rcall) (os : list outcome) (v : rvalue) (p : position) (e : reader_error),
  Forall is_byte (fst (supplied evs)) ->
  In c [CEndArray; CEndObject; CNextString; CNextStr; CNextNumberStr; CNextNumberString; CNextBool; CNextNull] ->
  read_session s evs (cs ++ [c; CPosition b; CConsumeTrailingWhitespace]) = os ++ [OOk v; OOk (RPos p); OErr e] ->
  exists pre rest t1 F, fst (supplied evs) = pre ++ rest /\ is_behind p pre /\
    (let sx := Syntax (allow_comments s) (allow_trailing_comma s) in
     ws_error sx None rest t1 F \/
     ws_text sx t1 /\ F = FSyntax TrailingData /\ exists x, rest = t1 ++ x /\ token_start x) /\
    reports (snd (supplied evs)) F e /\ is_behind (error_position e) (pre ++ t1).
Proof. exact C32_trailing_data_errors_holds. Qed.
Print Assumptions C32_trailing_data_errors.
(** [1 2] *)
Example C32_trailing_data_errors_case :
  read_session default_settings [EvData [0x31; 0x20; 0x32]] ([] ++ [CNextNumberStr; CPosition false; CConsumeTrailingWhitespace]) =
    [] ++ [OOk (RStr [0x31]); OOk (RPos (Position None 0 1 1)); OErr (ESyntax TrailingData (Position (Some []) 0 2 2))].
Proof. vm_compute. reflexivity. Qed.


(** C08 (reader): when a read on a string value reader has failed, every later read on it fails too, without any data;
  and every call of the JSON reader which would read or skip something panics: the string cannot be left. *)
Theorem C08_string_reader_errors_sticky : forall (s : settings) (evs : list event) (cs : list rcall) (len : nat) (os : list outcome) (e : ReaderModel.sv_read_error) (lens : list nat),
  Forall is_byte (fst (supplied evs)) ->
  read_session s evs (cs ++ [CRead len]) = os ++ [OReadErr e] ->
  let failed := os ++ OReadErr e :: map (fun _ => OReadErr SvPreviousError) lens in
  read_session s evs (cs ++ CRead len :: map CRead lens) = failed /\
  forall c, (forall n, c <> CRead n) -> (forall b, c <> CPosition b) -> c <> CSeekBack [] ->
    read_session s evs (cs ++ CRead len :: map CRead lens ++ [c]) = failed ++ [OPanic Misuse].
Proof. exact C08_string_reader_errors_sticky_holds. Qed.
Print Assumptions C08_string_reader_errors_sticky.
(** ["a\x"], read in pieces *)
Example C08_reader_case :
  let evs := [EvData [0x22; 0x61; 0x5C; 0x78; 0x22]] in
  read_session default_settings evs ([CNextStringReader; CRead 1] ++ [CRead 2]) =
    [OOk RUnit; OOk (RBytes [0x61])] ++ [OReadErr (SvError (ESyntax UnknownEscapeSequence (Position (Some []) 0 2 2)))] /\
  read_session default_settings evs ([CNextStringReader; CRead 1] ++ CRead 2 :: map CRead [0; 5]%nat ++ [CSkipToTopLevel]) =
    [OOk RUnit; OOk (RBytes [0x61]); OReadErr (SvError (ESyntax UnknownEscapeSequence (Position (Some []) 0 2 2)));
     OReadErr SvPreviousError; OReadErr SvPreviousError; OPanic Misuse].
Proof. repeat split; vm_compute; reflexivity. Qed.

