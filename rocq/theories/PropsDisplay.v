(** * Properties of the texts of positions and errors (C56) *)

From Coq Require Import String.
From Verif Require Import Base Utf8Model SpecNumber WriterModel SourceModel ReaderModel SpecText SpecErrors SpecRead DisplayModel SpecDisplay DisplayFinal.
Local Open Scope list_scope.


(** C56: the text of a position tells which of its parts are known, the line, the column and the position of the data,
  and the path, as text, however the members are named. *)
Theorem C56_position_text : forall l1 l2 : location, location_text l1 = location_text l2 ->
  l_line_pos l1 = l_line_pos l2 /\ l_data_pos l1 = l_data_pos l2 /\
  option_map path_text (l_path l1) = option_map path_text (l_path l2).
Proof. exact C56_position_text_holds. Qed.
Print Assumptions C56_position_text.
(** The names can imitate the rest of the text: two positions whose texts begin alike *)
Example C56_position_text_case :
  location_text (Location (Some [PName (text "a', line 1, column 2")]) (Some (3, 4)) None) =
    text "path '$.a', line 1, column 2', line 3, column 4" /\
  location_text (Location (Some [PName (text "a")]) (Some (1, 2)) (Some 2)) = text "path '$.a', line 1, column 2 (data pos 2)" /\
  location_text unknown_position = text "<location unavailable>".
Proof. repeat split; vm_compute; reflexivity. Qed.
(** test_format_abs_json_path, src/reader/mod.rs:136-168 *)
Example test_format_abs_json_path :
  path_text [] = text "$" /\
  path_text [PIndex 2] = text "$[2]" /\
  path_text [PIndex 2; PIndex 3] = text "$[2][3]" /\
  path_text [PIndex 2; PName (text "a")] = text "$[2].a" /\
  path_text [PName (text "a")] = text "$.a" /\
  path_text [PName (text "a"); PName (text "b")] = text "$.a.b" /\
  path_text [PName (text "a"); PIndex 2] = text "$.a[2]".
Proof. repeat split; vm_compute; reflexivity. Qed.
(** json_reader_location_display, src/reader/mod.rs:1905-1947 *)
Example test_json_reader_location_display :
  let path := Some [PIndex 1; PName (text "name")] in
  let line_pos := Some (1, 2) in
  let data_pos := Some 3 in
  location_text (Location None None None) = text "<location unavailable>" /\
  location_text (Location None None data_pos) = text "data pos 3" /\
  location_text (Location None line_pos None) = text "line 1, column 2" /\
  location_text (Location None line_pos data_pos) = text "line 1, column 2 (data pos 3)" /\
  location_text (Location path None None) = text "path '$[1].name'" /\
  location_text (Location path None data_pos) = text "path '$[1].name', data pos 3" /\
  location_text (Location path line_pos None) = text "path '$[1].name', line 1, column 2" /\
  location_text (Location path line_pos data_pos) = text "path '$[1].name', line 1, column 2 (data pos 3)".
Proof. repeat split; vm_compute; reflexivity. Qed.


(** If the names contain neither dots, nor opening brackets, nor double quotes, the text determines the whole position. *)
Theorem C56_plain_position_text : forall l1 l2 : location, plain_location l1 -> plain_location l2 -> location_text l1 = location_text l2 -> l1 = l2.
Proof. exact C56_plain_position_text_holds. Qed.
Print Assumptions C56_plain_position_text.
Example C56_plain_position_case :
  let l := Location (Some [PName (text "it's"); PIndex 10]) (Some (0, 12)) (Some 12) in
  plain_location l /\ location_text l = text "path '$.it's[10]', line 0, column 12 (data pos 12)".
Proof.
  split; [|vm_compute; reflexivity].
  constructor; [unfold plain_name; cbn; repeat (constructor; [lia|]); constructor|]. constructor; [exact I|constructor].
Qed.


(** The text of an error tells the kind of the error, the types, the limit and the number which it is about, and the
  line, the column and the byte.  Nothing which is quoted in the text, the names of members, the text of an IO error,
  can hide that. *)
Theorem C56_error_text : forall (io1 io2 : io_error -> str) (e1 e2 : reader_error), proper_error e1 -> proper_error e2 ->
  error_text io1 e1 = error_text io2 e2 ->
  same_problem e1 e2 /\ same_place (error_location e1) (error_location e2).
Proof. exact C56_error_text_holds. Qed.
Print Assumptions C56_error_text.
(** A source whose message imitates another error *)
Example C56_error_text_case :
  let p := Position (Some [PName (text "a")]) 0 7 7 in
  error_text (fun _ => text "x' at (roughly) path '$', line 1, column 2 (data pos 9)") (EIo (IoSource 7) p) =
    text "IO error 'x' at (roughly) path '$', line 1, column 2 (data pos 9)' at (roughly) path '$.a', line 0, column 7 (data pos 7)" /\
  error_text (fun _ => []) (EUnexpectedType TArray TNull p) =
    text "expected JSON value type Array but got Null at path '$.a', line 0, column 7 (data pos 7)" /\
  error_text (fun _ => []) (EMaxNestingDepth 128 p) =
    text "maximum nesting depth 128 exceeded at path '$.a', line 0, column 7 (data pos 7)".
Proof. repeat split; vm_compute; reflexivity. Qed.
(** unexpected_structure_kind_display, src/reader/mod.rs:1951-1976 *)
Example test_unexpected_structure_kind_display :
  structure_error_text (TooShortArray 2) = text "TooShortArray(expected_index = 2)" /\
  structure_error_text (MissingObjectMember (text "custom-name")) = text "MissingObjectMember(""custom-name"")" /\
  structure_error_text FewerElementsThanExpected = text "FewerElementsThanExpected" /\
  structure_error_text MoreElementsThanExpected = text "MoreElementsThanExpected".
Proof. repeat split; vm_compute; reflexivity. Qed.


(** If the names contain neither dots, nor opening brackets, nor double quotes, the text of an error, unless it is an IO error,
  determines the whole error. *)
Theorem C56_plain_error_text : forall (io1 io2 : io_error -> str) (e1 e2 : reader_error),
  proper_error e1 -> proper_error e2 -> plain_error e1 -> plain_error e2 ->
  error_text io1 e1 = error_text io2 e2 -> e1 = e2.
Proof. exact C56_plain_error_text_holds. Qed.
Print Assumptions C56_plain_error_text.
Example C56_plain_error_case :
  let e := EUnexpectedStructure (MissingObjectMember (text "b c")) (Position (Some [PName (text "a")]) 0 7 7) in
  proper_error e /\ plain_error e /\
  error_text (fun _ => []) e = text "unexpected JSON structure MissingObjectMember(""b c"") at path '$.a', line 0, column 7 (data pos 7)".
Proof.
  split; [exact I|]. split; [|vm_compute; reflexivity].
  split; [|cbn; unfold plain_name; repeat (constructor; [lia|]); constructor].
  constructor; [unfold plain_name; cbn; repeat (constructor; [lia|]); constructor|constructor].
Qed.


(** The hypothesis about errors for numbers is met: the errors of the calls which read and skip numbers. *)
Theorem C56_number_errors_are_proper : forall (s : settings) (evs : list event) (cs : list rcall) (b : bool) (c : rcall) (os : list outcome) (p : position) (e : reader_error),
  Forall is_byte (fst (supplied evs)) ->
  In c [CNextNumberStr; CNextNumberString; CSkipValue] ->
  read_session s evs (cs ++ [CPeek; CPosition b; c]) = os ++ [OOk (RType TNumber); OOk (RPos p); OErr e] ->
  proper_error e.
Proof. exact C56_number_errors_are_proper_holds. Qed.
Print Assumptions C56_number_errors_are_proper.
Example C56_number_errors_case :
  read_session default_settings [EvData (text "[1e100]")] ([CBeginArray] ++ [CPeek; CPosition false; CNextNumberStr]) =
    [OOk RUnit] ++ [OOk (RType TNumber); OOk (RPos (Position None 0 1 1));
      OErr (EUnsupportedNumber (text "1e100") (Position (Some [PIndex 0]) 0 1 1))] /\
  error_text (fun _ => []) (EUnsupportedNumber (text "1e100") (Position (Some [PIndex 0]) 0 1 1)) =
    text "unsupported number value '1e100' at path '$[0]', line 0, column 1 (data pos 1)".
Proof. split; vm_compute; reflexivity. Qed.


(** For arbitrary names the path cannot be told from the text of an error: [{"a.b":   x] and [{"a":{"b":x] fail with
  different errors which have the same text. *)
Theorem C56_error_path_refuted : exists (evs1 evs2 : list event) (cs1 cs2 : list rcall) (os1 os2 : list outcome) (e1 e2 : reader_error),
  read_session default_settings evs1 cs1 = os1 ++ [OErr e1] /\
  read_session default_settings evs2 cs2 = os2 ++ [OErr e2] /\
  p_path (error_location e1) = Some [PName (text "a.b")] /\
  p_path (error_location e2) = Some [PName (text "a"); PName (text "b")] /\
  forall io, error_text io e1 = error_text io e2.
Proof. exact C56_error_path_refuted_holds. Qed.
Print Assumptions C56_error_path_refuted.
