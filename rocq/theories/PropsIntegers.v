(** * Properties of integers (C57) *)

From Coq Require Import String.
From Verif Require Import Base Utf8Model SpecNumber SpecJson WriterModel SpecWriter SourceModel ReaderModel SpecCursor SpecRead DeModel SpecDe
  IntegersModel SpecIntegers IntegersFinal PropsWriter.
Local Open Scope list_scope.


(** C57: whatever the input is, if [next_number] for an integer type returns a number, it is the integer
  which the text in the document denotes, and it fails to parse a number exactly if the number is no integer
  (written without fraction and exponent) or does not fit into the type. *)
Theorem C57_next_number_is_exact : forall (s : settings) (evs : list event) (cs1 cs2 : list icall) (t : int_type),
  Forall is_byte (fst (supplied evs)) ->
  exists os1 os2 o, integer_session s evs (cs1 ++ INextNumber t :: cs2) = os1 ++ o :: os2 /\ length os1 = length cs1 /\
    match o with
    | IParsed r => exists text, number_text text /\
        nth_error (read_session s evs (map reader_call (cs1 ++ INextNumber t :: cs2))) (length cs1) = Some (OOk (RStr text)) /\
        forall z, r = Some z <-> integer_text t text z /\ int_fits t z
    | IOut o' => forall v, o' <> OOk v
    end.
Proof. exact C57_next_number_is_exact_holds. Qed.
Print Assumptions C57_next_number_is_exact.
(** C57: for a valid document, every call of [next_number] for an integer type, in any sequence of calls, returns the integer at the spot where the
  reader is; the other calls have the results which they have otherwise. *)
Theorem C57_integers_of_a_document : forall (s : settings) (vs : list json) (evs : list event) (cs : list icall), document_input s vs evs ->
  Forall2 (is_integer_result s) (combine cs (fst (walk_calls s (map reader_call cs) (AtCursor (cursor_start vs))))) (integer_session s evs cs).
Proof. exact C57_integers_of_a_document_holds. Qed.
Print Assumptions C57_integers_of_a_document.
(** C57: an array of integers of any types, written with any settings to any sink which does not fail, is read back exactly by [next_number]:
  the i-th item as a value of any integer type, or as error if it does not fit into this type. *)
Theorem C57_written_integers_read_back : forall (cfg : wsettings) (out : sink) (zs : list Z) (ts : list int_type) (s : settings) (evs : list event),
  Forall (fun z => exists t, int_fits t z) zs -> length ts = length zs ->
  received out = [] -> reliable out -> multi_top_level cfg = false -> allow_multiple_top_level s = false ->
  within_limit s [JArr []] ->
  exists rs ws out', wrun cfg ([WriterModel.CBeginArray] ++ map CNumber zs ++ [WriterModel.CEndArray]) (new_session out) = (rs, ws) /\
    Forall (eq RDone) rs /\ wfinish ws = (RDone, out') /\
    (supplied evs = (received out', TEof) ->
     exists rs', integer_session s evs ([IRead ReaderModel.CBeginArray] ++ map INextNumber ts ++ [IRead ReaderModel.CEndArray; IRead CConsumeTrailingWhitespace]) =
         [IOut (OOk RUnit)] ++ map IParsed rs' ++ [IOut (OOk RUnit); IOut (OOk RUnit)] /\
       Forall2 (fun tz r => forall z, r = Some z <-> z = snd tz /\ int_fits (fst tz) z) (combine ts zs) rs').
Proof. exact C57_written_integers_read_back_holds. Qed.
Print Assumptions C57_written_integers_read_back.
Example C57_case :
  let zs := [0; -1; 127; 128; 18446744073709551615; -170141183460469231731687303715884105728]%Z in
  let ts := [U8; U8; I8; I8; U64; I128] in
  let (rs, ws) := wrun compact_cfg ([WriterModel.CBeginArray] ++ map CNumber zs ++ [WriterModel.CEndArray]) (new_session slow_sink) in
  let (r, out') := wfinish ws in
  r = RDone /\
  integer_session default_settings [EvData (received out')]
    ([IRead ReaderModel.CBeginArray] ++ map INextNumber ts ++ [IRead ReaderModel.CEndArray; IRead CConsumeTrailingWhitespace]) =
    [IOut (OOk RUnit); IParsed (Some 0%Z); IParsed None; IParsed (Some 127%Z); IParsed None; IParsed (Some 18446744073709551615%Z);
     IParsed (Some (-170141183460469231731687303715884105728)%Z); IOut (OOk RUnit); IOut (OOk RUnit)].
Proof. vm_compute. auto. Qed.
(** No integers, although they have an integral value; and minus zero *)
Example C57_other_numbers_case :
  integer_session default_settings [EvData (bytes_of_string "[1.0, 1e1, -0, -0, true]"%string)]
    ([IRead ReaderModel.CBeginArray] ++ map INextNumber [I32; I32; I32; U32; U32]) =
  [IOut (OOk RUnit); IParsed None; IParsed None; IParsed (Some 0%Z); IParsed None;
   IOut (OErr (EUnexpectedType TNumber TBoolean (Position (Some [PIndex 4]) 0 19 19)))].
Proof. vm_compute. reflexivity. Qed.

(** C57: a writer which uses [as_u64] and [as_i64] gets the integer itself, exactly if it is one of the type; one of the two
  succeeds unless the integer is outside both. *)
Theorem C57_conversions_are_exact : forall z z' : Z,
  (as_u64 z = Some z' <-> z' = z /\ 0 <= z < 2 ^ 64)%Z /\
  (as_i64 z = Some z' <-> z' = z /\ - 2 ^ 63 <= z < 2 ^ 63)%Z.
Proof. exact C57_conversions_are_exact_holds. Qed.
Print Assumptions C57_conversions_are_exact.
Example C57_conversions_case :
  as_u64 18446744073709551615 = Some 18446744073709551615%Z /\ as_u64 18446744073709551616 = None /\ as_u64 (-1) = None /\
  as_i64 (-9223372036854775808) = Some (-9223372036854775808)%Z /\ as_i64 9223372036854775808 = None.
Proof. vm_compute. auto. Qed.

