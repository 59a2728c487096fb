(** * Properties of reading: the end of several top-level values (C32) *)

From Verif Require Import Base Utf8Model SpecNumber SpecJson SourceModel ReaderModel SpecCursor SpecRead SeveralFinal PropsReader.

(** C32, several top-level values: behind a call which has read or skipped an element, so that nothing has been peeked,
[consume_trailing_whitespace] succeeds exactly if the input is a sequence of top-level values and all of them have
been consumed.  (After [has_next] or [peek] this is false, see C32_refuted_after_has_next.) *)
Theorem C32_exactly_at_the_end_of_several_values : forall (s : settings) (evs : list event) (cs : list rcall) (c : rcall) (os : list outcome) (v : rvalue) (o : outcome),
  Forall is_byte (fst (supplied evs)) -> allow_multiple_top_level s = true ->
  In c [CEndArray; CEndObject; CNextString; CNextStr; CNextNumberStr; CNextNumberString; CNextBool; CNextNull] \/ c = CSkipValue ->
  read_session s evs (cs ++ [c; CConsumeTrailingWhitespace]) = os ++ [OOk v; o] ->
  (o = OOk RUnit <->
   exists vs cur, document_input s vs evs /\
     snd (walk_calls s (cs ++ [c]) (AtCursor (cursor_start vs))) = AtCursor cur /\
     frames cur = [] /\ top cur = [] /\ started cur = true /\ is_reading cur = false).
Proof. exact C32_exactly_at_the_end_of_several_values_holds. Qed.
Print Assumptions C32_exactly_at_the_end_of_several_values.
(** [1 2 ]: behind both values and behind the first one *)
Example C32_several_case :
  let evs := [EvData [0x31; 0x20; 0x32; 0x20]] in
  read_session multi_settings evs ([CNextNumberStr] ++ [CNextNumberStr; CConsumeTrailingWhitespace]) =
    [OOk (RStr [0x31])] ++ [OOk (RStr [0x32]); OOk RUnit] /\
  exists l, read_session multi_settings evs ([] ++ [CNextNumberStr; CConsumeTrailingWhitespace]) =
    [] ++ [OOk (RStr [0x31]); OErr (ESyntax TrailingData l)].
Proof. split; [vm_compute; reflexivity|]. eexists. vm_compute. reflexivity. Qed.

