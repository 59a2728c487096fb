(** * Properties of reading: the bounds of positions (C51) *)

From Verif Require Import Base Utf8Model SourceModel ReaderModel SpecText SpecPositions PosFinal.


(** C51: the position which a call reports, also in an error, does not exceed the input: the byte position, the sum of line and
column, and the sum of the indices on the path and their number are at most the number of bytes the source supplies.  This
holds for every program, every input, valid or not, and every source.  So for inputs of less than 2^32 bytes the counters
([u64] for the position, [u32] for the indices) do not overflow, and the unbounded ones of the model are no restriction. *)
Theorem C51_positions_are_within_the_input : forall (s : settings) (evs : list event) (cs : list rcall) (o : outcome) (p : position), Forall is_byte (fst (supplied evs)) ->
  In o (read_session s evs cs) -> reported_position o = Some p ->
  p_byte p <= N.of_nat (length (fst (supplied evs))) /\
  p_line p + p_column p <= N.of_nat (length (fst (supplied evs))) /\
  forall path, p_path p = Some path -> path_size path <= N.of_nat (length (fst (supplied evs))).
Proof. exact C51_positions_are_within_the_input_holds. Qed.
Print Assumptions C51_positions_are_within_the_input.
(** [[1,[2,3]: a position at the end of the input, and a call which fails there *)
Example C51_case :
  let evs := [EvData [0x5B; 0x31; 0x2C; 0x5B; 0x32; 0x2C; 0x33]] in
  let os := read_session default_settings evs [CBeginArray; CSkipValue; CBeginArray; CNextNumberStr; CNextNumberStr; CPosition true; CEndArray] in
  map reported_position os =
    [None; None; None; None; None; Some (Position (Some [PIndex 1; PIndex 2]) 0 7 7);
     Some (Position (Some [PIndex 1; PIndex 2]) 0 7 7)] /\
  length (fst (supplied evs)) = 7%nat /\ path_size [PIndex 1; PIndex 2] = 5.
Proof. vm_compute. auto. Qed.

