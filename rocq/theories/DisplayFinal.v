(** * Proofs of the property theorems about the texts of positions and errors *)

From Coq Require Import String.
From Verif Require Import Base Utf8Model SpecNumber WriterModel SourceModel ReaderModel SpecText SpecErrors SpecRead DisplayModel SpecDisplay DisplayProofs PropsReader5.
Local Open Scope list_scope.


Lemma C56_position_text_holds : forall l1 l2 : location, location_text l1 = location_text l2 ->
  l_line_pos l1 = l_line_pos l2 /\ l_data_pos l1 = l_data_pos l2 /\
  option_map path_text (l_path l1) = option_map path_text (l_path l2).
Proof.
  exact location_fields.
Qed.

Lemma C56_plain_position_text_holds : forall l1 l2 : location, plain_location l1 -> plain_location l2 -> location_text l1 = location_text l2 -> l1 = l2.
Proof.
  exact location_inj.
Qed.

Lemma C56_error_text_holds : forall (io1 io2 : io_error -> str) (e1 e2 : reader_error), proper_error e1 -> proper_error e2 ->
  error_text io1 e1 = error_text io2 e2 ->
  same_problem e1 e2 /\ same_place (error_location e1) (error_location e2).
Proof.
  intros io1 io2 e1 e2 P1 P2 E. split; [exact (error_problem io1 io2 e1 e2 P1 P2 E)|exact (error_place io1 io2 e1 e2 E)].
Qed.

Lemma C56_plain_error_text_holds : forall (io1 io2 : io_error -> str) (e1 e2 : reader_error),
  proper_error e1 -> proper_error e2 -> plain_error e1 -> plain_error e2 ->
  error_text io1 e1 = error_text io2 e2 -> e1 = e2.
Proof.
  exact error_inj.
Qed.

Lemma C56_number_errors_are_proper_holds : forall (s : settings) (evs : list event) (cs : list rcall) (b : bool) (c : rcall) (os : list outcome) (p : position) (e : reader_error),
  Forall is_byte (fst (supplied evs)) ->
  In c [CNextNumberStr; CNextNumberString; CSkipValue] ->
  read_session s evs (cs ++ [CPeek; CPosition b; c]) = os ++ [OOk (RType TNumber); OOk (RPos p); OErr e] ->
  proper_error e.
Proof.
  intros s evs cs b c os p e Hb Hc E.
  destruct (C03_number_errors s evs cs b c os p e Hb Hc E) as (pre & rest & t1 & F & _ & _ & HF & HR & _).
  destruct e; try exact I. destruct HF; cbn in HR; try contradiction; try (destruct (snd (supplied evs)); contradiction). subst. assumption.
Qed.

Lemma C56_error_path_refuted_holds : exists (evs1 evs2 : list event) (cs1 cs2 : list rcall) (os1 os2 : list outcome) (e1 e2 : reader_error),
  read_session default_settings evs1 cs1 = os1 ++ [OErr e1] /\
  read_session default_settings evs2 cs2 = os2 ++ [OErr e2] /\
  p_path (error_location e1) = Some [PName (text "a.b")] /\
  p_path (error_location e2) = Some [PName (text "a"); PName (text "b")] /\
  forall io, error_text io e1 = error_text io e2.
Proof.
  exists [EvData (text "{""a.b"":   x")], [EvData (text "{""a"":{""b"":x")].
  exists [CBeginObject; CSkipName; CPeek], [CBeginObject; CSkipName; CBeginObject; CSkipName; CPeek].
  exists [OOk RUnit; OOk RUnit], [OOk RUnit; OOk RUnit; OOk RUnit; OOk RUnit].
  exists (ESyntax MalformedJson (Position (Some [PName (text "a.b")]) 0 10 10)), (ESyntax MalformedJson (Position (Some [PName (text "a"); PName (text "b")]) 0 10 10)).
  apply conj; [vm_compute; reflexivity|]. apply conj; [vm_compute; reflexivity|]. apply conj; [reflexivity|]. apply conj; [reflexivity|].
  intros io. vm_compute. reflexivity.
Qed.
