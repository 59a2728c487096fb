(** * Proofs of the property theorems about the bounds of positions *)

From Coq Require Import ZArith.
From Verif Require Import Base Utf8Model SourceModel SourceProofs ReaderModel SpecText SpecPositions SpecCost CostProofs CostFinal PosReader ReaderLex ReaderMid ReaderSess ReaderSafe ReaderOut.


Lemma session_positions m s evs cs o q : Forall is_byte (fst (supplied evs)) ->
  In o (read_session s evs cs) -> reported_position o = Some q ->
  (pos_size m q <= Z.of_nat (length (fst (supplied evs))))%Z.
Proof.
  intros Hb Hi Hq. destruct (session_runs s evs cs Hb) as (os & st' & a' & Hrun).
  unfold session_program in Hrun. destruct (refines _ _ _ _ _ (rel_new evs) Hrun) as (c1 & Hc1 & _).
  unfold read_session in Hi. rewrite Hc1 in Hi.
  assert (H0 : (size m (s_state (session_new s)) <= 0)%Z)
    by (unfold session_new, rstate_new, size, pending; destruct m; cbn; try lia; destruct (track_path s); cbn; lia).
  destruct (reach_sound _ _ _ _ _ _ (client_calls_fit m _ cs (session_new s) 0%Z H0) Hrun) as [_ H].
  specialize (H o q Hi Hq). pose proof (rlen_nonneg a').
  change (rlen (asrc_new (fst (supplied evs)) (snd (supplied evs)))) with (Z.of_nat (length (fst (supplied evs)))) in H. lia.
Qed.


Lemma C51_positions_are_within_the_input_holds : forall (s : settings) (evs : list event) (cs : list rcall) (o : outcome) (p : position), Forall is_byte (fst (supplied evs)) ->
  In o (read_session s evs cs) -> reported_position o = Some p ->
  p_byte p <= N.of_nat (length (fst (supplied evs))) /\
  p_line p + p_column p <= N.of_nat (length (fst (supplied evs))) /\
  forall path, p_path p = Some path -> path_size path <= N.of_nat (length (fst (supplied evs))).
Proof.
  intros s evs cs o p Hb Hi Hq.
  pose proof (session_positions MBytes s evs cs o p Hb Hi Hq) as H1.
  pose proof (session_positions MColumns s evs cs o p Hb Hi Hq) as H2.
  pose proof (session_positions MPath s evs cs o p Hb Hi Hq) as H3.
  cbn [pos_size] in *. split; [lia|]. split; [lia|]. intros path Hp. rewrite Hp in H3. lia.
Qed.
