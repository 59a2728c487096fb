(** * Proofs of the property theorems about the cost of reading *)

From Coq Require Import ZArith.
From Verif Require Import Base Utf8Model SourceModel SourceProofs ReaderModel SpecCost CostProofs CostReader ReaderLex ReaderMid ReaderSess ReaderSafe ReaderOut.


Lemma session_runs s evs cs : Forall is_byte (fst (supplied evs)) ->
  exists os st' a', arun (session_program s evs cs) (asrc_new (fst (supplied evs)) (snd (supplied evs))) = Some ((os, st'), a').
Proof.
  intros Hb. destruct (session_agree s evs cs (session_no_bug s evs cs Hb)) as (os & st' & a' & Hrun & _). eauto.
Qed.

Lemma rlen_nonneg a : (0 <= rlen a)%Z.
Proof. unfold rlen. lia. Qed.

(** The calls of a program are the first ones, and then the others *)
Lemma client_calls_app E cs1 cs2 : forall st a os st' a', arun (client_calls E (cs1 ++ cs2) st) a = Some ((os, st'), a') ->
  exists os1 st1 a1 os2, arun (client_calls E cs1 st) a = Some ((os1, st1), a1) /\
    arun (client_calls E cs2 st1) a1 = Some ((os2, st'), a') /\
    acost (client_calls E (cs1 ++ cs2) st) a = (acost (client_calls E cs1 st) a + acost (client_calls E cs2 st1) a1)%Z.
Proof.
  induction cs1 as [|c cs1 IH]; intros st a os st' a' H; cbn [app client_calls] in *.
  - exists [], st, a, os. split; [reflexivity|]. split; [exact H|]. cbn [acost]. lia.
  - rewrite arun_bind in H. destruct (arun (client_call E c st) a) as [[[o st0] a0]|] eqn:E0; [|discriminate].
    cbn [fst snd] in H. rewrite arun_bind in H.
    destruct (arun (client_calls E (cs1 ++ cs2) st0) a0) as [[[os0 st2] a2]|] eqn:E1; [|discriminate].
    cbn [arun fst snd] in H. injection H as <- <- <-.
    destruct (IH _ _ _ _ _ E1) as (os1 & st1 & a1 & os2 & H1 & H2 & H3).
    eexists (o :: os1), st1, a1, os2. split; [|split; [exact H2|]].
    + rewrite arun_bind, E0. cbn [fst snd]. rewrite arun_bind, H1. reflexivity.
    + rewrite (acost_bind _ _ _ _ _ E0), (acost_bind (client_call E c st) _ _ _ _ E0). cbn [fst snd].
      rewrite (acost_bind _ _ _ _ _ E1), (acost_bind _ _ _ _ _ H1). cbn [acost]. lia.
Qed.

Lemma rel_unread c a : rel_ok c a -> unread c = a_rest a.
Proof.
  intros R. unfold unread. destruct (c_eof c) eqn:Ee.
  - destruct (ro_eof _ _ R Ee) as (-> & Hp & _). rewrite Hp, skipn_all. reflexivity.
  - destruct (ro_data _ _ R Ee) as (-> & _). reflexivity.
Qed.


Lemma C36_every_call_terminates_holds : forall (s : settings) (evs : list event) (cs : list rcall) (o : outcome), Forall is_byte (fst (supplied evs)) ->
  In o (read_session s evs cs) -> o <> OFuel.
Proof.
  intros s evs cs o Hb Hi. pose proof (session_sane s evs cs Hb) as H. rewrite Forall_forall in H. apply (H o Hi).
Qed.

Lemma C36_operations_of_a_call_holds : forall (s : settings) (evs : list event) (cs : list rcall) (c : rcall), Forall is_byte (fst (supplied evs)) ->
  session_operations s evs (cs ++ [c]) <=
    session_operations s evs cs + 24 * N.of_nat (length (session_unread s evs cs)) + 31.
Proof.
  intros s evs cs c Hb. destruct (session_runs s evs (cs ++ [c]) Hb) as (os & st' & a' & Hrun).
  unfold session_operations, session_unread, session_program in *. set (E := Env s _) in *.
  pose proof (operations_acost _ _ _ _ _ (rel_new evs) Hrun) as Hop.
  destruct (client_calls_app _ _ _ _ _ _ _ _ Hrun) as (os1 & st1 & a1 & os2 & H1 & H2 & H3).
  pose proof (operations_acost _ _ _ _ _ (rel_new evs) H1) as Hop1.
  destruct (refines _ _ _ _ _ (rel_new evs) H1) as (c1 & Hc1 & R1). rewrite Hc1.
  assert (Hlast : (acost (client_calls E [c] st1) a1 <= 24 * Z.of_nat (length (unread c1)) + 31)%Z).
  { destruct R1 as [Hf|R1].
    - rewrite (acost_failed _ _ _ _ Hf H2). lia.
    - rewrite (rel_unread _ _ R1).
      destruct (bound_sound _ _ _ _ _ _ (client_calls_cost E [c] st1 0) H2) as (n' & HQ & He).
      cbn [snd length] in HQ. pose proof (w_nonneg (s_state st1)). pose proof (w_nonneg (s_state st')). pose proof (rlen_nonneg a').
      unfold rlen in *. unfold K, W in *. lia. }
  lia.
Qed.

Lemma C36_operations_of_a_program_holds : forall (s : settings) (evs : list event) (cs : list rcall), Forall is_byte (fst (supplied evs)) ->
  session_operations s evs cs <= 24 * N.of_nat (length (fst (supplied evs))) + 13 * N.of_nat (length cs).
Proof.
  intros s evs cs Hb. destruct (session_runs s evs cs Hb) as (os & st' & a' & Hrun).
  unfold session_operations, session_program in *. pose proof (operations_acost _ _ _ _ _ (rel_new evs) Hrun) as Hop.
  destruct (bound_sound _ _ _ _ _ _ (client_calls_cost _ cs (session_new s) 0) Hrun) as (n' & HQ & He).
  cbn [snd] in HQ. pose proof (w_nonneg (s_state st')). pose proof (rlen_nonneg a').
  change (w (s_state (session_new s))) with 0%Z in HQ. change (rlen (asrc_new (fst (supplied evs)) (snd (supplied evs)))) with (Z.of_nat (length (fst (supplied evs)))) in He. unfold K in *. lia.
Qed.
