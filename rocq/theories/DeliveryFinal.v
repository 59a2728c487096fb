(** * Proofs of the property theorems about the delivery of the input, for programs *)

From Verif Require Import Base Utf8Model SpecJson SourceModel SourceProofs ReaderModel ReaderLex ReaderMid ReaderAgree ReaderSess ReaderSafe
  SimpleModel TransferModel TransferBack TransferArb DeModel DeSafe.


Lemma client_arun A s evs (m : client A) : Forall is_byte (fst (supplied evs)) ->
  exists x st' a', arun (client_run (Env s (enough_fuel (fst (supplied evs)))) m (session_new s)) (asrc_new (fst (supplied evs)) (snd (supplied evs))) = Some ((x, st'), a').
Proof.
  intros Hb. apply (client_total A (Env s (enough_fuel (fst (supplied evs)))) (fst (supplied evs)) (snd (supplied evs)) m ltac:(cbn; unfold enough_fuel; lia)
    (session_new s) _ (DRun (rstate_new s) None (fst (supplied evs)))).
  - cbn [fst snd srel]. split; [reflexivity|]. split; [exists false; reflexivity|exact I].
  - cbn. split; [|exact I]. apply inv_start. exact Hb.
Qed.

Lemma client_run_same A s evs1 evs2 (m : client A) : Forall is_byte (fst (supplied evs1)) -> supplied evs1 = supplied evs2 ->
  exists x st' c1 c2, crun (client_run (Env s (enough_fuel (fst (supplied evs1)))) m (session_new s)) (csrc_new evs1) = Some ((x, st'), c1) /\
    crun (client_run (Env s (enough_fuel (fst (supplied evs2)))) m (session_new s)) (csrc_new evs2) = Some ((x, st'), c2).
Proof.
  intros Hb He. destruct (client_arun A s evs1 m Hb) as (x & st' & a' & H).
  destruct (refines _ _ _ _ _ (rel_new evs1) H) as (c1 & H1 & _).
  pose proof (rel_new evs2) as Hr. rewrite He in H. destruct (refines _ _ _ _ _ Hr H) as (c2 & H2 & _).
  exists x, st', c1, c2. split; assumption.
Qed.

Lemma transfer_arun {F W : Type} (h : handler F W) s inp t before after w : Forall is_byte inp ->
  let E := Env s (enough_fuel inp) in
  exists o a', arun (client_transfer E h w before after (session_new s)) (asrc_new inp t) = Some (o, a').
Proof.
  intros Hb E. set (d0 := DRun (rstate_new s) None inp). assert (Hf : (length inp < fuel E)%nat) by (cbn; unfold enough_fuel; lia).
  assert (Hd0 : dinv E inp d0) by (split; [apply inv_start; exact Hb|exact I]).
  pose proof (calls_good E inp t before Hf d0 Hd0) as Hd1.
  assert (Hs0 : srel t (session_new s) (asrc_new inp t) d0) by (unfold d0; cbn [srel]; split; [reflexivity|split; [exists false; reflexivity|exact I]]).
  destruct (calls_agree E t before ltac:(lia) _ _ d0 Hs0) as (os1 & st1 & a1 & Hr1 & Hm1 & Hs1).
  { intros H. rewrite H in Hd1. exact Hd1. }
  set (d1 := snd (d_calls E t before d0)) in *.
  assert (H : exists r w' st2 a2 d2, arun (call_transfer E h w st1) a1 = Some ((r, w', st2), a2) /\ srel t st2 a2 d2 /\ dinv E inp d2).
  { destruct d1 as [s1 rd r1|held| | |]; cbn [srel] in Hs1; unfold call_transfer.
    - destruct Hs1 as (-> & (kn & ->) & _). destruct Hd1 as [Hi1 _]. cbn [s_phase s_state].
      destruct (transfer_to_good h E inp t s1 r1 Hf Hi1 w kn) as (o & s2 & w2 & a2 & He & Hset & Ho).
      exists (Some o), w2, (Session s2 None (match o with Ok _ => Running | _ => Stopped end)), a2.
      destruct o as [[]|e|k|]; [|exists DStop..].
      + destruct Ho as (r2 & kn2 & -> & Hi2 & Hbr). exists (DRun s2 None r2). rewrite arun_bind, He. cbn [arun]. split; [reflexivity|].
        split; [cbn [srel]; split; [reflexivity|split; [eexists; reflexivity|exact I]]|split; [exact Hi2|exact I]].
      + rewrite arun_bind, He. cbn [arun]. split; [reflexivity|]. split; [reflexivity|exact I].
      + rewrite arun_bind, He. cbn [arun]. split; [reflexivity|]. split; [reflexivity|exact I].
      + rewrite arun_bind, He. cbn [arun]. split; [reflexivity|]. split; [reflexivity|exact I].
    - destruct Hs1 as (s1 & sv & -> & Hact & _). cbn [s_phase s_state].
      destruct (transfer_dead h E s1 w Hact ltac:(lia)) as (s2 & He).
      exists (Some (Panic Misuse)), w, (Session s2 None Stopped), a1, DStop. rewrite arun_bind, He. cbn [arun]. split; [reflexivity|]. split; [reflexivity|exact I].
    - rewrite Hs1. exists None, w, st1, a1, DStop. cbn [arun]. split; [reflexivity|]. split; [exact Hs1|exact I].
    - rewrite Hs1. exists None, w, st1, a1, DDone. cbn [arun]. split; [reflexivity|]. split; [exact Hs1|exact I].
    - contradiction. }
  destruct H as (r & w' & st2 & a2 & d2 & Hr2 & Hs2 & Hd2).
  pose proof (calls_good E inp t after Hf d2 Hd2) as Hd3.
  destruct (calls_agree E t after ltac:(lia) _ _ d2 Hs2) as (os2 & st3 & a3 & Hr3 & Hm3 & _).
  { intros H. rewrite H in Hd3. exact Hd3. }
  exists (os1, r, w', os2), a3. unfold client_transfer. rewrite arun_bind, Hr1. cbn [fst snd]. rewrite arun_bind, Hr2, arun_bind, Hr3. reflexivity.
Qed.

Lemma C17_programs_are_independent_of_delivery_holds : forall (A : Type) (s : settings) (evs1 evs2 : list event) (m : client A), Forall is_byte (fst (supplied evs1)) ->
  supplied evs1 = supplied evs2 -> client_session s evs1 m = client_session s evs2 m /\ client_session s evs1 m <> None.
Proof.
  intros A s evs1 evs2 m Hb He. destruct (client_run_same A s evs1 evs2 m Hb He) as (x & st' & c1 & c2 & H1 & H2).
  unfold client_session. rewrite H1, H2. split; [reflexivity|discriminate].
Qed.

Lemma C17_closures_are_independent_of_delivery_holds : forall (R : Type) (fuel : nat) (s : settings) (evs1 evs2 : list event) (u : use R), Forall is_byte (fst (supplied evs1)) ->
  supplied evs1 = supplied evs2 -> simple_session fuel s evs1 u = simple_session fuel s evs2 u.
Proof.
  intros R fuel s evs1 evs2 u Hb He. destruct (client_run_same _ s evs1 evs2 (simple_client fuel u) Hb He) as (x & st' & c1 & c2 & H1 & H2).
  unfold simple_session. rewrite H1, H2. reflexivity.
Qed.

Lemma C17_copying_is_independent_of_delivery_holds : forall (F W : Type) (h : handler F W) (w : W) (s : settings) (evs1 evs2 : list event) (before after : list rcall), Forall is_byte (fst (supplied evs1)) ->
  supplied evs1 = supplied evs2 ->
  transfer_session s evs1 h w before after = transfer_session s evs2 h w before after /\ transfer_session s evs1 h w before after <> None.
Proof.
  intros F W h w s evs1 evs2 before after Hb He.
  destruct (transfer_arun h s (fst (supplied evs1)) (snd (supplied evs1)) before after w Hb) as (o & a' & H).
  destruct (refines _ _ _ _ _ (rel_new evs1) H) as (c1 & H1 & _).
  pose proof (rel_new evs2) as Hr. rewrite He in H. destruct (refines _ _ _ _ _ Hr H) as (c2 & H2 & _).
  unfold transfer_session. rewrite H1, H2. split; [reflexivity|discriminate].
Qed.
