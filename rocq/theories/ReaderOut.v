(** * What a client sees of a session: no broken invariants, no exhausted fuel,
      and no influence of path tracking *)

From Verif Require Import Base Utf8Model NumberModel SourceModel SourceProofs ReaderModel ReaderLex ReaderMid
  ReaderSess ReaderSafe ReaderErase.

(** Outcomes which the implementation never has *)
Definition sane (o : outcome) : Prop := o <> OPanic Bug /\ o <> OFuel.
Definition dsane (d : dout) : Prop := match d with DOut o => sane o | _ => True end.

Lemma sane_ok v : sane (OOk v).
Proof. split; discriminate. Qed.

Lemma d_run_sane {A} (m : D A) val s r : dsane (fst (d_run m val s r)).
Proof. unfold d_run. destruct (m s r); cbn; auto; split; discriminate. Qed.

Lemma d_call_sane E t c d : dsane (fst (d_call E t c d)).
Proof.
  destruct d as [s rd r|held| | |]; cbn [d_call]; try (cbn; auto; split; discriminate).
  - destruct c; cbn [d_call_run]; try apply d_run_sane.
    + unfold d_run_reader. destruct (d_next_string_reader E t s r); cbn; auto; split; discriminate.
    + unfold d_run_read. destruct rd as [sv|]; [|split; discriminate].
      destruct (d_sv_read E len sv s r) as [[] ? ?| |[]| |]; cbn; auto; split; discriminate.
    + split; discriminate.
    + unfold d_run_consume. destruct (d_consume_trailing E t s r); cbn; auto; split; discriminate.
  - destruct c as [| | | | | | | | | | | | | | | | | | |[|p l]| | |]; cbn; auto; try destruct held; cbn; auto; split; discriminate.
Qed.

Lemma d_calls_sane E t cs : forall d, Forall dsane (fst (d_calls E t cs d)).
Proof.
  induction cs as [|c cs IH]; intros d; cbn [d_calls]; [constructor|].
  pose proof (d_call_sane E t c d) as H. destruct (d_call E t c d) as [o d1].
  specialize (IH d1). destruct (d_calls E t cs d1) as [os d2]. constructor; assumption.
Qed.

Lemma matches_sane o d : matches o d -> dsane d -> sane o.
Proof.
  destruct d as [o'|[n|]| | |]; cbn.
  - intros ->. auto.
  - intros (l & ->). split; discriminate.
  - intros (e & -> & _). split; discriminate.
  - intros (e & -> & _). split; discriminate.
  - intros (p & ->). split; discriminate.
  - tauto.
Qed.

Lemma session_sane s evs cs : Forall is_byte (fst (supplied evs)) -> Forall sane (read_session s evs cs).
Proof.
  intros H. destruct (session_agree s evs cs (session_no_bug s evs cs H)) as (os & st & a & _ & -> & Hm).
  pose proof (d_calls_sane (Env s (enough_fuel (fst (supplied evs)))) (snd (supplied evs)) cs
    (DRun (rstate_new s) None (fst (supplied evs)))) as Hs.
  unfold d_session in Hm. revert Hs. induction Hm as [|o d os ds Ho Hm IH]; [constructor|].
  intros Hs. inversion Hs as [|? ? H1 H2]. constructor; [exact (matches_sane _ _ Ho H1)|auto].
Qed.

Lemma session_untracked s evs cs : Forall is_byte (fst (supplied evs)) ->
  read_session (untracked s) evs cs = map erase_outcome (read_session s evs cs).
Proof.
  intros H. pose proof (session_sane s evs cs H) as Hs.
  destruct (session_agree s evs cs (session_no_bug s evs cs H)) as (os & st & a & Hr & Ho & _).
  rewrite Ho in *.
  pose proof (osim_calls (Env s (enough_fuel (fst (supplied evs)))) cs (session_new s)
    (asrc_new (fst (supplied evs)) (snd (supplied evs))) _ (fun _ => eq_refl)) as He.
  rewrite Hr in He. destruct He as [He|(a2 & He)].
  { rewrite Forall_forall in Hs. destruct (Hs _ He) as [Hx _]. congruence. }
  unfold read_session.
  change (client_calls (Env (untracked s) (enough_fuel (fst (supplied evs)))) cs (session_new (untracked s)))
    with (client_calls (uenv (Env s (enough_fuel (fst (supplied evs))))) cs (erase_session (session_new s))).
  destruct (refines _ _ _ _ _ (rel_new evs) He) as (c' & -> & _). reflexivity.
Qed.
