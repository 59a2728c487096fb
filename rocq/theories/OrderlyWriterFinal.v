(** * Proofs of the property theorems about orderly closures of the simple writer and
      implementations of [Serialize] *)

From Verif Require Import Base Utf8Model SpecJson WriterModel SpecWriter WriterSession WriterRun WriterMore SimpleWriterModel
  SpecSimpleWriter SpecOrderlyWriter OrderlyWriterRun.
From Verif Require SerModel SpecSer SerRun.


Lemma success_state cfg cs : forall rs s s0 d0 d, Forall valid_call cs -> sess_ok cfg d0 s0 -> wrun cfg cs s0 = (rs, s) ->
  Forall2 success cs rs -> describes_all (multi_top_level cfg) d0 cs d -> sess_ok cfg d s.
Proof.
  induction cs as [|c cs IH]; intros rs s s0 d0 d Hv Hok Hr Hs Hd.
  - cbn in Hr. injection Hr as <- <-. inversion Hd; subst. exact Hok.
  - apply Forall_cons_iff in Hv as [Hc Hv]. inversion Hd as [|? ? d1 ? ? Hd1 Hd2]; subst.
    inversion Hs as [|? r ? rs0 Hs1 Hss]; subst. cbn [wrun] in Hr. destruct (wstep cfg c s0) as [r1 s1] eqn:E1.
    assert (Hr1 : r1 = r /\ wrun cfg cs s1 = (rs0, s)).
    { destruct (wrun cfg cs s1). destruct r1; injection Hr as E E2; try (injection E2 as E2; subst; auto); subst; auto;
        exfalso; eapply success_not_panic, Hs1. }
    destruct Hr1 as [-> Hrun].
    destruct (step_outcome cfg d0 s0 c Hok Hc) as [(d2 & Hd' & Hcall)|[(_ & E)|[(_ & e & He & _)|[(_ & _ & E)|(Hne & E & Hm)]]]].
    + rewrite E1 in Hcall. destruct Hcall as [(_ & Hok1 & _)|(e & He & _)]; [|cbn in He; subst; exfalso; eapply success_not_error, Hs1].
      assert (d1 = d2) as -> by (eapply describes_det; eauto). eapply IH; eauto.
    + rewrite E1 in E. injection E as -> _. exfalso; eapply success_not_panic, Hs1.
    + rewrite E1 in He. cbn in He. subst. exfalso; eapply success_not_error, Hs1.
    + rewrite E1 in E. injection E as -> _. exfalso; eapply success_not_inexpressible, Hs1.
    + exfalso. destruct Hd1; try contradiction; try congruence; apply Hne; apply H.
Qed.


Lemma C62_orderly_closures_never_panic_holds : forall (R : Type) (cfg : wsettings) (out : sink) (o : wop R),
  received out = [] -> valid_wop o -> orderly_write o ->
  exists (x : option R) (e : wresulting), fst (simple_write cfg out o) = ERet (x, e).
Proof.
  intros R cfg out o Ho Hv Hor. destruct (orderly_returns cfg out o Ho Hv Hor) as ([x e] & E). eauto.
Qed.

Lemma C62_ignoring_own_errors_refuted_holds : exists (m : member nat) (f : obody nat) (cfg : wsettings) (out : sink),
  m = MMember [0x61] (MDone 1%nat (Some (WeCustom 7))) /\
  f = OWrite m (fun _ _ => ODone 2%nat None) /\
  valid_wop (WObject f) /\ orderly_member m /\ reliable out /\ received out = [] /\
  fst (simple_write cfg out (WObject f)) = EPanic Misuse /\
  fst (simple_write cfg out (WObject (OWrite m (fun _ e => ODone 2%nat e)))) = ERet (Some 2%nat, Some (WeCustom 7)).
Proof.
  eexists _, _, default_wsettings, (Sink [] [] [] 0). split; [reflexivity|]. split; [reflexivity|].
  split; [cbn; repeat split; constructor; [left; reflexivity|constructor]|].
  split; [exact I|]. split; [split; constructor|]. split; [reflexivity|]. split; vm_compute; reflexivity.
Qed.

Lemma C62_orderly_values_never_panic_holds : forall (cfg : wsettings) (out : sink) (before : list wcall) (rs : list wresult) (s : wsession) (d : wdoc) (v : SerModel.sval),
  received out = [] -> Forall valid_call before -> wrun cfg before (new_session out) = (rs, s) -> Forall2 success before rs ->
  describes_all (multi_top_level cfg) empty_doc before d -> value_allowed (multi_top_level cfg) d ->
  SpecSer.valid_sval v -> orderly_value v ->
  exists (r : SerModel.sres unit) (s' : wsession), SerModel.ser_run cfg (SerModel.ser_value v) s = (ERet r, s') /\
    forall (c : wcall) (k : panic), r = SerModel.SrOk tt -> valid_call c ->
      (exists j, SpecSer.value_means v (SpecSer.Gives j) /\ ~ misuse (multi_top_level cfg) (add_value j d) c) ->
      fst (wstep cfg c s') <> RPanic k.
Proof.
  intros cfg out before rs s d v Ho Hvb Hr Hs Hd Ha Hv [Hal Hc].
  pose proof (success_state cfg before rs s _ _ d Hvb (new_session_ok cfg out Ho) Hr Hs Hd) as Hok.
  destruct (proj1 SerRun.means_total v Hc) as (o & Hm). pose proof (proj1 alternates_never_panics v o Hm Hal) as Hp.
  assert (He : exists r s', SerModel.ser_run cfg (SerModel.ser_value v) s = (ERet r, s')).
  { destruct (proj1 (SerRun.run_means cfg) v o Hm Hv d s Ha Hok (or_introl Hc)) as [Hit|(_ & e & s' & E)]; [|eauto].
    destruct o as [j|e|].
    - destruct Hit as (s' & E & _). eauto.
    - destruct Hit as (s' & E). eauto.
    - contradiction Hp. reflexivity. }
  destruct He as (r & s' & E). exists r, s'. split; [exact E|]. intros c k -> Hvc (j & Hj & Hmis).
  destruct (proj1 (SerRun.run_means cfg) v _ Hj Hv d s Ha Hok (or_introl Hc)) as [(s2 & E2 & Hok2 & _)|(_ & e & s2 & E2)];
    rewrite E in E2; [|discriminate]. injection E2 as <-.
  destruct (step_outcome cfg (add_value j d) s' c Hok2 Hvc) as [(d2 & Hd' & [(Hsc & _)|(e & He & _)])|[(Hm' & _)|[(_ & e & He & _)|[(_ & _ & E3)|(_ & E3 & _)]]]].
  - intros E3. rewrite E3 in Hsc. eapply success_not_panic, Hsc.
  - rewrite He. discriminate.
  - contradiction.
  - rewrite He. discriminate.
  - rewrite E3. discriminate.
  - rewrite E3. discriminate.
Qed.

Lemma C62_disorderly_values_refuted_holds : exists (v w : SerModel.sval) (cfg : wsettings) (out : sink),
  v = SerModel.SvMap None (SerModel.EnValue (SerModel.SvBool true) (fun r => match r with None => SerModel.EnEnd | Some e => SerModel.EnAbort e end)) /\
  w = SerModel.SvMap None (SerModel.EnKey SerModel.SvUnit (fun _ => SerModel.EnValue (SerModel.SvBool true) (fun r => match r with None => SerModel.EnEnd | Some e => SerModel.EnAbort e end))) /\
  SpecSer.valid_sval v /\ SpecSer.valid_sval w /\ SpecSer.careful v /\ alternates w /\ received out = [] /\ reliable out /\
  fst (SerModel.ser_run cfg (SerModel.ser_value v) (new_session out)) = EPanic Misuse /\
  fst (SerModel.ser_run cfg (SerModel.ser_value w) (new_session out)) = EPanic Misuse.
Proof.
  eexists _, _, default_wsettings, (Sink [] [] [] 0). split; [reflexivity|]. split; [reflexivity|].
  split; [cbn; split; [exact I|intros [e|]; exact I]|].
  split; [cbn; split; [exact I|intros r; split; [exact I|intros [e|]; exact I]]|].
  split; [cbn; split; [exact I|split; [exact I|intros e; eexists; reflexivity]]|].
  split; [cbn; auto|]. split; [reflexivity|]. split; [split; constructor|]. split; vm_compute; reflexivity.
Qed.
