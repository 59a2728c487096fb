(** * Proofs of the property theorems about copying between a reader and a writer which are in use *)

From Verif Require Import Base Utf8Model Utf8Proofs NumberModel SpecJson WriterModel SourceModel SourceProofs ReaderModel
  ReaderScan ReaderLex ReaderLexStr ReaderMid ReaderAgree ReaderSess ReaderGrammar ReaderSafe SpecReformat TransferModel
  TransferProofs TransferFinal TransferWriter TransferBack TransferArb ReaderUsage SpecWriter WriterSession WriterRun WriterMore TransferUsage SpecCopy.
From Verif Require SpecUsage UsageRun UsageStep OrderlyWriterFinal ReformatFinal SimpleFinal.
Import SpecUsage(usage, usage_start, usage_of, value_done, correct_usage, u_open).


Lemma target_put p : target_call p = put_call p.
Proof. destruct p; reflexivity. Qed.

(** The state in which the value is copied *)
Lemma session_at {F W : Type} (h : handler F W) s evs w before after os1 r w' os2 u : Forall is_byte (fst (supplied evs)) ->
  transfer_session s evs h w before after = Some (os1, r, w', os2) -> usage_of before os1 usage_start = Some u ->
  let E := Env s (enough_fuel (fst (supplied evs))) in let t := snd (supplied evs) in let inp := fst (supplied evs) in
  exists st1 a1 d1 st2 a2, UsageRun.urel u d1 /\ dinv E inp d1 /\ srel t st1 a1 d1 /\
    arun (call_transfer E h w st1) a1 = Some ((r, w', st2), a2) /\
    forall d2, srel t st2 a2 d2 -> dinv E inp d2 -> Forall2 matches os2 (fst (d_calls E t after d2)).
Proof.
  intros Hb Hrun Hu E t inp. assert (Hf : (length inp < fuel E)%nat) by (cbn; unfold enough_fuel; fold inp; lia).
  set (d0 := DRun (rstate_new s) None inp).
  assert (Hd0 : dinv E inp d0) by (split; [apply inv_start; exact Hb|exact I]).
  pose proof (calls_good E inp t before Hf d0 Hd0) as Hd1.
  assert (Hs0 : srel t (session_new s) (asrc_new inp t) d0) by (unfold d0; cbn [srel]; splits; [reflexivity|exists false; reflexivity|exact I]).
  destruct (calls_agree E t before ltac:(lia) _ _ d0 Hs0) as (os & st1 & a1 & Hr1 & Hm1 & Hs1).
  { intros H. rewrite H in Hd1. exact Hd1. }
  assert (H : exists r w' st2 a2 d2, arun (call_transfer E h w st1) a1 = Some ((r, w', st2), a2) /\ srel t st2 a2 d2 /\ dinv E inp d2).
  { destruct (snd (d_calls E t before d0)) as [s1 rd r1|held| | |]; cbn [srel] in Hs1; unfold call_transfer.
    - destruct Hs1 as (-> & (kn & ->) & _). destruct Hd1 as [Hi1 _]. cbn [s_phase s_state].
      destruct (transfer_to_good h E inp t s1 r1 Hf Hi1 w kn) as (o & s2 & w2 & a2 & He & Hset & Ho).
      exists (Some o), w2, (Session s2 None (match o with Ok _ => Running | _ => Stopped end)), a2.
      destruct o as [[]|e|k|]; [|exists DStop..]; [|rewrite arun_bind, He; cbn [arun]; splits; auto; reflexivity..].
      destruct Ho as (r2 & kn2 & -> & Hi2 & Hbr). exists (DRun s2 None r2). rewrite arun_bind, He. cbn [arun]. splits; auto.
      + cbn [srel]. splits; [reflexivity|eexists; reflexivity|exact I].
      + split; [exact Hi2|exact I].
    - destruct Hs1 as (s1 & sv & -> & Hact & _). cbn [s_phase s_state].
      destruct (transfer_dead h E s1 w Hact ltac:(lia)) as (s2 & He).
      exists (Some (Panic Misuse)), w, (Session s2 None Stopped), a1, DStop. rewrite arun_bind, He. cbn [arun]. splits; auto; try reflexivity.
    - rewrite Hs1. exists None, w, st1, a1, DStop. cbn [arun]. splits; auto; reflexivity.
    - rewrite Hs1. exists None, w, st1, a1, DDone. cbn [arun]. splits; auto; reflexivity.
    - contradiction. }
  destruct H as (r2 & w2 & st2 & a2 & d2 & Hr2 & Hs2 & Hd2).
  pose proof (calls_good E inp t after Hf d2 Hd2) as Hd3.
  destruct (calls_agree E t after ltac:(lia) _ _ d2 Hs2) as (os3 & st3 & a3 & Hr3 & Hm3 & _).
  { intros H. rewrite H in Hd3. exact Hd3. }
  assert (Hall : arun (client_transfer E h w before after (session_new s)) (asrc_new inp t) = Some ((os, r2, w2, os3), a3)).
  { unfold client_transfer. rewrite arun_bind, Hr1. cbn [fst snd]. rewrite arun_bind, Hr2, arun_bind, Hr3. reflexivity. }
  pose proof (rel_new evs) as Hrel.
  unfold transfer_session in Hrun. destruct (refines _ _ _ _ _ Hrel Hall) as (c' & Hcr & _).
  change (enough_fuel (fst (supplied evs))) with (fuel E) in Hrun. change {| cfg := s; fuel := fuel E |} with E in Hrun. rewrite Hcr in Hrun.
  injection Hrun as -> -> -> ->.
  exists st1, a1, (snd (d_calls E t before d0)), st2, a2. splits; auto.
  - exact (UsageStep.calls_urel E inp t before Hf d0 usage_start os1 u Hd0 (UsageStep.urel_start s inp) Hm1 Hu).
  - intros d4 Hs4 Hd4. pose proof (calls_good E inp t after Hf d4 Hd4) as Hd5.
    destruct (calls_agree E t after ltac:(lia) _ _ d4 Hs4) as (os4 & st4 & a4 & Hr4 & Hm4 & _).
    { intros H. rewrite H in Hd5. exact Hd5. }
    rewrite Hr3 in Hr4. injection Hr4 as <- _ _. exact Hm4.
Qed.

(** Copying to a writer which accepts the allowed calls *)
Lemma session_accepts {F W : Type} multi (h : handler F W) R (Pm Er Bad : W -> Prop) s evs w before after os1 r w' os2 u d :
  accepts multi h R Pm Er Bad -> Forall is_byte (fst (supplied evs)) -> value_allowed multi d -> R d w ->
  transfer_session s evs h w before after = Some (os1, r, w', os2) -> usage_of before os1 usage_start = Some u ->
  SpecUsage.value_allowed s u = true ->
  exists r', r = Some r' /\
  match r' with
  | Ok _ => (exists v, R (add_value v d) w') /\
      (correct_usage s after os2 (value_done (u_open u) u) -> forall o k, In o os2 -> o <> OPanic k)
  | Panic Misuse => Pm w'
  | Err (inr _) => Er w'
  | _ => Bad w'
  end.
Proof.
  intros Hacc Hb Ha HR Hrun Hu Hal. destruct (session_at h s evs w before after os1 r w' os2 u Hb Hrun Hu) as (st1 & a1 & d1 & st2 & a2 & Hur & Hd1 & Hs1 & Hr & Hafter).
  set (E := Env s (enough_fuel (fst (supplied evs)))) in *. set (inp := fst (supplied evs)) in *. set (t := snd (supplied evs)) in *.
  assert (Hf : (length inp < fuel E)%nat) by (cbn; unfold enough_fuel; lia).
  destruct d1 as [s1 rd r1|held| | |]; try contradiction.
  - cbn [srel] in Hs1. destruct Hs1 as (-> & (kn & ->) & _). destruct Hd1 as [Hi1 _].
    destruct Hur as (U1 & U2 & U3 & U4 & _). assert (Hus : UsageRun.usees E u s1) by (unfold UsageRun.usees; auto).
    pose proof (UsageRun.value_allowed_ready E u s1 Hus Hal) as Hready.
    pose proof (tfine_transfer multi h R Pm Er Bad E inp t d s1 r1 w Hf Hi1 Hacc Ha Hready HR kn) as Ht.
    unfold call_transfer in Hr. cbn [s_phase s_state] in Hr. rewrite arun_bind in Hr.
    destruct (arun (transfer_to E h s1 w) (At r1 t kn)) as [[[[o s2] w2] a3]|]; [|discriminate]. cbn [arun] in Hr. injection Hr as <- <- <- <-.
    exists o. split; [reflexivity|]. destruct o as [x|[e|e]|[]|]; auto. destruct Ht as (r2 & kn2 & -> & Hi2 & Hfin & Hv). split; [exact Hv|].
    intros Hcorrect. refine (UsageStep.correct_no_panic E inp t after Hf (DRun s2 None r2) _ os2 _ _ _ Hcorrect).
    + split; [exact Hi2|exact I].
    + destruct (UsageRun.usees_finished E u s1 s2 Hus Hfin) as (V1 & V2 & V3 & V4). cbn [UsageRun.urel]. auto.
    + apply Hafter; [cbn [srel]; splits; [reflexivity|eexists; reflexivity|exact I]|split; [exact Hi2|exact I]].
  - exfalso. cbn in Hur. unfold SpecUsage.value_allowed in Hal. rewrite Hur in Hal. discriminate.
Qed.

Lemma stream_accepts cfg : accepts (multi_top_level cfg) (stream_writer cfg) (sess_ok cfg) (fun _ => False) (fun _ => True) (fun _ => True).
Proof.
  split; [auto|]. intros d p d' w Hok Hg Hd. rewrite (put_step cfg p w Hg).
  assert (Hv : valid_call (put_call p)) by (pose proof (good_valid [p] ltac:(auto)) as H; inversion H; assumption).
  destruct (step_outcome cfg d w (put_call p) Hok Hv) as [(d2 & Hd2 & Hcall)|[(Hm & _)|[(_ & e & He & _)|[(_ & _ & E)|(Hne & E & Hm)]]]].
  - rewrite (describes_det _ _ _ _ _ Hd Hd2). destruct (wstep cfg (put_call p) w) as [r w']. destruct Hcall as [(Hs & Hok' & _)|(e & He & _)]; cbn [fst snd] in *.
    + rewrite (put_success p r Hs). exact Hok'.
    + rewrite He. exact I.
  - exfalso. eapply describes_not_misuse; eauto.
  - destruct (wstep cfg (put_call p) w) as [r w']. cbn in He. rewrite He. exact I.
  - rewrite E. exact I.
  - rewrite E. exact I.
Qed.

Lemma recording_accepts {F W : Type} (h : handler F W) multi d0 : accepts multi (recording h)
  (fun d wl => describes_all multi d0 (map put_call (snd wl)) d /\ Forall good_put (snd wl))
  (fun wl => exists d, describes_all multi d0 (map put_call (snd wl)) d /\ Forall good_put (snd wl))
  (fun wl => exists d, describes_all multi d0 (map put_call (snd wl)) d /\ Forall good_put (snd wl))
  (fun wl => exists d, describes_all multi d0 (map put_call (snd wl)) d /\ Forall good_put (snd wl)).
Proof.
  split; [eauto|]. intros d p d' [w l] [HR Hl] Hg Hd. unfold recording. cbn [fst snd] in *.
  assert (H : describes_all multi d0 (map put_call (l ++ [p])) d' /\ Forall good_put (l ++ [p])).
  { split; [|apply Forall_app; auto]. rewrite map_app. eapply describes_all_app; [exact HR|]. cbn. econstructor; [exact Hd|constructor]. }
  destruct (h p w) as [[x|e|[]|] w']; cbn [snd]; eauto.
Qed.

Lemma placid_accepts {F W : Type} (h : handler F W) multi : (forall p w, fst (h p w) <> Panic Misuse) ->
  accepts multi h (fun _ _ => True) (fun _ => False) (fun _ => True) (fun _ => True).
Proof. intros Hh. split; [auto|]. intros d p d' w _ _ _. specialize (Hh p w). destruct (h p w) as [[x|e|[]|] w']; auto. Qed.

(** A writer for which a value is not allowed *)
Lemma refusing_accepts cfg d ws : sess_ok cfg d ws -> ~ value_allowed (multi_top_level cfg) d ->
  (forall p d', good_put p -> describes false empty_doc (put_call p) d' -> exists w', stream_writer cfg p ws = (Panic Misuse, w')) /\
  accepts false (stream_writer cfg) (fun d' w => d' = empty_doc /\ w = ws) (fun _ => True) (fun _ => False) (fun w => w = ws).
Proof.
  intros Hok Hn. assert (Hp : forall p d', good_put p -> describes false empty_doc (put_call p) d' -> exists w', stream_writer cfg p ws = (Panic Misuse, w')).
  2: { split; [exact Hp|]. split; [intros d' w [_ H]; exact H|]. intros d1 p d' w [-> ->] Hg Hd. destruct (Hp p d' Hg Hd) as (w' & ->). exact I. }
  intros p d' Hg Hd.
  assert (Hm : misuse (multi_top_level cfg) d (put_call p)).
  { destruct p; cbn in Hd |- *; inversion Hd; subst; try exact Hn; try discriminate. }
  assert (Hv : valid_call (put_call p)) by (pose proof (good_valid [p] ltac:(auto)) as H; inversion H; assumption).
  rewrite (put_step cfg p ws Hg).
  rewrite (misuse_panics cfg d ws (put_call p)) by assumption. eauto.
Qed.
Lemma refusing_settled cfg d ws : sess_ok cfg d ws -> ~ value_allowed (multi_top_level cfg) d ->
  forall d1 p d' w, d1 = empty_doc /\ w = ws -> good_put p -> describes false d1 (put_call p) d' -> settled (fst (stream_writer cfg p w)).
Proof.
  intros Hok Hn d1 p d' w [-> ->] Hg Hd. destruct (proj1 (refusing_accepts cfg d ws Hok Hn) p d' Hg Hd) as (w' & ->). exact I.
Qed.

(** ** Writers whose internal panics are replaced *)

Definition mild {F W : Type} (x : res F unit) (h : handler F W) : handler F W := fun p w =>
  match h p w with
  | (Panic Bug, w') | (OutOfFuel, w') => (x, w')
  | o => o
  end.
Definition ended {F A : Type} (x : res F unit) : res (transfer_error F) A :=
  match x with Err e => Err (inr e) | Panic k => Panic k | _ => OutOfFuel end.

Definition couple {F W A : Type} (x : res F unit) (m1 m2 : T F W A) : Prop := forall s w c,
  crun (m1 s w) c = crun (m2 s w) c \/ exists s' w' c', crun (m2 s w) c = Some ((ended x, s', w'), c').

Lemma couple_refl {F W A : Type} x (m : T F W A) : couple x m m.
Proof. intros s w c. left. reflexivity. Qed.
Lemma couple_bind {F W A B : Type} x (m1 m2 : T F W A) (f1 f2 : A -> T F W B) : couple x m1 m2 -> (forall a, couple x (f1 a) (f2 a)) ->
  couple x (tbind m1 f1) (tbind m2 f2).
Proof.
  intros Hm Hf s w c. unfold tbind. rewrite !SimpleFinal.crun_pbind. destruct (Hm s w c) as [->|(s' & w' & c' & ->)].
  - destruct (crun (m2 s w) c) as [[[[o s'] w'] c']|]; [|left; reflexivity]. destruct o; try (left; reflexivity). apply Hf.
  - right. destruct x as [|e|k|]; cbn; eauto.
Qed.
Lemma couple_writer {F W : Type} x (h : handler F W) p : (x = Ok tt -> False) -> couple x (on_writer h p) (on_writer (mild x h) p).
Proof.
  intros Hx s w c. unfold on_writer, mild. destruct (h p w) as [[a|e|[]|] w']; try (left; reflexivity);
    right; destruct x as [[]|e|k|]; cbn; eauto; destruct (Hx eq_refl).
Qed.
Ltac cp := repeat first [apply couple_refl | apply couple_writer; assumption | (apply couple_bind; [|intros ?])].

Lemma couple_string {F W : Type} x (h : handler F W) f : (x = Ok tt -> False) -> couple x (transfer_string h f) (transfer_string (mild x h) f).
Proof. intros Hx. induction f as [|f IH]; [apply couple_refl|]. cbn [transfer_string]. cp. destruct (fst a : bool); [apply couple_refl|exact IH]. Qed.
Lemma couple_start {F W : Type} x (h : handler F W) E : (x = Ok tt -> False) -> couple x (transfer_start E h) (transfer_start E (mild x h)).
Proof.
  intros Hx. unfold transfer_start. apply couple_bind; [apply couple_refl|]. intros []; cp. apply couple_string. exact Hx.
Qed.
Lemma couple_loop {F W : Type} x (h : handler F W) E f : (x = Ok tt -> False) -> forall depth,
  couple x (transfer_loop E h f depth) (transfer_loop E (mild x h) f depth).
Proof.
  intros Hx. induction f as [|f IH]; intros depth; [apply couple_refl|]. cbn [transfer_loop].
  apply couple_bind; [apply couple_refl|]. intros more. apply couple_bind.
  - destruct (negb more).
    + apply couple_bind; [|intros; apply couple_refl]. unfold transfer_end. apply couple_bind; [apply couple_refl|]. intros s. destruct (is_in_array s); cp.
    + apply couple_bind; [unfold transfer_name; apply couple_bind; [apply couple_refl|]; intros s; destruct (expects_member_name s); cp|].
      intros _. apply couple_bind; [apply couple_start; exact Hx|]. intros; apply couple_refl.
  - intros [|d']; [apply couple_refl|apply IH].
Qed.
Lemma couple_transfer {F W : Type} x (h : handler F W) E : (x = Ok tt -> False) -> couple x (transfer_to E h) (transfer_to E (mild x h)).
Proof. intros Hx. unfold transfer_to. apply couple_bind; [apply couple_refl|]. intros s. apply couple_bind; [apply couple_refl|]. intros _. apply couple_loop. exact Hx. Qed.

Lemma session_mild {F W : Type} x (h : handler F W) s evs w before after os1 r w' os2 os1' r2 w2 os2' : (x = Ok tt -> False) ->
  transfer_session s evs h w before after = Some (os1, r, w', os2) ->
  transfer_session s evs (mild x h) w before after = Some (os1', r2, w2, os2') ->
  os1' = os1 /\ (r2 = Some (ended x) \/ (r2 = r /\ w2 = w' /\ os2' = os2)).
Proof.
  intros Hx H1 H2. unfold transfer_session, client_transfer in *. set (E := Env s _) in *. rewrite !SimpleFinal.crun_pbind in *.
  destruct (crun (client_calls E before (session_new s)) (csrc_new evs)) as [[[os st] c]|]; [|discriminate]. cbn [fst snd] in *.
  rewrite SimpleFinal.crun_pbind in *. unfold call_transfer in *. destruct (s_phase st).
  - rewrite SimpleFinal.crun_pbind in *. destruct (couple_transfer x h E Hx (s_state st) w c) as [Eq|(s' & w3 & c' & Eq)].
    + rewrite Eq in H1. rewrite H1 in H2. injection H2 as <- <- <- <-. auto.
    + rewrite Eq in H2. cbn [crun] in H2. rewrite SimpleFinal.crun_pbind in H2.
      destruct (crun (transfer_to E h (s_state st) w) c) as [[[[o s3] w4] c4]|]; [|discriminate]. cbn [crun] in H1. rewrite SimpleFinal.crun_pbind in H1.
      destruct (crun (client_calls E after (Session s' None _)) c') as [[osl c5]|] in H2; [|discriminate].
      destruct (crun (client_calls E after (Session s3 None _)) c4) as [[osl2 c6]|] in H1; [|discriminate].
      cbn [crun] in H1, H2. injection H1 as -> _ _ _. injection H2 as -> <- _ _. auto.
  - rewrite H1 in H2. injection H2 as <- <- <- <-. auto.
  - rewrite H1 in H2. injection H2 as <- <- <- <-. auto.
Qed.

Lemma mild_tame {F W : Type} x (h : handler F W) : settled x -> tame (mild x h).
Proof. intros Hx p w. unfold mild. destruct (h p w) as [[a|e|[]|] w']; cbn; auto. Qed.

(** A writer which accepts the allowed calls and does not panic internally for them *)
Lemma mild_accepts {F W : Type} x multi (h : handler F W) R Pm Er Bad : accepts multi h R Pm Er Bad ->
  (forall d p d' w, R d w -> good_put p -> describes multi d (put_call p) d' -> settled (fst (h p w))) ->
  accepts multi (mild x h) R Pm Er Bad.
Proof.
  intros [H1 H2] Hs. split; [exact H1|]. intros d p d' w HR Hg Hd. specialize (H2 d p d' w HR Hg Hd). specialize (Hs d p d' w HR Hg Hd).
  unfold mild. destruct (h p w) as [[a|e|[]|] w']; cbn in *; auto; contradiction.
Qed.

Lemma stream_settled cfg d p d' w : sess_ok cfg d w -> good_put p -> describes (multi_top_level cfg) d (put_call p) d' ->
  settled (fst (stream_writer cfg p w)).
Proof.
  intros Hok Hg Hd. rewrite (put_step cfg p w Hg).
  assert (Hv : valid_call (put_call p)) by (pose proof (good_valid [p] ltac:(auto)) as H; inversion H; assumption).
  destruct (step_outcome cfg d w (put_call p) Hok Hv) as [(d2 & Hd2 & Hcall)|[(Hm & _)|[(_ & e & He & _)|[(_ & _ & E)|(Hne & E & Hm)]]]].
  - destruct (wstep cfg (put_call p) w) as [r w']. destruct Hcall as [(Hs & Hok' & _)|(e & He & _)]; cbn [fst snd] in *.
    + rewrite (put_success p r Hs). exact I.
    + rewrite He. exact I.
  - exfalso. eapply describes_not_misuse; eauto.
  - destruct (wstep cfg (put_call p) w) as [r w']. cbn in He. rewrite He. exact I.
  - rewrite E. exact I.
  - rewrite E. exact I.
Qed.


Lemma C63_copying_never_panics_holds : forall (s : settings) (evs : list event) (before after : list rcall)
    (cfg : wsettings) (out : sink) (wbefore : list wcall) (rs : list wresult) (ws : wsession) (d : wdoc),
  Forall is_byte (fst (supplied evs)) -> received out = [] -> Forall valid_call wbefore ->
  wrun cfg wbefore (new_session out) = (rs, ws) -> Forall2 success wbefore rs ->
  describes_all (multi_top_level cfg) empty_doc wbefore d -> value_allowed (multi_top_level cfg) d ->
  exists (os1 : list outcome) (r : option (res (transfer_error wresult) unit)) (w' : wsession) (os2 : list outcome),
  transfer_session s evs (stream_writer cfg) ws before after = Some (os1, r, w', os2) /\
  forall u : usage, usage_of before os1 usage_start = Some u -> SpecUsage.value_allowed s u = true ->
  (forall k, r <> Some (Panic k)) /\ r <> Some OutOfFuel /\ r <> None /\
  (r = Some (Ok tt) ->
    (correct_usage s after os2 (value_done (u_open u) u) -> forall o k, In o os2 -> o <> OPanic k) /\
    (exists v, forall c k, valid_call c -> ~ misuse (multi_top_level cfg) (add_value v d) c -> fst (wstep cfg c w') <> RPanic k)).
Proof.
  intros s evs before after cfg out wbefore rs ws d Hb Ho Hvb Hwr Hws Hd Ha.
  destruct (transfer_any (stream_writer cfg) s evs before ws Hb) as (os1 & r & w' & d2 & Hall & _). destruct (Hall after) as (os2 & Hrun & _).
  exists os1, r, w', os2. split; [exact Hrun|]. intros u Hu Hal. clear Hall d2.
  pose proof (OrderlyWriterFinal.success_state cfg wbefore rs ws _ _ d Hvb (new_session_ok cfg out Ho) Hwr Hws Hd) as Hok.
  destruct (ReformatFinal.C58_transfer_always_ends_holds _ _ (mild (Panic Misuse) (stream_writer cfg)) s evs before after ws ltac:(apply mild_tame; exact I) Hb) as (o1 & r2 & w2 & o2 & Hrun2 & Hset & _).
  destruct (session_mild (Panic Misuse) _ _ _ _ _ _ _ _ _ _ _ _ _ _ ltac:(discriminate) Hrun Hrun2) as (-> & Hsame).
  destruct (session_accepts _ _ _ _ _ _ _ _ _ _ _ _ _ _ _ _ _ (mild_accepts (Panic Misuse) _ _ _ _ _ _ (stream_accepts cfg) (stream_settled cfg)) Hb Ha Hok Hrun2 Hu Hal) as (r' & -> & Hr).
  destruct Hsame as [[= ->]|(<- & -> & ->)]; [contradiction Hr|].
  splits.
  - intros k [= ->]. destruct k; [exact Hr|exact Hset].
  - intros [= ->]. exact Hset.
  - discriminate.
  - intros [= ->]. destruct Hr as ((v & Hok2) & Hafter). split; [exact Hafter|]. exists v. intros c k Hvc Hm.
    destruct (step_outcome cfg _ w' c Hok2 Hvc) as [(d2 & Hd2 & [(Hsc & _)|(e & He & _)])|[(Hm' & _)|[(_ & e & He & _)|[(_ & _ & E3)|(_ & E3 & _)]]]].
    + intros E3. rewrite E3 in Hsc. eapply success_not_panic, Hsc.
    + rewrite He. discriminate.
    + contradiction.
    + rewrite He. discriminate.
    + rewrite E3. discriminate.
    + rewrite E3. discriminate.
Qed.

Lemma C63_copying_makes_only_allowed_calls_holds : forall (F W : Type) (h : handler F W) (s : settings) (evs : list event) (before after : list rcall) (os1 os2 : list outcome) (u : usage)
    (w w' : W) (l : list put) (r : option (res (transfer_error F) unit)) (multi : bool) (d : wdoc),
  Forall is_byte (fst (supplied evs)) -> value_allowed multi d ->
  transfer_session s evs (recording h) (w, []) before after = Some (os1, r, (w', l), os2) ->
  usage_of before os1 usage_start = Some u -> SpecUsage.value_allowed s u = true ->
  exists d', describes_all multi d (map target_call l) d' /\ Forall valid_call (map target_call l) /\
    (r = Some (Ok tt) -> exists v, d' = add_value v d) /\
    ((forall p w, fst (h p w) <> Panic Misuse) -> r <> Some (Panic Misuse)).
Proof.
  intros F W h s evs before after os1 os2 u w w' l r multi d Hb Ha Hrun Hu Hal.
  assert (Hstart : describes_all multi d (map put_call (snd (w, @nil put))) d /\ Forall good_put (snd (w, @nil put))) by (split; constructor).
  destruct (session_accepts _ _ _ _ _ _ _ _ _ _ _ _ _ _ _ _ d (recording_accepts h multi d) Hb Ha Hstart Hrun Hu Hal) as (r' & -> & Hr).
  rewrite (map_ext _ _ target_put). cbn [snd] in Hr.
  assert (Hno : (forall p w, fst (h p w) <> Panic Misuse) -> Some r' <> Some (Panic Misuse)).
  { intros Hh.
    assert (Hh2 : forall p wl, fst (recording h p wl) <> Panic Misuse).
    { intros p [w0 l0]. unfold recording. cbn [fst]. specialize (Hh p w0). destruct (h p w0) as [o w1]. exact Hh. }
    destruct (session_accepts _ _ _ _ _ _ _ _ _ _ _ _ _ _ _ _ d (placid_accepts _ multi Hh2) Hb Ha I Hrun Hu Hal) as (r2 & E & Hr2).
    injection E as <-. intros [= ->]. exact Hr2. }
  destruct r' as [[]|[e|e]|[]|].
  - destruct Hr as ((v & Hd & Hg) & _). exists (add_value v d). splits; auto; [exact (good_valid _ Hg)|eauto].
  - destruct Hr as (d' & Hd & Hg). exists d'. splits; auto; [exact (good_valid _ Hg)|discriminate].
  - destruct Hr as (d' & Hd & Hg). exists d'. splits; auto; [exact (good_valid _ Hg)|discriminate].
  - destruct Hr as (d' & Hd & Hg). exists d'. splits; auto; [exact (good_valid _ Hg)|discriminate].
  - destruct Hr as (d' & Hd & Hg). exists d'. splits; auto; [exact (good_valid _ Hg)|discriminate].
  - destruct Hr as (d' & Hd & Hg). exists d'. splits; auto; [exact (good_valid _ Hg)|discriminate].
Qed.

Lemma C63_copying_from_wrong_position_panics_holds : forall (F W : Type) (h : handler F W) (s : settings) (evs : list event) (before after : list rcall) (os1 os2 : list outcome) (u : usage)
    (w w' : W) (r : option (res (transfer_error F) unit)),
  Forall is_byte (fst (supplied evs)) ->
  transfer_session s evs h w before after = Some (os1, r, w', os2) ->
  usage_of before os1 usage_start = Some u -> SpecUsage.value_allowed s u = false ->
  r = Some (Panic Misuse) /\ w' = w.
Proof.
  intros F W h s evs before after os1 os2 u w w' r Hb Hrun Hu Hal.
  destruct (session_at h s evs w before after os1 r w' os2 u Hb Hrun Hu) as (st1 & a1 & d1 & st2 & a2 & Hur & Hd1 & Hs1 & Hr & _).
  set (E := Env s (enough_fuel (fst (supplied evs)))) in *. set (inp := fst (supplied evs)) in *. set (t := snd (supplied evs)) in *.
  assert (Hf : (length inp < fuel E)%nat) by (cbn; unfold enough_fuel; lia).
  assert (Hgo : exists s1 s2 rd, st1 = Session s1 rd Running /\ exists a3, arun (transfer_to E h s1 w) a1 = Some ((Panic Misuse, s2, w), a3)).
  { destruct d1 as [s1 rd r1|held| | |]; try contradiction.
    - cbn [srel] in Hs1. destruct Hs1 as (-> & (kn & ->) & _). destruct Hd1 as [Hi1 _].
      destruct Hur as (U1 & U2 & U3 & U4 & _). assert (Hus : UsageRun.usees E u s1) by (unfold UsageRun.usees; auto).
      destruct (expects_member_name s1) eqn:Hn.
      + exists s1, s1. eexists. split; [reflexivity|]. eexists. unfold transfer_to, tbind, on_reader, get_state. cbn [pbind]. rewrite Hn. reflexivity.
      + pose proof (UsageRun.value_not_allowed E inp t u s1 r1 (d_peek E t) Hi1 Hus Hal
          (fun H => UsageRun.peek_misuse E t s1 r1 (or_introl H)) (fun _ H => UsageRun.peek_misuse E t s1 r1 (or_intror H))) as Hp.
        pose proof (agree_peek E t s1 r1) as Hag. rewrite Hp in Hag. destruct (Hag kn) as (s2 & a3 & Hex).
        exists s1, s2. eexists. split; [reflexivity|]. exists a3.
        apply (start_refused h E s1 w (At r1 t kn) (Panic Misuse)); [exact Hn|lia| |reflexivity].
        unfold on_reader. rewrite arun_bind. unfold exec in Hex. rewrite Hex. reflexivity.
    - cbn [srel] in Hs1. destruct Hs1 as (s1 & sv & -> & Hact & _).
      destruct (transfer_dead h E s1 w Hact ltac:(lia)) as (s2 & He). exists s1, s2. eexists. split; [reflexivity|]. eexists. apply He. }
  destruct Hgo as (s1 & s2 & rd & -> & a3 & Hgo). unfold call_transfer in Hr. cbn [s_phase s_state] in Hr. rewrite arun_bind, Hgo in Hr.
  cbn [arun] in Hr. injection Hr as <- <- _ _. auto.
Qed.

Lemma C63_copying_to_wrong_position_panics_holds : forall (s : settings) (evs : list event) (before after : list rcall) (os1 os2 : list outcome) (u : usage)
    (cfg : wsettings) (out : sink) (wbefore : list wcall) (rs : list wresult) (ws w' : wsession) (d : wdoc)
    (r : option (res (transfer_error wresult) unit)),
  Forall is_byte (fst (supplied evs)) -> received out = [] -> Forall valid_call wbefore ->
  wrun cfg wbefore (new_session out) = (rs, ws) -> Forall2 success wbefore rs ->
  describes_all (multi_top_level cfg) empty_doc wbefore d -> ~ value_allowed (multi_top_level cfg) d ->
  transfer_session s evs (stream_writer cfg) ws before after = Some (os1, r, w', os2) ->
  usage_of before os1 usage_start = Some u -> SpecUsage.value_allowed s u = true ->
  r = Some (Panic Misuse) \/ (exists e, r = Some (Err (inl e)) /\ w' = ws).
Proof.
  intros s evs before after os1 os2 u cfg out wbefore rs ws w' d r Hb Ho Hvb Hwr Hws Hd Ha Hrun Hu Hal.
  pose proof (OrderlyWriterFinal.success_state cfg wbefore rs ws _ _ d Hvb (new_session_ok cfg out Ho) Hwr Hws Hd) as Hok.
  assert (Hae : value_allowed false empty_doc) by (split; [reflexivity|left; reflexivity]).
  destruct (ReformatFinal.C58_transfer_always_ends_holds _ _ (mild (Err RDone) (stream_writer cfg)) s evs before after ws ltac:(apply mild_tame; exact I) Hb) as (o1 & r2 & w2 & o2 & Hrun2 & Hset & _).
  destruct (session_mild (Err RDone) _ _ _ _ _ _ _ _ _ _ _ _ _ _ ltac:(discriminate) Hrun Hrun2) as (-> & Hsame).
  destruct (session_accepts _ _ _ _ _ _ _ _ _ _ _ _ _ _ _ _ _ (mild_accepts (Err RDone) _ _ _ _ _ _ (proj2 (refusing_accepts cfg d ws Hok Ha)) (refusing_settled cfg d ws Hok Ha)) Hb Hae (conj eq_refl eq_refl) Hrun2 Hu Hal) as (r' & -> & Hr).
  destruct Hsame as [[= ->]|(<- & -> & ->)]; [contradiction Hr|].
  destruct r' as [x|[e|e]|[]|].
  - exfalso. destruct Hr as ((v & E & _) & _). discriminate E.
  - right. eauto.
  - contradiction.
  - left. reflexivity.
  - contradiction.
  - contradiction.
Qed.
