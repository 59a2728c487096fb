(** * One call, and whole programs *)

From Verif Require Import Base Utf8Model NumberModel SourceModel SourceProofs ReaderModel ReaderScan ReaderLex ReaderLexStr ReaderMid
  ReaderSess ReaderSafe ReaderAgree ReaderOut ReaderUsage SpecUsage UsageRun.

(** What a call does, seen by the client *)
Definition call_described (s : settings) (u : usage) (c : rcall) (o : outcome) (d' : dstate) : Prop :=
  (allowed s u c = true -> forall k, o <> OPanic k) /\
  (allowed s u c = false -> o = OPanic Misuse \/ (exists path e, c = CSeekBack path /\ o = OErr e)) /\
  (forall u', usage_after c o u = Some u' -> urel u' d').

Lemma aborting_final e : aborting e = true -> recoverable e = false.
Proof. destruct e; cbn; congruence. Qed.

Lemma described_misuse s u c d' : (forall u', usage_after c (OPanic Misuse) u = Some u' -> urel u' d') ->
  allowed s u c = false -> call_described s u c (OPanic Misuse) d'.
Proof. intros H Ha. split; [congruence|]. split; [auto|]. exact H. Qed.

Lemma run_misuse {A : Type} E u c (m : D A) val st r o : allowed (cfg E) u c = false -> m st r = MMisuse ->
  matches o (fst (d_run m val st r)) -> call_described (cfg E) u c o (snd (d_run m val st r)).
Proof.
  unfold d_run. intros Ha -> ->. apply described_misuse; [discriminate|exact Ha].
Qed.

Lemma run_fine {A : Type} E inp u c (m : D A) val st r o Q Qe : allowed (cfg E) u c = true -> fine E inp (m st r) Q Qe ->
  (forall x s' r', Q x s' r' -> exists u', usage_after c (OOk (val x)) u = Some u' /\ usees E u' s') ->
  (several_steps c = true \/ (forall s', Qe s' -> usees E u s')) ->
  matches o (fst (d_run m val st r)) -> call_described (cfg E) u c o (snd (d_run m val st r)).
Proof.
  unfold d_run. intros Ha H HQ He Hm. split; [|split; [congruence|]].
  - intros _ k ->. destruct (m st r) as [x s' r'|e s' r'|[n|]| |]; cbn in *; try discriminate; try contradiction.
    + destruct Hm. discriminate.
    + destruct Hm as (e & Hm & _). discriminate.
  - intros u' Hu. destruct (m st r) as [x s' r'|e s' r'|[n|]| |]; cbn in Hm, H; subst.
    + destruct H as [_ H]. destruct (HQ _ _ _ H) as (u2 & E2 & K). rewrite E2 in Hu. injection Hu as <-.
      destruct K as (K1 & K2 & K3 & K4). cbn. auto.
    + cbn in Hu. destruct (recoverable e); [|discriminate]. destruct He as [He|He]; [rewrite He in Hu; discriminate|].
      destruct (several_steps c); [discriminate|]. injection Hu as <-. destruct (He _ H) as (K1 & K2 & K3 & K4). cbn. auto.
    + destruct Hm as (l & ->). discriminate.
    + destruct Hm as (e & -> & Hx). cbn in Hu. rewrite (aborting_final _ Hx) in Hu. discriminate.
    + contradiction.
    + contradiction.
Qed.

Lemma usees_named E u s s' : usees E u s -> named s s' -> usees E (Usage (u_open u) false (u_some u) false) s'.
Proof.
  intros (H1 & H2 & H3 & H4) (G1 & G2 & G3 & G4). unfold usees. cbn. rewrite G1, G3, G4. splits; auto.
  intros Hs. unfold is_in_object in G2. rewrite Hs in G2. discriminate.
Qed.
Lemma usees_opened E u s s' v : usees E u s -> opened v s s' -> usees E (Usage (v :: u_open u) (name_next (v :: u_open u)) (u_some u) false) s'.
Proof.
  intros (H1 & H2 & H3 & H4) (G1 & (G2 & G3) & G4). unfold usees. cbn. rewrite G1, G2, G3. unfold is_in_object. rewrite G1, H1.
  splits; auto. discriminate.
Qed.

Lemma call_run_described E inp t c u s rd r o : (length inp < fuel E)%nat -> dinv E inp (DRun s rd r) -> urel u (DRun s rd r) ->
  matches o (fst (d_call_run E t c s rd r)) -> call_described (cfg E) u c o (snd (d_call_run E t c s rd r)).
Proof.
  intros Hf [Hinv Hrd] Hu Hm.
  assert (Hs : usees E u s) by (unfold usees; cbn in Hu; tauto).
  assert (Hval : forall A (m : D A) val (P : usage -> A -> Prop), allowed (cfg E) u c = value_allowed (cfg E) u ->
    (ready E s -> fine E inp (m s r) (fun x s' _ => exists u', usage_after c (OOk (val x)) u = Some u' /\ usees E u' s')
       (fun s' => several_steps c = true \/ same s s')) ->
    (expects_member_name s = true \/ d_peek_internal E t s r = MMisuse -> m s r = MMisuse) ->
    matches o (fst (d_run m val s r)) -> call_described (cfg E) u c o (snd (d_run m val s r))).
  { intros A m val P Ha Hfine Hmis Ho. destruct (value_allowed (cfg E) u) eqn:Ev.
    - eapply run_fine; [exact Ha|apply Hfine; exact (value_allowed_ready E u s Hs Ev)|cbn; auto| |exact Ho].
      destruct (several_steps c); [left; reflexivity|]. right. intros s' [K|K]; [discriminate|]. exact (usees_same E u s s' K Hs).
    - apply run_misuse; [exact Ha| |exact Ho]. apply (value_not_allowed E inp t u s r m Hinv Hs Ev); auto. }
  assert (Hv2 : forall A (m : D A) val, allowed (cfg E) u c = value_allowed (cfg E) u ->
    (ready E s -> fine E inp (m s r) (fun x s' _ => finished s s') (fun s' => same s s')) ->
    (expects_member_name s = true \/ d_peek_internal E t s r = MMisuse -> m s r = MMisuse) ->
    (forall x, usage_after c (OOk (val x)) u = Some (value_done (u_open u) u)) ->
    matches o (fst (d_run m val s r)) -> call_described (cfg E) u c o (snd (d_run m val s r))).
  { intros A m val Ha Hfine Hmis Hd Ho. apply (Hval A m val (fun _ _ => True)); auto. intros Hr.
    eapply fine_impl; [exact (Hfine Hr)| |auto]. cbn. intros x s' r' _ K. eexists. split; [apply Hd|]. exact (usees_finished E u s s' Hs K). }
  assert (Hname : forall A (m : D A) val, allowed (cfg E) u c = negb (u_string u) && u_name u -> several_steps c = false ->
    (string_reader_active s = false -> expects_member_name s = true -> fine E inp (m s r) (fun x s' _ => named s s') (fun s' => same s s')) ->
    (d_before_name E t s r = MMisuse -> m s r = MMisuse) ->
    (forall x, usage_after c (OOk (val x)) u = Some (Usage (u_open u) false (u_some u) false)) ->
    matches o (fst (d_run m val s r)) -> call_described (cfg E) u c o (snd (d_run m val s r))).
  { intros A m val Ha Hst Hfine Hmis Hd Ho. pose proof Hs as (K1 & K2 & K3 & K4). rewrite K2, K3 in Ha.
    destruct (string_reader_active s) eqn:Ea; [apply run_misuse; [exact Ha|apply Hmis, before_name_misuse; auto|exact Ho]|].
    destruct (expects_member_name s) eqn:En; [|apply run_misuse; [exact Ha|apply Hmis, before_name_misuse; auto|exact Ho]].
    eapply run_fine; [exact Ha|exact (Hfine eq_refl eq_refl)| | |exact Ho].
    - cbn. intros x s' r' K. eexists. split; [apply Hd|]. exact (usees_named E u s s' Hs K).
    - right. intros s' K. exact (usees_same E u s s' K Hs). }
  destruct c; cbn [d_call_run] in *.
  - (* CPeek *)
    apply (Hval _ _ _ (fun _ _ => True)); auto; [|apply peek_misuse]. intros Hr.
    eapply fine_impl; [apply (peek_fine E inp t s r Hf Hinv Hr)| |auto]. cbn. intros x s' r' _ K. eexists. split; [reflexivity|]. exact (usees_same E u s s' K Hs).
  - (* CHasNext *)
    pose proof Hs as (K1 & K2 & K3 & K4).
    assert (Hc : allowed (cfg E) u CHasNext = true -> countable E s).
    { cbn. rewrite K1, K2, K3. intros H. apply andb_true_iff in H as [Ha H]. apply negb_true_iff in Ha. unfold countable, expects_member_value, is_in_object.
      destruct (stack s) as [|[] st]; cbn.
      - rewrite (K4 eq_refl) in H. apply andb_true_iff in H as [He Hmu]. apply negb_true_iff in He. auto.
      - splits; auto. discriminate.
      - rewrite H. splits; auto. discriminate. }
    destruct (allowed (cfg E) u CHasNext) eqn:Ha.
    + eapply run_fine; [exact Ha|apply (has_next_fine E inp t s r Hf Hinv (Hc eq_refl))| | |exact Hm].
      * cbn. intros x s' r' K. eexists. split; [reflexivity|]. exact (usees_same E u s s' K Hs).
      * right. intros s' K. exact (usees_same E u s s' K Hs).
    + apply run_misuse; [exact Ha| |exact Hm]. apply has_next_misuse. cbn in Ha. rewrite K1, K2, K3 in Ha. unfold expects_member_value, is_in_object.
      destruct (string_reader_active s); [auto|]. right. cbn in Ha. destruct (stack s) as [|[] st]; [|discriminate|rewrite Ha; auto].
      right. split; [reflexivity|]. rewrite (K4 eq_refl) in Ha. apply andb_false_iff in Ha as [Ha|Ha]; [apply negb_false_iff in Ha; auto|auto].
  - (* CBeginArray *)
    apply (Hval _ _ _ (fun _ _ => True)); auto.
    + intros Hr. eapply fine_impl; [apply (begin_array_fine E inp t s r Hf Hinv Hr)| |auto]. cbn. intros x s' r' _ K. eexists. split; [reflexivity|]. exact (usees_opened E u s s' SArray Hs K).
    + intros H. unfold d_begin_array. apply bind_misuse. unfold d_on_container_start. apply bind_misuse, start_misuse, H.
  - (* CEndArray *)
    pose proof Hs as (K1 & K2 & K3 & K4). destruct (allowed (cfg E) u CEndArray) eqn:Ha; pose proof Ha as Ha'; cbn in Ha'; rewrite K1, K3 in Ha'.
    + apply andb_true_iff in Ha' as [Hact Hst]. apply negb_true_iff in Hact. destruct (stack s) as [|[] st] eqn:Est; try discriminate.
      eapply run_fine; [exact Ha|apply (end_array_fine E inp t s r st Hf Hinv Hact Est)| | |exact Hm].
      * cbn. intros x s' r' (G1 & G2 & G3). eexists. split; [reflexivity|]. rewrite K1. cbn. exact (usees_closed E u s s' st Hs G1 G2 G3).
      * right. intros s' K. exact (usees_same E u s s' K Hs).
    + apply run_misuse; [exact Ha| |exact Hm]. unfold d_end_array. unfold dbind at 1, dget at 1. unfold is_in_array.
      destruct (stack s) as [|[] st] eqn:Est; try reflexivity. cbn [negb]. unfold dbind at 1, dmisuse_if, dret at 1. apply bind_misuse, peek_internal_active.
      destruct (string_reader_active s); [reflexivity|discriminate].
  - (* CBeginObject *)
    apply (Hval _ _ _ (fun _ _ => True)); auto.
    + intros Hr. eapply fine_impl; [apply (begin_object_fine E inp t s r Hf Hinv Hr)| |auto]. cbn. intros x s' r' _ K. eexists. split; [reflexivity|]. exact (usees_opened E u s s' SObject Hs K).
    + intros H. unfold d_begin_object. apply bind_misuse. unfold d_on_container_start. apply bind_misuse, start_misuse, H.
  - (* CEndObject *)
    pose proof Hs as (K1 & K2 & K3 & K4). destruct (allowed (cfg E) u CEndObject) eqn:Ha; pose proof Ha as Ha'; cbn in Ha'; rewrite K1, K2, K3 in Ha'.
    + apply andb_true_iff in Ha' as [Hact Hst]. apply negb_true_iff in Hact. destruct (stack s) as [|[] st] eqn:Est; try discriminate.
      eapply run_fine; [exact Ha|apply (end_object_fine E inp t s r st Hf Hinv Hact Est Hst)| | |exact Hm].
      * cbn. intros x s' r' (G1 & G2 & G3). eexists. split; [reflexivity|]. rewrite K1. cbn. exact (usees_closed E u s s' st Hs G1 G2 G3).
      * right. intros s' K. exact (usees_same E u s s' K Hs).
    + apply run_misuse; [exact Ha| |exact Hm]. unfold d_end_object. unfold dbind at 1, dget at 1. unfold expects_member_value, is_in_object.
      destruct (stack s) as [|[] st] eqn:Est; try reflexivity. cbn [negb andb]. unfold dbind at 1, dmisuse_if at 1, dret at 1.
      destruct (expects_member_name s); cbn [negb]; [|reflexivity]. unfold dbind at 1, dmisuse_if at 1, dret at 1. apply bind_misuse, peek_internal_active.
      destruct (string_reader_active s); [reflexivity|discriminate].
  - (* CNextName *) apply Hname; auto; [intros; apply next_name_fine; auto|intros H; unfold d_next_name; apply bind_misuse, H].
  - (* CNextNameOwned *) apply Hname; auto; [intros; apply next_name_fine; auto|intros H; unfold d_next_name; apply bind_misuse, H].
  - (* CSkipName *) apply Hname; auto; [intros; apply skip_name_fine; auto|intros H; unfold d_skip_name; apply bind_misuse, H].
  - (* CNextString *) apply Hv2; auto; [intros; apply next_string_fine; auto|intros H; unfold d_next_string; apply bind_misuse, start_misuse, H].
  - (* CNextStr *) apply Hv2; auto; [intros; apply next_string_fine; auto|intros H; unfold d_next_string; apply bind_misuse, start_misuse, H].
  - (* CNextStringReader *)
    assert (Hx : call_described (cfg E) u CNextStringReader o (snd (d_run_reader E t s r))).
    { unfold d_run_reader, d_next_string_reader in *. unfold dbind in *.
      destruct (value_allowed (cfg E) u) eqn:Ev.
      - pose proof (value_allowed_ready E u s Hs Ev) as Hr. pose proof (start_fine E inp t TString false s r Hf Hinv Hr) as H.
        destruct (d_start E t TString false s r) as [p s' r'|e s' r'|[n|]| |]; cbn in H, Hm.
        + destruct H as (_ & Hsame & _). subst o. split; [discriminate|]. split; [cbn; congruence|]. cbn. intros u' [= <-]. cbn.
          destruct (usees_same E u s s' Hsame Hs) as (K1 & K2 & K3 & K4). destruct Hr as [_ Hn]. destruct Hsame as (_ & G2 & _). splits; auto. congruence.
        + subst o. split; [discriminate|]. split; [cbn; congruence|]. cbn. intros u'. destruct (recoverable e); [|discriminate]. intros [= <-].
          destruct (usees_same E u s s' H Hs) as (K1 & K2 & K3 & K4). auto.
        + destruct Hm as (l & ->). split; [discriminate|]. split; [cbn; congruence|]. discriminate.
        + destruct Hm as (e & -> & Hx). split; [discriminate|]. split; [cbn; congruence|]. cbn. rewrite (aborting_final _ Hx). discriminate.
        + contradiction.
        + contradiction.
      - assert (Hmis : d_start E t TString false s r = MMisuse).
        { apply (value_not_allowed E inp t u s r _ Hinv Hs Ev); intros; apply start_misuse; auto. }
        rewrite Hmis in *. cbn in Hm. subst o. apply described_misuse; [discriminate|exact Ev]. }
    exact Hx.
  - (* CRead *)
    unfold d_run_read in *. destruct rd as [sv|].
    + cbn in Hu. destruct Hu as (K1 & K2 & K3 & K4 & K5).
      pose proof (sv_read_usage E len sv s r) as Hrd2.
      destruct (d_sv_read E len sv s r) as [[bs sv'] s' r'|e s' r'|[n|]| |] eqn:Es; cbn in Hm; try contradiction.
      * subst o. specialize (Hrd2 bs sv' s' r' K5 (i_active _ _ _ _ Hinv) eq_refl). split; [discriminate|]. split; [discriminate|].
        cbn [usage_after urel]. rewrite K3. destruct (string_reader_active s && Nat.ltb (length bs) len).
        -- destruct Hrd2 as [G1 G2]. intros u' [= <-]. destruct (usees_finished E u s s' Hs G1) as (L1 & L2 & L3 & L4).
           split; [exact L1|]. split; [exact L2|]. split; [exact L3|]. split; [exact L4|]. rewrite G2. destruct G1 as (_ & [-> _] & _). reflexivity.
        -- destruct Hrd2 as [G1 G2]. intros u' [= <-]. destruct (usees_same E u s s' G1 Hs) as (L1 & L2 & L3 & L4).
           split; [exact L1|]. split; [exact L2|]. split; [exact L3|]. split; [exact L4|]. rewrite G2. destruct G1 as (_ & _ & _ & -> & _). exact K5.
      * destruct Hm as (e & -> & _). split; [discriminate|]. split; [discriminate|]. cbn. intros u' [= <-]. rewrite K3, K5.
        unfold d_sv_read in Es. destruct (sv_reached_end sv); [discriminate|reflexivity].
    + cbn in Hm. subst o. split; [discriminate|]. split; [discriminate|]. cbn. intros u' [= <-]. exact Hu.
  - (* CNextNumberStr *) apply Hv2; auto; [intros; apply number_fine; auto|intros H; unfold d_next_number, d_number; apply bind_misuse, start_misuse, H].
  - (* CNextNumberString *) apply Hv2; auto; [intros; apply number_fine; auto|intros H; unfold d_next_number, d_number; apply bind_misuse, start_misuse, H].
  - (* CNextBool *) apply Hv2; auto; [intros; apply next_bool_fine; auto|intros H; unfold d_next_bool; apply bind_misuse, start_misuse, H].
  - (* CNextNull *) apply Hv2; auto; [intros; apply next_null_fine; auto|intros H; unfold d_next_null; apply bind_misuse, start_misuse, H].
  - (* CSkipValue *)
    apply (Hval _ _ _ (fun _ _ => True)); auto.
    + intros Hr. eapply fine_impl; [apply (skip_value_fine E inp t s r Hf Hinv Hr)| |auto]. cbn. intros x s' r' _ K. eexists. split; [reflexivity|]. exact (usees_finished E u s s' Hs K).
    + apply skip_value_misuse. lia.
  - (* CSeekTo *)
    apply (Hval _ _ _ (fun _ _ => True)); auto.
    + intros Hr. eapply fine_impl; [apply (seek_to_fine E inp t path s r Hf Hinv Hr)| |auto]. cbn. intros x s' r' _ (G1 & G2 & G3).
      destruct path as [|p path].
      * eexists. split; [reflexivity|]. exact (usees_same E u s s' (G3 eq_refl) Hs).
      * eexists. split; [reflexivity|]. destruct G2 as [[G4 _] G5]. destruct Hs as (K1 & _). unfold usees. cbn [u_open u_name u_string u_some]. rewrite G1, G4, G5, K1.
        splits; auto. intros Hx. apply app_eq_nil in Hx as [Hx _]. cbn in Hx. apply app_eq_nil in Hx as [_ Hx]. discriminate.
    + intros H. unfold d_seek_to. apply bind_misuse, peek_misuse, H.
  - (* CSeekBack *)
    pose proof Hs as (K1 & K2 & K3 & K4). unfold d_seek_back in *.
    destruct path as [|p path].
    { cbn in Hm |- *. subst o. split; [discriminate|]. split; [discriminate|]. cbn. intros u' [= <-]. auto. }
    assert (Hrev : map kind_of (rev (p :: path)) = rev (map kind (p :: path))).
    { rewrite map_rev. reflexivity. }
    assert (Hne : rev (p :: path) <> []) by (cbn; intros Hx; apply app_eq_nil in Hx as [_ Hx]; discriminate).
    destruct (allowed (cfg E) u (CSeekBack (p :: path))) eqn:Ha.
    + pose proof Ha as Ha'. cbn -[rev map] in Ha'. rewrite K1, K2, K3 in Ha'. apply andb_true_iff in Ha' as [Ha' Hin]. apply andb_true_iff in Ha' as [Hact Hn].
      apply negb_true_iff in Hact. apply eqb_prop in Hn. apply innermost_app in Hin as (st & Hin). rewrite <- Hrev in Hin.
      assert (Hi : inside s) by (split; [exact Hact|exact Hn]).
      eapply run_fine; [exact Ha|apply (seek_back_pieces_fine E inp t (rev (p :: path)) s r st Hf Hinv Hin Hi)| |left; reflexivity|exact Hm].
      intros x s' r' (G1 & G2 & _). destruct (G2 Hne) as [G3 G4]. eexists. split; [reflexivity|]. 
      replace (skipn (length (p :: path)) (u_open u)) with st; [exact (usees_closed E u s s' st Hs G1 G3 G4)|].
      rewrite K1, Hin. rewrite skipn_app. rewrite (skipn_all2 (map kind_of _)) by (rewrite map_length, rev_length; lia).
      rewrite map_length, rev_length, Nat.sub_diag. reflexivity.
    + unfold d_run in *. destruct (d_seek_back_pieces E t (rev (p :: path)) s r) as [x s' r'|e s' r'|[n|]| |] eqn:Ed; cbn [fst snd matches] in Hm.
      * exfalso. destruct (seek_back_ok E inp t _ s r _ _ _ Hf Hinv Ed) as [Hx|((Hact & Hn) & st & Hst)]; [exact (Hne Hx)|].
        cbn -[rev map] in Ha. rewrite K1, K2, K3, Hact, Hn in Ha. unfold is_in_object, name_next in Ha. rewrite eqb_reflx in Ha. cbn -[rev map] in Ha.
        rewrite Hrev in Hst. assert (Hy : innermost (rev (map kind (p :: path))) (stack s) = true) by (apply innermost_app; exists st; exact Hst).
        congruence.
      * subst o. split; [congruence|]. split; [intros _; right; eexists _, _; split; reflexivity|]. cbn. rewrite andb_false_r. discriminate.
      * destruct Hm as (l & ->). split; [congruence|]. split; [intros _; right; eexists _, _; split; reflexivity|]. discriminate.
      * destruct Hm as (e & -> & Hx). split; [congruence|]. split; [intros _; right; eexists _, _; split; reflexivity|]. cbn. rewrite andb_false_r. discriminate.
      * subst o. apply described_misuse; [discriminate|exact Ha].
      * contradiction.
  - (* CSkipToTopLevel *)
    pose proof Hs as (K1 & K2 & K3 & K4). destruct (string_reader_active s) eqn:Hact.
    + apply run_misuse; [cbn; rewrite K3; reflexivity| |exact Hm]. unfold d_skip_to_top_level, dbind, dget, dmisuse_if. rewrite Hact. reflexivity.
    + eapply run_fine; [cbn; rewrite K3; reflexivity|apply (skip_to_top_level_fine E inp t s r Hf Hinv Hact)| |left; reflexivity|exact Hm].
      cbn. intros x s' r' K. eexists. split; [reflexivity|]. rewrite K1. destruct (stack s) as [|v st] eqn:Est; [subst; exact Hs|].
      destruct K as (G1 & G2 & G3). exact (usees_closed E u s s' [] Hs G1 G2 G3).
  - (* CPosition *)
    cbn in Hm. subst o. split; [discriminate|]. split; [discriminate|]. cbn. intros u' [= <-]. destruct Hs as (K1 & K2 & K3 & K4). auto.
  - (* CConsumeTrailingWhitespace *)
    pose proof Hs as (K1 & K2 & K3 & K4). unfold d_run_consume, d_consume_trailing, dbind, dget, dmisuse_if in *.
    split; [|split].
    + cbn. rewrite K1, K3. intros Ha k ->. apply andb_true_iff in Ha as [Ha Hst]. apply andb_true_iff in Ha as [Ha Hsome].
      destruct (stack s); [|discriminate]. rewrite (K4 eq_refl) in Hsome. apply negb_true_iff in Ha, Hsome. rewrite Ha, Hsome in Hm. unfold dret in Hm.
      unfold d_ws in Hm. destruct (ws_scan E t None r) as [[w r1]| |]; cbn in Hm; [|destruct Hm as (e & Hm & _); discriminate|contradiction].
      destruct (hd_error r1); cbn in Hm; [destruct Hm as (e & Hm & _)|]; discriminate.
    + cbn. rewrite K1, K3. intros Ha. left. destruct (string_reader_active s); [exact Hm|]. cbn in Ha, Hm. 
      destruct (stack s); [|exact Hm]. rewrite (K4 eq_refl) in Ha. destruct (is_empty s); [exact Hm|discriminate].
    + destruct o; cbn; try discriminate. rewrite andb_true_r. intros u'. destruct (recoverable e) eqn:Er; [|discriminate].
      exfalso. destruct (string_reader_active s); [discriminate|]. destruct (stack s); [|discriminate]. destruct (is_empty s); [discriminate|].
      unfold dret, d_ws in Hm. destruct (ws_scan E t None r) as [[w r1]| |]; cbn in Hm; [|destruct Hm as (e' & Hm & Hx); injection Hm as <-; rewrite (aborting_final _ Hx) in Er; discriminate|contradiction].
      destruct (hd_error r1); cbn in Hm; [destruct Hm as (e' & Hm & Hx); injection Hm as <-; rewrite (aborting_final _ Hx) in Er|]; discriminate.
Qed.

Lemma call_dead_described E t c u held o : urel u (DDead held) -> matches o (fst (d_call E t c (DDead held))) ->
  call_described (cfg E) u c o (snd (d_call E t c (DDead held))).
Proof.
  intros Hu Hm. cbn in Hu. 
  assert (Hmis : allowed (cfg E) u c = false -> o = OPanic Misuse -> forall d', call_described (cfg E) u c o d').
  { intros Ha -> d'. apply described_misuse; [discriminate|exact Ha]. }
  assert (Hv : value_allowed (cfg E) u = false) by (unfold value_allowed; rewrite Hu; reflexivity).
  destruct c as [| | | | | | | | | | | |len| | | | | |path|[|p l]| | |]; cbn [d_call d_call_dead] in *;
    try (apply Hmis; [cbn; rewrite ?Hu; first [exact Hv|reflexivity]|exact Hm]).
  - destruct held; cbn in *; subst o; (split; [discriminate|]; split; [discriminate|]; cbn; intros u' [= <-]; exact Hu).
  - cbn in *. subst o. split; [discriminate|]. split; [discriminate|]. cbn. intros u' [= <-]. exact Hu.
  - destruct Hm as (p & ->). split; [discriminate|]. split; [discriminate|]. cbn. intros u' [= <-]. exact Hu.
Qed.

Lemma call_described_any E inp t c u d o : (length inp < fuel E)%nat -> dinv E inp d -> urel u d ->
  matches o (fst (d_call E t c d)) -> call_described (cfg E) u c o (snd (d_call E t c d)).
Proof.
  intros Hf Hd Hu Hm. destruct d as [s rd r|held| | |]; try contradiction.
  - exact (call_run_described E inp t c u s rd r o Hf Hd Hu Hm).
  - apply call_dead_described; assumption.
Qed.

Lemma urel_start s inp : urel usage_start (DRun (rstate_new s) None inp).
Proof. cbn. auto. Qed.

(** The state reached by a program *)
Lemma calls_urel E inp t cs : (length inp < fuel E)%nat -> forall d u os u', dinv E inp d -> urel u d ->
  Forall2 matches os (fst (d_calls E t cs d)) -> usage_of cs os u = Some u' -> urel u' (snd (d_calls E t cs d)).
Proof.
  intros Hf. induction cs as [|c cs IH]; intros d u os u' Hd Hu Hm Hos.
  - cbn in *. inversion Hm; subst. cbn in Hos. injection Hos as <-. exact Hu.
  - cbn [d_calls] in *. pose proof (call_good E inp t c d Hf Hd) as Hd1. pose proof (fun o => call_described_any E inp t c u d o Hf Hd Hu) as Hc.
    destruct (d_call E t c d) as [o1 d1]. cbn [snd fst] in *.
    specialize (IH d1). destruct (d_calls E t cs d1) as [os1 d2]. cbn [fst snd] in *.
    inversion Hm as [|o ? os' ? H1 H2]; subst. cbn in Hos. destruct (Hc o H1) as (_ & _ & Hn).
    destruct (usage_after c o u) as [u1|]; [|discriminate]. exact (IH u1 os' u' Hd1 (Hn _ eq_refl) H2 Hos).
Qed.

Lemma forall2_app_one {A B : Type} (R : A -> B -> Prop) xs x ys : Forall2 R (xs ++ [x]) ys ->
  exists ys' y, ys = ys' ++ [y] /\ Forall2 R xs ys' /\ R x y.
Proof.
  intros H. apply Forall2_app_inv_l in H as (l1 & l2 & H1 & H2 & ->). inversion H2 as [|? y ? l' H3 H4]; subst. inversion H4; subst. eauto.
Qed.
Lemma usage_of_length cs : forall os u u', usage_of cs os u = Some u' -> length os = length cs.
Proof.
  induction cs as [|c cs IH]; intros [|o os] u u'; cbn; try discriminate; [reflexivity|].
  destruct (usage_after c o u); [|discriminate]. intros H. f_equal. exact (IH _ _ _ H).
Qed.
Lemma d_calls_snoc E t cs c : forall d, d_calls E t (cs ++ [c]) d =
  (fst (d_calls E t cs d) ++ [fst (d_call E t c (snd (d_calls E t cs d)))], snd (d_call E t c (snd (d_calls E t cs d)))).
Proof.
  induction cs as [|c1 cs IH]; intros d; cbn [d_calls app].
  - cbn [fst snd app]. destruct (d_call E t c d). reflexivity.
  - destruct (d_call E t c1 d) as [o1 d1]. rewrite IH. destruct (d_calls E t cs d1) as [os d2]. reflexivity.
Qed.

Lemma last_call s evs cs c os o u : Forall is_byte (fst (supplied evs)) ->
  read_session s evs (cs ++ [c]) = os ++ [o] -> usage_of cs os usage_start = Some u ->
  exists d', call_described s u c o d'.
Proof.
  intros Hb Hr Hu. pose proof (usage_of_length _ _ _ _ Hu) as Hl.
  destruct (session_agree s evs (cs ++ [c]) (session_no_bug s evs _ Hb)) as (os' & st & a & _ & Ho & Hm).
  rewrite Ho in Hr. subst os'. unfold d_session in Hm. rewrite d_calls_snoc in Hm. cbn [fst] in Hm.
  apply Forall2_app_inv_l in Hm as (l1 & l2 & H1 & H2 & Heq).
  inversion H2 as [|? y ? l' H3 H4]; subst. inversion H4; subst. apply app_inj_tail in Heq as [<- <-].
  set (E := Env s (enough_fuel (fst (supplied evs)))) in *. set (inp := fst (supplied evs)) in *.
  assert (Hf : (length inp < fuel E)%nat) by (cbn; unfold enough_fuel; lia).
  assert (Hd0 : dinv E inp (DRun (rstate_new s) None inp)) by (cbn; split; [apply inv_start; exact Hb|exact I]).
  pose proof (calls_good E inp (snd (supplied evs)) cs Hf _ Hd0) as Hd.
  pose proof (calls_urel E inp (snd (supplied evs)) cs Hf _ _ _ _ Hd0 (urel_start s inp) H1 Hu) as Hur.
  eexists. exact (call_described_any E inp (snd (supplied evs)) c u _ o Hf Hd Hur H3).
Qed.

(** Whole programs *)
Lemma correct_no_panic E inp t cs : (length inp < fuel E)%nat -> forall d u os, dinv E inp d -> urel u d ->
  Forall2 matches os (fst (d_calls E t cs d)) -> correct_usage (cfg E) cs os u -> forall o k, In o os -> o <> OPanic k.
Proof.
  intros Hf. induction cs as [|c cs IH]; intros d u os Hd Hu Hm Hc o k Hin.
  - cbn in Hm. inversion Hm; subst. contradiction.
  - cbn [d_calls] in *. pose proof (call_good E inp t c d Hf Hd) as Hd1. pose proof (fun o => call_described_any E inp t c u d o Hf Hd Hu) as Hcd.
    destruct (d_call E t c d) as [o1 d1]. cbn [snd fst] in *.
    specialize (IH d1). destruct (d_calls E t cs d1) as [os1 d2] eqn:Ecs. cbn [fst snd] in *.
    inversion Hm as [|o0 ? os' ? H1 H2]; subst. destruct Hc as [Ha Hc]. destruct (Hcd o0 H1) as (H3 & _ & Hn).
    destruct Hin as [<-|Hin]; [exact (H3 Ha k)|].
    destruct (usage_after c o0 u) as [u1|].
    + exact (IH u1 os' Hd1 (Hn _ eq_refl) H2 Hc o k Hin).
    + subst cs. cbn in Ecs. injection Ecs as <- <-. inversion H2; subst. contradiction.
Qed.
