(** * Proofs: the use of a [SimpleJsonReader] on known data *)

From Verif Require Import Base Utf8Model SpecNumber SpecJson ReaderModel SpecCursor SpecRead ReaderCursor
  SimpleModel SpecSimple SimpleErrors SimpleWp SimpleRun SimpleRun2 SimpleMulti SimpleMulti2 SimpleRun3.
Open Scope smonad_scope.

(** The cursor is at or inside of the last top-level value *)
Definition sole (c : cursor) : Prop := top (enter_value c) = [] /\ started (enter_value c) = true.

Lemma enter_top f c : top (enter_value (open_frame f c)) = top c /\ started (enter_value (open_frame f c)) = started c.
Proof. destruct f; split; reflexivity. Qed.

Lemma sole_open f c : sole c -> sole (open_frame f (enter_value c)).
Proof. intros [H1 H2]. unfold sole. destruct (enter_top f (enter_value c)) as [-> ->]. auto. Qed.

Lemma seek_sole path : forall c c', sole c -> seek path c = (XOk RUnit, c') -> sole c'.
Proof.
  induction path as [|p path IH]; intros c c' Hs H.
  - cbn in H. injection H as <-. exact Hs.
  - destruct p as [i|n]; cbn in H; destruct (next_value c) as [[| | | |items|ms]|]; try discriminate.
    + destruct (i <? _); [|discriminate]. apply (IH _ _ (sole_open _ c Hs) H).
    + destruct (find_member n ms) as [[v ms']|]; [|discriminate]. apply (IH _ _ (sole_open _ c Hs) H).
Qed.

Lemma done_top c : top (value_done c) = top c /\ started (value_done c) = started c.
Proof. unfold value_done. destruct (frames c) as [|[] ?]; split; reflexivity. Qed.

Lemma finish_follows s (seeked : bool) c w : at_ (behind_value c) w -> sole c -> (seeked = false -> frames c = []) ->
  wp s (finish seeked None) w (fun re _ => re = (SOk tt, None)).
Proof.
  intros Hat [H1 H2] Hf. unfold finish.
  assert (Hc : forall c' w', at_ c' w' -> frames c' = [] -> top c' = [] -> started c' = true ->
    wp s (d_consume None) w' (fun re _ => re = (SOk tt, None))).
  { intros c' w' Hat' Hf' Ht' Hs'. cbn [d_consume wp]. intros o Ho _.
    rewrite (at_call s CConsumeTrailingWhitespace c' w' Hat' I) in *. cbn [call_at] in *.
    rewrite (not_reading c' (proj1 Hat')), Hf', Hs', Ht' in *. cbn in Ho. subst o. reflexivity. }
  unfold behind_value in *. destruct (done_top (enter_value c)) as [E1 E2]. rewrite <- E1 in H1. rewrite <- E2 in H2.
  destruct seeked.
  - eapply wp_gives; [apply (unit_gives s CSkipToTopLevel _ w RUnit (set_frames [] (value_done (enter_value c))) Hat I)|].
    + cbn [call_at]. rewrite (not_reading _ (proj1 Hat)). reflexivity.
    + cbn. apply Hat.
    + intros [] w1 Hat1. cbn beta in Hat1. eapply Hc; [exact Hat1|reflexivity|exact H1|exact H2].
  - apply wp_bind. cbn [wp sret]. eapply Hc; [exact Hat| |exact H1|exact H2].
    unfold enter_value. rewrite (Hf eq_refl). reflexivity.
Qed.

Lemma finish_mute seeked : mute (finish seeked).
Proof. intros e. destruct seeked; reflexivity. Qed.

Lemma run_use_failed R s fl : (0 < fl)%nat -> forall (u : use R) seeked e w,
  wp s (run_use fl u seeked (Some e)) w (fun re _ => ends_with Fails (fst re)).
Proof.
  intros Hfl. induction u as [k IH|path k IH|o]; intros seeked e w; cbn [run_use].
  - apply IH.
  - apply IH.
  - apply wp_bind. apply tame_wp.
    + apply run_op_tame; auto. destruct o; auto. intros. apply run_body_tame, Hfl.
    + intros [r err] w' [H1 H2]. cbn in H1, H2. destruct err as [e'|]; [|congruence].
      destruct r as [x|e2|[]| |]; cbn in *; try contradiction; eauto.
      unfold sbind. rewrite (finish_mute seeked e'). cbn. eauto.
Qed.

Lemma run_use_follows R s fl : (0 < fl)%nat -> forall (u : use R), returns_errors_use u -> forall seeked c w v,
  at_ c w -> at_value s c = inr v -> (weight v < fl)%nat -> sole c -> (seeked = false -> frames c = []) ->
  wp s (run_use fl u seeked None) w (fun re _ => ends_with (sem_use s u v) (fst re)).
Proof.
  intros Hfl. induction u as [k IH|path k IH|o]; intros Hc seeked c w v Hat Hv Hw Hs Hf; cbn [run_use sem_use].
  - apply wp_bind. eapply wp_weaken; [|exact (peek_ok s c w v Hat Hv)]. intros re w' [-> Hat'].
    apply (IH _ (Hc _) seeked c w' v); auto.
  - apply wp_bind. destruct (lookup path v) as [u|] eqn:El.
    + destruct (seek_gives s path c w v u Hat Hv El) as (c' & Hsk & Hv' & Hr' & Hseek).
      apply capture_follows. eapply wp_weaken; [|exact Hseek]. intros re w' (x & -> & Hat'). cbn [fst snd]. destruct x.
      apply (IH _ (Hc _) true c' w' u); auto.
      * pose proof (lookup_weight path v u El). lia.
      * exact (seek_sole path c c' Hs Hsk).
      * discriminate.
    + eapply wp_weaken; [|exact (errs_capture _ s _ w (seek_errs s path c w v Hat Hv El))].
      intros re w' (e & e' & ->). apply (run_use_failed R s fl Hfl).
  - apply wp_bind. eapply wp_weaken; [|exact (run_op_all R s fl o Hfl Hc c w v Hat Hv Hw)].
    intros [r err] w' H. destruct (sem_op s o v) as [x| |e [|]|]; cbn [op_follows follows ends_with] in *.
    + destruct H as (y & [= -> ->] & <- & Hat'). apply wp_bind.
      eapply wp_weaken; [|exact (finish_follows s seeked c w' Hat' Hs Hf)]. intros re w2 ->. reflexivity.
    + destruct H as [H1 H2]. cbn in H1, H2. destruct err as [e'|]; [|congruence].
      destruct r as [x|e2|[]| |]; cbn in *; try contradiction; eauto.
      unfold sbind. rewrite (finish_mute seeked e'). cbn. eauto.
    + destruct H as [[= -> ->] _]. reflexivity.
    + injection H as -> ->. reflexivity.
    + destruct r; auto; apply wp_true; intros; exact I.
Qed.

Lemma simple_session_ends R fl s v evs (u : use R) : document_input s [v] evs -> returns_errors_use u -> (weight v < fl)%nat ->
  ends_with (sem_use s u v) (simple_session fl s evs u).
Proof.
  intros Hd Hc Hw.
  assert (Hwp : wp s (simple_client fl u) (AtCursor (cursor_start [v])) (fun r _ => ends_with (sem_use s u v) r)).
  { unfold simple_client. apply wp_cbind. eapply wp_weaken;
      [|apply (run_use_follows R s fl ltac:(lia) u Hc false (cursor_start [v]) (AtCursor (cursor_start [v])) v)]; auto.
    - apply at_refl. reflexivity.
    - split; reflexivity. }
  destruct (wp_session _ s [v] evs _ _ Hd Hwp) as ([r st] & w' & (c' & Hrun) & H).
  unfold simple_session. rewrite Hrun. exact H.
Qed.
