(** * Proofs: methods and closures of the simple reader API on known data *)

From Verif Require DeRun2.
From Verif Require Import Base Utf8Model SpecNumber SpecJson ReaderModel SpecCursor SpecRead ReaderCursor
  SimpleModel SpecSimple SimpleErrors SimpleWp SimpleRun SimpleRun2 SimpleMulti SimpleMulti2.
Open Scope smonad_scope.

(** ** Nothing unexpected happens after an error *)

Lemma tame_sinvalid A : tame (@sinvalid A). Proof. intros e. split; [discriminate|exact I]. Qed.
Lemma tame_misuse A : tame (@spanic A Misuse). Proof. intros e. split; [discriminate|exact I]. Qed.

Lemma peek_with_tame h : tame (peek_with h).
Proof.
  unfold peek_with. destruct (moved h); [apply tame_sinvalid|].
  assert (Hc : forall h' : handle, tame (x <- capture d_peek ;; sret (h', x))).
  { intros h'. apply tame_bind; [apply tame_capture, mute_tame, mute_peek|]. intros. apply tame_ret. }
  destruct (h_kind h); auto. destruct (consumed_name h); auto.
  apply tame_bind; [apply tame_capture, mute_tame, mute_unit|]. intros [e|u]; [apply tame_ret|auto].
Qed.
Lemma read_with_tame R h (m : simple (reply R)) : tame m -> tame (read_with h m).
Proof.
  intros Hm. unfold read_with. destruct (moved h); [apply tame_sinvalid|].
  assert (Hc : forall h' : handle, tame (x <- capture m ;; sret (h', x))).
  { intros h'. apply tame_bind; [apply tame_capture, Hm|]. intros. apply tame_ret. }
  destruct (h_kind h); auto. destruct (consumed_name h); auto.
  apply tame_bind; [apply tame_capture, mute_tame, mute_unit|]. intros [e|u]; [apply tame_ret|auto].
Qed.
Lemma has_next_with_tame h : tame (has_next_with h).
Proof. unfold has_next_with. destruct (h_kind h); try apply tame_sinvalid. apply tame_capture, mute_tame, mute_has_next. Qed.
Lemma read_name_with_tame h : tame (read_name_with h).
Proof.
  unfold read_name_with. destruct (moved h); [apply tame_sinvalid|]. destruct (h_kind h); try apply tame_sinvalid.
  destruct (consumed_name h); [apply tame_misuse|]. apply tame_bind; [apply tame_capture, mute_tame, mute_str|]. intros. apply tame_ret.
Qed.

Lemma run_op_tame R fl (o : op R) : (0 < fl)%nat ->
  match o with OpMulti _ _ f _ => forall r h, tame (run_body fl (f r) h) | _ => True end -> tame (run_op fl o).
Proof.
  intros Hfl H. destruct o; try (apply mute_tame; intros e; reflexivity).
  cbn [run_op]. apply tame_bind; [apply read_seeked_multi_tame; auto|]. intros. apply tame_ret.
Qed.

Lemma run_body_tame R fl : (0 < fl)%nat -> forall (b : body R) h, tame (run_body fl b h).
Proof.
  intros Hfl.
  apply (body_mut R (fun o => tame (run_op fl o)) (fun b => forall h, tame (run_body fl b h)));
    try (intros; apply run_op_tame; auto; fail).
  - intros r h. apply tame_ret.
  - intros k IH h. cbn [run_body]. apply tame_bind; [apply peek_with_tame|]. intros hx. apply IH.
  - intros k IH h. cbn [run_body]. apply tame_bind; [apply has_next_with_tame|]. intros hx. apply IH.
  - intros k IH h. cbn [run_body]. apply tame_bind; [apply read_name_with_tame|]. intros hx. apply IH.
  - intros o Ho k IH h. cbn [run_body]. apply tame_bind; [apply read_with_tame, Ho|]. intros hx. apply IH.
Qed.

(** ** Methods *)

Lemma d_deserialize_follows V S s (C : DeModel.code V S) steps seed c w v : SpecDe.returns_errors C -> at_ c w -> at_value s c = inr v ->
  wp s (d_deserialize C steps seed None) w
    (follows match SpecDe.sem_seed C s 128 steps seed v 0 with
             | SpecDe.Gives r => Gives r
             | SpecDe.Fails _ => Fails
             | SpecDe.Keeps _ | SpecDe.Panics | SpecDe.Unfinished => Unspecified
             end (fun a b w' => a = b /\ at_ (behind_value c) w')).
Proof.
  intros HC Hat Hv. unfold d_deserialize. apply wp_cbind.
  eapply wp_weaken; [|exact (DeRun2.next_ok V S C s steps seed c w v HC Hat Hv)].
  intros x w' [H1 H2]. destruct (SpecDe.sem_seed C s 128 steps seed v 0) as [a|a|y| |]; cbn [SpecDe.agrees] in H1.
  - subst x. cbn. exists a. auto.
  - subst x. exact I.
  - destruct H1 as (e & -> & _). cbn. split; [discriminate|exact I].
  - subst x. exact I.
  - subst x. exact I.
Qed.

Lemma d_deserialize_errs V S s (C : DeModel.code V S) steps seed c w x : at_ c w -> at_value s c = inl x -> call_verdict x = Fails ->
  wp s (d_deserialize C steps seed None) w errs.
Proof.
  intros Hat Hv Hx. unfold d_deserialize. apply wp_cbind. unfold DeModel.deserialize_next. apply wp_cbind. cbn. intros o Ho _.
  rewrite (at_call s CPeek c w Hat I) in *. cbn [call_at] in *. rewrite Hv in *.
  assert (Hr : exists e, o = OErr e).
  { destruct x; try discriminate; cbn in Ho; destruct Ho as (loc & Ho); (first [subst o|destruct Ho as [-> _]]); eauto. }
  destruct Hr as [e ->]. cbn. eexists _, _. reflexivity.
Qed.

Definition op_follows {A : Type} (x : verdict A) (ce : cursor) (re : sres A * option kept_error) (w : walk) : Prop :=
  match x with
  | Aborts e true => re = (SErr e, None) /\ at_ ce w
  | x => follows x (fun a b w' => a = b /\ at_ ce w') re w
  end.

Definition op_ok {R : Type} (s : settings) (fl : nat) (o : op R) : Prop :=
  forall c w v, at_ c w -> at_value s c = inr v -> (weight v < fl)%nat ->
  wp s (run_op fl o None) w (op_follows (sem_op s o v) (behind_value c)).

Lemma op_of_follows A s (m : client (sres A * option kept_error)) w (x : verdict A) ce :
  (forall e, x <> Aborts e true) -> wp s m w (follows x (fun a b w' => a = b /\ at_ ce w')) -> wp s m w (op_follows x ce).
Proof. intros H. apply wp_weaken. intros re w'. destruct x as [| |e [|]|]; auto. elim (H e). reflexivity. Qed.

Lemma as_result_follows R s (m : simple R) w (x : verdict R) ce :
  wp s (m None) w (follows x (fun a b w' => a = b /\ at_ ce w')) ->
  wp s (as_result m None) w (op_follows (sem_result x) ce).
Proof.
  intros H. apply op_of_follows; [destruct x; discriminate|]. unfold as_result.
  change (sem_result x) with (vbind x (fun r => Gives (VResult r))).
  eapply wp_follow; [exact H| |].
  - intros r. apply tame_ret.
  - intros a r w' _ [<- Hat]. cbn. exists (VResult a). auto.
Qed.

Lemma errs_op A s (m : client (sres A * option kept_error)) w ce : wp s m w errs -> wp s m w (op_follows Fails ce).
Proof. intros H. apply op_of_follows; [discriminate|]. apply errs_fails, H. Qed.

(** An array whose items are read by [m] *)
Lemma read_array_follows R s fl (m : simple (simple_error + R)) c w items (x : verdict (R * list json)) :
  at_ c w -> at_value s c = inr (JArr items) -> (weight (JArr items) < fl)%nat -> tame m ->
  (forall c1 w1 i fs, at_ c1 w1 -> frames c1 = InArray i items :: fs -> close_frame c1 = behind_value c ->
     wp s (m None) w1 (fun re w' =>
       match x with
       | Gives (r, rest) => re = (SOk (inr r), None) /\ exists c2 i fs, at_ c2 w' /\ frames c2 = InArray i rest :: fs /\ close_frame c2 = behind_value c
       | Fails => broken re
       | Aborts e _ => re = (SOk (inl e), None)
       | Unspecified => True
       end)) ->
  wp s (read_array m None) w
    (follows (vbind x (fun y => match snd y with [] => Gives (fst y) | _ :: _ => Fails end))
       (fun a b w' => a = b /\ at_ (behind_value c) w')).
Proof.
  intros Hat Hv Hw Ht Hm. unfold read_array.
  eapply wp_gives; [exact (begin_array_gives s c w items Hat Hv)|]. intros [] w1 Hat1.
  apply wp_bind. eapply wp_weaken; [|apply (Hm _ w1 0 (frames (enter_value c)) Hat1 eq_refl); apply close_open_behind].
  intros [rr err] w2 H. destruct x as [[r rest]| |e cc|]; cbn [vbind snd fst].
  - destruct H as ([= -> ->] & c2 & i & fs & Hat2 & Hf2 & Hce). cbn [of_result]. apply wp_bind. cbn [wp sret].
    destruct rest as [|u rest].
    + eapply wp_gives; [exact (end_array_gives s c2 w2 i fs Hat2 Hf2)|]. intros [] w3 Hat3. rewrite Hce in Hat3.
      cbn. exists r. auto.
    + apply errs_fails, errs_bind. exact (end_array_errs s c2 w2 i u rest fs Hat2 Hf2).
  - destruct H as [H1 H2]. cbn in H1, H2. destruct err as [e|]; [|congruence].
    destruct rr as [hx|e'|k| |]; try (split; assumption). apply tame_wp; auto.
    apply tame_bind; [apply tame_of_result|]. intros r. apply tame_bind; [apply mute_tame, mute_unit|]. intros. apply tame_ret.
  - injection H as -> ->. cbn. reflexivity.
  - destruct rr; auto. apply wp_true. intros; exact I.
Qed.

Lemma object_follows R s (m : simple R) c w ms (x : verdict R) :
  at_ c w -> at_value s c = inr (JObj ms) -> tame m ->
  (forall c1 w1 fs, at_ c1 w1 -> frames c1 = InObject None ms :: fs ->
     wp s (m None) w1 (follows x (fun a b w' => a = b /\ exists nm, at_ (set_frames (InObject nm [] :: fs) c1) w'))) ->
  wp s (as_result (d_unit CBeginObject ;; r' <- m ;; d_unit CEndObject ;; sret r') None) w
    (op_follows (sem_result x) (behind_value c)).
Proof.
  intros Hat Hv Ht Hm. apply as_result_follows.
  eapply wp_gives; [exact (begin_object_gives s c w ms Hat Hv)|]. intros [] w1 Hat1.
  set (c1 := open_frame (InObject None ms) (enter_value c)) in *.
  assert (E : x = vbind x Gives \/ exists e, x = Aborts e true).
  { destruct x as [| |e [|]|]; cbn; eauto. }
  assert (H : wp s ((r' <- m ;; d_unit CEndObject ;; sret r') None) w1 (follows (vbind x Gives) (fun a b w' => a = b /\ at_ (behind_value c) w'))).
  { eapply wp_follow; [exact (Hm c1 w1 (frames (enter_value c)) Hat1 eq_refl)| |].
    - intros r. apply tame_bind; [apply mute_tame, mute_unit|]. intros. apply tame_ret.
    - intros a r w2 _ (<- & nm & Hat2).
      eapply wp_gives; [exact (end_object_gives s _ w2 nm _ Hat2 eq_refl)|]. intros [] w3 Hat3.
      assert (Hc : close_frame (set_frames (InObject nm [] :: frames (enter_value c)) c1) = behind_value c).
      { rewrite (close_set _ (InObject None ms) _ c1 eq_refl). apply close_open_behind. }
      rewrite Hc in Hat3. cbn. exists a. auto. }
  destruct E as [E|[e ->]]; [rewrite E; exact H|]. exact H.
Qed.

Lemma capture_follows A s (m : simple A) w (Q : sres (simple_error + A) * option kept_error -> walk -> Prop) :
  wp s (m None) w (fun re w' =>
    Q (match fst re with
       | SOk a => SOk (inr a) | SErr e => SOk (inl e) | SPanic k => SPanic k | SFuel => SFuel | SInvalid => SInvalid
       end, snd re) w') -> wp s (capture m None) w Q.
Proof.
  intros H. unfold capture. apply wp_cbind. eapply wp_weaken; [|exact H]. intros [r err] w'. cbn.
  destruct r; auto.
Qed.

Lemma on_value_same s ty c f v : at_value s c = inr v -> json_type v = ty -> on_value s ty c f = f v.
Proof. intros Hv Ht. unfold on_value. rewrite Hv. destruct (value_type_dec (json_type v) ty); [reflexivity|contradiction]. Qed.

Ltac wrong_type call ty Hat Hv :=
  apply errs_op; repeat apply errs_bind;
  apply (delegate_errs _ call _ _ Hat I); cbn [call_at]; apply (on_value_type _ ty _ _ _ Hv); discriminate.

Lemma run_op_ok R s fl (o : op R) :
  match o with
  | OpArray f | OpSeeked _ f => closure_ok s fl (run_body fl f) f
  | OpItems f _ | OpMembers f _ | OpMulti _ _ f _ => forall r, closure_ok s fl (run_body fl (f r)) (f r)
  | OpMembersOwned f _ => forall n r, closure_ok s fl (run_body fl (f n r)) (f n r)
  | OpDeserialize C _ _ => SpecDe.returns_errors C
  | _ => True
  end -> op_ok s fl o.
Proof.
  intros Hok c w v Hat Hv Hw. assert (Hfl : (0 < fl)%nat) by lia.
  assert (Hr : reading (behind_value c) = NotReading) by (apply behind_reading_none, Hat).
  destruct o as [| | | | |f|f|f|f r|f r|f r|path f|path alo f r|S C steps seed]; cbn [run_op sem_op].
  - destruct v; try (wrong_type CNextNull TNull Hat Hv).
    apply op_of_follows; [discriminate|].
    assert (Hx : call_at s CNextNull c = (XOk RUnit, AtCursor (behind_value c))).
    { cbn [call_at]. rewrite (on_value_same s TNull c _ _ Hv eq_refl). reflexivity. }
    eapply wp_gives; [exact (unit_gives s CNextNull c w _ _ Hat I Hx Hr)|]. intros [] w1 Hat1. cbn. exists VUnit. auto.
  - destruct v as [|bb| | | |]; try (wrong_type CNextBool TBoolean Hat Hv).
    apply op_of_follows; [discriminate|].
    assert (Hx : call_at s CNextBool c = (XOk (RBool bb), AtCursor (behind_value c))).
    { cbn [call_at]. rewrite (on_value_same s TBoolean c _ _ Hv eq_refl). reflexivity. }
    eapply wp_gives; [exact (conv_gives bool s CNextBool bool_of c w _ _ bb Hat I Hx Hr eq_refl)|]. intros x w1 (<- & Hat1). cbn. exists (VBool bb). auto.
  - destruct v as [| | |t| |]; try (wrong_type CNextString TString Hat Hv).
    apply op_of_follows; [discriminate|].
    assert (Hx : call_at s CNextString c = (XOk (RStr t), AtCursor (behind_value c))).
    { cbn [call_at]. rewrite (on_value_same s TString c _ _ Hv eq_refl). reflexivity. }
    eapply wp_gives; [exact (str_gives s CNextString c w t _ Hat I Hx Hr)|]. intros x w1 (<- & Hat1). cbn. exists (VStr t). auto.
  - destruct v as [| |t| | |]; try (wrong_type CNextNumberString TNumber Hat Hv).
    destruct (restrict_number_values s && unsupported_number t) eqn:E.
    + apply errs_op, errs_bind, errs_bind, (delegate_errs s CNextNumberString c w Hat I). cbn [call_at].
      rewrite (on_value_same s TNumber c _ _ Hv eq_refl), E. reflexivity.
    + apply op_of_follows; [discriminate|].
      assert (Hx : call_at s CNextNumberString c = (XOk (RStr t), AtCursor (behind_value c))).
      { cbn [call_at]. rewrite (on_value_same s TNumber c _ _ Hv eq_refl), E. reflexivity. }
      eapply wp_gives; [exact (str_gives s CNextNumberString c w t _ Hat I Hx Hr)|]. intros x w1 (<- & Hat1). cbn. exists (VStr t). auto.
  - apply op_of_follows; [discriminate|].
    eapply wp_gives; [exact (skip_gives s c w v Hat Hv)|]. intros [] w1 Hat1. cbn. exists VUnit. auto.
  - destruct v as [| | |t| |]; try (wrong_type CNextStr TString Hat Hv).
    assert (Hx : call_at s CNextStr c = (XOk (RStr t), AtCursor (behind_value c))).
    { cbn [call_at]. rewrite (on_value_same s TString c _ _ Hv eq_refl). reflexivity. }
    eapply wp_gives; [exact (str_gives s CNextStr c w t _ Hat I Hx Hr)|]. intros x w1 (<- & Hat1).
    destruct (f t) as [e|r]; cbn; auto. exists (VResult r). auto.
  - destruct v as [| | |t| |]; try (wrong_type CNextStringReader TString Hat Hv).
    apply op_of_follows; [|exact (read_string_with_reader_follows R s fl f c w t Hat Hv Hw)].
    intros e. destruct (sem_string_shape R f (encode_utf8 t)) as [[r ->]|[e' ->]]; discriminate.
  - destruct v as [| | | |items|]; try (wrong_type CBeginArray TArray Hat Hv).
    set (x := match sem_body s f (AtItems items) with
              | Gives (r, AtItems rest) => Gives (r, rest) | Gives (r, _) => Unspecified
              | Fails => Fails | Aborts e _ => Aborts e false | Unspecified => Unspecified end).
    assert (Hk : forall r vw, sem_body s f (AtItems items) = Gives (r, vw) -> exists rest, vw = AtItems rest).
    { intros r vw E. apply sem_body_kind in E. destruct vw; cbn in E; try contradiction. eauto. }
    assert (E : match sem_body s f (AtItems items) with
      | Gives (r, AtItems []) => Gives (VResult r) | Gives _ => Fails | Fails => Fails
      | Aborts e _ => Aborts e false | Unspecified => Unspecified end
      = sem_result (vbind x (fun y => match snd y with [] => Gives (fst y) | _ :: _ => Fails end))).
    { unfold x. destruct (sem_body s f (AtItems items)) as [[r vw]| | |] eqn:Eb; try reflexivity.
      destruct (Hk r vw eq_refl) as [[|] ->]; reflexivity. }
    rewrite E. apply as_result_follows. destruct Hok as [Ht Hb].
    apply (read_array_follows R s fl _ c w items x Hat Hv Hw).
    + apply tame_bind; [apply Ht|]. intros. apply tame_ret.
    + intros c1 w1 i fs Hat1 Hf1 Hce. apply wp_bind.
      eapply wp_weaken; [|apply (Hb (AtItems items) array_reader c1 (behind_value c) w1)].
      2:{ split; [apply Hat1|]. split; [reflexivity|]. exists i, fs. auto. }
      2:{ exact Hat1. }
      2:{ split; [exact Hfl|]. apply (weight_items items fl Hw). }
      intros [rr err] w2 H. unfold x. destruct (sem_body s f (AtItems items)) as [[r vw]| |e cc|] eqn:Eb; cbn [body_follows] in H.
      * destruct H as (h & c2 & [= -> ->] & Hst & Hat2). destruct (Hk r vw eq_refl) as [rest ->].
        destruct Hst as (_ & -> & i2 & fs2 & Hf2 & Hce2). cbn. split; [reflexivity|]. exists c2, i2, fs2. auto.
      * destruct H as [H1 H2]. destruct rr; cbn in *; split; auto.
      * destruct H as (h & [= -> ->]). reflexivity.
      * destruct rr; cbn; auto.
  - destruct v as [| | | |items|]; try (wrong_type CBeginArray TArray Hat Hv).
    set (y := sem_each (fun r' u => sem_any (sem_body s (f r') (AtSingle u))) items r).
    set (x := vbind y (fun r => Gives (r, @nil json))).
    assert (E : sem_result y = sem_result (vbind x (fun y => match snd y with [] => Gives (fst y) | _ :: _ => Fails end))).
    { unfold x. destruct y; reflexivity. }
    rewrite E. apply as_result_follows. destruct (weight_items items fl Hw) as [Hwi Hli].
    apply (read_array_follows R s fl _ c w items x Hat Hv Hw).
    + apply tame_capture, items_loop_tame, Hfl.
    + intros c1 w1 i fs Hat1 Hf1 Hce. apply capture_follows.
      eapply wp_weaken; [|exact (items_loop_follows R s fl (fun r' h => run_body fl (f r') h) f Hfl Hok items fl i fs c1 w1 r Hli Hat1 Hf1 Hwi)].
      intros [rr err] w2 H. unfold x. fold y in H. destruct y as [a| |e cc|]; cbn [vbind follows] in *.
      * destruct H as (b & [= -> ->] & <- & i' & Hat2). cbn. split; [reflexivity|].
        eexists _, i', fs. split; [exact Hat2|]. split; [reflexivity|]. rewrite (close_set _ _ fs c1 Hf1). exact Hce.
      * destruct H as [H1 H2]. destruct rr; cbn in *; split; auto.
      * injection H as -> ->. reflexivity.
      * exact I.
  - destruct v as [| | | | |ms]; try (wrong_type CBeginObject TObject Hat Hv).
    destruct (weight_members ms fl Hw) as [Hwm Hlm].
    apply (object_follows R s _ c w ms _ Hat Hv).
    + apply members_loop_tame, Hfl.
    + intros c1 w1 fs Hat1 Hf1.
      exact (members_loop_follows R s fl (fun r' h => run_body fl (f r') h) f Hfl Hok ms fl None fs c1 w1 r Hlm Hat1 Hf1 Hwm).
  - destruct v as [| | | | |ms]; try (wrong_type CBeginObject TObject Hat Hv).
    destruct (weight_members ms fl Hw) as [Hwm Hlm].
    apply (object_follows R s _ c w ms _ Hat Hv).
    + apply members_owned_loop_tame, Hfl.
    + intros c1 w1 fs Hat1 Hf1.
      exact (members_owned_loop_follows R s fl (fun n r' h => run_body fl (f n r') h) f Hfl Hok ms fl None fs c1 w1 r Hlm Hat1 Hf1 Hwm).
  - assert (E : match lookup path v with Some u => sem_result (sem_any (sem_body s f (AtSingle u))) | None => Fails end
      = sem_result match lookup path v with Some u => sem_any (sem_body s f (AtSingle u)) | None => Fails end).
    { destruct (lookup path v); reflexivity. }
    rewrite E. apply as_result_follows.
    exact (read_seeked_follows R s fl path (fun h => run_body fl f h) f c w v Hok Hat Hv Hw).
  - apply as_result_follows.
    exact (read_seeked_multi_follows R s fl path alo (fun r' h => run_body fl (f r') h) f c w v r Hok Hat Hv Hw).
  - set (x := match SpecDe.sem_seed C s 128 steps seed v 0 with
              | SpecDe.Gives r => Gives r | SpecDe.Fails _ => Fails
              | SpecDe.Keeps _ | SpecDe.Panics | SpecDe.Unfinished => Unspecified end).
    assert (E : match SpecDe.sem_seed C s 128 steps seed v 0 with
              | SpecDe.Gives r => Gives (VResult r) | SpecDe.Fails _ => Fails
              | SpecDe.Keeps _ | SpecDe.Panics | SpecDe.Unfinished => Unspecified end = sem_result x).
    { unfold x. destruct (SpecDe.sem_seed C s 128 steps seed v 0); reflexivity. }
    rewrite E. apply as_result_follows. exact (d_deserialize_follows R S s C steps seed c w v Hok Hat Hv).
Qed.

(** Methods without a value *)
Lemma run_op_none R s fl (o : op R) c w x : (0 < fl)%nat -> at_ c w -> at_value s c = inl x -> call_verdict x = Fails -> ~ empty_multi o ->
  wp s (run_op fl o None) w errs.
Proof.
  intros Hfl Hat Hv Hx Hn.
  assert (Hcont : fst (continue x c) = x) by (destruct x; reflexivity).
  assert (Hon : forall ty f, call_verdict (fst (on_value s ty c f)) = Fails).
  { intros ty f. unfold on_value. rewrite Hv, Hcont. exact Hx. }
  assert (Hd : forall call, calm call -> call_at s call c = continue x c \/ (exists ty f, call_at s call c = on_value s ty c f) ->
    wp s (delegate call None) w errs).
  { intros call Hc H. apply (delegate_errs s call c w Hat Hc). destruct H as [->|(ty & f & ->)]; [rewrite Hcont; exact Hx|apply Hon]. }
  assert (Hseek : forall p, wp s (d_unit (CSeekTo p) None) w errs).
  { intros p. apply errs_bind, Hd; [exact I|]. left. cbn [call_at]. rewrite Hv. reflexivity. }
  assert (Hba : wp s (d_unit CBeginArray None) w errs).
  { apply errs_bind, Hd; [exact I|]. right. eexists _, _. reflexivity. }
  assert (Hbo : wp s (d_unit CBeginObject None) w errs).
  { apply errs_bind, Hd; [exact I|]. right. eexists _, _. reflexivity. }
  destruct o as [| | | | |f|f|f|f r|f r|f r|path f|path alo f r|S C steps seed]; cbn [run_op];
    try (repeat apply errs_bind; apply Hd; [exact I|]; right; eexists _, _; reflexivity).
  - apply errs_bind, errs_bind, Hd; [exact I|]. left. cbn [call_at]. rewrite Hv. reflexivity.
  - apply errs_bind, errs_bind, Hseek.
  - destruct path as [|p path]; [elim Hn; exact I|]. apply errs_bind.
    cbn [read_seeked_multi]. set (P := p :: path).
    assert (Hgo : forall loc w', at_ c w' -> wp s ((rm <- multi_loop fl fl (convert_path None P) (fun r' h => run_body fl (f r') h) true 0 false r ;;
        if alo && negb (snd rm) then no_match loc else sret (fst rm)) None) w' errs).
    { clear w Hat Hd Hseek Hba Hbo. intros loc w Hat. apply errs_bind. destruct fl as [|fl']; [lia|].
      assert (Hne : convert_path None P <> []) by (apply convert_nonempty; left; discriminate).
      destruct (convert_path None P) as [|q qs] eqn:E; [congruence|].
      rewrite (multi_round R fl' (S fl') (q :: qs) _ true 0 false r q eq_refl). apply errs_bind.
      assert (Hd : forall call, calm call -> call_at s call c = continue x c \/ (exists ty f, call_at s call c = on_value s ty c f) ->
        wp s (delegate call None) w errs).
      { intros call Hc H. apply (delegate_errs s call c w Hat Hc). destruct H as [->|(ty & f0 & ->)]; [rewrite Hcont; exact Hx|apply Hon]. }
      destruct q; cbn [multi_step]; repeat apply errs_bind; apply Hd; try exact I;
        try (right; eexists _, _; reflexivity). left. cbn [call_at]. rewrite Hv. reflexivity. }
    destruct alo.
    + apply position_gives with (c := c); auto.
    + apply wp_bind. cbn [wp sret]. apply Hgo, Hat.
  - apply errs_bind. exact (d_deserialize_errs R S s C steps seed c w x Hat Hv Hx).
Qed.

(** ** Closures *)

(** The verdict [v] of a closure, if what precedes it gives [hx] *)
Lemma body_broken R s fl (m : simple (handle * (simple_error + R))) X w ce : tame m -> (0 < fl)%nat -> X = @Fails (R * view) ->
  forall e, wp s (m (Some e)) w (body_follows s X ce).
Proof. intros Ht _ -> e. apply tame_wp; auto. Qed.

Lemma peek_ok s c w v : at_ c w -> at_value s c = inr v ->
  wp s (capture d_peek None) w (fun re w' => re = (SOk (inr (json_type v)), None) /\ at_ c w').
Proof.
  intros Hat Hv. apply capture_follows.
  assert (Hx : call_at s CPeek c = (XOk (RType (json_type v)), AtCursor c)) by (cbn [call_at]; rewrite Hv; reflexivity).
  eapply wp_weaken; [|exact (conv_gives value_type s CPeek type_of c w _ _ (json_type v) Hat I Hx (proj1 Hat) eq_refl)].
  intros re w' (b & -> & <- & Hat'). split; [reflexivity|exact Hat'].
Qed.

Lemma errs_capture A s (m : simple A) w : wp s (m None) w errs ->
  wp s (capture m None) w (fun re w' => exists e e', re = (SOk (inl e), Some e')).
Proof.
  intros H. apply capture_follows. eapply wp_weaken; [|exact H]. intros re w' (e & e' & ->). eexists _, _. reflexivity.
Qed.

Lemma run_body_ok R s fl : (0 < fl)%nat -> forall b : body R, returns_errors_body b -> closure_ok s fl (run_body fl b) b.
Proof.
  intros Hfl.
  apply (body_mut R (fun o => returns_errors_op o -> op_ok s fl o) (fun b => returns_errors_body b -> closure_ok s fl (run_body fl b) b));
    try (intros; apply run_op_ok; auto; fail).
  - (* BDone *)
    intros [e|r] _; (split; [intros h; apply tame_ret|]); intros vw h c ce w Hst Hat Hfit; cbn.
    + exists h. reflexivity.
    + exists h, c. auto.
  - (* BPeek *)
    intros k IH Hc. cbn in Hc. split; [intros h; apply run_body_tame, Hfl|]. intros vw h c ce w Hst Hat Hfit.
    rewrite sem_body_peek. cbn [run_body].
    assert (Hgo : forall h' v c' w', at_ c' w' -> at_value s c' = inr v -> stands s (sem_named vw) h' c' ce ->
      wp s ((hx <- (x <- capture d_peek ;; sret (h', x)) ;; run_body fl (k (snd hx)) (fst hx)) None) w'
        (body_follows s (sem_body s (k (inr (json_type v))) (sem_named vw)) ce)).
    { intros h' v c' w' Hat' Hv' Hst'. apply wp_bind, wp_bind.
      eapply wp_weaken; [|exact (peek_ok s c' w' v Hat' Hv')]. intros re w2 [-> Hat2]. cbn [wp sret fst snd].
      apply (proj2 (IH (inr (json_type v)) (Hc _))) with (c := c'); auto.
      destruct vw as [| |[]|]; exact Hfit. }
    destruct Hst as [Hr Hst]. destruct vw as [[|v items]|v|[] n v|]; cbn [sem_value sem_named] in *.
    + destruct Hst as (-> & i & fs & Hf & Hce). cbn [peek_with array_reader moved h_kind].
      apply wp_bind, wp_bind.
      assert (He : wp s (d_peek None) w errs).
      { apply errs_bind, (delegate_errs s CPeek c w Hat I). cbn [call_at]. unfold at_value. rewrite (not_reading c Hr), Hf. reflexivity. }
      eapply wp_weaken; [|exact (errs_capture _ s _ w He)]. intros re w' (e & e' & ->). cbn [wp sret fst snd].
      apply tame_wp; [apply run_body_tame, Hfl|]. auto.
    + destruct Hst as (-> & i & fs & Hf & Hce). cbn [peek_with array_reader moved h_kind].
      apply Hgo with (c' := c); auto; [exact (at_value_array s c i v items fs Hr Hf)|].
      split; [exact Hr|]. split; [reflexivity|]. exists i, fs. auto.
    + destruct Hst as (-> & Hv & Hce). cbn [peek_with single_reader moved h_kind].
      apply Hgo with (c' := c); auto. split; auto.
    + destruct Hst as (-> & Hv & Hce). cbn [peek_with moved h_kind consumed_name].
      apply Hgo with (c' := c); auto. split; auto.
    + destruct Hst as (-> & nm & ms & fs & Hf & Hce). cbn [peek_with moved h_kind consumed_name member_reader].
      apply wp_assoc, wp_bind, capture_follows.
      eapply wp_weaken; [|exact (skip_name_gives s c w nm n v ms fs Hat Hf)].
      intros re w' (x & -> & Hat'). cbn [fst snd].
      assert (Hv : at_value s (set_frames (AtValue n v ms :: fs) c) = inr v).
      { apply (at_value_member s _ n v ms fs); [exact Hr|reflexivity]. }
      apply Hgo with (c' := set_frames (AtValue n v ms :: fs) c); auto. split; [exact Hr|]. auto.
    + apply wp_true. intros; exact I.
  - (* BHasNext *)
    intros k IH Hc. cbn in Hc. split; [intros h; apply run_body_tame, Hfl|]. intros vw h c ce w Hst Hat Hfit. cbn [sem_body run_body].
    destruct vw as [items|v|nr n v|]; try (apply wp_true; intros; exact I).
    destruct Hst as (Hr & -> & i & fs & Hf & Hce). cbn [has_next_with array_reader h_kind]. apply wp_bind, capture_follows.
    eapply wp_weaken; [|exact (has_next_gives s c w _ Hat (more_array s c i items fs Hr Hf))].
    intros re w' (x & -> & <- & Hat'). cbn [fst snd].
    apply (proj2 (IH (inr (negb (is_nil items))) (Hc _))) with (c := c); auto. split; [exact Hr|]. split; [reflexivity|]. exists i, fs. auto.
  - (* BReadName *)
    intros k IH Hc. cbn in Hc. split; [intros h; apply run_body_tame, Hfl|]. intros vw h c ce w Hst Hat Hfit. cbn [sem_body run_body].
    destruct vw as [items|v|[] n v|]; try (apply wp_true; intros; exact I).
    destruct Hst as (Hr & -> & nm & ms & fs & Hf & Hce). cbn [read_name_with member_reader h_kind moved consumed_name].
    apply wp_bind, wp_bind, capture_follows.
    eapply wp_weaken; [|exact (read_name_gives s CNextName c w nm n v ms fs (or_introl eq_refl) Hat Hf)].
    intros re w' (x & -> & <- & Hat'). cbn [fst snd wp sret].
    apply (proj2 (IH (inr n) (Hc _))) with (c := set_frames (AtValue n v ms :: fs) c); auto.
    split; [exact Hr|]. splits; auto. apply (at_value_member s _ n v ms fs); [exact Hr|reflexivity].
  - (* BRead *)
    intros o Ho k IH Hc. cbn in Hc. destruct Hc as [Hc1 Hc]. specialize (Ho Hc1). split; [intros h; apply run_body_tame, Hfl|]. intros vw h c ce w Hst Hat Hfit.
    rewrite sem_body_read. cbn [run_body].
    assert (Hto : tame (run_op fl o)).
    { apply run_op_tame; auto. destruct o; auto. intros. apply run_body_tame, Hfl. }
    assert (Hgo : forall h' v c' w', at_ c' w' -> at_value s c' = inr v -> (weight v < fl)%nat ->
      stands s (sem_behind vw) h' (behind_value c') ce ->
      wp s ((hx <- (x <- capture (run_op fl o) ;; sret (h', x)) ;; run_body fl (k (snd hx)) (fst hx)) None) w'
        (body_follows s
          match sem_op s o v with
          | Gives x => sem_body s (k (inr x)) (sem_behind vw)
          | Fails => Fails
          | Aborts e true => sem_body s (k (inl e)) (sem_behind vw)
          | Aborts e false => match k (inl e) with BDone (inl e') => Aborts e' false | _ => Unspecified end
          | Unspecified => Unspecified
          end ce)).
    { intros h' v c' w' Hat' Hv' Hw' Hst'. apply wp_bind, wp_bind, capture_follows.
      assert (Hfit' : fits fl (sem_behind vw)).
      { destruct Hfit as [_ Hfit]. split; [exact Hfl|]. destruct vw as [[|u items]| |[]|]; cbn; auto. inversion Hfit; auto. }
      eapply wp_weaken; [|exact (Ho c' w' v Hat' Hv' Hw')]. intros [rr err] w2 H.
      destruct (sem_op s o v) as [x| |e [|]|]; cbn [op_follows follows fst snd] in *.
      - destruct H as (y & [= -> ->] & <- & Hat2). cbn [wp sret fst snd].
        apply (proj2 (IH (inr x) (Hc _))) with (c := behind_value c'); auto.
      - destruct H as [H1 H2]. cbn in H1, H2. destruct err as [e|]; [|congruence].
        assert (Hb : forall x, tame (run_body fl (k x) h')) by (intros x; apply run_body_tame, Hfl).
        destruct rr as [y|e'|kk| |]; cbn [wp sret fst snd]; try (split; assumption); apply tame_wp; auto.
      - destruct H as [[= -> ->] Hat2]. cbn [wp sret fst snd].
        apply (proj2 (IH (inl e) (Hc _))) with (c := behind_value c'); auto.
      - injection H as -> ->. cbn [wp sret fst snd].
        destruct (k (inl e)) as [[e'|r]| | | |]; try (apply wp_true; intros; exact I). cbn. exists h'. reflexivity.
      - destruct rr; cbn [wp sret fst snd]; auto; apply wp_true; intros; exact I. }
    destruct Hst as [Hr Hst]. destruct Hfit as [Hfit0 Hfit]. destruct vw as [[|v items]|v|[] n v|]; cbn [sem_value sem_behind] in *.
    + destruct Hst as (-> & i & fs & Hf & Hce). cbn [read_with array_reader moved h_kind].
      assert (Hx : at_value s c = inl (XStructure FewerElementsThanExpected (cursor_path c))).
      { unfold at_value. rewrite (not_reading c Hr), Hf. reflexivity. }
      assert (Hcase : empty_multi o \/ ~ empty_multi o).
      { destruct o as [| | | | | | | | | | | |[|]|]; cbn; auto. }
      destruct Hcase as [He|He].
      * destruct o as [| | | | | | | | | | | |[|]|]; try contradiction. apply wp_true. intros; exact I.
      * assert (E : body_follows s match o with OpMulti [] _ _ _ => Unspecified | _ => Fails end ce = body_follows s (@Fails (R * view)) ce).
        { destruct o as [| | | | | | | | | | | |[|]|]; try reflexivity. elim He. exact I. }
        rewrite E. apply wp_bind, wp_bind.
        eapply wp_weaken; [|exact (errs_capture _ s _ w (run_op_none R s fl o c w _ Hfl Hat Hx eq_refl He))].
        intros re w' (e & e' & ->). cbn [wp sret fst snd]. apply tame_wp; [apply run_body_tame, Hfl|]. auto.
    + destruct Hst as (-> & i & fs & Hf & Hce). cbn [read_with array_reader moved h_kind].
      inversion Hfit as [|? ? Hw1 Hw2]; subst.
      apply Hgo with (c' := c); auto; [exact (at_value_array s c i v items fs Hr Hf)|].
      split; [apply behind_reading_none, Hr|]. cbn [tl]. split; [reflexivity|]. exists (i + 1), fs.
      rewrite (behind_array c i v items fs Hf). split; [reflexivity|]. exact (close_set _ _ fs c Hf).
    + destruct Hst as (-> & Hv & Hce). cbn [read_with single_reader moved h_kind].
      apply Hgo with (c' := c); auto. split; [apply behind_reading_none, Hr|]. auto.
    + destruct Hst as (-> & Hv & Hce). cbn [read_with moved h_kind consumed_name].
      apply Hgo with (c' := c); auto. split; [apply behind_reading_none, Hr|]. auto.
    + destruct Hst as (-> & nm & ms & fs & Hf & Hce). cbn [read_with moved h_kind consumed_name member_reader].
      apply wp_assoc, wp_bind, capture_follows.
      eapply wp_weaken; [|exact (skip_name_gives s c w nm n v ms fs Hat Hf)].
      intros re w' (x & -> & Hat'). cbn [fst snd].
      assert (Hv : at_value s (set_frames (AtValue n v ms :: fs) c) = inr v).
      { apply (at_value_member s _ n v ms fs); [exact Hr|reflexivity]. }
      apply Hgo with (c' := set_frames (AtValue n v ms :: fs) c); auto. split; [|auto].
      rewrite Hce. rewrite <- Hce. apply behind_reading_none. exact Hr.
    + apply wp_true. intros; exact I.
Qed.

Lemma run_op_all R s fl (o : op R) : (0 < fl)%nat -> returns_errors_op o -> op_ok s fl o.
Proof.
  intros Hfl Hc. apply run_op_ok. destruct o; cbn in Hc; auto; intros; apply run_body_ok; auto.
Qed.
