(** * Proofs: the functions of the simple reader API on known data *)

From Verif Require Import Base Utf8Model SpecNumber SpecJson ReaderModel SpecCursor SpecRead ReaderCursor
  SimpleModel SpecSimple SimpleErrors SimpleWp.

Open Scope smonad_scope.

(** ** Single calls *)

Lemma conv_gives B s call (g : rvalue -> simple B) c w v c1 b :
  at_ c w -> match call with CRead _ | CPosition _ | CConsumeTrailingWhitespace => False | _ => True end ->
  call_at s call c = (XOk v, AtCursor c1) -> reading c1 = NotReading -> g v = sret b ->
  wp s (sbind (delegate call) g None) w (follows (Gives b) (fun a b' w' => a = b' /\ at_ c1 w')).
Proof.
  intros Hat Hc Hx Hr Hg. apply wp_bind. eapply wp_weaken; [|exact (call_follows s call c w _ _ Hat Hc Hx)].
  intros [r err] w' (x & [= -> ->] & <- & ->). rewrite Hg. cbn. exists b. splits; auto. apply at_refl. exact Hr.
Qed.

Lemma conv_fails A B s call (g : rvalue -> simple B) c w (P : A -> B -> walk -> Prop) :
  at_ c w -> match call with CRead _ | CPosition _ | CConsumeTrailingWhitespace => False | _ => True end ->
  call_verdict (fst (call_at s call c)) = Fails ->
  wp s (sbind (delegate call) g None) w (follows Fails P).
Proof.
  intros Hat Hc Hx. apply wp_bind. destruct (call_at s call c) as [x w1] eqn:E. cbn in Hx.
  apply wp_delegate. intros o Ho. rewrite (at_call s call c w Hat) in * by (destruct call; tauto).
  rewrite E in *. cbn [fst snd] in *. destruct x; try discriminate; destruct Ho as (loc & Ho).
  - destruct Ho as [-> _]. split; [discriminate|exact I].
  - destruct Ho as [-> _]. split; [discriminate|exact I].
  - subst o. split; [discriminate|exact I].
Qed.

Definition calm (call : rcall) : Prop :=
  match call with CRead _ | CPosition _ | CConsumeTrailingWhitespace => False | _ => True end.

Lemma unit_gives s call c w v c1 : at_ c w -> calm call ->
  call_at s call c = (XOk v, AtCursor c1) -> reading c1 = NotReading ->
  wp s (d_unit call None) w (follows (Gives tt) (fun _ _ w' => at_ c1 w')).
Proof.
  intros Hat Hc Hx Hr. eapply wp_weaken; [|exact (conv_gives unit s call unit_of c w v c1 tt Hat Hc Hx Hr eq_refl)].
  intros re w'. apply follows_weaken. intros a b w2 _ [_ H]. exact H.
Qed.

Lemma has_next_gives s c w b : at_ c w -> more s c = inr b ->
  wp s (d_has_next None) w (follows (Gives b) (fun a b' w' => a = b' /\ at_ c w')).
Proof.
  intros Hat Hm. apply (conv_gives bool s CHasNext bool_of c w (RBool b) c b Hat I).
  - cbn [call_at]. rewrite Hm. reflexivity.
  - apply Hat.
  - reflexivity.
Qed.

Lemma not_reading c : reading c = NotReading -> is_reading c = false.
Proof. intros H. unfold is_reading. rewrite H. reflexivity. Qed.

Lemma at_value_array s c i v items fs : reading c = NotReading -> frames c = InArray i (v :: items) :: fs ->
  at_value s c = inr v.
Proof. intros Hr Hf. unfold at_value. rewrite (not_reading c Hr), Hf. reflexivity. Qed.

Lemma at_value_member s c n v ms fs : reading c = NotReading -> frames c = AtValue n v ms :: fs ->
  at_value s c = inr v.
Proof. intros Hr Hf. unfold at_value. rewrite (not_reading c Hr), Hf. reflexivity. Qed.

Lemma behind_reading_none c : reading c = NotReading -> reading (behind_value c) = NotReading.
Proof. intros H. unfold behind_value. rewrite done_reading, enter_reading. exact H. Qed.

Lemma skip_gives s c w v : at_ c w -> at_value s c = inr v ->
  wp s (d_unit CSkipValue None) w (follows (Gives tt) (fun _ _ w' => at_ (behind_value c) w')).
Proof.
  intros Hat Hv. apply (unit_gives s CSkipValue c w RUnit); auto; [exact I| |].
  - cbn [call_at]. rewrite Hv. reflexivity.
  - apply behind_reading_none, Hat.
Qed.

Lemma str_gives s call c w t c1 : at_ c w -> calm call ->
  call_at s call c = (XOk (RStr t), AtCursor c1) -> reading c1 = NotReading ->
  wp s (d_str call None) w (follows (Gives t) (fun a b w' => a = b /\ at_ c1 w')).
Proof. intros Hat Hc Hx Hr. apply (conv_gives str s call str_of c w (RStr t)); auto. Qed.

Lemma name_call c nm n v ms fs (val : str -> rvalue) :
  reading c = NotReading -> frames c = InObject nm ((n, v) :: ms) :: fs ->
  on_name c val = (XOk (val n), AtCursor (set_frames (AtValue n v ms :: fs) c)).
Proof. intros Hr Hf. unfold on_name, at_name. rewrite (not_reading c Hr), Hf. reflexivity. Qed.

Lemma skip_name_gives s c w nm n v ms fs : at_ c w -> frames c = InObject nm ((n, v) :: ms) :: fs ->
  wp s (d_unit CSkipName None) w (follows (Gives tt) (fun _ _ w' => at_ (set_frames (AtValue n v ms :: fs) c) w')).
Proof.
  intros Hat Hf. apply (unit_gives s CSkipName c w RUnit); auto; [exact I| |].
  - cbn [call_at]. exact (name_call c nm n v ms fs (fun _ => RUnit) (proj1 Hat) Hf).
  - cbn. apply Hat.
Qed.

Lemma read_name_gives s call c w nm n v ms fs : call = CNextName \/ call = CNextNameOwned ->
  at_ c w -> frames c = InObject nm ((n, v) :: ms) :: fs ->
  wp s (d_str call None) w (follows (Gives n) (fun a b w' => a = b /\ at_ (set_frames (AtValue n v ms :: fs) c) w')).
Proof.
  intros Hc Hat Hf.
  assert (Hx : call_at s call c = (XOk (RStr n), AtCursor (set_frames (AtValue n v ms :: fs) c))).
  { destruct Hc as [-> | ->]; cbn [call_at]; exact (name_call c nm n v ms fs RStr (proj1 Hat) Hf). }
  apply str_gives with (c := c); auto; [destruct Hc as [-> | ->]; exact I|]. cbn. apply Hat.
Qed.

(** A call which reads a value of type [ty] from a value [v] *)
Lemma type_fails A s call ty c w v f B (g : rvalue -> simple B) (P : A -> B -> walk -> Prop) :
  at_ c w -> calm call -> call_at s call c = on_value s ty c f -> at_value s c = inr v -> json_type v <> ty ->
  wp s (sbind (delegate call) g None) w (follows Fails P).
Proof.
  intros Hat Hc Hx Hv Ht. apply conv_fails with (c := c); auto.
  rewrite Hx. unfold on_value. rewrite Hv. destruct (value_type_dec (json_type v) ty); [contradiction|]. reflexivity.
Qed.

(** ** Readers of closures *)

(** The reader of a closure stands for the view; [c_end] is the cursor behind the
    value for which the closure is called *)
Definition stands (s : settings) (vw : view) (h : handle) (c c_end : cursor) : Prop :=
  reading c = NotReading /\
  match vw with
  | AtItems items => h = array_reader /\ exists i fs, frames c = InArray i items :: fs /\ close_frame c = c_end
  | AtSingle v => h = single_reader /\ at_value s c = inr v /\ behind_value c = c_end
  | AtMember false n v => h = member_reader /\ exists nm ms fs, frames c = InObject nm ((n, v) :: ms) :: fs /\
      behind_value (set_frames (AtValue n v ms :: fs) c) = c_end
  | AtMember true n v => h = Handle KMember true false false /\ at_value s c = inr v /\ behind_value c = c_end
  | Taken => consumed_name h = true /\ consumed_value h = true /\ moved h = true /\ c = c_end
  end.

(** Rounds of loops which are enough for a value *)
Fixpoint weight (v : json) : nat :=
  match v with
  | JStr t => 3 + length (encode_utf8 t)
  | JArr items => 3 + fold_right (fun u n => 1 + weight u + n) 0 items
  | JObj ms => 3 + fold_right (fun m n => 1 + weight (snd m) + n) 0 ms
  | _ => 3
  end%nat.

Definition fits (fl : nat) (vw : view) : Prop :=
  (0 < fl)%nat /\
  match vw with
  | AtItems items => Forall (fun v => (weight v < fl)%nat) items
  | AtSingle v | AtMember _ _ v => (weight v < fl)%nat
  | Taken => True
  end.

Definition body_follows {R : Type} (s : settings) (x : verdict (R * view)) (c_end : cursor)
  (re : sres (handle * (simple_error + R)) * option kept_error) (w : walk) : Prop :=
  match x with
  | Gives (r, vw) => exists h c, re = (SOk (h, inr r), None) /\ stands s vw h c c_end /\ at_ c w
  | Fails => broken re
  | Aborts e _ => exists h, re = (SOk (h, inl e), None)
  | Unspecified => True
  end.

Definition closure_ok {R : Type} (s : settings) (fl : nat) (f : closure R) (b : body R) : Prop :=
  (forall h, tame (f h)) /\
  forall vw h c c_end w, stands s vw h c c_end -> at_ c w -> fits fl vw ->
    wp s (f h None) w (body_follows s (sem_body s b vw) c_end).

Definition same_kind (vw vw' : view) : Prop :=
  match vw, vw' with
  | AtItems _, AtItems _ => True
  | AtSingle v, AtSingle v' => v = v'
  | AtMember _ n v, AtMember _ n' v' => n = n' /\ v = v'
  | Taken, Taken | AtSingle _, Taken | AtMember _ _ _, Taken => True
  | _, _ => False
  end.
Lemma same_kind_refl vw : same_kind vw vw.
Proof. destruct vw; cbn; auto. Qed.
Lemma same_kind_trans a b c : same_kind a b -> same_kind b c -> same_kind a c.
Proof. destruct a, b, c; cbn; try tauto; try congruence. intros [-> ->] [-> ->]. auto. Qed.
Lemma same_kind_named vw : same_kind vw (sem_named vw).
Proof. destruct vw; cbn; auto. Qed.
Lemma same_kind_behind vw : same_kind vw (sem_behind vw).
Proof. destruct vw; cbn; auto. Qed.

Lemma sem_body_peek R s (k : simple_error + value_type -> body R) vw :
  sem_body s (BPeek k) vw =
  match sem_value vw with
  | Some v => sem_body s (k (inr (json_type v))) (sem_named vw)
  | None => match vw with AtItems _ => Fails | _ => Unspecified end
  end.
Proof. destruct vw as [[|]| | |]; reflexivity. Qed.

Lemma sem_body_read R s (o : op R) (k : simple_error + reply R -> body R) vw :
  sem_body s (BRead o k) vw =
  match sem_value vw with
  | Some v =>
    match sem_op s o v with
    | Gives x => sem_body s (k (inr x)) (sem_behind vw)
    | Fails => Fails
    | Aborts e true => sem_body s (k (inl e)) (sem_behind vw)
    | Aborts e false => match k (inl e) with BDone (inl e') => Aborts e' false | _ => Unspecified end
    | Unspecified => Unspecified
    end
  | None =>
    match vw with
    | AtItems _ => match o with OpMulti [] _ _ _ => Unspecified | _ => Fails end
    | _ => Unspecified
    end
  end.
Proof. destruct vw as [[|]| | |]; reflexivity. Qed.

Lemma sem_body_kind R s : forall (b : body R) vw r vw', sem_body s b vw = Gives (r, vw') -> same_kind vw vw'.
Proof.
  apply (body_mut R (fun _ => True) (fun b => forall vw r vw', sem_body s b vw = Gives (r, vw') -> same_kind vw vw'));
    try (intros; exact I).
  - intros [e|x] vw r vw' H; cbn in H; [discriminate|]. injection H as -> <-. apply same_kind_refl.
  - intros k IH vw r vw' H. rewrite sem_body_peek in H. destruct (sem_value vw) as [v|]; [|destruct vw; discriminate].
    eapply same_kind_trans; [apply same_kind_named|]. exact (IH _ _ _ _ H).
  - intros k IH vw r vw' H. cbn in H. destruct vw; try discriminate. exact (IH _ _ _ _ H).
  - intros k IH vw r vw' H. cbn in H. destruct vw as [| |[]|]; try discriminate. specialize (IH _ _ _ _ H).
    destruct vw'; exact IH.
  - intros o _ k IH vw r vw' H. rewrite sem_body_read in H. destruct (sem_value vw) as [v|].
    + eapply same_kind_trans; [apply same_kind_behind|].
      destruct (sem_op s o v) as [x| |e [|]|]; try discriminate.
      * exact (IH _ _ _ _ H).
      * exact (IH _ _ _ _ H).
      * destruct (k (inl e)) as [[|]| | | |]; discriminate.
    + destruct vw; try discriminate. destruct o as [| | | | | | | | | | | |path alo f r0|]; try discriminate.
      destruct path; discriminate.
Qed.

(** ** The functions *)

Lemma read_value_follows R s fl (f : closure R) (b : body R) c w v :
  closure_ok s fl f b -> at_ c w -> at_value s c = inr v -> (weight v < fl)%nat -> (0 < fl)%nat ->
  wp s (read_value f None) w
    (follows (sem_any (sem_body s b (AtSingle v))) (fun r r' w' => r = r' /\ at_ (behind_value c) w')).
Proof.
  intros [Ht Hok] Hat Hv Hw Hfl. unfold read_value. apply wp_bind.
  specialize (Hok (AtSingle v) single_reader c (behind_value c) w).
  eapply wp_weaken; [|apply Hok; [split; [apply Hat|auto]|exact Hat|split; [exact Hfl|exact Hw]]]. clear Hok.
  intros [rr err] w' H.
  assert (Htail : forall hx : handle * (simple_error + R), tame (result <- of_result (snd hx) ;;
     (if consumed_value (fst hx) then sret tt else d_unit CSkipValue) ;; sret result)).
  { intros hx. apply tame_bind; [apply tame_of_result|]. intros r. apply tame_bind.
    - destruct (consumed_value (fst hx)); [apply tame_ret|apply mute_tame, mute_unit].
    - intros _. apply tame_ret. }
  destruct (sem_body s b (AtSingle v)) as [[r vw]| |e cc|] eqn:Es; cbn [body_follows sem_any follows] in *.
  - pose proof (sem_body_kind R s _ _ _ _ Es) as Hk.
    destruct H as (h & c' & [= -> ->] & (Hr & Hst) & Hat').
    destruct vw as [items|u|nr n u|]; cbn in Hk; try contradiction.
    + destruct Hst as (-> & Hv' & Hend). cbn [fst snd of_result consumed_value single_reader].
      apply wp_bind. cbn [wp sret]. apply wp_bind. eapply wp_weaken; [|exact (skip_gives s c' w' u Hat' Hv')].
      intros [r2 err2] w2 (x & [= -> ->] & Hat2). cbn. exists r. rewrite <- Hend. auto.
    + destruct Hst as (_ & Hcv & _ & ->). cbn [fst snd of_result]. apply wp_bind. cbn [wp sret]. apply wp_bind.
      rewrite Hcv. cbn. exists r. auto.
  - destruct H as [H1 H2]. cbn in H1, H2. destruct err as [e|]; [|congruence].
    destruct rr as [hx|e'|k| |]; try (split; assumption). apply tame_wp; auto.
  - destruct H as (h & [= -> ->]). cbn. reflexivity.
  - destruct rr; auto. apply wp_true. intros; exact I.
Qed.

Lemma tame_read_value R (f : closure R) : (forall h, tame (f h)) -> tame (read_value f).
Proof.
  intros Ht. unfold read_value. apply tame_bind; [apply Ht|]. intros hx.
  apply tame_bind; [apply tame_of_result|]. intros r. apply tame_bind.
  - destruct (consumed_value (fst hx)); [apply tame_ret|apply mute_tame, mute_unit].
  - intros _. apply tame_ret.
Qed.

Lemma loop_mute A (m : bool -> simple A) : mute (b <- d_has_next ;; m b).
Proof. apply mute_bind, mute_has_next. Qed.

Lemma items_loop_tame R (f : R -> closure R) fuel r : (0 < fuel)%nat -> tame (items_loop fuel f r).
Proof. destruct fuel; [lia|]. intros _. apply mute_tame. cbn [items_loop]. apply loop_mute. Qed.
Lemma members_loop_tame R (f : R -> closure R) fuel r : (0 < fuel)%nat -> tame (members_loop fuel f r).
Proof. destruct fuel; [lia|]. intros _. apply mute_tame. cbn [members_loop]. apply loop_mute. Qed.
Lemma members_owned_loop_tame R (f : str -> R -> closure R) fuel r : (0 < fuel)%nat -> tame (members_owned_loop fuel f r).
Proof. destruct fuel; [lia|]. intros _. apply mute_tame. cbn [members_owned_loop]. apply loop_mute. Qed.
Lemma all_members_loop_tame R (f : R -> closure R) fuel r : (0 < fuel)%nat -> tame (all_members_loop fuel f r).
Proof. destruct fuel; [lia|]. intros _. apply mute_tame. cbn [all_members_loop]. apply loop_mute. Qed.

(** A step of a list of visits *)
Lemma sem_each_cons A R (f : R -> A -> verdict R) x l r :
  sem_each f (x :: l) r = vbind (f r x) (sem_each f l).
Proof. cbn. destruct (f r x); reflexivity. Qed.

Lemma more_array s c i items fs : reading c = NotReading -> frames c = InArray i items :: fs ->
  more s c = inr (negb (is_nil items)).
Proof. intros Hr Hf. unfold more. rewrite (not_reading c Hr), Hf. destruct items; reflexivity. Qed.
Lemma more_object s c nm ms fs : reading c = NotReading -> frames c = InObject nm ms :: fs ->
  more s c = inr (negb (is_nil ms)).
Proof. intros Hr Hf. unfold more. rewrite (not_reading c Hr), Hf. destruct ms; reflexivity. Qed.

Lemma behind_array c i v items fs : frames c = InArray i (v :: items) :: fs ->
  behind_value c = set_frames (InArray (i + 1) items :: fs) c.
Proof. intros Hf. unfold behind_value, enter_value. rewrite Hf. reflexivity. Qed.
Lemma behind_member c n v ms fs : frames c = AtValue n v ms :: fs ->
  behind_value c = set_frames (InObject (Some n) ms :: fs) c.
Proof. intros Hf. unfold behind_value, enter_value. rewrite Hf. reflexivity. Qed.
Lemma set_set fs fs' c : set_frames fs (set_frames fs' c) = set_frames fs c.
Proof. reflexivity. Qed.
Lemma close_set f f' fs c : frames c = f' :: fs -> close_frame (set_frames (f :: fs) c) = close_frame c.
Proof. intros Hf. unfold close_frame. cbn. rewrite Hf. reflexivity. Qed.

(** The loop over the items of an array leaves the cursor at the end of the
    array *)
Lemma items_loop_follows R s fl (f : R -> closure R) (b : R -> body R) :
  (0 < fl)%nat -> (forall r, closure_ok s fl (f r) (b r)) ->
  forall items fuel i fs c w r, (length items < fuel)%nat -> at_ c w -> frames c = InArray i items :: fs ->
  Forall (fun v => (weight v < fl)%nat) items ->
  wp s (items_loop fuel f r None) w
    (follows (sem_each (fun r' u => sem_any (sem_body s (b r') (AtSingle u))) items r)
      (fun r1 r2 w' => r1 = r2 /\ exists i', at_ (set_frames (InArray i' [] :: fs) c) w')).
Proof.
  intros Hfl Hok. induction items as [|v items IH]; intros fuel i fs c w r Hlen Hat Hf Hw;
    (destruct fuel as [|fuel]; [cbn in Hlen; lia|]); cbn [items_loop].
  - pose proof (has_next_gives s c w _ Hat (more_array s c i _ fs (proj1 Hat) Hf)) as Hn.
    apply wp_bind. eapply wp_weaken; [|exact Hn]. intros [rr err] w' (x & [= -> ->] & <- & Hat').
    cbn. exists r. splits; auto. exists i. assert (E : set_frames (InArray i [] :: fs) c = c) by (destruct c; cbn in *; subst; reflexivity).
    rewrite E. exact Hat'.
  - pose proof (has_next_gives s c w _ Hat (more_array s c i _ fs (proj1 Hat) Hf)) as Hn.
    apply wp_bind. eapply wp_weaken; [|exact Hn]. intros [rr err] w' (x & [= -> ->] & <- & Hat').
    cbn [is_nil negb]. rewrite sem_each_cons. inversion Hw as [|? ? Hw1 Hw2]; subst.
    pose proof (at_value_array s c i v items fs (proj1 Hat) Hf) as Hv.
    eapply wp_follow; [exact (read_value_follows R s fl (f r) (b r) c w' v (Hok r) Hat' Hv Hw1 Hfl)| |].
    + intros r'. cbn in Hlen. destruct fuel; [lia|]. apply items_loop_tame. lia.
    + intros a r' w2 _ (<- & Hat2). rewrite (behind_array c i v items fs Hf) in Hat2.
      eapply wp_weaken; [|apply (IH fuel (i + 1) fs (set_frames (InArray (i + 1) items :: fs) c) w2 a); [cbn in Hlen; lia|exact Hat2|reflexivity|exact Hw2]].
      intros re w3. apply follows_weaken. intros x5 y5 w4 _ [-> [i' Hx]]. split; [reflexivity|]. exists i'. exact Hx.
Qed.

Lemma members_owned_loop_follows R s fl (f : str -> R -> closure R) (b : str -> R -> body R) :
  (0 < fl)%nat -> (forall n r, closure_ok s fl (f n r) (b n r)) ->
  forall ms fuel nm fs c w r, (length ms < fuel)%nat -> at_ c w -> frames c = InObject nm ms :: fs ->
  Forall (fun m => (weight (snd m) < fl)%nat) ms ->
  wp s (members_owned_loop fuel f r None) w
    (follows (sem_each (fun r' m => sem_any (sem_body s (b (fst m) r') (AtSingle (snd m)))) ms r)
      (fun r1 r2 w' => r1 = r2 /\ exists nm', at_ (set_frames (InObject nm' [] :: fs) c) w')).
Proof.
  intros Hfl Hok. induction ms as [|[n v] ms IH]; intros fuel nm fs c w r Hlen Hat Hf Hw;
    (destruct fuel as [|fuel]; [cbn in Hlen; lia|]); cbn [members_owned_loop].
  - pose proof (has_next_gives s c w _ Hat (more_object s c nm _ fs (proj1 Hat) Hf)) as Hn.
    apply wp_bind. eapply wp_weaken; [|exact Hn]. intros [rr err] w' (x & [= -> ->] & <- & Hat').
    cbn. exists r. splits; auto. exists nm. assert (E : set_frames (InObject nm [] :: fs) c = c) by (destruct c; cbn in *; subst; reflexivity).
    rewrite E. exact Hat'.
  - pose proof (has_next_gives s c w _ Hat (more_object s c nm _ fs (proj1 Hat) Hf)) as Hn.
    apply wp_bind. eapply wp_weaken; [|exact Hn]. intros [rr err] w' (x & [= -> ->] & <- & Hat').
    cbn [is_nil negb]. inversion Hw as [|? ? Hw1 Hw2]; subst. cbn [snd] in Hw1.
    apply wp_bind. eapply wp_weaken; [|exact (read_name_gives s CNextNameOwned c w' nm n v ms fs (or_intror eq_refl) Hat' Hf)].
    intros [rr2 err2] w1 (x & [= -> ->] & <- & Hat1).
    rewrite sem_each_cons. cbn [fst snd].
    assert (Hv : at_value s (set_frames (AtValue n v ms :: fs) c) = inr v).
    { apply (at_value_member s _ n v ms fs); [cbn; apply Hat|reflexivity]. }
    eapply wp_follow; [exact (read_value_follows R s fl (f n r) (b n r) _ w1 v (Hok n r) Hat1 Hv Hw1 Hfl)| |].
    + intros r'. cbn in Hlen. destruct fuel; [lia|]. apply members_owned_loop_tame. lia.
    + intros a r' w2 _ (<- & Hat2). rewrite (behind_member (set_frames (AtValue n v ms :: fs) c) n v ms fs eq_refl), set_set in Hat2.
      eapply wp_weaken; [|apply (IH fuel (Some n) fs (set_frames (InObject (Some n) ms :: fs) c) w2 a); [cbn in Hlen; lia|exact Hat2|reflexivity|exact Hw2]].
      intros re w3. apply follows_weaken. intros x5 y5 w4 _ [-> [i' Hx]]. split; [reflexivity|]. exists i'. exact Hx.
Qed.

Lemma all_members_loop_follows R s fl (f : R -> closure R) (b : R -> body R) :
  (0 < fl)%nat -> (forall r, closure_ok s fl (f r) (b r)) ->
  forall ms fuel nm fs c w r, (length ms < fuel)%nat -> at_ c w -> frames c = InObject nm ms :: fs ->
  Forall (fun v => (weight v < fl)%nat) (map snd ms) ->
  wp s (all_members_loop fuel f r None) w
    (follows (sem_each (fun r' u => sem_any (sem_body s (b r') (AtSingle u))) (map snd ms) r)
      (fun r1 r2 w' => r1 = r2 /\ exists nm', at_ (set_frames (InObject nm' [] :: fs) c) w')).
Proof.
  intros Hfl Hok. induction ms as [|[n v] ms IH]; intros fuel nm fs c w r Hlen Hat Hf Hw;
    (destruct fuel as [|fuel]; [cbn in Hlen; lia|]); cbn [all_members_loop map snd].
  - pose proof (has_next_gives s c w _ Hat (more_object s c nm _ fs (proj1 Hat) Hf)) as Hn.
    apply wp_bind. eapply wp_weaken; [|exact Hn]. intros [rr err] w' (x & [= -> ->] & <- & Hat').
    cbn. exists r. splits; auto. exists nm. assert (E : set_frames (InObject nm [] :: fs) c = c) by (destruct c; cbn in *; subst; reflexivity).
    rewrite E. exact Hat'.
  - pose proof (has_next_gives s c w _ Hat (more_object s c nm _ fs (proj1 Hat) Hf)) as Hn.
    apply wp_bind. eapply wp_weaken; [|exact Hn]. intros [rr err] w' (x & [= -> ->] & <- & Hat').
    cbn [is_nil negb]. inversion Hw as [|? ? Hw1 Hw2]; subst.
    apply wp_bind. eapply wp_weaken; [|exact (skip_name_gives s c w' nm n v ms fs Hat' Hf)].
    intros [rr2 err2] w1 (x & [= -> ->] & Hat1).
    rewrite sem_each_cons.
    assert (Hv : at_value s (set_frames (AtValue n v ms :: fs) c) = inr v).
    { apply (at_value_member s _ n v ms fs); [cbn; apply Hat|reflexivity]. }
    eapply wp_follow; [exact (read_value_follows R s fl (f r) (b r) _ w1 v (Hok r) Hat1 Hv Hw1 Hfl)| |].
    + intros r'. cbn in Hlen. destruct fuel; [lia|]. apply all_members_loop_tame. lia.
    + intros a r' w2 _ (<- & Hat2). rewrite (behind_member (set_frames (AtValue n v ms :: fs) c) n v ms fs eq_refl), set_set in Hat2.
      eapply wp_weaken; [|apply (IH fuel (Some n) fs (set_frames (InObject (Some n) ms :: fs) c) w2 a); [cbn in Hlen; lia|exact Hat2|reflexivity|exact Hw2]].
      intros re w3. apply follows_weaken. intros x5 y5 w4 _ [-> [i' Hx]]. split; [reflexivity|]. exists i'. exact Hx.
Qed.


Lemma tame_cond (b : bool) call : tame (if b then sret tt else d_unit call).
Proof. destruct b; [apply tame_ret|apply mute_tame, mute_unit]. Qed.

Lemma members_loop_follows R s fl (f : R -> closure R) (b : R -> body R) :
  (0 < fl)%nat -> (forall r, closure_ok s fl (f r) (b r)) ->
  forall ms fuel nm fs c w r, (length ms < fuel)%nat -> at_ c w -> frames c = InObject nm ms :: fs ->
  Forall (fun m => (weight (snd m) < fl)%nat) ms ->
  wp s (members_loop fuel f r None) w
    (follows (sem_each (fun r' m => sem_any (sem_body s (b r') (AtMember false (fst m) (snd m)))) ms r)
      (fun r1 r2 w' => r1 = r2 /\ exists nm', at_ (set_frames (InObject nm' [] :: fs) c) w')).
Proof.
  intros Hfl Hok. induction ms as [|[n v] ms IH]; intros fuel nm fs c w r Hlen Hat Hf Hw;
    (destruct fuel as [|fuel]; [cbn in Hlen; lia|]); cbn [members_loop].
  - pose proof (has_next_gives s c w _ Hat (more_object s c nm _ fs (proj1 Hat) Hf)) as Hn.
    apply wp_bind. eapply wp_weaken; [|exact Hn]. intros [rr err] w' (x & [= -> ->] & <- & Hat').
    cbn. exists r. splits; auto. exists nm. assert (E : set_frames (InObject nm [] :: fs) c = c) by (destruct c; cbn in *; subst; reflexivity).
    rewrite E. exact Hat'.
  - pose proof (has_next_gives s c w _ Hat (more_object s c nm _ fs (proj1 Hat) Hf)) as Hn.
    apply wp_bind. eapply wp_weaken; [|exact Hn]. intros [rr err] w' (x & [= -> ->] & <- & Hat').
    cbn [is_nil negb]. inversion Hw as [|? ? Hw1 Hw2]; subst. cbn [snd] in Hw1.
    rewrite sem_each_cons. cbn [fst snd].
    set (c2 := set_frames (InObject (Some n) ms :: fs) c).
    assert (Hend : behind_value (set_frames (AtValue n v ms :: fs) c) = c2) by (rewrite (behind_member (set_frames (AtValue n v ms :: fs) c) n v ms fs eq_refl); reflexivity).
    assert (Hr : reading c = NotReading) by apply Hat.
    assert (Hrest : forall a w2, at_ c2 w2 ->
      wp s (members_loop fuel f a None) w2
       (follows (sem_each (fun r' m => sem_any (sem_body s (b r') (AtMember false (fst m) (snd m)))) ms a)
          (fun r1 r2 w' => r1 = r2 /\ exists nm', at_ (set_frames (InObject nm' [] :: fs) c) w'))).
    { intros a w2 Hat2. eapply wp_weaken; [|apply (IH fuel (Some n) fs (set_frames (InObject (Some n) ms :: fs) c) w2 a); [cbn in Hlen; lia|exact Hat2|reflexivity|exact Hw2]].
      intros re w3. apply follows_weaken. intros x5 y5 w4 _ [-> [i' Hx]]. split; [reflexivity|]. exists i'. exact Hx. }
    assert (Htl : forall a, tame (members_loop fuel f a)).
    { intros a. cbn in Hlen. destruct fuel; [lia|]. apply members_loop_tame. lia. }
    destruct (Hok r) as [Htame Hbody].
    apply wp_bind.
    eapply wp_weaken; [|apply (Hbody (AtMember false n v) member_reader c c2 w')]; clear Hbody.
    2:{ split; [exact Hr|]. split; [reflexivity|]. exists nm, ms, fs. auto. }
    2:{ exact Hat'. }
    2:{ split; [exact Hfl|exact Hw1]. }
    intros [rr err] w1 H.
    destruct (sem_body s (b r) (AtMember false n v)) as [[r1 vw]| |e cc|] eqn:Es; cbn [body_follows sem_any vbind] in *.
    + pose proof (sem_body_kind R s _ _ _ _ Es) as Hk.
      destruct H as (h & c' & [= -> ->] & (Hr' & Hst) & Hat1).
      destruct vw as [items|u|nr n' u|]; cbn in Hk; try contradiction.
      * destruct Hk as [<- <-]. cbn [fst snd of_result]. apply wp_bind. cbn [wp sret]. destruct nr.
        -- destruct Hst as (-> & Hv & Hce). cbn [consumed_name consumed_value]. apply wp_bind. cbn [wp sret].
           apply wp_bind. eapply wp_weaken; [|exact (skip_gives s c' w1 v Hat1 Hv)].
           intros [r2 err2] w2 (x & [= -> ->] & Hat2). rewrite Hce in Hat2. apply Hrest, Hat2.
        -- destruct Hst as (-> & nm' & ms' & fs' & Hf' & Hce). cbn [consumed_name consumed_value member_reader].
           apply wp_bind. eapply wp_weaken; [|exact (skip_name_gives s c' w1 nm' n v ms' fs' Hat1 Hf')].
           intros [r2 err2] w2 (x & [= -> ->] & Hat2).
           assert (Hv : at_value s (set_frames (AtValue n v ms' :: fs') c') = inr v).
           { apply (at_value_member s _ n v ms' fs'); [cbn; apply Hat1|reflexivity]. }
           apply wp_bind. eapply wp_weaken; [|exact (skip_gives s _ w2 v Hat2 Hv)].
           intros [r3 err3] w3 (y & [= -> ->] & Hat3). rewrite Hce in Hat3. apply Hrest, Hat3.
      * destruct Hst as (Hcn & Hcv & _ & ->). cbn [fst snd of_result]. apply wp_bind. cbn [wp sret].
        rewrite Hcn, Hcv. apply wp_bind. cbn [wp sret]. apply wp_bind. cbn [wp sret]. apply Hrest, Hat1.
    + destruct H as [H1 H2]. cbn in H1, H2. destruct err as [e|]; [|congruence].
      destruct rr as [hx|e'|k| |]; try (split; assumption). apply tame_wp; auto.
      apply tame_bind; [apply tame_of_result|]. intros r'. apply tame_bind; [apply tame_cond|]. intros _.
      apply tame_bind; [apply tame_cond|]. intros _. apply Htl.
    + destruct H as (h & [= -> ->]). cbn. reflexivity.
    + destruct rr; auto. apply wp_true. intros; exact I.
Qed.
