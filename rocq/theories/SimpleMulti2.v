(** * Proofs: the rounds of [read_seeked_multi] on known data *)

From Verif Require Import Base Utf8Model SpecNumber SpecJson ReaderModel SpecCursor SpecRead ReaderCursor
  SimpleModel SpecSimple SimpleErrors SimpleWp SimpleRun SimpleRun2 SimpleMulti.
Open Scope smonad_scope.

Definition visit {R : Type} (s : settings) (b : R -> body R) : R -> json -> verdict R :=
  fun r u => sem_any (sem_body s (b r) (AtSingle u)).

Definition items_weight (vs : list json) : nat := fold_right (fun u n => 1 + weight u + n)%nat 0%nat vs.

Lemma skipn_cons A (l : list A) : forall n p ps, skipn n l = p :: ps ->
  nth_error l n = Some p /\ skipn (S n) l = ps /\ (n < length l)%nat.
Proof.
  induction l as [|x l IH]; intros n p ps H; destruct n; cbn in H; try discriminate.
  - injection H as -> ->. cbn. splits; auto. lia.
  - destruct (IH n p ps H) as (H1 & H2 & H3). splits; auto. cbn. lia.
Qed.
Lemma skipn_nil_length A (l : list A) n : skipn n l = [] -> (length l <= n)%nat.
Proof. intros H. rewrite <- (firstn_skipn n l), H, app_nil_r. apply firstn_le_length. Qed.

(** The pieces from the given index on, in the state of moving down *)
Definition down_ok {R : Type} (s : settings) (fl : nat) (path : list partial_path) (f : R -> closure R) (b : R -> body R)
  (ps : list partial_path) : Prop :=
  forall A v index c w fuel hm r (g : R -> bool -> verdict A) (P : A -> R * bool -> walk -> Prop),
  skipn index path = ps -> at_ c w -> at_value s c = inr v -> (weight v < fl)%nat -> (weight v < fuel)%nat ->
  (forall fuel' r' hm' w', (fuel - weight v <= fuel')%nat -> at_ (behind_value c) w' ->
     wp s (up fuel' fl path f index hm' r' None) w' (follows (g r' hm') P)) ->
  wp s (multi_loop fuel fl path f true index hm r None) w (follows (visits (visit s b) (pselect ps v) hm r g) P).

(** A value found with the last piece of the path *)
Lemma found_follows R A s fl path (f : R -> closure R) (b : R -> body R) q index fuel us r hm c w (g : R -> bool -> verdict A)
  (P : A -> R * bool -> walk -> Prop) (Q : walk -> Prop) :
  (0 < fl)%nat -> (0 < fuel)%nat -> nth_error path index = Some q -> skipn (S index) path = [] -> us <> [] ->
  at_ c w ->
  wp s (multi_found fl q f r None) w (follows (sem_each (visit s b) us r) (fun r1 r2 w' => r1 = r2 /\ Q w')) ->
  (forall r' w', Q w' -> wp s (up fuel fl path f (S index) true r' None) w' (follows (g r' true) P)) ->
  wp s (round_rest fuel fl path f hm r (true, S index) None) w (follows (visits (visit s b) (us, true) hm r g) P).
Proof.
  intros Hfl Hfuel Hq Hnil Hus Hat Hfound Hup. unfold round_rest. cbn [fst snd andb].
  apply skipn_nil_length in Hnil. destruct (Nat.leb (length path) (S index)) eqn:E; [|apply Nat.leb_gt in E; lia].
  replace (S index - 1)%nat with index by lia. rewrite Hq. apply wp_assoc.
  unfold visits. cbn [fst snd]. replace (hm || negb (is_nil us)) with true by (destruct us; [congruence|]; destruct hm; reflexivity).
  eapply wp_follow; [exact Hfound| |].
  - intros r'. intros e. assert (Hl : (index < length path)%nat) by (apply nth_error_Some; congruence).
    exact (up_tame R fuel fl path f (S index) true r' Hfuel Hfl ltac:(lia) e).
  - intros a r' w' _ [<- HQ]. exact (Hup a w' HQ).
Qed.

(** The next value has been found *)
Lemma arrive R A s fl path (f : R -> closure R) (b : R -> body R) q ps index fuel hm r c w u (g : R -> bool -> verdict A)
  (P : A -> R * bool -> walk -> Prop) :
  (forall r, closure_ok s fl (f r) (b r)) -> (ps <> [] -> down_ok s fl path f b ps) ->
  nth_error path index = Some q -> skipn (S index) path = ps ->
  match q with PPath _ | POptional _ => True | _ => False end ->
  at_ c w -> at_value s c = inr u -> (weight u < fl)%nat -> (weight u < fuel)%nat ->
  (forall fuel' r' hm' w', (fuel - weight u <= fuel')%nat -> at_ (behind_value c) w' ->
     wp s (up fuel' fl path f (S index) hm' r' None) w' (follows (g r' hm') P)) ->
  wp s (round_rest fuel fl path f hm r (true, S index) None) w (follows (visits (visit s b) (pselect ps u) hm r g) P).
Proof.
  intros Hok Hdown Hq Hps Hkind Hat Hv Hfl Hfuel Hup. destruct ps as [|p ps].
  - cbn [pselect]. apply (found_follows R A s fl path f b q index fuel [u] r hm c w g P (fun w' => at_ (behind_value c) w'));
      auto; try lia; [discriminate| |].
    + assert (E : wp s (multi_found fl q f r None) w (follows (vbind (visit s b r u) Gives) (fun r1 r2 w' => r1 = r2 /\ at_ (behind_value c) w'))).
      { unfold multi_found. eapply wp_follow; [exact (read_value_follows R s fl (f r) (b r) c w u (Hok r) Hat Hv Hfl ltac:(lia))| |].
        - intros r1. destruct q; try contradiction; apply tame_ret.
        - intros a r1 w' _ [<- Hat']. destruct q; try contradiction; cbn; exists a; auto. }
      cbn [sem_each]. destruct (visit s b r u); exact E.
    + intros r' w' Hat'. apply Hup; [lia|exact Hat'].
  - destruct (skipn_cons _ path (S index) p ps Hps) as (_ & _ & Hl).
    rewrite round_down by exact Hl. apply (Hdown ltac:(discriminate) A u (S index) c w fuel hm r g P); auto.
Qed.

(** ** All items *)

Definition items_step (index : nat) : simple (bool * nat) :=
  (b <- d_has_next ;;
   if b : bool then sret (true, S index)
   else (d_unit CEndArray ;; sret (false, index))).

Lemma items_end R A s fl path (f : R -> closure R) index fuel hm r c w i fs (X : verdict A) (P : A -> R * bool -> walk -> Prop) :
  at_ c w -> frames c = InArray i [] :: fs ->
  (forall w', at_ (close_frame c) w' -> wp s (up fuel fl path f index hm r None) w' (follows X P)) ->
  wp s (sbind (items_step index) (round_rest fuel fl path f hm r) None) w (follows X P).
Proof.
  intros Hat Hf Hup. unfold items_step. apply wp_assoc.
  eapply wp_gives; [exact (has_next_gives s c w _ Hat (more_array s c i _ fs (proj1 Hat) Hf))|]. intros x w1 (<- & Hat1).
  cbn [is_nil negb]. apply wp_assoc. eapply wp_gives; [exact (end_array_gives s c w1 i fs Hat1 Hf)|]. intros [] w2 Hat2.
  apply wp_bind. cbn [wp sret]. rewrite round_up. apply Hup, Hat2.
Qed.

Lemma items_rounds R A s fl path (f : R -> closure R) (b : R -> body R) ae ps index :
  (0 < fl)%nat -> (forall r, closure_ok s fl (f r) (b r)) -> (ps <> [] -> down_ok s fl path f b ps) ->
  nth_error path index = Some (PAllItems ae) -> skipn (S index) path = ps ->
  forall items fuel hm r c w i fs (g : R -> bool -> verdict A) (P : A -> R * bool -> walk -> Prop),
  at_ c w -> frames c = InArray i items :: fs -> Forall (fun v => (weight v < fl)%nat) items -> (length items < fl)%nat ->
  (items_weight items < fuel)%nat ->
  (forall fuel' r' hm' w', (fuel - items_weight items <= fuel')%nat -> at_ (close_frame c) w' ->
     wp s (up fuel' fl path f index hm' r' None) w' (follows (g r' hm') P)) ->
  wp s (sbind (items_step index) (round_rest fuel fl path f hm r) None) w
    (follows (visits (visit s b) (select_all (pselect ps) items) hm r g) P).
Proof.
  intros Hfl Hok Hdown Hq Hps. induction items as [|v items IH]; intros fuel hm r c w i fs g P Hat Hf Hw Hl Hfuel Hup.
  - cbn [select_all]. rewrite visits_none. eapply items_end; [exact Hat|exact Hf|]. intros w' Hat'. apply Hup; [lia|exact Hat'].
  - pose proof (at_value_array s c i v items fs (proj1 Hat) Hf) as Hv. inversion Hw as [|? ? Hw1 Hw2]; subst.
    cbn [items_weight fold_right] in Hfuel. fold (items_weight items) in Hfuel.
    assert (Hi : (items_weight (v :: items) = 1 + weight v + items_weight items)%nat) by reflexivity.
    destruct (skipn (S index) path) as [|p ps] eqn:Eps.
    + rewrite select_all_here. unfold items_step. apply wp_assoc.
      eapply wp_gives; [exact (has_next_gives s c w _ Hat (more_array s c i _ fs (proj1 Hat) Hf))|]. intros x w1 (<- & Hat1).
      cbn [is_nil negb]. apply wp_bind. cbn [wp sret].
      apply (found_follows R A s fl path f b (PAllItems ae) index fuel (v :: items) r hm c w1 g P
        (fun w' => exists i', at_ (set_frames (InArray i' [] :: fs) c) w')); auto; try lia; [discriminate| |].
      * unfold multi_found. rewrite sem_each_cons.
        eapply wp_follow; [exact (read_value_follows R s fl (f r) (b r) c w1 v (Hok r) Hat1 Hv Hw1 Hfl)| |].
        -- intros r1. apply items_loop_tame, Hfl.
        -- intros a r1 w2 _ [<- Hat2]. rewrite (behind_array c i v items fs Hf) in Hat2. cbn in Hl.
           exact (items_loop_follows R s fl f b Hfl Hok items fl (i + 1) fs (set_frames (InArray (i + 1) items :: fs) c) w2 a
             ltac:(lia) Hat2 eq_refl Hw2).
      * intros r' w' (i' & Hat'). destruct fuel as [|fuel]; [lia|]. cbn [up].
        rewrite (multi_round R fuel fl path f false index true r' (PAllItems ae) Hq).
        apply (items_end R A s fl path f index fuel true r' (set_frames (InArray i' [] :: fs) c) w' i' fs (g r' true) P Hat' eq_refl).
        intros w2 Hat2. rewrite (close_set _ _ fs c Hf) in Hat2. apply Hup; [lia|exact Hat2].
    + rewrite visits_cons. unfold items_step. apply wp_assoc.
      eapply wp_gives; [exact (has_next_gives s c w _ Hat (more_array s c i _ fs (proj1 Hat) Hf))|]. intros x w1 (<- & Hat1).
      cbn [is_nil negb]. apply wp_bind. cbn [wp sret].
      destruct (skipn_cons _ path (S index) p ps Eps) as (_ & _ & Hl').
      rewrite round_down by exact Hl'. apply (Hdown ltac:(discriminate)) with (c := c); auto; [lia|].
      intros fuel' r' hm' w' Hf' Hat'. destruct fuel' as [|fuel']; [lia|]. cbn [up].
      rewrite (multi_round R fuel' fl path f false index hm' r' (PAllItems ae) Hq).
      rewrite (behind_array c i v items fs Hf) in Hat'. cbn in Hl.
      apply (IH fuel' hm' r' (set_frames (InArray (i + 1) items :: fs) c) w' (i + 1) fs g P); auto; [lia|lia|].
      intros fuel2 r2 hm2 w2 Hf2 Hat2. rewrite (close_set _ _ fs c Hf) in Hat2. apply Hup; [lia|exact Hat2].
Qed.

(** ** All members *)

Definition members_step (index : nat) : simple (bool * nat) :=
  (b <- d_has_next ;;
   if b : bool then (d_unit CSkipName ;; sret (true, S index))
   else (d_unit CEndObject ;; sret (false, index))).

Lemma members_end R A s fl path (f : R -> closure R) index fuel hm r c w nm fs (X : verdict A) (P : A -> R * bool -> walk -> Prop) :
  at_ c w -> frames c = InObject nm [] :: fs ->
  (forall w', at_ (close_frame c) w' -> wp s (up fuel fl path f index hm r None) w' (follows X P)) ->
  wp s (sbind (members_step index) (round_rest fuel fl path f hm r) None) w (follows X P).
Proof.
  intros Hat Hf Hup. unfold members_step. apply wp_assoc.
  eapply wp_gives; [exact (has_next_gives s c w _ Hat (more_object s c nm _ fs (proj1 Hat) Hf))|]. intros x w1 (<- & Hat1).
  cbn [is_nil negb]. apply wp_assoc. eapply wp_gives; [exact (end_object_gives s c w1 nm fs Hat1 Hf)|]. intros [] w2 Hat2.
  apply wp_bind. cbn [wp sret]. rewrite round_up. apply Hup, Hat2.
Qed.

Lemma members_rounds R A s fl path (f : R -> closure R) (b : R -> body R) ae ps index :
  (0 < fl)%nat -> (forall r, closure_ok s fl (f r) (b r)) -> (ps <> [] -> down_ok s fl path f b ps) ->
  nth_error path index = Some (PAllMembers ae) -> skipn (S index) path = ps ->
  forall ms fuel hm r c w nm fs (g : R -> bool -> verdict A) (P : A -> R * bool -> walk -> Prop),
  at_ c w -> frames c = InObject nm ms :: fs -> Forall (fun v => (weight v < fl)%nat) (map snd ms) -> (length ms < fl)%nat ->
  (items_weight (map snd ms) < fuel)%nat ->
  (forall fuel' r' hm' w', (fuel - items_weight (map snd ms) <= fuel')%nat -> at_ (close_frame c) w' ->
     wp s (up fuel' fl path f index hm' r' None) w' (follows (g r' hm') P)) ->
  wp s (sbind (members_step index) (round_rest fuel fl path f hm r) None) w
    (follows (visits (visit s b) (select_all (pselect ps) (map snd ms)) hm r g) P).
Proof.
  intros Hfl Hok Hdown Hq Hps. induction ms as [|[n v] ms IH]; intros fuel hm r c w nm fs g P Hat Hf Hw Hl Hfuel Hup.
  - cbn [select_all map]. rewrite visits_none. eapply members_end; [exact Hat|exact Hf|]. intros w' Hat'. apply Hup; [lia|exact Hat'].
  - cbn [map snd] in *. inversion Hw as [|? ? Hw1 Hw2]; subst.
    cbn [items_weight fold_right] in Hfuel. fold (items_weight (map snd ms)) in Hfuel.
    assert (Hi : (items_weight (v :: map snd ms) = 1 + weight v + items_weight (map snd ms))%nat) by reflexivity.
    set (c1 := set_frames (AtValue n v ms :: fs) c).
    assert (Hv : at_value s c1 = inr v) by (apply (at_value_member s c1 n v ms fs); [cbn; apply Hat|reflexivity]).
    assert (Hb : behind_value c1 = set_frames (InObject (Some n) ms :: fs) c) by (rewrite (behind_member c1 n v ms fs eq_refl); reflexivity).
    destruct (skipn (S index) path) as [|p ps] eqn:Eps.
    + rewrite select_all_here. unfold members_step. apply wp_assoc.
      eapply wp_gives; [exact (has_next_gives s c w _ Hat (more_object s c nm _ fs (proj1 Hat) Hf))|]. intros x w0 (<- & Hat0).
      cbn [is_nil negb]. apply wp_assoc. eapply wp_gives; [exact (skip_name_gives s c w0 nm n v ms fs Hat0 Hf)|].
      intros [] w1 Hat1. fold c1 in Hat1. apply wp_bind. cbn [wp sret].
      apply (found_follows R A s fl path f b (PAllMembers ae) index fuel (v :: map snd ms) r hm c1 w1 g P
        (fun w' => exists nm', at_ (set_frames (InObject nm' [] :: fs) c) w')); auto; try lia; [discriminate| |].
      * unfold multi_found. rewrite sem_each_cons.
        eapply wp_follow; [exact (read_value_follows R s fl (f r) (b r) c1 w1 v (Hok r) Hat1 Hv Hw1 Hfl)| |].
        -- intros r1. apply all_members_loop_tame, Hfl.
        -- intros a r1 w2 _ [<- Hat2]. rewrite Hb in Hat2. cbn in Hl.
           exact (all_members_loop_follows R s fl f b Hfl Hok ms fl (Some n) fs (set_frames (InObject (Some n) ms :: fs) c) w2 a
             ltac:(lia) Hat2 eq_refl Hw2).
      * intros r' w' (i' & Hat'). destruct fuel as [|fuel]; [lia|]. cbn [up].
        rewrite (multi_round R fuel fl path f false index true r' (PAllMembers ae) Hq).
        apply (members_end R A s fl path f index fuel true r' (set_frames (InObject i' [] :: fs) c) w' i' fs (g r' true) P Hat' eq_refl).
        intros w2 Hat2. rewrite (close_set _ _ fs c Hf) in Hat2. apply Hup; [lia|exact Hat2].
    + rewrite visits_cons. unfold members_step. apply wp_assoc.
      eapply wp_gives; [exact (has_next_gives s c w _ Hat (more_object s c nm _ fs (proj1 Hat) Hf))|]. intros x w0 (<- & Hat0).
      cbn [is_nil negb]. apply wp_assoc. eapply wp_gives; [exact (skip_name_gives s c w0 nm n v ms fs Hat0 Hf)|].
      intros [] w1 Hat1. fold c1 in Hat1. apply wp_bind. cbn [wp sret].
      destruct (skipn_cons _ path (S index) p ps Eps) as (_ & _ & Hl').
      rewrite round_down by exact Hl'. apply (Hdown ltac:(discriminate)) with (c := c1); auto; [lia|].
      intros fuel' r' hm' w' Hf' Hat'. destruct fuel' as [|fuel']; [lia|]. cbn [up].
      rewrite (multi_round R fuel' fl path f false index hm' r' (PAllMembers ae) Hq).
      rewrite Hb in Hat'. cbn in Hl.
      apply (IH fuel' hm' r' (set_frames (InObject (Some n) ms :: fs) c) w' (Some n) fs g P); auto; [lia|lia|].
      intros fuel2 r2 hm2 w2 Hf2 Hat2. rewrite (close_set _ _ fs c Hf) in Hat2. apply Hup; [lia|exact Hat2].
Qed.

(** ** All pieces *)

Lemma close_open_behind f c : close_frame (open_frame f (enter_value c)) = behind_value c.
Proof. unfold close_frame, open_frame, behind_value. cbn. f_equal. destruct (enter_value c); reflexivity. Qed.

Lemma member_weight n ms u : member n ms = Some u -> (weight u + 4 <= weight (JObj ms))%nat.
Proof.
  unfold member. destruct (find _ ms) as [m|] eqn:E; [|discriminate]. intros [= <-].
  destruct (find_in n ms m E) as [Hin _].
  assert (Hle : (1 + weight (snd m) <= fold_right (fun m k => 1 + weight (snd m) + k) 0 ms)%nat).
  { clear E. induction ms as [|x ms IH]; [destruct Hin|]. cbn [fold_right]. destruct Hin as [->|Hin]; [lia|]. specialize (IH Hin). lia. }
  cbn [weight]. lia.
Qed.

Lemma members_weight_map ms : weight (JObj ms) = (3 + items_weight (map snd ms))%nat.
Proof.
  cbn [weight]. do 3 f_equal.
  assert (H : fold_right (fun (m : str * json) n => (1 + weight (snd m) + n)%nat) 0%nat ms = items_weight (map snd ms)).
  { induction ms as [|m ms IH]; [reflexivity|]. unfold items_weight in *. cbn [map fold_right]. rewrite IH. reflexivity. }
  exact H.
Qed.

Lemma lookup_weight_strict path v u : path <> [] -> lookup path v = Some u -> (weight u + 4 <= weight v)%nat.
Proof.
  destruct path as [|p path]; [congruence|]. intros _ H. destruct p as [i|n]; cbn in H; destruct v as [| | | |items|ms]; try discriminate.
  - destruct (nth_error items (N.to_nat i)) as [x|] eqn:E; [|discriminate]. apply lookup_weight in H.
    assert (Hle : (1 + weight x <= fold_right (fun u n => 1 + weight u + n) 0 items)%nat).
    { apply nth_error_In in E. clear H. induction items as [|y items IH]; [destruct E|]. cbn [fold_right]. destruct E as [->|E]; [lia|]. specialize (IH E). lia. }
    cbn [weight]. lia.
  - destruct (find _ ms) as [m|] eqn:E; [|discriminate]. apply lookup_weight in H.
    assert (Hm : member n ms = Some (snd m)) by (unfold member; rewrite E; reflexivity).
    apply member_weight in Hm. lia.
Qed.

Lemma expect_errs A B s (m : simple A) w : wp s (m None) w errs -> wp s (@expect_err A B m None) w errs.
Proof.
  intros H. unfold expect_err. apply wp_bind. unfold capture. apply wp_cbind.
  eapply wp_weaken; [|exact H]. intros re w' (e & e' & ->). cbn. exists e, e'. reflexivity.
Qed.

Lemma down_all R s fl path (f : R -> closure R) (b : R -> body R) :
  (0 < fl)%nat -> (forall r, closure_ok s fl (f r) (b r)) -> forall ps, Forall (fun p => p <> PPath []) ps ->
  ps <> [] -> down_ok s fl path f b ps.
Proof.
  intros Hfl Hok. induction ps as [|p ps IH]; [congruence|]. intros Hne _. inversion Hne as [|? ? Hne1 Hne2]; subst. specialize (IH Hne2). unfold down_ok.
  intros A v index c w fuel hm r g P Hps Hat Hv Hwfl Hwfuel Hup.
  destruct (skipn_cons _ path index p ps Hps) as (Hq & Hps' & Hl).
  destruct fuel as [|fuel]; [lia|]. rewrite (multi_round R fuel fl path f true index hm r p Hq).
  destruct p as [pp|ae|n|ae]; cbn [multi_step pselect].
  - destruct (lookup pp v) as [u|] eqn:El.
    + destruct (seek_gives s pp c w v u Hat Hv El) as (c' & Hs & Hv' & Hr' & Hseek). apply wp_assoc.
      eapply wp_gives; [exact Hseek|]. intros [] w1 Hat1. apply wp_bind. cbn [wp sret].
      pose proof (lookup_weight_strict pp v u ltac:(congruence) El) as Hwu.
      apply (arrive R A s fl path f b (PPath pp) ps index fuel hm r c' w1 u g P); auto; try lia.
      intros fuel' r' hm' w' Hf' Hat'. destruct fuel' as [|fuel']; [lia|]. cbn [up].
      rewrite (multi_round R fuel' fl path f false index hm' r' (PPath pp) Hq). cbn [multi_step]. apply wp_assoc.
      eapply wp_gives; [exact (seek_back_gives s pp c c' w' (proj1 Hat) Hs Hat')|]. intros [] w2 Hat2.
      apply wp_bind. cbn [wp sret]. rewrite round_up. apply Hup; [|exact Hat2]. lia.
    + apply errs_fails, errs_bind, errs_bind. exact (seek_errs s pp c w v Hat Hv El).
  - destruct v as [| | | |items|ms];
      try (apply errs_fails, errs_bind, errs_bind, errs_bind, (unit_errs s CBeginArray c w Hat I);
           cbn [call_at]; apply (on_value_type s TArray c _ _ Hv); discriminate).
    apply wp_assoc, wp_assoc.
    eapply wp_gives; [exact (begin_array_gives s c w items Hat Hv)|]. intros [] w1 Hat1.
    set (c1 := open_frame (InArray 0 items) (enter_value c)) in *.
    assert (Hf1 : frames c1 = InArray 0 items :: frames (enter_value c)) by reflexivity.
    destruct (weight_items items fl Hwfl) as [Hwi Hli].
    assert (Hgo : forall w2, at_ c1 w2 -> wp s (sbind (items_step index) (round_rest fuel fl path f hm r) None) w2
      (follows (visits (visit s b) (select_all (pselect ps) items) hm r g) P)).
    { intros w2 Hat2. apply (items_rounds R A s fl path f b ae ps index Hfl Hok IH Hq Hps' items fuel hm r c1 w2 0 (frames (enter_value c)) g P);
        auto; [cbn [weight] in Hwfuel; unfold items_weight; lia|].
      intros fuel' r' hm' w' Hf' Hat'. unfold c1 in Hat'. rewrite close_open_behind in Hat'. apply Hup; [|exact Hat'].
      cbn [weight]. unfold items_weight in Hf'. lia. }
    destruct ae; cbn [negb].
    + rewrite Bool.andb_false_r. apply wp_bind. cbn [wp sret]. exact (Hgo w1 Hat1).
    + rewrite Bool.andb_true_r. apply wp_assoc.
      eapply wp_gives; [exact (has_next_gives s c1 w1 _ Hat1 (more_array s c1 0 items _ (proj1 Hat1) Hf1))|].
      intros x w2 (<- & Hat2). destruct items as [|v0 items]; cbn [is_nil negb].
      * apply errs_fails, errs_bind. apply expect_errs. apply errs_bind.
        apply (delegate_errs s CPeek c1 w2 Hat2 I). cbn [call_at]. unfold at_value. rewrite (not_reading c1 (proj1 Hat1)), Hf1. reflexivity.
      * apply wp_bind. cbn [wp sret]. exact (Hgo w2 Hat2).
  - destruct v as [| | | |items|ms];
      try (apply errs_fails, errs_bind, errs_bind, (unit_errs s CBeginObject c w Hat I);
           cbn [call_at]; apply (on_value_type s TObject c _ _ Hv); discriminate).
    apply wp_assoc.
    eapply wp_gives; [exact (begin_object_gives s c w ms Hat Hv)|]. intros [] w1 Hat1.
    set (c1 := open_frame (InObject None ms) (enter_value c)) in *.
    assert (Hf1 : frames c1 = InObject None ms :: frames (enter_value c)) by reflexivity.
    destruct (weight_members ms fl Hwfl) as [Hwi Hli].
    assert (Hcl : forall fr, close_frame (set_frames (fr :: frames (enter_value c)) c1) = behind_value c).
    { intros fr. rewrite (close_set fr _ _ c1 Hf1). apply close_open_behind. }
    apply wp_assoc. eapply wp_gives; [exact (find_loop_follows s n ms fl None _ c1 w1 Hli Hat1 Hf1)|].
    intros found w2. destruct (member n ms) as [u|] eqn:Em.
    + intros (-> & m & ms' & Hat2 & Hl2). apply wp_bind. cbn [wp sret].
      set (c2 := set_frames (AtValue m u ms' :: frames (enter_value c)) c1) in *.
      assert (Hv2 : at_value s c2 = inr u) by (apply (at_value_member s c2 m u ms' (frames (enter_value c))); [apply Hat1|reflexivity]).
      pose proof (member_weight n ms u Em) as Hwu.
      apply (arrive R A s fl path f b (POptional n) ps index fuel hm r c2 w2 u g P); auto; try lia.
      intros fuel' r' hm' w' Hf' Hat'. destruct fuel' as [|fuel']; [lia|]. cbn [up].
      rewrite (multi_round R fuel' fl path f false index hm' r' (POptional n) Hq). cbn [multi_step]. apply wp_assoc.
      rewrite (behind_member c2 m u ms' (frames (enter_value c)) eq_refl) in Hat'. unfold c2 in Hat'. rewrite set_set in Hat'.
      eapply wp_gives; [exact (skip_members_loop_follows s ms' fl (Some m) _ (set_frames (InObject (Some m) ms' :: frames (enter_value c)) c1) w' ltac:(lia) Hat' eq_refl)|].
      intros [] w3 (nm' & Hat3). rewrite set_set in Hat3. apply wp_assoc.
      eapply wp_gives; [exact (end_object_gives s (set_frames (InObject nm' [] :: frames (enter_value c)) c1) w3 nm' _ Hat3 eq_refl)|].
      intros [] w4 Hat4. rewrite Hcl in Hat4. apply wp_bind. cbn [wp sret]. rewrite round_up. apply Hup; [lia|exact Hat4].
    + intros (-> & nm' & Hat2). apply wp_assoc.
      eapply wp_gives; [exact (end_object_gives s (set_frames (InObject nm' [] :: frames (enter_value c)) c1) w2 nm' _ Hat2 eq_refl)|].
      intros [] w4 Hat4. rewrite Hcl in Hat4. apply wp_bind. cbn [wp sret]. rewrite round_up, visits_none.
      apply Hup; [destruct ms; cbn [weight]; lia|exact Hat4].
  - destruct v as [| | | |items|ms];
      try (apply errs_fails, errs_bind, errs_bind, errs_bind, (unit_errs s CBeginObject c w Hat I);
           cbn [call_at]; apply (on_value_type s TObject c _ _ Hv); discriminate).
    apply wp_assoc, wp_assoc.
    eapply wp_gives; [exact (begin_object_gives s c w ms Hat Hv)|]. intros [] w1 Hat1.
    set (c1 := open_frame (InObject None ms) (enter_value c)) in *.
    assert (Hf1 : frames c1 = InObject None ms :: frames (enter_value c)) by reflexivity.
    destruct (weight_members ms fl Hwfl) as [Hwi Hli].
    assert (Hwi' : Forall (fun v => (weight v < fl)%nat) (map snd ms)).
    { apply Forall_map. exact Hwi. }
    assert (Hgo : forall w2, at_ c1 w2 -> wp s (sbind (members_step index) (round_rest fuel fl path f hm r) None) w2
      (follows (visits (visit s b) (select_all (pselect ps) (map snd ms)) hm r g) P)).
    { rewrite members_weight_map in Hwfuel, Hup.
      intros w2 Hat2. apply (members_rounds R A s fl path f b ae ps index Hfl Hok IH Hq Hps' ms fuel hm r c1 w2 None (frames (enter_value c)) g P);
        auto; [lia|].
      intros fuel' r' hm' w' Hf' Hat'. unfold c1 in Hat'. rewrite close_open_behind in Hat'. apply Hup; [|exact Hat']. lia. }
    destruct ae; cbn [negb].
    + rewrite Bool.andb_false_r. apply wp_bind. cbn [wp sret]. exact (Hgo w1 Hat1).
    + rewrite Bool.andb_true_r. apply wp_assoc.
      eapply wp_gives; [exact (has_next_gives s c1 w1 _ Hat1 (more_object s c1 None ms _ (proj1 Hat1) Hf1))|].
      intros x w2 (<- & Hat2). destruct ms as [|m0 ms]; cbn [is_nil negb].
      * apply errs_fails, errs_bind. apply expect_errs.
        apply (unit_errs s CSkipName c1 w2 Hat2 I). cbn [call_at]. unfold on_name, at_name. rewrite (not_reading c1 (proj1 Hat1)), Hf1. reflexivity.
      * apply wp_bind. cbn [wp sret]. exact (Hgo w2 Hat2).
Qed.

Lemma convert_no_empty path : forall section, section <> Some [] -> Forall (fun p => p <> PPath []) (convert_path section path).
Proof.
  assert (Hs : forall section, section <> Some [] -> Forall (fun p => p <> PPath []) (take_section section)).
  { intros [p|] H; constructor; [congruence|constructor]. }
  assert (Hp : forall section p, push_piece section p <> Some []).
  { intros section p H. unfold push_piece in H. injection H as H. destruct section as [[|]|]; discriminate. }
  induction path as [|m path IH]; intros section H; cbn [convert_path]; [auto|].
  destruct m; try (apply IH, Hp); (apply Forall_app; split; [auto|]; constructor; [discriminate|]; apply IH; discriminate).
Qed.

Lemma position_gives A s w (Q : _ -> walk -> Prop) c (k : option position -> simple A) : at_ c w ->
  (forall loc w', at_ c w' -> wp s (k loc None) w' Q) -> wp s (sbind d_position k None) w Q.
Proof.
  intros Hat H. apply wp_bind. unfold d_position. cbn [wp]. intros o Ho _.
  rewrite (at_call s (CPosition true) c w Hat I) in *. cbn [call_at fst snd is_result] in *.
  destruct Ho as (p & -> & _). cbn [wp]. apply H. apply at_refl, Hat.
Qed.

Lemma tame_no_match A loc : tame (@no_match A loc).
Proof. intros e. split; [discriminate|exact I]. Qed.

Lemma read_seeked_multi_tame R fl path alo (f : R -> closure R) r : (0 < fl)%nat -> (forall r h, tame (f r h)) ->
  tame (read_seeked_multi fl path alo f r).
Proof.
  intros Hfl Ht. destruct path as [|p path]; [apply tame_read_value, Ht|]. unfold read_seeked_multi. apply tame_bind.
  - destruct alo; [apply tame_position|apply tame_ret].
  - intros loc. apply tame_bind.
    + destruct fl as [|fl]; [lia|]. assert (Hne : convert_path None (p :: path) <> []) by (apply convert_nonempty; left; discriminate).
      destruct (convert_path None (p :: path)) as [|q qs] eqn:E; [congruence|].
      rewrite (multi_round R fl (S fl) (q :: qs) f true 0 false r q eq_refl). apply mute_tame, mute_bind, step_down_mute.
    + intros rm. destruct (alo && _); [apply tame_no_match|apply tame_ret].
Qed.

Lemma read_seeked_multi_follows R s fl path alo (f : R -> closure R) (b : R -> body R) c w v r :
  (forall r, closure_ok s fl (f r) (b r)) -> at_ c w -> at_value s c = inr v -> (weight v < fl)%nat ->
  wp s (read_seeked_multi fl path alo f r None) w
    (follows (sem_multi (visit s b) (select path v) alo r) (fun r r' w' => r = r' /\ at_ (behind_value c) w')).
Proof.
  intros Hok Hat Hv Hw. destruct path as [|p path].
  - cbn [read_seeked_multi select]. eapply wp_weaken; [|exact (read_value_follows R s fl (f r) (b r) c w v (Hok r) Hat Hv Hw ltac:(lia))].
    intros re w'. unfold sem_multi, visit. cbn [fst snd sem_each is_nil]. rewrite Bool.andb_false_r. cbn.
    destruct (sem_any _) as [x| |e cc|]; auto.
  - unfold read_seeked_multi. set (P := p :: path) in *.
    assert (Hgo : forall loc w', at_ c w' ->
      wp s ((rm <- multi_loop fl fl (convert_path None P) f true 0 false r ;;
             if alo && negb (snd rm) then no_match loc else sret (fst rm)) None) w'
        (follows (sem_multi (visit s b) (select P v) alo r) (fun r r' w' => r = r' /\ at_ (behind_value c) w'))).
    { intros loc w' Hat'.
      assert (Hm : wp s (multi_loop fl fl (convert_path None P) f true 0 false r None) w'
        (follows (visits (visit s b) (select P v) false r (fun r' hm => Gives (r', hm))) (fun x y w' => x = y /\ at_ (behind_value c) w'))).
      { rewrite <- (pselect_convert P None v).
        apply (down_all R s fl (convert_path None P) f b ltac:(lia) Hok (convert_path None P)
          (convert_no_empty P None ltac:(discriminate)) (convert_nonempty P None ltac:(left; discriminate))) with (c := c); auto.
        intros fuel' r' hm' w2 _ Hat2. cbn. exists (r', hm'). auto. }
      set (g2 := fun x : R * bool => if alo && negb (snd x) then @Fails R else Gives (fst x)).
      assert (E : wp s ((rm <- multi_loop fl fl (convert_path None P) f true 0 false r ;;
             if alo && negb (snd rm) then no_match loc else sret (fst rm)) None) w'
        (follows (vbind (visits (visit s b) (select P v) false r (fun r' hm => Gives (r', hm))) g2)
           (fun r r' w' => r = r' /\ at_ (behind_value c) w'))).
      { eapply wp_follow; [exact Hm| |].
        - intros rm. destruct (alo && _); [apply tame_no_match|apply tame_ret].
        - intros x y w2 _ [<- Hat2]. unfold g2. destruct (alo && negb (snd x)).
          + split; [discriminate|exact I].
          + cbn. exists (fst x). auto. }
      revert E. apply wp_weaken. intros re w2. unfold sem_multi, visits.
      destruct (sem_each (visit s b) (fst (select P v)) r) as [x| |e cc|]; cbn [vbind follows]; auto.
      destruct (select P v) as [us [|]]; cbn [fst snd andb vbind]; auto. unfold g2. cbn [snd fst orb].
      rewrite Bool.negb_involutive. destruct (alo && is_nil us); auto. }
    destruct alo.
    + apply position_gives with (c := c); auto.
    + apply wp_bind. cbn [wp sret]. apply Hgo, Hat.
Qed.
