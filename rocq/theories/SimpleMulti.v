(** * Proofs: [read_seeked_multi] on known data *)

From Verif Require Import Base Utf8Model SpecNumber SpecJson ReaderModel SpecCursor SpecRead ReaderCursor
  SimpleModel SpecSimple SimpleErrors SimpleWp SimpleRun SimpleRun2.
Open Scope smonad_scope.

(** ** The converted path *)

Fixpoint pselect (ps : list partial_path) (v : json) : list json * bool :=
  match ps with
  | [] => ([v], true)
  | PPath path :: ps' => match lookup path v with Some u => pselect ps' u | None => ([], false) end
  | POptional n :: ps' =>
    match v with
    | JObj ms => match member n ms with Some u => pselect ps' u | None => ([], true) end
    | _ => ([], false)
    end
  | PAllItems ae :: ps' =>
    match v with
    | JArr items => if is_nil items && negb ae then ([], false) else select_all (pselect ps') items
    | _ => ([], false)
    end
  | PAllMembers ae :: ps' =>
    match v with
    | JObj ms => if is_nil ms && negb ae then ([], false) else select_all (pselect ps') (map snd ms)
    | _ => ([], false)
    end
  end.

Lemma lookup_app p q : forall v, lookup (p ++ q) v = match lookup p v with Some u => lookup q u | None => None end.
Proof.
  induction p as [|x p IH]; intros v; [destruct v; reflexivity|]. cbn [app lookup]. destruct x as [i|n], v; try reflexivity.
  - destruct (nth_error _ _); [apply IH|reflexivity].
  - destruct (find _ _); [apply IH|reflexivity].
Qed.

Lemma select_all_ext f g vs : (forall v, f v = g v) -> select_all f vs = select_all g vs.
Proof. intros H. induction vs as [|v vs IH]; [reflexivity|]. cbn. rewrite H, IH. reflexivity. Qed.

Lemma pselect_convert path : forall section v,
  pselect (convert_path section path) v =
  match section with
  | None => select path v
  | Some p => match lookup p v with Some u => select path u | None => ([], false) end
  end.
Proof.
  assert (Hsec : forall section ps v, pselect (take_section section ++ ps) v =
    match section with
    | None => pselect ps v
    | Some p => match lookup p v with Some u => pselect ps u | None => ([], false) end
    end).
  { intros [p|] ps v; reflexivity. }
  induction path as [|m path IH]; intros section v.
  - cbn [convert_path]. rewrite <- (app_nil_r (take_section section)), Hsec. reflexivity.
  - assert (HIH : forall ps, ps = convert_path None path -> forall u, pselect ps u = select path u).
    { intros ps -> u. rewrite IH. reflexivity. }
    destruct m as [i|ae|n|n|ae]; cbn [convert_path]; rewrite ?IH, ?Hsec.
    + unfold push_piece. destruct section as [p|]; cbn [app].
      * rewrite lookup_app. destruct (lookup p v) as [u|]; [|reflexivity]. cbn [lookup select].
        destruct u; try reflexivity; destruct (nth_error _ _) as [x|]; reflexivity.
      * cbn [lookup select]. destruct v; try reflexivity; destruct (nth_error _ _) as [x|]; reflexivity.
    + destruct section as [p|]; [destruct (lookup p v) as [u|]; [|reflexivity]; generalize u as x|generalize v as x]; intros x; cbn [pselect select];
      destruct x; try reflexivity; (destruct (_ && _); [reflexivity|]); apply select_all_ext; intros y; apply HIH; reflexivity.
    + unfold push_piece. destruct section as [p|]; cbn [app].
      * rewrite lookup_app. destruct (lookup p v) as [u|]; [|reflexivity]. cbn [lookup select].
        destruct u; try reflexivity; unfold member; destruct (find _ _) as [x|]; reflexivity.
      * cbn [lookup select]. destruct v; try reflexivity; unfold member; destruct (find _ _) as [x|]; reflexivity.
    + destruct section as [p|]; [destruct (lookup p v) as [u|]; [|reflexivity]; generalize u as x|generalize v as x]; intros x; cbn [pselect select];
      destruct x; try reflexivity; (destruct (member n _) as [y|]; [apply HIH; reflexivity|reflexivity]).
    + destruct section as [p|]; [destruct (lookup p v) as [u|]; [|reflexivity]; generalize u as x|generalize v as x]; intros x; cbn [pselect select];
      destruct x; try reflexivity; (destruct (_ && _); [reflexivity|]); apply select_all_ext; intros y; apply HIH; reflexivity.
Qed.

Lemma convert_nonempty path section : path <> [] \/ section <> None -> convert_path section path <> [].
Proof.
  revert section. induction path as [|m path IH]; intros section [H|H].
  - congruence.
  - destruct section; [discriminate|congruence].
  - destruct m; cbn [convert_path]; try (apply IH; right; discriminate); destruct section; discriminate.
  - destruct m; cbn [convert_path]; try (apply IH; right; discriminate); destruct section; discriminate.
Qed.

Lemma select_all_here vs : select_all (pselect []) vs = (vs, true).
Proof. induction vs as [|v vs IH]; [reflexivity|]. cbn in *. rewrite IH. reflexivity. Qed.

(** ** Visits *)

Lemma vbind_vbind A B C (x : verdict A) (f : A -> verdict B) (g : B -> verdict C) :
  vbind (vbind x f) g = vbind x (fun a => vbind (f a) g).
Proof. destruct x; reflexivity. Qed.

Lemma sem_each_app A R (f : R -> A -> verdict R) l l' : forall r,
  sem_each f (l ++ l') r = vbind (sem_each f l r) (sem_each f l').
Proof.
  induction l as [|x l IH]; intros r; [reflexivity|]. cbn [app]. rewrite !sem_each_cons, vbind_vbind.
  destruct (f r x); cbn; auto.
Qed.

(** The visits of the selected values, then what follows *)
Definition visits {A R : Type} (f : R -> json -> verdict R) (sel : list json * bool) (hm : bool) (r : R)
  (g : R -> bool -> verdict A) : verdict A :=
  vbind (sem_each f (fst sel) r) (fun r' => if snd sel then g r' (hm || negb (is_nil (fst sel))) else Fails).

Lemma is_nil_app A (l l' : list A) : is_nil (l ++ l') = is_nil l && is_nil l'.
Proof. destruct l; reflexivity. Qed.

Lemma vbind_ext A B (x : verdict A) (f g : A -> verdict B) : (forall a, f a = g a) -> vbind x f = vbind x g.
Proof. intros H. destruct x; cbn; auto. Qed.

Lemma visits_cons A R (f : R -> json -> verdict R) (sel : json -> list json * bool) v vs hm r (g : R -> bool -> verdict A) :
  visits f (select_all sel (v :: vs)) hm r g =
  visits f (sel v) hm r (fun r' hm' => visits f (select_all sel vs) hm' r' g).
Proof.
  unfold visits. cbn [select_all]. destruct (sel v) as [us [|]]; cbn [fst snd].
  - rewrite sem_each_app, vbind_vbind. apply vbind_ext. intros a. apply vbind_ext. intros b.
    rewrite is_nil_app, Bool.negb_andb, Bool.orb_assoc. reflexivity.
  - reflexivity.
Qed.

Lemma visits_none A R (f : R -> json -> verdict R) hm r (g : R -> bool -> verdict A) : visits f ([], true) hm r g = g r hm.
Proof. unfold visits. cbn. rewrite Bool.orb_false_r. reflexivity. Qed.

Lemma visits_fail A R (f : R -> json -> verdict R) hm r (g : R -> bool -> verdict A) : visits f ([], false) hm r g = Fails.
Proof. reflexivity. Qed.

(** ** Parts of the loop *)

(** What a round does with the result of its first part *)
Definition round_rest {R : Type} (fuel fl : nat) (path : list partial_path) (f : R -> closure R)
  (hm : bool) (r : R) (s : bool * nat) : simple (R * bool) :=
  (t <- (if fst s && Nat.leb (length path) (snd s)
         then
           match nth_error path (snd s - 1) with
           | None => spanic Bug
           | Some q => (r' <- multi_found fl q f r ;; sret (false, true, r'))
           end
         else sret (fst s, hm, r)) ;;
   match t with
   | (down', has_match', r') =>
     if down' : bool then multi_loop fuel fl path f true (snd s) has_match' r'
     else
       match snd s with
       | O => sret (r', has_match')
       | S index' => multi_loop fuel fl path f false index' has_match' r'
       end
   end).

(** The rounds after the pieces from the given index on are done *)
Definition up {R : Type} (fuel fl : nat) (path : list partial_path) (f : R -> closure R)
  (index : nat) (hm : bool) (r : R) : simple (R * bool) :=
  match index with
  | O => sret (r, hm)
  | S index' => multi_loop fuel fl path f false index' hm r
  end.

Lemma multi_round R fuel fl path (f : R -> closure R) down index hm r p : nth_error path index = Some p ->
  multi_loop (S fuel) fl path f down index hm r =
  sbind (multi_step fl p down index) (round_rest fuel fl path f hm r).
Proof. intros H. cbn [multi_loop]. rewrite H. reflexivity. Qed.

Lemma round_up R fuel fl path (f : R -> closure R) hm r index err :
  round_rest fuel fl path f hm r (false, index) err = up fuel fl path f index hm r err.
Proof. destruct index; reflexivity. Qed.

Lemma round_down R fuel fl path (f : R -> closure R) hm r index err : (index < length path)%nat ->
  round_rest fuel fl path f hm r (true, index) err = multi_loop fuel fl path f true index hm r err.
Proof.
  intros H. unfold round_rest. cbn [fst snd andb]. destruct (Nat.leb (length path) index) eqn:E; [apply Nat.leb_le in E; lia|].
  reflexivity.
Qed.

Lemma step_tame fl p index : (0 < fl)%nat -> mute (multi_step fl p false index).
Proof. intros H e. destruct fl; [lia|]. destruct p; reflexivity. Qed.
Lemma step_down_mute fl p index : mute (multi_step fl p true index).
Proof. intros e. destruct p; reflexivity. Qed.

Lemma up_tame R fuel fl path (f : R -> closure R) index hm r :
  (0 < fuel)%nat -> (0 < fl)%nat -> (index <= length path)%nat -> tame (up fuel fl path f index hm r).
Proof.
  intros Hf Hfl Hi. destruct index as [|i]; [apply tame_ret|]. destruct fuel as [|fuel]; [lia|]. cbn [up].
  destruct (nth_error path i) as [p|] eqn:E; [|apply nth_error_None in E; lia].
  rewrite (multi_round R fuel fl path f false i hm r p E). apply mute_tame, mute_bind, step_tame, Hfl.
Qed.

Lemma multi_found_tame R fl q (f : R -> closure R) r : (0 < fl)%nat -> (forall r h, tame (f r h)) -> tame (multi_found fl q f r).
Proof.
  intros Hfl Ht. unfold multi_found. apply tame_bind; [apply tame_read_value, Ht|]. intros r1. destruct q.
  - apply tame_ret.
  - apply items_loop_tame, Hfl.
  - apply tame_ret.
  - apply all_members_loop_tame, Hfl.
Qed.

(** ** The loops over members *)

Lemma find_loop_follows s n : forall ms fuel nm fs c w, (length ms < fuel)%nat -> at_ c w -> frames c = InObject nm ms :: fs ->
  wp s (find_loop fuel n None) w
    (follows (Gives (member n ms)) (fun x b w' =>
       match x with
       | Some u => b = true /\ exists m ms', at_ (set_frames (AtValue m u ms' :: fs) c) w' /\ (length ms' < length ms)%nat
       | None => b = false /\ exists nm', at_ (set_frames (InObject nm' [] :: fs) c) w'
       end)).
Proof.
  induction ms as [|[m v] ms IH]; intros fuel nm fs c w Hl Hat Hf; (destruct fuel as [|fuel]; [cbn in Hl; lia|]); cbn [find_loop].
  - eapply wp_gives; [exact (has_next_gives s c w _ Hat (more_object s c nm _ fs (proj1 Hat) Hf))|].
    intros x w' (<- & Hat'). cbn. exists false. split; [reflexivity|]. split; [reflexivity|]. exists nm.
    assert (E : set_frames (InObject nm [] :: fs) c = c) by (destruct c; cbn in *; subst; reflexivity).
    rewrite E. exact Hat'.
  - eapply wp_gives; [exact (has_next_gives s c w _ Hat (more_object s c nm _ fs (proj1 Hat) Hf))|].
    intros x w' (<- & Hat'). cbn [is_nil negb].
    eapply wp_gives; [exact (read_name_gives s CNextName c w' nm m v ms fs (or_introl eq_refl) Hat' Hf)|].
    intros x w1 (<- & Hat1). unfold member. cbn [find fst].
    destruct (list_eq_dec N.eq_dec m n) as [->|Hn].
    + cbn. exists true. split; [reflexivity|]. split; [reflexivity|]. exists n, ms. split; [exact Hat1|lia].
    + assert (Hv : at_value s (set_frames (AtValue m v ms :: fs) c) = inr v).
      { apply (at_value_member s _ m v ms fs); [cbn; apply Hat|reflexivity]. }
      eapply wp_gives; [exact (skip_gives s _ w1 v Hat1 Hv)|]. intros [] w2 Hat2.
      rewrite (behind_member (set_frames (AtValue m v ms :: fs) c) m v ms fs eq_refl), set_set in Hat2.
      eapply wp_weaken; [|apply (IH fuel (Some m) fs (set_frames (InObject (Some m) ms :: fs) c) w2); [cbn in Hl; lia|exact Hat2|reflexivity]].
      intros re w3. apply follows_weaken. fold (member n ms). intros y b w4 _.
      destruct y; [|tauto].
      intros (-> & m' & ms' & H & Hl'). split; [reflexivity|]. exists m', ms'. split; [exact H|]. cbn. lia.
Qed.

Lemma skip_members_loop_follows s : forall ms fuel nm fs c w, (length ms < fuel)%nat -> at_ c w -> frames c = InObject nm ms :: fs ->
  wp s (skip_members_loop fuel None) w
    (follows (Gives tt) (fun _ _ w' => exists nm', at_ (set_frames (InObject nm' [] :: fs) c) w')).
Proof.
  induction ms as [|[m v] ms IH]; intros fuel nm fs c w Hl Hat Hf; (destruct fuel as [|fuel]; [cbn in Hl; lia|]); cbn [skip_members_loop].
  - eapply wp_gives; [exact (has_next_gives s c w _ Hat (more_object s c nm _ fs (proj1 Hat) Hf))|].
    intros x w' (<- & Hat'). cbn. exists tt. split; [reflexivity|]. exists nm.
    assert (E : set_frames (InObject nm [] :: fs) c = c) by (destruct c; cbn in *; subst; reflexivity).
    rewrite E. exact Hat'.
  - eapply wp_gives; [exact (has_next_gives s c w _ Hat (more_object s c nm _ fs (proj1 Hat) Hf))|].
    intros x w' (<- & Hat'). cbn [is_nil negb].
    eapply wp_gives; [exact (skip_name_gives s c w' nm m v ms fs Hat' Hf)|]. intros [] w1 Hat1.
    assert (Hv : at_value s (set_frames (AtValue m v ms :: fs) c) = inr v).
    { apply (at_value_member s _ m v ms fs); [cbn; apply Hat|reflexivity]. }
    eapply wp_gives; [exact (skip_gives s _ w1 v Hat1 Hv)|]. intros [] w2 Hat2.
    rewrite (behind_member (set_frames (AtValue m v ms :: fs) c) m v ms fs eq_refl), set_set in Hat2.
    eapply wp_weaken; [|apply (IH fuel (Some m) fs (set_frames (InObject (Some m) ms :: fs) c) w2); [cbn in Hl; lia|exact Hat2|reflexivity]].
    intros re w3. apply follows_weaken. intros y b w4 _ H. exact H.
Qed.
