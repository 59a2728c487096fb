(** * Skipping and seeking in a known document

    Auxiliary: continuation of [ReaderForward] for the methods which call other
    methods. *)

From Verif Require Import Base Utf8Model Utf8Proofs NumberModel SpecNumber NumberProofs SpecJson SourceModel ReaderModel
  ReaderScan ReaderLex ReaderLexStr ReaderMid ReaderAgree ReaderSess ReaderGrammar ReaderSafe SpecCursor ReaderRepr ReaderForward.

Lemma repr_inv E inp fs vs st s r : repr E inp fs vs st s r -> inv E inp s r.
Proof. intros H. exact (b_inv _ _ _ _ _ _ (r_base _ _ _ _ _ _ _ H)). Qed.

Lemma vrep_ok {A : Type} E inp fs vs st ty (P : json -> A -> rstate -> bytes -> Prop) m v :
  vrep E inp fs vs st ty P m -> at_val E fs vs st = inr v -> json_type v = ty -> exists x s' r', m = MOk x s' r' /\ P v x s' r'.
Proof.
  unfold vrep. intros H Hv Hty. rewrite Hv, Hty in H. assert (He : value_type_eqb ty ty = true) by (destruct ty; reflexivity).
  rewrite He in H. exact H.
Qed.

(** ** Skipping one value *)

Lemma skip_value_start_forward E inp fs vs st s r : (length inp < fuel E)%nat -> repr E inp fs vs st s r ->
  match at_val E fs vs st with
  | inl x => erep E inp fs vs st x (d_skip_value_start E TEof s r)
  | inr v => exists s' r', d_skip_value_start E TEof s r = MOk (is_container (json_type v)) s' r' /\
      if is_container (json_type v) then open_behind E inp fs vs v s' r' else behind E inp fs vs s' r'
  end.
Proof.
  intros Hf Hr. pose proof (peek_forward E inp fs vs st s r Hf Hr) as H. unfold d_skip_value_start.
  destruct (at_val E fs vs st) as [x|v] eqn:Ev; [apply erep_bind; exact H|].
  destruct H as (s1 & r1 & He & Hr1 & _). rewrite (dbind_ok _ _ _ _ _ _ _ He).
  destruct v as [|b|t|x|l|l]; cbn [json_type is_container].
  - destruct (vrep_ok _ _ _ _ _ _ _ _ _ (next_null_forward E inp fs vs st s1 r1 Hf Hr1) Ev eq_refl) as (x & s2 & r2 & He2 & H2).
    rewrite (dbind_ok _ _ _ _ _ _ _ He2). exists s2, r2. auto.
  - destruct (vrep_ok _ _ _ _ _ _ _ _ _ (next_bool_forward E inp fs vs st s1 r1 Hf Hr1) Ev eq_refl) as (x & s2 & r2 & He2 & _ & H2).
    rewrite (dbind_ok _ _ _ _ _ _ _ He2). exists s2, r2. auto.
  - pose proof (number_forward E inp fs vs st s1 r1 false Hf Hr1) as Hn. rewrite Ev in Hn. cbn [andb] in Hn.
    destruct Hn as (s2 & r2 & He2 & H2). rewrite (dbind_ok _ _ _ _ _ _ _ He2). exists s2, r2. auto.
  - destruct (vrep_ok _ _ _ _ _ _ _ _ _ (skip_string_forward E inp fs vs st s1 r1 Hf Hr1) Ev eq_refl) as (y & s2 & r2 & He2 & -> & H2).
    exists s2, r2. auto.
  - destruct (vrep_ok _ _ _ _ _ _ _ _ _ (begin_array_forward E inp fs vs st s1 r1 Hf Hr1) Ev eq_refl) as (x & s2 & r2 & He2 & H2).
    rewrite (dbind_ok _ _ _ _ _ _ _ He2). exists s2, r2. auto.
  - destruct (vrep_ok _ _ _ _ _ _ _ _ _ (begin_object_forward E inp fs vs st s1 r1 Hf Hr1) Ev eq_refl) as (x & s2 & r2 & He2 & H2).
    rewrite (dbind_ok _ _ _ _ _ _ _ He2). exists s2, r2. auto.
Qed.

Lemma repr_names E inp fs vs st s r : repr E inp fs vs st s r -> expects_member_name s = in_object fs.
Proof. intros H. apply (r_names _ _ _ _ _ _ _ H). Qed.

(** A step of [skip_value] inside the container [g] *)
Lemma skip_step_forward E inp g fs vs s r d : (length inp < fuel E)%nat -> repr E inp (g :: fs) vs true s r ->
  at_member_value (g :: fs) = false ->
  exists d' fs' s' r', d_skip_step E TEof (S d) s r = MOk d' s' r' /\ repr E inp fs' vs true s' r' /\ at_member_value fs' = false /\
    ((d' = d /\ fs' = frames_done fs) \/ (exists g', d' = S d /\ fs' = g' :: fs) \/ (exists h g', d' = S (S d) /\ fs' = h :: g' :: fs)).
Proof.
  intros Hf Hr Hav. unfold d_skip_step.
  pose proof (has_next_forward E inp (g :: fs) vs true s r Hf Hr) as Hh.
  assert (Hval : forall s1 r1 g1 v, repr E inp (g1 :: fs) vs true s1 r1 -> in_object (g1 :: fs) = false ->
     at_val E (g1 :: fs) vs true = inr v ->
     exists d' fs' s' r', dbind (d_skip_value_start E TEof) (fun started : bool => dret (if started then S (S d) else S d)) s1 r1 = MOk d' s' r' /\
       repr E inp fs' vs true s' r' /\ at_member_value fs' = false /\
       ((d' = d /\ fs' = frames_done fs) \/ (exists g', d' = S d /\ fs' = g' :: fs) \/ (exists h g', d' = S (S d) /\ fs' = h :: g' :: fs))).
  { intros s1 r1 g1 v Hr1 Hio Hv1. pose proof (skip_value_start_forward E inp _ vs true s1 r1 Hf Hr1) as H. rewrite Hv1 in H.
    destruct H as (s2 & r2 & He2 & H2). rewrite (dbind_ok _ _ _ _ _ _ _ He2). unfold dret.
    destruct (is_container (json_type v)) eqn:Ec.
    - eexists _, _, s2, r2. split; [reflexivity|]. split; [exact H2|].
      destruct g1; cbn [ent_f]; (split; [destruct v; reflexivity|]); right; right; eauto.
    - eexists _, _, s2, r2. split; [reflexivity|]. split; [exact H2|].
      destruct g1; try discriminate; cbn [ent_f frames_done]; (split; [reflexivity|]); right; left; eauto. }
  destruct g as [i l|n l|n v l]; [| |discriminate]; unfold more_at, more in Hh; cbn [is_reading reading frames] in Hh;
    destruct Hh as (s1 & r1 & He & Hr1 & _); rewrite (dbind_ok _ _ _ _ _ _ _ He).
  - destruct l as [|v l]; cbn [negb].
    + rewrite dbind_assoc || idtac. unfold d_end_container. rewrite dbind_assoc. unfold dbind at 1, dget at 1.
      rewrite (kind_in_array _ _ _ _ _ _ (r_base _ _ _ _ _ _ _ Hr1)). cbn [in_array].
      pose proof (end_array_forward E inp _ vs true s1 r1 Hf Hr1) as (x & s2 & r2 & He2 & Hr2 & Ha2).
      rewrite (dbind_ok _ _ _ _ _ _ _ He2). eexists _, _, s2, r2. split; [reflexivity|]. split; [exact Hr2|]. split; [exact Ha2|]. left. auto.
    + unfold dbind at 1, dget at 1. rewrite (repr_names _ _ _ _ _ _ _ Hr1). cbn [in_object]. unfold dbind at 1, dret at 1.
      apply (Hval s1 r1 (InArray i (v :: l)) v Hr1); reflexivity.
  - destruct l as [|[m v] l]; cbn [negb].
    + unfold d_end_container. rewrite dbind_assoc. unfold dbind at 1, dget at 1.
      rewrite (kind_in_array _ _ _ _ _ _ (r_base _ _ _ _ _ _ _ Hr1)). cbn [in_array].
      pose proof (end_object_forward E inp _ vs true s1 r1 Hf Hr1) as (x & s2 & r2 & He2 & Hr2 & Ha2).
      rewrite (dbind_ok _ _ _ _ _ _ _ He2). eexists _, _, s2, r2. split; [reflexivity|]. split; [exact Hr2|]. split; [exact Ha2|]. left. auto.
    + unfold dbind at 1, dget at 1. rewrite (repr_names _ _ _ _ _ _ _ Hr1). cbn [in_object].
      pose proof (skip_name_forward E inp _ vs true s1 r1 Hf Hr1) as (s2 & r2 & He2 & Hr2).
      rewrite (dbind_ok _ _ _ _ _ _ _ He2). apply (Hval s2 r2 (AtValue m v l) v Hr2); reflexivity.
Qed.

Lemma skip_value_loop_forward E inp fs vs f : forall gs s r, (length inp < fuel E)%nat -> repr E inp (gs ++ fs) vs true s r ->
  gs <> [] -> at_member_value (gs ++ fs) = false -> (mu s r < f)%nat ->
  exists s' r', d_skip_value_loop E TEof f (length gs) s r = MOk tt s' r' /\ repr E inp (frames_done fs) vs true s' r'.
Proof.
  induction f as [|f IH]; intros gs s r Hf Hr Hne Hav Hmu; [lia|]. destruct gs as [|g gs]; [contradiction|].
  cbn [d_skip_value_loop length app] in *.
  destruct (skip_step_forward E inp g (gs ++ fs) vs s r (length gs) Hf Hr Hav) as (d' & fs' & s1 & r1 & He & Hr1 & Ha1 & Hc).
  pose proof (skip_step_good E inp TEof (S (length gs)) s r Hf (repr_inv _ _ _ _ _ _ _ Hr)) as Hg. rewrite He in Hg. destruct Hg as [_ Hg].
  rewrite (dbind_ok _ _ _ _ _ _ _ He).
  destruct Hc as [[-> ->]|[(g' & -> & ->)|(h & g' & -> & ->)]].
  - destruct gs as [|g2 gs]; cbn [length app] in *.
    + exists s1, r1. auto.
    + assert (Hx : exists g3, frames_done (g2 :: gs ++ fs) = g3 :: gs ++ fs) by (destruct g2; cbn; eauto).
      destruct Hx as (g3 & Hx). rewrite Hx in Hr1, Ha1.
      apply (IH (g3 :: gs) s1 r1); auto; [discriminate|lia].
  - apply (IH (g' :: gs) s1 r1); auto; [discriminate|lia].
  - apply (IH (h :: g' :: gs) s1 r1); auto; [discriminate|lia].
Qed.

Lemma skip_value_forward E inp fs vs st s r : (length inp < fuel E)%nat -> repr E inp fs vs st s r ->
  match at_val E fs vs st with
  | inl x => erep E inp fs vs st x (d_skip_value E TEof s r)
  | inr v => exists s' r', d_skip_value E TEof s r = MOk tt s' r' /\ behind E inp fs vs s' r'
  end.
Proof.
  intros Hf Hr.
  assert (Heq : d_skip_value E TEof s r = (dmisuse_if (in_object fs) ;; d_skip_value_loop E TEof (fuel E) 0)%dm s r).
  { unfold d_skip_value, dbind at 1, dget. rewrite (repr_names _ _ _ _ _ _ _ Hr). reflexivity. }
  rewrite Heq. clear Heq. destruct (in_object fs) eqn:Eio.
  { destruct fs as [|[]]; try discriminate. reflexivity. }
  assert (Hx : forall m : D unit, dbind (dmisuse_if false) (fun _ => m) s r = m s r) by reflexivity. rewrite Hx. clear Hx.
  destruct (fuel E) as [|f] eqn:Ef; [lia|]. cbn [d_skip_value_loop].
  unfold d_skip_step. rewrite dbind_assoc. 
  assert (Hx : forall k : bool -> D unit, dbind (dret true) k s r = k true s r) by reflexivity. rewrite Hx. clear Hx. cbn [negb].
  rewrite dbind_assoc. 
  assert (Hx : forall k : rstate -> D unit, dbind dget k s r = k s s r) by reflexivity. rewrite Hx. clear Hx.
  rewrite (repr_names _ _ _ _ _ _ _ Hr), Eio. rewrite dbind_assoc.
  assert (Hx : forall k : unit -> D unit, dbind (dret tt) k s r = k tt s r) by reflexivity. rewrite Hx. clear Hx.
  rewrite dbind_assoc. rewrite <- Ef in Hf.
  pose proof (skip_value_start_forward E inp fs vs st s r Hf Hr) as H.
  destruct (at_val E fs vs st) as [x|v] eqn:Ev; [apply erep_bind; exact H|].
  destruct H as (s1 & r1 & He & H1). rewrite (dbind_ok _ _ _ _ _ _ _ He).
  destruct (is_container (json_type v)) eqn:Ec; unfold dbind, dret; [|exists s1, r1; auto].
  apply (skip_value_loop_forward E inp (ent_f fs) (ent_v fs vs) f [opened v] s1 r1); auto; try discriminate.
  - destruct v; reflexivity.
  - pose proof (mu_bound _ _ _ _ (repr_inv _ _ _ _ _ _ _ H1)) as Hmb.
    pose proof (skip_value_start_good E inp TEof s r Hf (repr_inv _ _ _ _ _ _ _ Hr)) as Hg. rewrite He in Hg. destruct Hg as [_ Hg].
    pose proof (mu_bound _ _ _ _ (repr_inv _ _ _ _ _ _ _ Hr)) as Hmb0. lia.
Qed.

(** ** Skipping the remaining items or members *)

Lemma skip_items_forward E inp vs fs f : forall i l s r, (length inp < fuel E)%nat -> repr E inp (InArray i l :: fs) vs true s r ->
  (mu s r < f)%nat ->
  exists s' r', d_skip_items E TEof f s r = MOk tt s' r' /\ repr E inp (InArray (i + N.of_nat (length l)) [] :: fs) vs true s' r'.
Proof.
  induction f as [|f IH]; intros i l s r Hf Hr Hmu; [lia|]. cbn [d_skip_items].
  pose proof (has_next_forward E inp _ vs true s r Hf Hr) as Hh. unfold more_at, more in Hh. cbn [is_reading reading frames] in Hh.
  destruct Hh as (s1 & r1 & He & Hr1 & _). rewrite (dbind_ok _ _ _ _ _ _ _ He).
  pose proof (has_next_good E inp TEof s r Hf (repr_inv _ _ _ _ _ _ _ Hr)) as Hg. rewrite He in Hg. destruct Hg as (_ & _ & _ & _ & Hg & _).
  destruct l as [|v l].
  - exists s1, r1. split; [reflexivity|]. rewrite N.add_0_r. exact Hr1.
  - pose proof (skip_value_forward E inp _ vs true s1 r1 Hf Hr1) as H. cbn [at_val at_value is_reading reading frames] in H. destruct H as (s2 & r2 & He2 & Hr2).
    rewrite (dbind_ok _ _ _ _ _ _ _ He2).
    pose proof (skip_value_good E inp TEof s1 r1 Hf (repr_inv _ _ _ _ _ _ _ Hr1)) as Hg2. rewrite He2 in Hg2. destruct Hg2 as [_ Hg2].
    destruct (IH (i + 1) l s2 r2 Hf Hr2 ltac:(blia)) as (s3 & r3 & He3 & Hr3). exists s3, r3. split; [exact He3|].
    replace (i + N.of_nat (length (v :: l))) with (i + 1 + N.of_nat (length l)) by (cbn [length]; lia). exact Hr3.
Qed.

(** At top level *)
Lemma skip_items_top E inp f : forall vs s r, (length inp < fuel E)%nat -> repr E inp [] vs true s r ->
  allow_multiple_top_level (cfg E) = true -> (mu s r < f)%nat ->
  exists s' r', d_skip_items E TEof f s r = MOk tt s' r' /\ repr E inp [] [] true s' r'.
Proof.
  induction f as [|f IH]; intros vs s r Hf Hr Hm Hmu; [lia|]. cbn [d_skip_items].
  pose proof (has_next_forward E inp _ vs true s r Hf Hr) as Hh. unfold more_at, more in Hh. cbn [is_reading reading frames started top] in Hh.
  rewrite Hm in Hh. cbn [negb orb] in Hh.
  destruct Hh as (s1 & r1 & He & Hr1 & _). rewrite (dbind_ok _ _ _ _ _ _ _ He).
  pose proof (has_next_good E inp TEof s r Hf (repr_inv _ _ _ _ _ _ _ Hr)) as Hg. rewrite He in Hg. destruct Hg as (_ & _ & _ & _ & Hg & _).
  destruct vs as [|v vs]; [exists s1, r1; auto|].
  pose proof (skip_value_forward E inp _ (v :: vs) true s1 r1 Hf Hr1) as H. unfold at_val, at_value in H. cbn [is_reading reading frames started top] in H.
  rewrite Hm in H. cbn [negb andb] in H. destruct H as (s2 & r2 & He2 & Hr2).
  rewrite (dbind_ok _ _ _ _ _ _ _ He2).
  pose proof (skip_value_good E inp TEof s1 r1 Hf (repr_inv _ _ _ _ _ _ _ Hr1)) as Hg2. rewrite He2 in Hg2. destruct Hg2 as [_ Hg2].
  apply (IH vs s2 r2 Hf Hr2 Hm). blia.
Qed.

Fixpoint last_or (n : option str) (l : list (str * json)) : option str :=
  match l with [] => n | (m, _) :: l' => last_or (Some m) l' end.

Lemma last_or_app n l m v : last_or n (l ++ [(m, v)]) = Some m.
Proof. revert n. induction l as [|[m' v'] l IH]; intros n; [reflexivity|]. exact (IH _). Qed.

Lemma last_name_or l : last_name l = last_or None l.
Proof.
  unfold last_name. destruct l as [|x l] using rev_ind; [reflexivity|]. destruct x as [m v]. rewrite rev_app_distr, last_or_app. reflexivity.
Qed.

Lemma skip_members_forward E inp vs fs f : forall n l s r, (length inp < fuel E)%nat -> repr E inp (InObject n l :: fs) vs true s r ->
  (mu s r < f)%nat ->
  exists s' r', d_skip_members E TEof f s r = MOk tt s' r' /\ repr E inp (InObject (last_or n l) [] :: fs) vs true s' r'.
Proof.
  induction f as [|f IH]; intros n l s r Hf Hr Hmu; [lia|]. cbn [d_skip_members].
  pose proof (has_next_forward E inp _ vs true s r Hf Hr) as Hh. unfold more_at, more in Hh. cbn [is_reading reading frames] in Hh.
  destruct Hh as (s1 & r1 & He & Hr1 & _). rewrite (dbind_ok _ _ _ _ _ _ _ He).
  pose proof (has_next_good E inp TEof s r Hf (repr_inv _ _ _ _ _ _ _ Hr)) as Hg. rewrite He in Hg. destruct Hg as (_ & _ & _ & _ & Hg & _).
  destruct l as [|[m v] l].
  - exists s1, r1. auto.
  - pose proof (skip_name_forward E inp _ vs true s1 r1 Hf Hr1) as (s2 & r2 & He2 & Hr2). rewrite (dbind_ok _ _ _ _ _ _ _ He2).
    pose proof (skip_name_good E inp TEof s1 r1 Hf (repr_inv _ _ _ _ _ _ _ Hr1)) as Hg2. rewrite He2 in Hg2. destruct Hg2 as (_ & _ & _ & _ & _ & _ & Hg2).
    pose proof (skip_value_forward E inp _ vs true s2 r2 Hf Hr2) as H. cbn [at_val at_value is_reading reading frames] in H. destruct H as (s3 & r3 & He3 & Hr3).
    rewrite (dbind_ok _ _ _ _ _ _ _ He3).
    pose proof (skip_value_good E inp TEof s2 r2 Hf (repr_inv _ _ _ _ _ _ _ Hr2)) as Hg3. rewrite He3 in Hg3. destruct Hg3 as [_ Hg3].
    apply (IH (Some m) l s3 r3 Hf Hr3). blia.
Qed.

Lemma mu_fuel E inp s r : (length inp < fuel E)%nat -> inv E inp s r -> (mu s r < fuel E)%nat.
Proof. intros Hf Hi. pose proof (mu_bound _ _ _ _ Hi). lia. Qed.

(** ** Skipping to the top level *)

Lemma skip_to_top_loop_forward E inp vs f : forall fs st s r, (length inp < fuel E)%nat -> repr E inp fs vs st s r ->
  at_member_value fs = false -> (mu s r < f)%nat ->
  exists s' r', d_skip_to_top_level_loop E TEof f s r = MOk tt s' r' /\ repr E inp [] vs st s' r'.
Proof.
  induction f as [|f IH]; intros fs st s r Hf Hr Hav Hmu; [lia|]. cbn [d_skip_to_top_level_loop].
  assert (Hx : forall k : rstate -> D unit, dbind dget k s r = k s s r) by reflexivity. rewrite Hx. clear Hx.
  rewrite (b_stack _ _ _ _ _ _ (r_base _ _ _ _ _ _ _ Hr)).
  destruct fs as [|[i l|n l|n v l] fs]; cbn [map frame_kind]; [exists s, r; auto| | |discriminate];
    pose proof (repr_started _ _ _ _ _ _ _ _ Hr) as ->.
  - destruct (skip_items_forward E inp vs fs (fuel E) i l s r Hf Hr (mu_fuel _ _ _ _ Hf (repr_inv _ _ _ _ _ _ _ Hr))) as (s1 & r1 & He & Hr1).
    rewrite (dbind_ok _ _ _ _ _ _ _ He).
    pose proof (skip_items_good E inp TEof (fuel E) s r Hf (repr_inv _ _ _ _ _ _ _ Hr) (mu_fuel _ _ _ _ Hf (repr_inv _ _ _ _ _ _ _ Hr))) as Hg.
    rewrite He in Hg. destruct Hg as [_ Hg].
    pose proof (end_array_forward E inp _ vs true s1 r1 Hf Hr1) as (x & s2 & r2 & He2 & Hr2 & Ha2).
    pose proof (end_array_good E inp TEof s1 r1 Hf (repr_inv _ _ _ _ _ _ _ Hr1)) as Hg2. rewrite He2 in Hg2. destruct Hg2 as (_ & _ & Hg2).
    rewrite (dbind_ok _ _ _ _ _ _ _ He2). apply (IH (frames_done fs) true s2 r2); auto. blia.
  - destruct (skip_members_forward E inp vs fs (fuel E) n l s r Hf Hr (mu_fuel _ _ _ _ Hf (repr_inv _ _ _ _ _ _ _ Hr))) as (s1 & r1 & He & Hr1).
    rewrite (dbind_ok _ _ _ _ _ _ _ He).
    pose proof (skip_members_good E inp TEof (fuel E) s r Hf (repr_inv _ _ _ _ _ _ _ Hr) (mu_fuel _ _ _ _ Hf (repr_inv _ _ _ _ _ _ _ Hr))) as Hg.
    rewrite He in Hg. destruct Hg as [_ Hg].
    pose proof (end_object_forward E inp _ vs true s1 r1 Hf Hr1) as (x & s2 & r2 & He2 & Hr2 & Ha2).
    pose proof (end_object_good E inp TEof s1 r1 Hf (repr_inv _ _ _ _ _ _ _ Hr1)) as Hg2. rewrite He2 in Hg2. destruct Hg2 as (_ & _ & Hg2).
    rewrite (dbind_ok _ _ _ _ _ _ _ He2). apply (IH (frames_done fs) true s2 r2); auto. blia.
Qed.

Lemma skip_to_top_forward E inp fs vs st s r : (length inp < fuel E)%nat -> repr E inp fs vs st s r ->
  exists s' r', d_skip_to_top_level E TEof s r = MOk tt s' r' /\ repr E inp [] vs st s' r'.
Proof.
  intros Hf Hr.
  assert (Heq : d_skip_to_top_level E TEof s r =
    ((if at_member_value fs then d_skip_value E TEof else dret tt) ;; d_skip_to_top_level_loop E TEof (fuel E))%dm s r).
  { unfold d_skip_to_top_level, dbind at 1, dget. rewrite (r_active _ _ _ _ _ _ _ Hr), (repr_expects_value _ _ _ _ _ _ _ Hr). reflexivity. }
  rewrite Heq. clear Heq. destruct (at_member_value fs) eqn:Ea.
  - destruct fs as [|[i l|n l|n v l] fs]; try discriminate. pose proof (repr_started _ _ _ _ _ _ _ _ Hr) as ->.
    pose proof (skip_value_forward E inp _ vs true s r Hf Hr) as H. cbn [at_val at_value is_reading reading frames] in H. destruct H as (s1 & r1 & He & Hr1).
    rewrite (dbind_ok _ _ _ _ _ _ _ He).
    apply (skip_to_top_loop_forward E inp vs (fuel E) (InObject (Some n) l :: fs) true s1 r1); auto. apply (mu_fuel E inp); auto. exact (repr_inv _ _ _ _ _ _ _ Hr1).
  - change (exists s' r', d_skip_to_top_level_loop E TEof (fuel E) s r = MOk tt s' r' /\ repr E inp [] vs st s' r').
    apply (skip_to_top_loop_forward E inp vs (fuel E) fs st s r); auto. apply (mu_fuel E inp); auto. exact (repr_inv _ _ _ _ _ _ _ Hr).
Qed.
