(** * Proofs: after an error the simple reader API does not use the reader *)

From Verif Require Import Base Utf8Model ReaderModel SimpleModel SpecSimple ClientErrors.
From Verif Require DeErrors.

Ltac splits := repeat match goal with |- _ /\ _ => split end.

Definition halted {A : Type} (r : sres A) : Prop :=
  match r with SPanic _ | SFuel | SInvalid => True | _ => False end.

Definition entry (failed : bool) (err : option kept_error) : Prop := failed = true -> err <> None.

(** [loose]: errors are kept, and a kept error stays; [plain]: also, no error is
    added; [strict]: success is only possible without an error *)
Definition loose {A : Type} (m : simple A) : Prop := forall failed err, entry failed err ->
  obeys failed (m err) (fun failed' re =>
    (entry failed' (snd re) \/ halted (fst re)) /\ (err <> None -> snd re = err)).
Definition plain {A : Type} (m : simple A) : Prop := forall failed err, entry failed err ->
  obeys failed (m err) (fun failed' re =>
    (entry failed' (snd re) \/ halted (fst re)) /\ (err <> None -> snd re = err) /\
    (success (fst re) -> snd re = err)).
Definition strict {A : Type} (m : simple A) : Prop := forall failed err, entry failed err ->
  obeys failed (m err) (fun failed' re =>
    (entry failed' (snd re) \/ halted (fst re)) /\ (err <> None -> snd re = err) /\
    (success (fst re) -> err = None /\ snd re = None)).

Lemma plain_loose A (m : simple A) : plain m -> loose m.
Proof.
  intros H failed err He. eapply obeys_weaken; [|exact (H failed err He)]. intros f a (H1 & H2 & H3). split; assumption.
Qed.
Lemma strict_loose A (m : simple A) : strict m -> loose m.
Proof.
  intros H failed err He. eapply obeys_weaken; [|exact (H failed err He)]. intros f a (H1 & H2 & H3). split; assumption.
Qed.

Ltac no_success := intros [? ?]; discriminate.
Ltac done_case := cbn; splits; auto; try no_success.

Lemma bind_general A B (m : simple A) (f : A -> simple B) failed err
  (P : bool -> sres A * option kept_error -> Prop) (Q : bool -> sres B * option kept_error -> Prop) :
  obeys failed (m err) P ->
  (forall failed' r err', P failed' (r, err') ->
     match r with
     | SOk a => obeys failed' (f a err') Q
     | SErr e => Q failed' (SErr e, err')
     | SPanic k => Q failed' (SPanic k, err')
     | SFuel => Q failed' (SFuel, err')
     | SInvalid => Q failed' (SInvalid, err')
     end) ->
  obeys failed (sbind m f err) Q.
Proof.
  intros Hm Hf. unfold sbind. apply obeys_bind. eapply obeys_weaken; [|exact Hm].
  intros f' [r err'] HP. specialize (Hf f' r err' HP). destruct r; cbn; exact Hf.
Qed.

Lemma loose_bind A B (m : simple A) (f : A -> simple B) :
  loose m -> (forall a, loose (f a)) -> loose (sbind m f).
Proof.
  intros Hm Hf failed err He. eapply bind_general; [exact (Hm failed err He)|].
  intros f' r err' [H1 H2]. cbn in H1, H2. destruct r as [a|e|k| |]; try (split; cbn; auto; fail).
  - destruct H1 as [H1|H1]; [|destruct H1].
    eapply obeys_weaken; [|exact (Hf a f' err' H1)].
    intros f2 [r2 err2] [H3 H4]; cbn in *. split; [exact H3|].
    intros Hn. specialize (H2 Hn). subst err'. auto.
Qed.

Lemma plain_bind A B (m : simple A) (f : A -> simple B) :
  plain m -> (forall a, plain (f a)) -> plain (sbind m f).
Proof.
  intros Hm Hf failed err He. eapply bind_general; [exact (Hm failed err He)|].
  intros f' r err' (H1 & H2 & H3). cbn in H1, H2, H3.
  destruct r as [a|e|k| |]; try (done_case; fail).
  - destruct H1 as [H1|H1]; [|destruct H1].
    eapply obeys_weaken; [|exact (Hf a f' err' H1)].
    intros f2 [r2 err2] (H4 & H5 & H6); cbn in *.
    assert (Hs : err' = err) by (apply H3; eexists; reflexivity). subst err'. auto.
Qed.

Lemma strict_bind_left A B (m : simple A) (f : A -> simple B) :
  strict m -> (forall a, plain (f a)) -> strict (sbind m f).
Proof.
  intros Hm Hf failed err He. eapply bind_general; [exact (Hm failed err He)|].
  intros f' r err' (H1 & H2 & H3). cbn in H1, H2, H3.
  destruct r as [a|e|k| |]; try (done_case; fail).
  - destruct H1 as [H1|H1]; [|destruct H1].
    eapply obeys_weaken; [|exact (Hf a f' err' H1)].
    intros f2 [r2 err2] (H4 & H5 & H6); cbn in *.
    destruct H3 as [-> ->]; [eexists; reflexivity|]. splits; auto.
Qed.

Lemma strict_bind A B (m : simple A) (f : A -> simple B) :
  loose m -> (forall a, strict (f a)) -> strict (sbind m f).
Proof.
  intros Hm Hf failed err He. eapply bind_general; [exact (Hm failed err He)|].
  intros f' r err' [H1 H2]. cbn in H1, H2.
  destruct r as [a|e|k| |]; try (done_case; fail).
  - destruct H1 as [H1|H1]; [|destruct H1].
    eapply obeys_weaken; [|exact (Hf a f' err' H1)].
    intros f2 [r2 err2] (H4 & H5 & H6); cbn in *. splits; auto.
    + intros Hn. specialize (H2 Hn). subst err'. auto.
    + intros Hs. destruct (H6 Hs) as [E1 E2]. split; [|exact E2].
      destruct err; [|reflexivity]. rewrite E1 in H2. symmetry. apply H2. discriminate.
Qed.

Lemma plain_done A (r : sres A) : plain (fun err => Done (r, err)).
Proof. intros failed err He. cbn. splits; auto. Qed.

Lemma sret_plain A (a : A) : plain (sret a).
Proof. apply plain_done. Qed.
Lemma of_result_plain A (r : simple_error + A) : plain (of_result r).
Proof. destruct r; apply plain_done. Qed.
Lemma stop_strict A (r : sres A) : ~ success r -> strict (fun err => Done (r, err)).
Proof. intros H failed err He. cbn. splits; auto. intros Hs. contradiction. Qed.

Lemma capture_loose A (m : simple A) : loose m -> loose (capture m).
Proof.
  intros Hm failed err He. unfold capture. apply obeys_bind.
  eapply obeys_weaken; [|exact (Hm failed err He)].
  intros f' [r err'] [H1 H2]; cbn in *. destruct r; cbn; splits; auto; destruct H1 as [|[]]; auto.
Qed.

Lemma delegate_strict c : strict (delegate c).
Proof.
  intros failed err He. unfold delegate. destruct err as [e|].
  - cbn. splits; auto. no_success.
  - assert (failed = false) as -> by (destruct failed; [elim (He eq_refl eq_refl)|reflexivity]).
    cbn. split; [discriminate|]. intros o. unfold entry.
    destruct o; cbn; splits; auto; try no_success; try (left; intros; congruence);
      try (left; destruct c; cbn; intros; congruence); try (intros Hn; elim Hn; reflexivity).
Qed.

Lemma string_read_strict n : strict (string_read n).
Proof.
  intros failed err He. unfold string_read. destruct err as [e|].
  - assert (Hx : obeys failed (match e with
        | KIo | KReader (EIo _ _) => Done (@SErr bytes (SPrevious KIo), Some e)
        | _ => Done (SPanic Bug, Some e) end)
      (fun failed' re => (entry failed' (snd re) \/ halted (fst re)) /\
        (Some e <> None -> snd re = Some e) /\ (success (fst re) -> Some e = None /\ snd re = None))).
    { destruct e as [r| |]; [destruct r| |]; cbn; splits; auto; no_success. }
    destruct e as [r| |]; [destruct r| |]; exact Hx.
  - assert (failed = false) as -> by (destruct failed; [elim (He eq_refl eq_refl)|reflexivity]).
    cbn. split; [discriminate|]. intros o. unfold entry.
    destruct o as [v|e|e|k| | |]; [destruct v|..]; cbn; splits; auto; try no_success;
      try (left; intros; congruence); try (intros Hn; elim Hn; reflexivity).
Qed.

Lemma position_plain : plain d_position.
Proof.
  intros failed err He. unfold d_position. cbn. split; [intros _; exists true; reflexivity|].
  intros o. assert (He' : entry (failed || false) err) by (rewrite orb_false_r; exact He).
  destruct o as [v|e|e|k| | |]; [destruct v|..]; cbn; splits; auto.
Qed.

Lemma unit_of_plain v : plain (unit_of v). Proof. apply plain_done. Qed.
Lemma bool_of_plain v : plain (bool_of v). Proof. destruct v; apply plain_done. Qed.
Lemma type_of_plain v : plain (type_of v). Proof. destruct v; apply plain_done. Qed.
Lemma str_of_plain v : plain (str_of v). Proof. destruct v; apply plain_done. Qed.

Lemma d_unit_strict c : strict (d_unit c).
Proof. apply strict_bind_left; [apply delegate_strict|apply unit_of_plain]. Qed.
Lemma d_has_next_strict : strict d_has_next.
Proof. apply strict_bind_left; [apply delegate_strict|apply bool_of_plain]. Qed.
Lemma d_peek_strict : strict d_peek.
Proof. apply strict_bind_left; [apply delegate_strict|apply type_of_plain]. Qed.
Lemma d_bool_strict : strict d_bool.
Proof. apply strict_bind_left; [apply delegate_strict|apply bool_of_plain]. Qed.
Lemma d_str_strict c : strict (d_str c).
Proof. apply strict_bind_left; [apply delegate_strict|apply str_of_plain]. Qed.

#[local] Hint Resolve sret_plain of_result_plain plain_loose strict_loose capture_loose
  position_plain d_unit_strict d_has_next_strict d_peek_strict d_bool_strict d_str_strict
  string_read_strict plain_done : beh.

(** ** The functions *)

Lemma stop_loose A (r : sres A) : loose (fun err => Done (r, err)).
Proof. apply plain_loose, plain_done. Qed.

Lemma read_with_loose R h (m : simple (reply R)) : loose m -> loose (read_with h m).
Proof.
  intros Hm. unfold read_with. destruct (moved h); [apply stop_loose|].
  destruct (h_kind h); [| |destruct (consumed_name h)];
    try (apply loose_bind; [auto with beh|intros; auto with beh]).
  destruct a; [auto with beh|apply loose_bind; auto with beh].
Qed.

Lemma peek_with_loose h : loose (peek_with h).
Proof.
  unfold peek_with. destruct (moved h); [apply stop_loose|].
  destruct (h_kind h); [| |destruct (consumed_name h)];
    try (apply loose_bind; [auto with beh|intros; auto with beh]).
  destruct a; [auto with beh|apply loose_bind; auto with beh].
Qed.

Lemma has_next_with_loose h : loose (has_next_with h).
Proof. unfold has_next_with. destruct (h_kind h); [auto with beh|apply stop_loose..]. Qed.

Lemma read_name_with_loose h : loose (read_name_with h).
Proof.
  unfold read_name_with. destruct (moved h); [apply stop_loose|].
  destruct (h_kind h); try apply stop_loose.
  destruct (consumed_name h); [apply stop_loose|]. apply loose_bind; auto with beh.
Qed.

Definition good_closure {R : Type} (f : closure R) : Prop := forall h, loose (f h).

Lemma read_value_loose R (f : closure R) : good_closure f -> loose (read_value f).
Proof.
  intros Hf. unfold read_value. apply loose_bind; [apply Hf|]. intros hx.
  apply loose_bind; [auto with beh|]. intros r.
  apply loose_bind; [destruct (consumed_value (fst hx)); auto with beh|auto with beh].
Qed.

Lemma read_array_strict R (f : simple (simple_error + R)) : loose f -> strict (read_array f).
Proof.
  intros Hf. unfold read_array. apply strict_bind; [auto with beh|]. intros _.
  apply strict_bind; [exact Hf|]. intros x. apply strict_bind; [auto with beh|]. intros r.
  apply strict_bind_left; auto with beh.
Qed.

Lemma strict_then A B C (m : simple A) (f : A -> simple B) (g : B -> simple C) :
  strict m -> (forall a, strict (f a)) -> (forall b, plain (g b)) -> strict (a <- m ;; b <- f a ;; g b).
Proof.
  intros Hm Hf Hg. apply strict_bind; [auto with beh|]. intros a. apply strict_bind_left; auto.
Qed.

(** [has_next] followed by a round of a loop, or by the end *)
Lemma loop_strict A (m : simple A) (a : A) :
  strict m -> strict (b <- d_has_next ;; if b : bool then m else sret a).
Proof.
  intros Hm failed err He. eapply bind_general; [exact (d_has_next_strict failed err He)|].
  intros f' r err' (H1 & H2 & H3). cbn in H1, H2, H3.
  destruct r as [b|e|k| |]; try (done_case; fail).
  - destruct H1 as [H1|H1]; [|destruct H1].
    destruct H3 as [-> ->]; [eexists; reflexivity|]. destruct b.
    + eapply obeys_weaken; [|exact (Hm f' None H1)]. intros f2 [r2 err2] (H4 & H5 & H6); cbn in *.
      splits; auto.
    + cbn. splits; auto.
Qed.

Lemma sfuel_strict A : strict (@sfuel A).
Proof. apply stop_strict. no_success. Qed.

Lemma items_loop_strict R (f : R -> closure R) : (forall r, good_closure (f r)) ->
  forall fuel r, strict (items_loop fuel f r).
Proof.
  intros Hf. induction fuel as [|fuel IH]; intros r; cbn [items_loop]; [apply sfuel_strict|].
  apply loop_strict. apply strict_bind; [apply read_value_loose, Hf|exact IH].
Qed.

Lemma members_loop_strict R (f : R -> closure R) : (forall r, good_closure (f r)) ->
  forall fuel r, strict (members_loop fuel f r).
Proof.
  intros Hf. induction fuel as [|fuel IH]; intros r; cbn [members_loop]; [apply sfuel_strict|].
  apply loop_strict. apply strict_bind; [apply Hf|]. intros hx.
  apply strict_bind; [auto with beh|]. intros r'.
  apply strict_bind; [destruct (consumed_name (fst hx)); auto with beh|]. intros _.
  apply strict_bind; [destruct (consumed_value (fst hx)); auto with beh|]. intros _. apply IH.
Qed.

Lemma members_owned_loop_strict R (f : str -> R -> closure R) : (forall n r, good_closure (f n r)) ->
  forall fuel r, strict (members_owned_loop fuel f r).
Proof.
  intros Hf. induction fuel as [|fuel IH]; intros r; cbn [members_owned_loop]; [apply sfuel_strict|].
  apply loop_strict. apply strict_bind; [auto with beh|]. intros n.
  apply strict_bind; [apply read_value_loose, Hf|exact IH].
Qed.

Lemma all_members_loop_strict R (f : R -> closure R) : (forall r, good_closure (f r)) ->
  forall fuel r, strict (all_members_loop fuel f r).
Proof.
  intros Hf. induction fuel as [|fuel IH]; intros r; cbn [all_members_loop]; [apply sfuel_strict|].
  apply loop_strict. apply strict_bind; [auto with beh|]. intros _.
  apply strict_bind; [apply read_value_loose, Hf|exact IH].
Qed.

Lemma find_loop_strict n : forall fuel, strict (find_loop fuel n).
Proof.
  induction fuel as [|fuel IH]; cbn [find_loop]; [apply sfuel_strict|].
  apply loop_strict. 
  assert (H : forall m, (if list_eq_dec N.eq_dec m n then True else True)) by (intros; destruct list_eq_dec; exact I).
  clear H. intros failed err He. eapply bind_general; [exact (d_str_strict CNextName failed err He)|].
  intros f' r err' (H1 & H2 & H3). cbn in H1, H2, H3.
  destruct r as [b|e|k| |]; try (done_case; fail).
  - destruct H1 as [H1|H1]; [|destruct H1].
    destruct H3 as [-> ->]; [eexists; reflexivity|]. destruct (list_eq_dec N.eq_dec b n).
    + cbn. splits; auto.
    + assert (Hs : strict (d_unit CSkipValue ;; find_loop fuel n)).
      { apply strict_bind; [auto with beh|intros; exact IH]. }
      exact (Hs f' None H1).
Qed.

Lemma skip_members_loop_strict : forall fuel, strict (skip_members_loop fuel).
Proof.
  induction fuel as [|fuel IH]; cbn [skip_members_loop]; [apply sfuel_strict|].
  apply loop_strict. apply strict_bind; [auto with beh|]. intros _.
  apply strict_bind; [auto with beh|]. intros _. exact IH.
Qed.

Lemma run_string_loose R (f : string_body R) : loose (run_string f).
Proof.
  induction f as [r|len k IH]; cbn [run_string]; [auto with beh|].
  apply loose_bind; [auto with beh|exact IH].
Qed.

Lemma drain_strict : forall fuel, strict (drain fuel).
Proof.
  induction fuel as [|fuel IH]; cbn [drain]; [apply sfuel_strict|].
  intros failed err He. eapply bind_general; [exact (string_read_strict 512 failed err He)|].
  intros f' r err' (H1 & H2 & H3). cbn in H1, H2, H3.
  destruct r as [b|e|k| |]; try (done_case; fail).
  - destruct H1 as [H1|H1]; [|destruct H1].
    destruct H3 as [-> ->]; [eexists; reflexivity|]. destruct b as [|x b]; [cbn; splits; auto|].
    exact (IH f' None H1).
Qed.

Lemma check_string_error_plain : plain check_string_error.
Proof. intros failed err He. unfold check_string_error. destruct err; cbn; splits; auto. Qed.

Lemma read_string_with_reader_strict R fuel (f : string_body R) :
  strict (read_string_with_reader fuel f).
Proof.
  unfold read_string_with_reader. apply strict_bind; [auto with beh|]. intros _.
  apply strict_bind; [apply run_string_loose|]. intros x.
  apply strict_bind; [auto with beh|]. intros r.
  apply strict_bind; [apply plain_loose, check_string_error_plain|]. intros _.
  intros failed err He. eapply bind_general; [exact (string_read_strict 4 failed err He)|].
  intros f' r0 err' (H1 & H2 & H3). cbn in H1, H2, H3.
  destruct r0 as [b|e|k| |]; try (done_case; fail).
  - destruct H1 as [H1|H1]; [|destruct H1].
    destruct H3 as [-> ->]; [eexists; reflexivity|]. destruct b as [|y b].
    + cbn. splits; auto.
    + assert (Hs : strict (drain fuel ;; sret r)).
      { apply strict_bind_left; [apply drain_strict|auto with beh]. }
      exact (Hs f' None H1).
Qed.

Lemma read_seeked_strict R path (f : closure R) : good_closure f -> strict (read_seeked path f).
Proof.
  intros Hf. unfold read_seeked. apply strict_bind; [auto with beh|]. intros _.
  apply strict_bind; [apply read_value_loose, Hf|]. intros r.
  apply strict_bind_left; auto with beh.
Qed.

Lemma expect_err_loose A B (m : simple A) : loose m -> loose (@expect_err A B m).
Proof.
  intros Hm. unfold expect_err. apply loose_bind; [auto with beh|]. intros [e|a]; apply stop_loose.
Qed.

Lemma multi_step_strict fuel p down index : strict (multi_step fuel p down index).
Proof.
  destruct p as [path|ae|n|ae]; cbn [multi_step].
  - destruct down; apply strict_bind_left; auto with beh.
  - apply strict_bind.
    + destruct down; [|auto with beh]. apply loose_bind; [auto with beh|]. intros _.
      destruct (negb ae); [|auto with beh]. apply loose_bind; [auto with beh|].
      intros b. destruct (negb b); [apply expect_err_loose|]; auto with beh.
    + intros _ failed err He. eapply bind_general; [exact (d_has_next_strict failed err He)|].
      intros f' r err' (H1 & H2 & H3). cbn in H1, H2, H3.
      destruct r as [b|e|k| |]; try (done_case; fail).
      * destruct H1 as [H1|H1]; [|destruct H1].
        destruct H3 as [-> ->]; [eexists; reflexivity|]. destruct b; [cbn; splits; auto|].
        assert (Hs : strict (d_unit CEndArray ;; sret (false, index)))
          by (apply strict_bind_left; auto with beh).
        exact (Hs f' None H1).
  - destruct down.
    + apply strict_bind; [auto with beh|]. intros _ failed err He.
      eapply bind_general; [exact (find_loop_strict n fuel failed err He)|].
      intros f' r err' (H1 & H2 & H3). cbn in H1, H2, H3.
      destruct r as [b|e|k| |]; try (done_case; fail).
      * destruct H1 as [H1|H1]; [|destruct H1].
        destruct H3 as [-> ->]; [eexists; reflexivity|]. destruct b; [cbn; splits; auto|].
        assert (Hs : strict (d_unit CEndObject ;; sret (false, index)))
          by (apply strict_bind_left; auto with beh).
        exact (Hs f' None H1).
    + apply strict_bind; [apply strict_loose, skip_members_loop_strict|]. intros _.
      apply strict_bind_left; auto with beh.
  - apply strict_bind.
    + destruct down; [|auto with beh]. apply loose_bind; [auto with beh|]. intros _.
      destruct (negb ae); [|auto with beh]. apply loose_bind; [auto with beh|].
      intros b. destruct (negb b); [apply expect_err_loose|]; auto with beh.
    + intros _ failed err He. eapply bind_general; [exact (d_has_next_strict failed err He)|].
      intros f' r err' (H1 & H2 & H3). cbn in H1, H2, H3.
      destruct r as [b|e|k| |]; try (done_case; fail).
      * destruct H1 as [H1|H1]; [|destruct H1].
        destruct H3 as [-> ->]; [eexists; reflexivity|].
        destruct b.
        -- assert (Hs : strict (d_unit CSkipName ;; sret (true, S index)))
             by (apply strict_bind_left; auto with beh).
           exact (Hs f' None H1).
        -- assert (Hs : strict (d_unit CEndObject ;; sret (false, index)))
             by (apply strict_bind_left; auto with beh).
           exact (Hs f' None H1).
Qed.

Lemma multi_found_loose R fuel p (f : R -> closure R) r : (forall r, good_closure (f r)) ->
  loose (multi_found fuel p f r).
Proof.
  intros Hf. unfold multi_found. apply loose_bind; [apply read_value_loose, Hf|]. intros r1.
  destruct p; auto with beh.
  - apply strict_loose, items_loop_strict, Hf.
  - apply strict_loose, all_members_loop_strict, Hf.
Qed.

Lemma multi_loop_strict R path (f : R -> closure R) fl : (forall r, good_closure (f r)) ->
  forall fuel down index hm r, strict (multi_loop fuel fl path f down index hm r).
Proof.
  intros Hf. induction fuel as [|fuel IH]; intros down index hm r; cbn [multi_loop]; [apply sfuel_strict|].
  destruct (nth_error path index) as [p|] eqn:Hp; [|apply stop_strict; no_success].
  assert (Hlen : length path <> 0%nat) by (destruct path; [destruct index; discriminate|discriminate]).
  assert (Hsecond : forall s, strict
     (t <- (if fst s && Nat.leb (length path) (snd s)
             then
               match nth_error path (snd s - 1) with
               | None => spanic Bug
               | Some q => (r' <- multi_found fl q f r ;; sret (false, true, r'))
               end
             else sret (fst s, hm, r)) ;;
       match t with
       | (down', has_match', r') =>
         if down' : bool then multi_loop fuel fl path f true (snd s) has_match' r'
         else
           match snd s with
           | O => sret (r', has_match')
           | S index' => multi_loop fuel fl path f false index' has_match' r'
           end
       end) \/ snd s = 0%nat).
  { intros s. destruct (snd s) as [|i] eqn:Es; [right; reflexivity|left].
    apply strict_bind.
    - destruct (fst s && Nat.leb (length path) (S i)); [|auto with beh].
      destruct (nth_error path (S i - 1)); [|apply stop_loose].
      apply loose_bind; [apply multi_found_loose, Hf|auto with beh].
    - intros [[d h] r']. destruct d; apply IH. }
  intros failed err He. eapply bind_general; [exact (multi_step_strict fl p down index failed err He)|].
  intros f' rr err' (H1 & H2 & H3). cbn in H1, H2, H3.
  destruct rr as [s|e|k| |]; try (done_case; fail).
  destruct H1 as [H1|H1]; [|destruct H1].
  destruct H3 as [-> ->]; [eexists; reflexivity|].
  destruct (Hsecond s) as [Hs|E]; [exact (Hs f' None H1)|].
  rewrite E. assert (Hl : Nat.leb (length path) 0 = false) by (apply Nat.leb_gt; lia).
  rewrite Hl, andb_false_r.
  assert (Hl2 : plain (sret (fst s, hm, r))) by auto with beh.
  destruct (fst s) eqn:Ed.
  - assert (Hs : strict (t <- sret (true, hm, r) ;;
      match t with (down', has_match', r') =>
         if down' : bool then multi_loop fuel fl path f true 0 has_match' r' else sret (r', has_match') end)).
    { intros failed2 err2 He2. cbn. exact (IH _ _ _ _ failed2 err2 He2). }
    exact (Hs f' None H1).
  - cbn. splits; auto.
Qed.

Lemma no_match_strict A loc : strict (@no_match A loc).
Proof.
  intros failed err He. unfold no_match. destruct err; cbn; splits; auto; try no_success.
  - left. intros _. discriminate.
  - intros Hn. elim Hn. reflexivity.
Qed.

Lemma read_seeked_multi_loose R fuel path alo (f : R -> closure R) r : (forall r, good_closure (f r)) ->
  loose (read_seeked_multi fuel path alo f r).
Proof.
  intros Hf. unfold read_seeked_multi. destruct path as [|p path]; [apply read_value_loose, Hf|].
  apply loose_bind; [destruct alo; auto with beh|]. intros loc.
  apply loose_bind; [apply strict_loose, multi_loop_strict, Hf|]. intros rm.
  destruct (alo && negb (snd rm)); [apply strict_loose, no_match_strict|auto with beh].
Qed.

Lemma read_seeked_multi_strict R fuel path alo (f : R -> closure R) r : (forall r, good_closure (f r)) ->
  path <> [] -> strict (read_seeked_multi fuel path alo f r).
Proof.
  intros Hf Hn. unfold read_seeked_multi. destruct path as [|p path]; [congruence|].
  apply strict_bind; [destruct alo; auto with beh|]. intros loc failed err He.
  eapply bind_general; [exact (multi_loop_strict R _ f fuel Hf fuel true 0%nat false r failed err He)|].
  intros f' rr err' (H1 & H2 & H3). cbn in H1, H2, H3.
  destruct rr as [rm|e|k| |]; try (done_case; fail).
  destruct H1 as [H1|H1]; [|destruct H1].
  destruct H3 as [-> ->]; [eexists; reflexivity|].
  destruct (alo && negb (snd rm)); [exact (no_match_strict R loc f' None H1)|].
  cbn. splits; auto.
Qed.

(** ** Methods and closures *)

Lemma d_deserialize_strict V S (C : DeModel.code V S) steps seed : SpecDe.returns_errors C -> strict (d_deserialize C steps seed).
Proof.
  intros HC failed err He. unfold d_deserialize. destruct err as [e|]; [done_case; left; intros _; discriminate|].
  assert (failed = false) as -> by (destruct failed; [elim (He eq_refl eq_refl)|reflexivity]).
  apply obeys_bind. eapply obeys_weaken; [|exact (DeErrors.deserialize_next_clean V S C steps seed HC)].
  intros f x Hx. destruct x as [[e|a]|k| |]; done_case.
  - left. intros _. discriminate.
  - intros H. elim H. reflexivity.
  - left. intros ->. destruct (Hx eq_refl).
Qed.

Scheme op_mut := Induction for op Sort Prop
with body_mut := Induction for body Sort Prop.

Lemma as_result_loose R (m : simple R) : loose m -> loose (as_result m).
Proof. intros H. apply loose_bind; auto with beh. Qed.
Lemma as_result_strict R (m : simple R) : strict m -> strict (as_result m).
Proof. intros H. apply strict_bind_left; auto with beh. Qed.

Lemma object_strict R (m : simple R) : loose m ->
  strict (d_unit CBeginObject ;; r <- m ;; d_unit CEndObject ;; sret r).
Proof.
  intros H. apply strict_bind; [auto with beh|]. intros _. apply strict_bind; [exact H|].
  intros r. apply strict_bind_left; auto with beh.
Qed.

Lemma op_strict R fuel (o : op R) :
  match o with
  | OpArray f | OpSeeked _ f => forall h, loose (run_body fuel f h)
  | OpItems f _ | OpMembers f _ | OpMulti _ _ f _ => forall r h, loose (run_body fuel (f r) h)
  | OpMembersOwned f _ => forall n r h, loose (run_body fuel (f n r) h)
  | OpDeserialize C _ _ => SpecDe.returns_errors C
  | _ => True
  end ->
  loose (run_op fuel o) /\ (~ empty_multi o -> strict (run_op fuel o)).
Proof.
  intros H.
  assert (Hs : ~ empty_multi o -> strict (run_op fuel o)).
  { intros Hn. destruct o; cbn [run_op].
    1-5: apply strict_bind_left; auto with beh.
    - apply strict_bind_left; [auto with beh|]. intros s. unfold as_result.
      destruct (f s); cbn; [|apply plain_bind; auto with beh]. apply plain_bind; auto with beh.
      intros; apply plain_done.
    - apply as_result_strict, read_string_with_reader_strict.
    - apply as_result_strict, read_array_strict. apply loose_bind; [apply H|auto with beh].
    - apply as_result_strict, read_array_strict, capture_loose, strict_loose, items_loop_strict.
      intros r'. exact (H r').
    - apply as_result_strict, object_strict, strict_loose, members_loop_strict. intros r'. exact (H r').
    - apply as_result_strict, object_strict, strict_loose, members_owned_loop_strict.
      intros n r'. exact (H n r').
    - apply as_result_strict, read_seeked_strict. exact H.
    - apply as_result_strict, read_seeked_multi_strict; [intros r'; exact (H r')|].
      intros ->. apply Hn. exact I.
    - apply as_result_strict, d_deserialize_strict, H. }
  split; [|exact Hs].
  destruct o; try (apply strict_loose, Hs; intros []).
  cbn [run_op]. apply as_result_loose, read_seeked_multi_loose. intros r'. exact (H r').
Qed.

Lemma body_loose R fuel : forall (b : body R), returns_errors_body b -> forall h, loose (run_body fuel b h).
Proof.
  apply (body_mut R (fun o => returns_errors_op o -> loose (run_op fuel o))
                    (fun b => returns_errors_body b -> forall h, loose (run_body fuel b h)));
    try (intros; apply op_strict; auto; fail).
  - intros r _ h. cbn [run_body]. auto with beh.
  - intros k IH Hc h. cbn [run_body]. apply loose_bind; [apply peek_with_loose|]. intros hx. apply IH, Hc.
  - intros k IH Hc h. cbn [run_body]. apply loose_bind; [apply has_next_with_loose|]. intros x. apply IH, Hc.
  - intros k IH Hc h. cbn [run_body]. apply loose_bind; [apply read_name_with_loose|]. intros hx. apply IH, Hc.
  - intros o IHo k IH Hc h. cbn [run_body]. apply loose_bind; [apply read_with_loose, IHo, Hc|].
    intros hx. apply IH, Hc.
Qed.

Lemma run_op_loose R fuel (o : op R) : returns_errors_op o -> loose (run_op fuel o).
Proof. intros Hc. apply op_strict. destruct o; cbn in Hc; auto; intros; apply body_loose, Hc. Qed.
Lemma run_op_strict R fuel (o : op R) : returns_errors_op o -> ~ empty_multi o -> strict (run_op fuel o).
Proof. intros Hc. apply op_strict. destruct o; cbn in Hc; auto; intros; apply body_loose, Hc. Qed.

(** ** The outermost call *)

(** Success is only possible if no call has failed *)
Definition honest {A : Type} (m : simple A) : Prop := forall failed err, entry failed err ->
  obeys failed (m err) (fun failed' re => failed' = true -> ~ success (fst re)).

Lemma d_consume_honest : honest d_consume.
Proof.
  intros failed err He. unfold d_consume. destruct err as [e|].
  - cbn. intros _. no_success.
  - assert (failed = false) as -> by (destruct failed; [elim (He eq_refl eq_refl)|reflexivity]).
    cbn. split; [discriminate|]. intros o. destruct o; cbn; try discriminate; intros _; no_success.
Qed.

Lemma honest_bind A B (m : simple A) (f : A -> simple B) :
  loose m -> (forall a, honest (f a)) -> honest (sbind m f).
Proof.
  intros Hm Hf failed err He. eapply bind_general; [exact (Hm failed err He)|].
  intros f' r err' [H1 H2]. cbn in H1.
  destruct r as [a|e|k| |]; try (cbn; intros _; no_success).
  destruct H1 as [H1|[]]. exact (Hf a f' err' H1).
Qed.

Lemma honest_ret A B (m : simple A) (a : B) : honest m -> honest (m ;; sret a).
Proof.
  intros Hm failed err He. eapply bind_general; [exact (Hm failed err He)|].
  intros f' r err' H1. cbn in H1.
  destruct r as [x|e|k| |]; try (cbn; intros _; no_success).
  cbn. intros Hf. elim (H1 Hf). eexists; reflexivity.
Qed.

Lemma run_use_honest R fuel : forall (u : use R), returns_errors_use u -> forall seeked, honest (run_use fuel u seeked).
Proof.
  induction u as [k IH|path k IH|o]; intros Hc seeked; cbn [run_use].
  - apply honest_bind; [auto with beh|]. intros x. apply IH, Hc.
  - apply honest_bind; [auto with beh|]. intros x. apply IH, Hc.
  - apply honest_bind; [apply run_op_loose, Hc|]. intros x. apply honest_ret. unfold finish.
    apply honest_bind; [destruct seeked; auto with beh|]. intros _. apply d_consume_honest.
Qed.

(** ** Runs *)

Lemma fails_iff c o : fails c o = true <-> failed_call c o.
Proof.
  unfold failed_call, position_call, fails. split.
  - intros H. destruct c; try discriminate; (split; [intros [b Hb]; discriminate|]);
      destruct o; try discriminate; exact I.
  - intros [H1 H2]. destruct c; try (destruct o; [contradiction|reflexivity|reflexivity|contradiction..]).
    elim H1. eexists; reflexivity.
Qed.

Lemma obeys_quiet A (m : client A) log a : plays m log a -> forall Q,
  obeys true m Q -> Forall (fun co => position_call (fst co)) log /\ Q true a.
Proof.
  intros H. induction H as [a|c k o log a H IH]; intros Q Hm; cbn in Hm.
  - split; [constructor|exact Hm].
  - destruct Hm as [H1 H2]. destruct (IH Q (H2 o)) as [H3 H4]. split; [|exact H4].
    constructor; [exact (H1 eq_refl)|exact H3].
Qed.

Lemma obeys_after A log1 : forall (m : client A) c o log2 a failed Q,
  plays m (log1 ++ (c, o) :: log2) a -> failed_call c o -> obeys failed m Q ->
  Forall (fun co => position_call (fst co)) log2 /\ Q true a.
Proof.
  induction log1 as [|[c1 o1] log1 IH]; intros m c o log2 a failed Q Hp Hf Hm.
  - cbn in Hp. inversion Hp as [|c0 k o0 log0 a0 Hk]; subst. cbn in Hm. destruct Hm as [_ H2].
    specialize (H2 o). rewrite (proj2 (fails_iff c o) Hf), orb_true_r in H2.
    exact (obeys_quiet A _ _ _ Hk Q H2).
  - cbn in Hp. inversion Hp as [|c0 k o0 log0 a0 Hk]; subst. cbn in Hm. destruct Hm as [_ H2].
    exact (IH _ c o log2 a _ Q Hk Hf (H2 o1)).
Qed.

Lemma plays_bind A B (m : client A) (f : A -> client B) : forall log b,
  plays (cbind m f) log b ->
  exists log1 log2 a, log = log1 ++ log2 /\ plays m log1 a /\ plays (f a) log2 b.
Proof.
  induction m as [a|c k IH]; intros log b H; cbn in H.
  - exists [], log, a. splits; auto. constructor.
  - inversion H as [|c0 k0 o log0 b0 Hk]; subst.
    destruct (IH o log0 b Hk) as (l1 & l2 & a & -> & H1 & H2).
    exists ((c, o) :: l1), l2, a. splits; auto. constructor. exact H1.
Qed.
