(** * The results of the simple API do not depend on the limit of the rounds of loops *)

From Verif Require Import Base Utf8Model SourceModel ReaderModel ClientModel SimpleModel SpecSimple SimpleErrors.

Lemma plays_cbind A B (m : client A) (f : A -> client B) log1 a : plays m log1 a -> forall log2 b, plays (f a) log2 b -> plays (cbind m f) (log1 ++ log2) b.
Proof. intros H. induction H as [a|c k o log a H IH]; intros log2 b Hf; cbn [cbind app]; [exact Hf|]. constructor. apply IH. exact Hf. Qed.

(** [m'] ends like [m] unless [m] has used up its rounds *)
Definition le {A : Type} (m m' : simple A) : Prop :=
  forall err log r e, plays (m err) log (r, e) -> r <> SFuel -> plays (m' err) log (r, e).

Lemma le_refl A (m : simple A) : le m m.
Proof. intros err log r e H _. exact H. Qed.
Lemma le_fuel A (m : simple A) : le sfuel m.
Proof. intros err log r e H Hr. inversion H; subst. congruence. Qed.
Lemma le_bind A B (m m' : simple A) (f f' : A -> simple B) : le m m' -> (forall a, le (f a) (f' a)) -> le (sbind m f) (sbind m' f').
Proof.
  intros Hm Hf err log r e H Hr. unfold sbind in *. apply plays_bind in H as (l1 & l2 & [r1 e1] & -> & H1 & H2).
  eapply plays_cbind.
  - apply Hm; [exact H1|]. intros ->. inversion H2; subst. congruence.
  - destruct r1; try exact H2. apply Hf; assumption.
Qed.
Lemma le_capture A (m m' : simple A) : le m m' -> le (capture m) (capture m').
Proof.
  intros Hm err log r e H Hr. unfold capture in *. apply plays_bind in H as (l1 & l2 & [r1 e1] & -> & H1 & H2).
  apply (plays_cbind _ _ _ _ l1 (r1, e1)); [|exact H2]. apply Hm; [exact H1|]. intros ->. inversion H2; subst. congruence.
Qed.

Ltac le_tac := repeat first
  [ apply le_refl | assumption
  | apply le_bind; [|intro]
  | apply le_capture
  | match goal with |- le (match ?x with _ => _ end) _ => destruct x end ].

Definition le_closure {R : Type} (f f' : closure R) : Prop := forall h, le (f h) (f' h).

Lemma le_read_value R (f f' : closure R) : le_closure f f' -> le (read_value f) (read_value f').
Proof. intros H. unfold read_value. specialize (H single_reader). le_tac. Qed.
Lemma le_read_array R (f f' : simple (simple_error + R)) : le f f' -> le (read_array f) (read_array f').
Proof. intros H. unfold read_array. le_tac. Qed.
Lemma le_as_result R (m m' : simple R) : le m m' -> le (as_result m) (as_result m').
Proof. intros H. unfold as_result. le_tac. Qed.
Lemma le_read_with R h (m m' : simple (reply R)) : le m m' -> le (read_with h m) (read_with h m').
Proof. intros H. unfold read_with. le_tac. Qed.

Lemma le_items R (f f' : R -> closure R) : (forall r, le_closure (f r) (f' r)) -> forall n n' r, (n <= n')%nat -> le (items_loop n f r) (items_loop n' f' r).
Proof.
  intros Hf. induction n as [|n IH]; intros n' r Hn; [apply le_fuel|]. destruct n' as [|n']; [lia|]. cbn [items_loop].
  apply le_bind; [apply le_refl|]. intros []; [|apply le_refl]. apply le_bind; [apply le_read_value, Hf|]. intros r'. apply IH. lia.
Qed.
Lemma le_members R (f f' : R -> closure R) : (forall r, le_closure (f r) (f' r)) -> forall n n' r, (n <= n')%nat -> le (members_loop n f r) (members_loop n' f' r).
Proof.
  intros Hf. induction n as [|n IH]; intros n' r Hn; [apply le_fuel|]. destruct n' as [|n']; [lia|]. cbn [members_loop].
  apply le_bind; [apply le_refl|]. intros []; [|apply le_refl]. apply le_bind; [apply Hf|]. intros hx.
  repeat (apply le_bind; [apply le_refl|intro]). apply IH. lia.
Qed.
Lemma le_members_owned R (f f' : str -> R -> closure R) : (forall t r, le_closure (f t r) (f' t r)) ->
  forall n n' r, (n <= n')%nat -> le (members_owned_loop n f r) (members_owned_loop n' f' r).
Proof.
  intros Hf. induction n as [|n IH]; intros n' r Hn; [apply le_fuel|]. destruct n' as [|n']; [lia|]. cbn [members_owned_loop].
  apply le_bind; [apply le_refl|]. intros []; [|apply le_refl]. apply le_bind; [apply le_refl|]. intros t.
  apply le_bind; [apply le_read_value, Hf|]. intros r'. apply IH. lia.
Qed.
Lemma le_all_members R (f f' : R -> closure R) : (forall r, le_closure (f r) (f' r)) -> forall n n' r, (n <= n')%nat -> le (all_members_loop n f r) (all_members_loop n' f' r).
Proof.
  intros Hf. induction n as [|n IH]; intros n' r Hn; [apply le_fuel|]. destruct n' as [|n']; [lia|]. cbn [all_members_loop].
  apply le_bind; [apply le_refl|]. intros []; [|apply le_refl]. apply le_bind; [apply le_refl|intro].
  apply le_bind; [apply le_read_value, Hf|]. intros r'. apply IH. lia.
Qed.
Lemma le_drain : forall n n', (n <= n')%nat -> le (drain n) (drain n').
Proof.
  induction n as [|n IH]; intros n' Hn; [apply le_fuel|]. destruct n' as [|n']; [lia|]. cbn [drain].
  apply le_bind; [apply le_refl|]. intros [|]; [apply le_refl|]. apply IH. lia.
Qed.
Lemma le_find t : forall n n', (n <= n')%nat -> le (find_loop n t) (find_loop n' t).
Proof.
  induction n as [|n IH]; intros n' Hn; [apply le_fuel|]. destruct n' as [|n']; [lia|]. cbn [find_loop].
  apply le_bind; [apply le_refl|]. intros []; [|apply le_refl]. apply le_bind; [apply le_refl|]. intros m.
  destruct (list_eq_dec N.eq_dec m t); [apply le_refl|]. apply le_bind; [apply le_refl|intro]. apply IH. lia.
Qed.
Lemma le_skip_members : forall n n', (n <= n')%nat -> le (skip_members_loop n) (skip_members_loop n').
Proof.
  induction n as [|n IH]; intros n' Hn; [apply le_fuel|]. destruct n' as [|n']; [lia|]. cbn [skip_members_loop].
  apply le_bind; [apply le_refl|]. intros []; [|apply le_refl]. repeat (apply le_bind; [apply le_refl|intro]). apply IH. lia.
Qed.
Lemma le_string R n n' (f : string_body R) : (n <= n')%nat -> le (read_string_with_reader n f) (read_string_with_reader n' f).
Proof.
  intros Hn. unfold read_string_with_reader. repeat (apply le_bind; [apply le_refl|intro]).
  apply le_bind; [|intro; apply le_refl]. match goal with |- le (match ?x with _ => _ end) _ => destruct x end; [apply le_refl|apply le_drain; exact Hn].
Qed.
Lemma le_step n n' p down index : (n <= n')%nat -> le (multi_step n p down index) (multi_step n' p down index).
Proof.
  intros Hn. unfold multi_step. destruct p; try apply le_refl. destruct down.
  - apply le_bind; [apply le_refl|intro]. apply le_bind; [apply le_find; exact Hn|intro]. apply le_refl.
  - apply le_bind; [apply le_skip_members; exact Hn|intro]. apply le_refl.
Qed.
Lemma le_found R n n' p (f f' : R -> closure R) r : (n <= n')%nat -> (forall r, le_closure (f r) (f' r)) -> le (multi_found n p f r) (multi_found n' p f' r).
Proof.
  intros Hn Hf. unfold multi_found. apply le_bind; [apply le_read_value, Hf|]. intros r1.
  destruct p; first [apply le_refl|apply le_items|apply le_all_members]; assumption.
Qed.
Lemma le_multi R ln ln' path (f f' : R -> closure R) : (ln <= ln')%nat -> (forall r, le_closure (f r) (f' r)) ->
  forall n n' down index hm r, (n <= n')%nat -> le (multi_loop n ln path f down index hm r) (multi_loop n' ln' path f' down index hm r).
Proof.
  intros Hl Hf. induction n as [|n IH]; intros n' down index hm r Hn; [apply le_fuel|]. destruct n' as [|n']; [lia|]. cbn [multi_loop].
  destruct (nth_error path index) as [p|]; [|apply le_refl]. apply le_bind; [apply le_step; exact Hl|]. intros st. apply le_bind.
  - destruct (fst st && Nat.leb (length path) (snd st)); [|apply le_refl]. destruct (nth_error path (snd st - 1)); [|apply le_refl].
    apply le_bind; [apply le_found; assumption|]. intros r'. apply le_refl.
  - intros [[d hm'] r']. destruct d; [apply IH; lia|]. destruct (snd st); [apply le_refl|apply IH; lia].
Qed.
Lemma le_seeked_multi R n n' path alo (f f' : R -> closure R) r : (n <= n')%nat -> (forall r, le_closure (f r) (f' r)) ->
  le (read_seeked_multi n path alo f r) (read_seeked_multi n' path alo f' r).
Proof.
  intros Hn Hf. unfold read_seeked_multi. destruct path; [apply le_read_value, Hf|]. apply le_bind; [apply le_refl|]. intros loc.
  apply le_bind; [apply le_multi; assumption|]. intros rm. apply le_refl.
Qed.

Scheme op_rounds := Induction for op Sort Prop
  with body_rounds := Induction for body Sort Prop.

Lemma le_run R n n' : (n <= n')%nat -> forall o : op R, le (run_op n o) (run_op n' o).
Proof.
  intros Hn. apply (op_rounds R (fun o => le (run_op n o) (run_op n' o)) (fun b => forall h, le (run_body n b h) (run_body n' b h)));
    intros; cbn [run_op run_body]; try apply le_refl.
  - apply le_as_result, le_string. exact Hn.
  - apply le_as_result, le_read_array. apply le_bind; [auto|]. intro. apply le_refl.
  - apply le_as_result, le_read_array, le_capture, le_items; [|exact Hn]. intros r' h. auto.
  - apply le_as_result. apply le_bind; [apply le_refl|intro]. apply le_bind; [apply le_members; [|exact Hn]; intros r' h; auto|]. intro. apply le_refl.
  - apply le_as_result. apply le_bind; [apply le_refl|intro]. apply le_bind; [apply le_members_owned; [|exact Hn]; intros t r' h; auto|]. intro. apply le_refl.
  - apply le_as_result. unfold read_seeked. apply le_bind; [apply le_refl|intro]. apply le_bind; [apply le_read_value; intros h; auto|]. intro. apply le_refl.
  - apply le_as_result, le_seeked_multi; [exact Hn|]. intros r' h. auto.
  - apply le_bind; [apply le_refl|]. auto.
  - apply le_bind; [apply le_refl|]. auto.
  - apply le_bind; [apply le_refl|]. auto.
  - apply le_bind; [apply le_read_with; assumption|]. auto.
Qed.

Lemma le_use R n n' : (n <= n')%nat -> forall (u : use R) b, le (run_use n u b) (run_use n' u b).
Proof.
  intros Hn. induction u as [k IH|p k IH|o]; intros b; cbn [run_use].
  - apply le_bind; [apply le_refl|]. intros x. apply IH.
  - apply le_bind; [apply le_refl|]. intros x. apply IH.
  - apply le_bind; [apply le_run; exact Hn|]. intros x. apply le_refl.
Qed.

Lemma client_rounds R n n' (u : use R) log r : (n <= n')%nat -> plays (simple_client n u) log r -> r <> SFuel -> plays (simple_client n' u) log r.
Proof.
  intros Hn H Hr. unfold simple_client in *. apply plays_bind in H as (l1 & l2 & [r1 e] & -> & H1 & H2). assert (l2 = [] /\ r = r1) as [-> ->] by (inversion H2; auto).
  apply (plays_cbind _ _ _ _ l1 (r1, e)); [|constructor]. apply (le_use R n n' Hn); assumption.
Qed.
