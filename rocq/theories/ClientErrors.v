(** * Proofs: programs which do not use the reader after an error *)

From Verif Require Import Base Utf8Model ReaderModel SimpleModel SpecSimple.

(** [failed]: a call has failed.  From then on the program only asks for the position;
    it ends in [Q]. *)
Definition fails (c : rcall) (o : outcome) : bool :=
  match c with
  | CPosition _ => false
  | _ => match o with OErr _ | OReadErr _ => true | _ => false end
  end.

Fixpoint obeys {A : Type} (failed : bool) (m : client A) (Q : bool -> A -> Prop) : Prop :=
  match m with
  | Done a => Q failed a
  | Call c k => (failed = true -> position_call c) /\ forall o, obeys (failed || fails c o) (k o) Q
  end.

Lemma obeys_weaken A m : forall failed (Q Q' : bool -> A -> Prop),
  (forall f a, Q f a -> Q' f a) -> obeys failed m Q -> obeys failed m Q'.
Proof.
  induction m as [a|c k IH]; intros failed Q Q' H Hm; cbn in *.
  - auto.
  - destruct Hm as [H1 H2]. split; [exact H1|]. intros o. apply (IH o _ Q); auto.
Qed.

Lemma obeys_bind A B (m : client A) (f : A -> client B) : forall failed Q,
  obeys failed m (fun failed' a => obeys failed' (f a) Q) -> obeys failed (cbind m f) Q.
Proof.
  induction m as [a|c k IH]; intros failed Q Hm; cbn in *; auto.
  destruct Hm as [H1 H2]. split; auto.
Qed.

(** ** Replaying outcomes *)

Fixpoint replay {A : Type} (m : client A) (os : list outcome) : option (list (rcall * outcome) * A) :=
  match m, os with
  | Done a, [] => Some ([], a)
  | Call c k, o :: os' => match replay (k o) os' with Some (log, a) => Some ((c, o) :: log, a) | None => None end
  | _, _ => None
  end.

Lemma replay_plays A (m : client A) : forall os log a, replay m os = Some (log, a) -> plays m log a.
Proof.
  induction m as [x|c k IH]; intros [|o os] log a H; cbn in H; try discriminate.
  - injection H as <- <-. constructor.
  - destruct (replay (k o) os) as [[log' a']|] eqn:E; [|discriminate]. injection H as <- <-. constructor. exact (IH _ _ _ _ E).
Qed.
