(** * How far the reader looks ahead

    Auxiliary: a logic which tells whether the byte which follows the consumed
    ones has been looked at. *)

From Verif Require Import Base Utf8Model NumberModel SourceModel SourceProofs ReaderModel CostProofs.

(** [Q] holds for the result and for whether the next byte has been looked at,
    whatever the answers of the operations are *)
Fixpoint look {A : Type} (p : prog A) (K : bool) (Q : A -> bool -> Prop) : Prop :=
  match p with
  | Ret x => Q x K
  | DPeek k | DVPeek k => forall r, look (k r) true Q
  | DSkip k | DVConsume k => look k false Q
  | DVNew k | DVSkipPrev k | DVSkipFinal k | DVPush _ k | DVGet _ k => look k K Q
  | DVStrPeek k | DVStr k | DVString k => forall s, look (k s) K Q
  end.

Lemma look_impl {A : Type} (p : prog A) : forall K (Q Q2 : A -> bool -> Prop), look p K Q ->
  (forall x K', Q x K' -> Q2 x K') -> look p K Q2.
Proof. induction p; cbn [look]; intros K Q Q2 H1 H2; eauto. Qed.

Lemma look_unbind {A B : Type} (p : prog A) (f : A -> prog B) : forall K Q,
  look (pbind p f) K Q -> look p K (fun x K' => look (f x) K' Q).
Proof. induction p; cbn [look pbind]; intros K Q H1; eauto. Qed.
Lemma look_pbind {A B : Type} (p : prog A) (f : A -> prog B) : forall K Q,
  look p K (fun x K' => look (f x) K' Q) -> look (pbind p f) K Q.
Proof. induction p; cbn [look pbind]; intros K Q H1; eauto. Qed.

(** ** Other input behind the consumed bytes *)

Definition with_input (r : bytes) (t : tail_end) (a : asrc) : asrc := ASrc r t (a_known a) (a_mode a) (a_failed a).

Lemma arun_rest {A : Type} (p : prog A) : forall a x a', arun p a = Some (x, a') -> exists y, a_rest a = y ++ a_rest a'.
Proof.
  induction p as [y|k IH|k IH|k IH|k IH|k IH|k IH|k IH|bs k IH|b k IH|k IH|k IH|k IH]; intros a x a' H; cbn [arun] in H.
  - injection H as <- <-. exists []. reflexivity.
  - destruct (a_peek a) as [[r a1]|] eqn:E; [|discriminate]. rewrite <- (rest_peek _ _ _ E). eauto.
  - destruct (a_skip a) as [a1|] eqn:E; [|discriminate]. destruct (rest_skip _ _ E) as (b & ->). destruct (IH _ _ _ H) as (y & ->).
    exists (b :: y). reflexivity.
  - destruct (a_vnew a) as [a1|] eqn:E; [|discriminate]. rewrite <- (rest_vnew _ _ E). eauto.
  - destruct (a_vpeek a) as [[r a1]|] eqn:E; [|discriminate]. rewrite <- (rest_vpeek _ _ _ E). eauto.
  - destruct (a_vconsume a) as [a1|] eqn:E; [|discriminate]. destruct (rest_vconsume _ _ E) as (b & ->). destruct (IH _ _ _ H) as (y & ->).
    exists (b :: y). reflexivity.
  - destruct (a_vskip_prev a) as [a1|] eqn:E; [|discriminate]. rewrite <- (rest_vskip_prev _ _ E). eauto.
  - destruct (a_vskip_final a) as [a1|] eqn:E; [|discriminate]. rewrite <- (rest_vskip_final _ _ E). eauto.
  - destruct (a_vpush bs a) as [a1|] eqn:E; [|discriminate]. rewrite <- (rest_vpush _ _ _ E). eauto.
  - destruct (a_vget b a) as [a1|] eqn:E; [|discriminate]. rewrite <- (rest_vget _ _ _ E). eauto.
  - destruct (a_vstr_peek a) as [r|] eqn:E; [|discriminate]. eauto.
  - destruct (a_vstr a) as [[r a1]|] eqn:E; [|discriminate]. rewrite <- (rest_vstr _ _ _ E). eauto.
  - destruct (a_vstring a) as [[r a1]|] eqn:E; [|discriminate]. rewrite <- (rest_vstring _ _ _ E). eauto.
Qed.

Definition same_next (r : bytes) (t : tail_end) (a : asrc) : Prop := a_peek_res (with_input r t a) = a_peek_res a.

(** if nothing is consumed, a byte which has been looked at is still known *)
Definition framed {A : Type} (p : prog A) (K : bool) (a : asrc) (x : A) (a' : asrc) (K' : bool) : Prop :=
  (a_rest a' = a_rest a -> K = true -> K' = true) /\
  forall y r t, a_rest a = y ++ a_rest a' -> (K' = true -> same_next r t a') ->
    arun p (with_input (y ++ r) t a) = Some (x, with_input r t a').

Lemma same_peek y r t a a' : a_rest a = y ++ a_rest a' -> a_tail a' = a_tail a -> (y = [] -> same_next r t a') ->
  a_peek_res (with_input (y ++ r) t a) = a_peek_res a.
Proof.
  intros Hr Ht H. destruct y as [|b y]; [|unfold a_peek_res; cbn; rewrite Hr; reflexivity].
  specialize (H eq_refl). unfold same_next, a_peek_res in *. cbn in *. rewrite Hr, <- Ht. exact H.
Qed.

Ltac tail := repeat match goal with
  | H : context [match a_failed ?a with _ => _ end] |- _ => destruct (a_failed a); try discriminate
  | H : context [if a_failed ?a then _ else _] |- _ => destruct (a_failed a); try discriminate
  | H : context [match a_mode ?a with _ => _ end] |- _ => destruct (a_mode a) as [|? [|] [|]|? [|]]; try discriminate
  | H : context [match a_known ?a with _ => _ end] |- _ => destruct (a_known a); try discriminate
  | H : context [if a_known ?a then _ else _] |- _ => destruct (a_known a); try discriminate
  | H : context [match a_rest ?a with _ => _ end] |- _ => destruct (a_rest a); try discriminate
  | H : context [match from_utf8 ?a with _ => _ end] |- _ => destruct (from_utf8 a); try discriminate
  | H : Some _ = Some _ |- _ => injection H; clear H; intros; subst
  end; reflexivity.

Lemma arun_tail {A : Type} (p : prog A) : forall a x a', arun p a = Some (x, a') -> a_tail a' = a_tail a.
Proof.
  induction p as [y|k IH|k IH|k IH|k IH|k IH|k IH|k IH|bs k IH|b k IH|k IH|k IH|k IH]; intros a x a' H; cbn [arun] in H.
  - injection H as <- <-. reflexivity.
  - destruct (a_peek a) as [[r a1]|] eqn:E; [|discriminate]. rewrite (IH _ _ _ _ H). unfold a_peek in E. tail.
  - destruct (a_skip a) as [a1|] eqn:E; [|discriminate]. rewrite (IH _ _ _ H). unfold a_skip in E. tail.
  - destruct (a_vnew a) as [a1|] eqn:E; [|discriminate]. rewrite (IH _ _ _ H). unfold a_vnew in E. tail.
  - destruct (a_vpeek a) as [[r a1]|] eqn:E; [|discriminate]. rewrite (IH _ _ _ _ H). unfold a_vpeek in E. tail.
  - destruct (a_vconsume a) as [a1|] eqn:E; [|discriminate]. rewrite (IH _ _ _ H). unfold a_vconsume in E. tail.
  - destruct (a_vskip_prev a) as [a1|] eqn:E; [|discriminate]. rewrite (IH _ _ _ H). unfold a_vskip_prev in E. tail.
  - destruct (a_vskip_final a) as [a1|] eqn:E; [|discriminate]. rewrite (IH _ _ _ H). unfold a_vskip_final in E. tail.
  - destruct (a_vpush bs a) as [a1|] eqn:E; [|discriminate]. rewrite (IH _ _ _ H). unfold a_vpush in E. tail.
  - destruct (a_vget b a) as [a1|] eqn:E; [|discriminate]. rewrite (IH _ _ _ H). unfold a_vget in E. tail.
  - destruct (a_vstr_peek a) as [r|] eqn:E; [|discriminate]. eauto.
  - destruct (a_vstr a) as [[r a1]|] eqn:E; [|discriminate]. rewrite (IH _ _ _ _ H). unfold a_vstr in E. tail.
  - destruct (a_vstring a) as [[r a1]|] eqn:E; [|discriminate]. rewrite (IH _ _ _ _ H). unfold a_vstring in E. tail.
Qed.

(** The single operations *)
Lemma other_peek r t a x a1 : a_peek a = Some (x, a1) -> a_peek_res (with_input r t a) = a_peek_res a ->
  a_peek (with_input r t a) = Some (x, with_input r t a1) /\ a_known a1 = true.
Proof.
  intros H Hp. unfold a_peek in *. rewrite Hp. cbn [with_input a_failed a_mode a_known].
  destruct (a_failed a); [discriminate|]. destruct (a_mode a); [|discriminate|].
  - injection H as <- <-. split; reflexivity.
  - destruct (a_known a) eqn:Hk; [|discriminate]. injection H as <- <-. split; [reflexivity|exact Hk].
Qed.

Lemma other_vpeek r t a x a1 : a_vpeek a = Some (x, a1) -> a_peek_res (with_input r t a) = a_peek_res a ->
  a_vpeek (with_input r t a) = Some (x, with_input r t a1) /\ a_known a1 = true.
Proof.
  intros H Hp. unfold a_vpeek in *. rewrite Hp. cbn [with_input a_failed a_mode a_known a_rest].
  destruct (a_failed a); [discriminate|]. destruct (a_mode a) as [|acc jr [|]|]; try discriminate.
  unfold a_peek_res in Hp. cbn [with_input a_rest a_tail] in Hp.
  destruct (a_known a) eqn:Hk; [|injection H as <- <-; split; reflexivity].
  destruct (a_rest a) as [|b l] eqn:Hr; [discriminate|]. injection H as <- <-. split; [|reflexivity].
  destruct r; [destruct t; discriminate Hp|reflexivity].
Qed.

Lemma known_take a a1 b : a_skip a = Some a1 \/ a_vconsume a = Some a1 -> a_rest a = b :: a_rest a1 ->
  a_known a1 = false.
Proof. intros [H|H] _; unfold a_skip, a_vconsume in H; src. Qed.

Lemma other_skip r t a a1 b : a_skip a = Some a1 -> a_rest a = b :: a_rest a1 ->
  a_skip (with_input (b :: r) t a) = Some (with_input r t a1).
Proof.
  intros H Hr. unfold a_skip in *. cbn [with_input a_failed a_mode a_known a_rest].
  destruct (a_failed a), (a_mode a), (a_known a), (a_rest a); try discriminate. injection H as <-. reflexivity.
Qed.
Lemma other_vconsume r t a a1 b : a_vconsume a = Some a1 -> a_rest a = b :: a_rest a1 ->
  a_vconsume (with_input (b :: r) t a) = Some (with_input r t a1).
Proof.
  intros H Hr. unfold a_vconsume in *. cbn [with_input a_failed a_mode a_known a_rest].
  destruct (a_failed a), (a_mode a) as [|acc jr [|]|], (a_known a), (a_rest a); try discriminate. injection H as <-. cbn in Hr. injection Hr as ->. reflexivity.
Qed.

Lemma look_sound {A : Type} (p : prog A) : forall K Q a x a', look p K Q -> arun p a = Some (x, a') ->
  (a_known a = true -> K = true) ->
  exists K', Q x K' /\ (a_known a' = true -> K' = true) /\ framed p K a x a' K'.
Proof.
  induction p as [y|k IH|k IH|k IH|k IH|k IH|k IH|k IH|bs k IH|b k IH|k IH|k IH|k IH];
    intros K Q a x a' Hl H HK; cbn [look arun] in *.
  - injection H as <- <-. exists K. split; [exact Hl|]. split; [exact HK|]. split; [auto|]. intros y0 r t Hy _.
    change (a_rest a) with ([] ++ a_rest a) in Hy at 1. apply app_inv_tail in Hy. subst y0. reflexivity.
  - destruct (a_peek a) as [[r a1]|] eqn:E; [|discriminate]. pose proof (rest_peek _ _ _ E) as Hr.
    destruct (IH r true Q a1 x a' (Hl r) H (fun _ => eq_refl)) as (K' & HQ & Hk & Hf1 & Hf2).
    exists K'. split; [exact HQ|]. split; [exact Hk|]. split; [intros Hs _; apply Hf1; congruence|].
    intros y r2 t Hy Hs.
    assert (Hp : a_peek_res (with_input (y ++ r2) t a) = a_peek_res a).
    { apply (same_peek _ _ _ _ a' Hy). { apply arun_tail with (p := DPeek k) (x := x). cbn. rewrite E. exact H. }
      intros ->. apply Hs, Hf1; [|reflexivity]. cbn in Hy. congruence. }
    cbn [arun]. destruct (other_peek _ _ _ _ _ E Hp) as [-> _]. apply Hf2; [congruence|exact Hs].
  - destruct (a_skip a) as [a1|] eqn:E; [|discriminate]. destruct (rest_skip _ _ E) as (b & Hr).
    destruct (IH false Q a1 x a' Hl H) as (K' & HQ & Hk & Hf1 & Hf2). { rewrite (known_take _ _ _ (or_introl E) Hr). discriminate. }
    destruct (arun_rest _ _ _ _ H) as (y1 & Hy1).
    exists K'. split; [exact HQ|]. split; [exact Hk|]. split.
    { intros Hs. exfalso. rewrite Hr, Hy1 in Hs. apply (f_equal (@length _)) in Hs. cbn [length] in Hs. rewrite app_length in Hs. lia. }
    intros y r2 t Hy Hs. rewrite Hr, Hy1, app_comm_cons in Hy. apply app_inv_tail in Hy. subst y. cbn [arun app].
    rewrite (other_skip _ _ _ _ _ E Hr). apply Hf2; assumption.
  - destruct (a_vnew a) as [a1|] eqn:E; [|discriminate]. pose proof (rest_vnew _ _ E) as Hr.
    assert (HK1 : a_known a1 = true -> K = true). { unfold a_vnew in E. src; cbn; auto. discriminate. }
    destruct (IH K Q a1 x a' Hl H HK1) as (K' & HQ & Hk & Hf1 & Hf2).
    exists K'. split; [exact HQ|]. split; [exact Hk|]. split; [intros Hs HKt; apply Hf1; congruence|].
    intros y r2 t Hy Hs. cbn [arun].
    assert (E2 : a_vnew (with_input (y ++ r2) t a) = Some (with_input (y ++ r2) t a1)).
    { unfold a_vnew in *. cbn [with_input a_failed a_mode a_known a_rest a_tail].
      destruct (a_failed a); [discriminate|]. destruct (a_mode a); try discriminate. injection E as <-. unfold with_input. cbn [a_rest a_known a_mode a_failed].
      do 2 f_equal. destruct y as [|b y]; cbn [app] in Hy |- *; [|rewrite Hy; reflexivity].
      destruct (a_known a) eqn:Hka; [|destruct r2, (a_rest a); reflexivity].
      assert (Hk' : K' = true) by (apply Hf1; [cbn; congruence|apply HK; reflexivity]). specialize (Hs Hk').
      unfold same_next, a_peek_res in Hs. cbn [with_input a_rest a_tail] in Hs. rewrite <- Hy in Hs.
      destruct r2, (a_rest a); try reflexivity; destruct t, (a_tail a'); discriminate Hs. }
    rewrite E2. apply Hf2; [congruence|exact Hs].
  - destruct (a_vpeek a) as [[r a1]|] eqn:E; [|discriminate]. pose proof (rest_vpeek _ _ _ E) as Hr.
    destruct (IH r true Q a1 x a' (Hl r) H (fun _ => eq_refl)) as (K' & HQ & Hk & Hf1 & Hf2).
    exists K'. split; [exact HQ|]. split; [exact Hk|]. split; [intros Hs _; apply Hf1; congruence|].
    intros y r2 t Hy Hs.
    assert (Hp : a_peek_res (with_input (y ++ r2) t a) = a_peek_res a).
    { apply (same_peek _ _ _ _ a' Hy). { apply arun_tail with (p := DVPeek k) (x := x). cbn. rewrite E. exact H. }
      intros ->. apply Hs, Hf1; [|reflexivity]. cbn in Hy. congruence. }
    cbn [arun]. destruct (other_vpeek _ _ _ _ _ E Hp) as [-> _]. apply Hf2; [congruence|exact Hs].
  - destruct (a_vconsume a) as [a1|] eqn:E; [|discriminate]. destruct (rest_vconsume _ _ E) as (b & Hr).
    destruct (IH false Q a1 x a' Hl H) as (K' & HQ & Hk & Hf1 & Hf2). { rewrite (known_take _ _ _ (or_intror E) Hr). discriminate. }
    destruct (arun_rest _ _ _ _ H) as (y1 & Hy1).
    exists K'. split; [exact HQ|]. split; [exact Hk|]. split.
    { intros Hs. exfalso. rewrite Hr, Hy1 in Hs. apply (f_equal (@length _)) in Hs. cbn [length] in Hs. rewrite app_length in Hs. lia. }
    intros y r2 t Hy Hs. rewrite Hr, Hy1, app_comm_cons in Hy. apply app_inv_tail in Hy. subst y. cbn [arun app].
    rewrite (other_vconsume _ _ _ _ _ E Hr). apply Hf2; assumption.
  - destruct (a_vskip_prev a) as [a1|] eqn:E; [|discriminate]. pose proof (rest_vskip_prev _ _ E) as Hr.
    assert (Hko : a_known a1 = a_known a /\ forall r t, a_vskip_prev (with_input r t a) = Some (with_input r t a1))
      by (unfold a_vskip_prev in *; cbn [with_input a_failed a_mode]; src; split; reflexivity).
    destruct Hko as [Hko Ho]. destruct (IH K Q a1 x a' Hl H ltac:(rewrite Hko; exact HK)) as (K' & HQ & Hk & Hf1 & Hf2).
    exists K'. split; [exact HQ|]. split; [exact Hk|]. split; [intros Hs HKt; apply Hf1; congruence|].
    intros y r2 t Hy Hs. cbn [arun]. rewrite Ho. apply Hf2; [congruence|exact Hs].
  - destruct (a_vskip_final a) as [a1|] eqn:E; [|discriminate]. pose proof (rest_vskip_final _ _ E) as Hr.
    assert (Hko : a_known a1 = a_known a /\ forall r t, a_vskip_final (with_input r t a) = Some (with_input r t a1))
      by (unfold a_vskip_final in *; cbn [with_input a_failed a_mode]; src; split; reflexivity).
    destruct Hko as [Hko Ho]. destruct (IH K Q a1 x a' Hl H ltac:(rewrite Hko; exact HK)) as (K' & HQ & Hk & Hf1 & Hf2).
    exists K'. split; [exact HQ|]. split; [exact Hk|]. split; [intros Hs HKt; apply Hf1; congruence|].
    intros y r2 t Hy Hs. cbn [arun]. rewrite Ho. apply Hf2; [congruence|exact Hs].
  - destruct (a_vpush bs a) as [a1|] eqn:E; [|discriminate]. pose proof (rest_vpush _ _ _ E) as Hr.
    assert (Hko : a_known a1 = a_known a /\ forall r t, a_vpush bs (with_input r t a) = Some (with_input r t a1))
      by (unfold a_vpush in *; cbn [with_input a_failed a_mode]; src; split; reflexivity).
    destruct Hko as [Hko Ho]. destruct (IH K Q a1 x a' Hl H ltac:(rewrite Hko; exact HK)) as (K' & HQ & Hk & Hf1 & Hf2).
    exists K'. split; [exact HQ|]. split; [exact Hk|]. split; [intros Hs HKt; apply Hf1; congruence|].
    intros y r2 t Hy Hs. cbn [arun]. rewrite Ho. apply Hf2; [congruence|exact Hs].
  - destruct (a_vget b a) as [a1|] eqn:E; [|discriminate]. pose proof (rest_vget _ _ _ E) as Hr.
    assert (Hko : a_known a1 = a_known a /\ forall r t, a_vget b (with_input r t a) = Some (with_input r t a1))
      by (unfold a_vget in *; cbn [with_input a_failed a_mode]; src; split; reflexivity).
    destruct Hko as [Hko Ho]. destruct (IH K Q a1 x a' Hl H ltac:(rewrite Hko; exact HK)) as (K' & HQ & Hk & Hf1 & Hf2).
    exists K'. split; [exact HQ|]. split; [exact Hk|]. split; [intros Hs HKt; apply Hf1; congruence|].
    intros y r2 t Hy Hs. cbn [arun]. rewrite Ho. apply Hf2; [congruence|exact Hs].
  - destruct (a_vstr_peek a) as [r|] eqn:E; [|discriminate].
    destruct (IH r K Q a x a' (Hl r) H HK) as (K' & HQ & Hk & Hf1 & Hf2).
    exists K'. split; [exact HQ|]. split; [exact Hk|]. split; [exact Hf1|].
    intros y r2 t Hy Hs. cbn [arun]. change (a_vstr_peek (with_input (y ++ r2) t a)) with (a_vstr_peek a). rewrite E. apply Hf2; assumption.
  - destruct (a_vstr a) as [[r a1]|] eqn:E; [|discriminate]. pose proof (rest_vstr _ _ _ E) as Hr.
    assert (Hko : a_known a1 = a_known a /\ forall r2 t, a_vstr (with_input r2 t a) = Some (r, with_input r2 t a1))
      by (unfold a_vstr in *; cbn [with_input a_failed a_mode]; src; split; reflexivity).
    destruct Hko as [Hko Ho]. destruct (IH r K Q a1 x a' (Hl r) H ltac:(rewrite Hko; exact HK)) as (K' & HQ & Hk & Hf1 & Hf2).
    exists K'. split; [exact HQ|]. split; [exact Hk|]. split; [intros Hs HKt; apply Hf1; congruence|].
    intros y r2 t Hy Hs. cbn [arun]. rewrite Ho. apply Hf2; [congruence|exact Hs].
  - destruct (a_vstring a) as [[r a1]|] eqn:E; [|discriminate]. pose proof (rest_vstring _ _ _ E) as Hr.
    assert (Hko : a_known a1 = a_known a /\ forall r2 t, a_vstring (with_input r2 t a) = Some (r, with_input r2 t a1))
      by (unfold a_vstring in *; cbn [with_input a_failed a_mode]; src; split; reflexivity).
    destruct Hko as [Hko Ho]. destruct (IH r K Q a1 x a' (Hl r) H ltac:(rewrite Hko; exact HK)) as (K' & HQ & Hk & Hf1 & Hf2).
    exists K'. split; [exact HQ|]. split; [exact Hk|]. split; [intros Hs HKt; apply Hf1; congruence|].
    intros y r2 t Hy Hs. cbn [arun]. rewrite Ho. apply Hf2; [congruence|exact Hs].
Qed.
