(** * Bounding the number of operations of the reader

    Auxiliary: a logic with time credits.  Every operation costs one credit, and
    consuming a byte yields [K] credits. *)

From Coq Require Import ZArith.
From Verif Require Import Base Utf8Model NumberModel SourceModel SourceProofs ReaderModel SpecCost.
Local Open Scope Z_scope.

Definition K : Z := 24.

(** [Q] holds for the result and the credits which are left, whatever the
    answers of the operations are *)
Fixpoint bound {A : Type} (p : prog A) (n : Z) (Q : A -> Z -> Prop) : Prop :=
  match p with
  | Ret x => Q x n
  | DPeek k | DVPeek k => forall r, bound (k r) (n - 1) Q
  | DSkip k | DVConsume k => bound k (n - 1 + K) Q
  | DVNew k | DVSkipPrev k | DVSkipFinal k | DVPush _ k | DVGet _ k => bound k (n - 1) Q
  | DVStrPeek k | DVStr k | DVString k => forall s, bound (k s) (n - 1) Q
  end.

Lemma bound_impl {A : Type} (p : prog A) : forall n (Q Q2 : A -> Z -> Prop), bound p n Q ->
  (forall x n', Q x n' -> Q2 x n') -> bound p n Q2.
Proof. induction p; cbn [bound]; intros n Q Q2 H1 H2; eauto. Qed.

Lemma bound_pbind {A B : Type} (p : prog A) (f : A -> prog B) : forall n Q,
  bound p n (fun x n' => bound (f x) n' Q) -> bound (pbind p f) n Q.
Proof. induction p; cbn [bound pbind]; intros n Q H1; eauto. Qed.

(** The operations in the abstract view *)
Fixpoint acost {A : Type} (p : prog A) (a : asrc) : Z :=
  match p with
  | Ret _ => 0
  | DPeek k => 1 + match a_peek a with Some (r, a') => acost (k r) a' | None => 0 end
  | DSkip k => 1 + match a_skip a with Some a' => acost k a' | None => 0 end
  | DVNew k => 1 + match a_vnew a with Some a' => acost k a' | None => 0 end
  | DVPeek k => 1 + match a_vpeek a with Some (r, a') => acost (k r) a' | None => 0 end
  | DVConsume k => 1 + match a_vconsume a with Some a' => acost k a' | None => 0 end
  | DVSkipPrev k => 1 + match a_vskip_prev a with Some a' => acost k a' | None => 0 end
  | DVSkipFinal k => 1 + match a_vskip_final a with Some a' => acost k a' | None => 0 end
  | DVPush bs k => 1 + match a_vpush bs a with Some a' => acost k a' | None => 0 end
  | DVGet b k => 1 + match a_vget b a with Some a' => acost k a' | None => 0 end
  | DVStrPeek k => 1 + match a_vstr_peek a with Some s => acost (k s) a | None => 0 end
  | DVStr k => 1 + match a_vstr a with Some (s, a') => acost (k s) a' | None => 0 end
  | DVString k => 1 + match a_vstring a with Some (s, a') => acost (k s) a' | None => 0 end
  end.

Lemma acost_bind {A B : Type} (p : prog A) (f : A -> prog B) : forall a x a', arun p a = Some (x, a') ->
  acost (pbind p f) a = acost p a + acost (f x) a'.
Proof.
  induction p as [y|k IH|k IH|k IH|k IH|k IH|k IH|k IH|bs k IH|b k IH|k IH|k IH|k IH];
    intros a x a' H; cbn [pbind acost arun] in *.
  - injection H as -> ->. lia.
  - destruct (a_peek a) as [[r a1]|]; [|discriminate]. rewrite (IH _ _ _ _ H). lia.
  - destruct (a_skip a) as [a1|]; [|discriminate]. rewrite (IH _ _ _ H). lia.
  - destruct (a_vnew a) as [a1|]; [|discriminate]. rewrite (IH _ _ _ H). lia.
  - destruct (a_vpeek a) as [[r a1]|]; [|discriminate]. rewrite (IH _ _ _ _ H). lia.
  - destruct (a_vconsume a) as [a1|]; [|discriminate]. rewrite (IH _ _ _ H). lia.
  - destruct (a_vskip_prev a) as [a1|]; [|discriminate]. rewrite (IH _ _ _ H). lia.
  - destruct (a_vskip_final a) as [a1|]; [|discriminate]. rewrite (IH _ _ _ H). lia.
  - destruct (a_vpush bs a) as [a1|]; [|discriminate]. rewrite (IH _ _ _ H). lia.
  - destruct (a_vget b a) as [a1|]; [|discriminate]. rewrite (IH _ _ _ H). lia.
  - destruct (a_vstr_peek a) as [r|]; [|discriminate]. rewrite (IH _ _ _ _ H). lia.
  - destruct (a_vstr a) as [[r a1]|]; [|discriminate]. rewrite (IH _ _ _ _ H). lia.
  - destruct (a_vstring a) as [[r a1]|]; [|discriminate]. rewrite (IH _ _ _ _ H). lia.
Qed.

(** After an IO error no operation is possible *)
Lemma acost_failed {A : Type} (p : prog A) a x a' : a_failed a = true -> arun p a = Some (x, a') -> acost p a = 0.
Proof.
  intros Hf. destruct p; cbn [arun acost]; [reflexivity|..];
    unfold a_peek, a_skip, a_vnew, a_vpeek, a_vconsume, a_vskip_prev, a_vskip_final, a_vpush, a_vget, a_vstr_peek, a_vstr, a_vstring;
    rewrite Hf; discriminate.
Qed.

Definition rlen (a : asrc) : Z := Z.of_nat (length (a_rest a)).

Ltac src := repeat match goal with
  | H : context [match a_failed ?a with _ => _ end] |- _ => destruct (a_failed a) eqn:?; try discriminate
  | H : context [if a_failed ?a then _ else _] |- _ => destruct (a_failed a) eqn:?; try discriminate
  | H : context [match a_mode ?a with _ => _ end] |- _ => destruct (a_mode a) as [|? [|] [|]|? [|]] eqn:?; try discriminate
  | H : context [match a_known ?a with _ => _ end] |- _ => destruct (a_known a) eqn:?; try discriminate
  | H : context [if a_known ?a then _ else _] |- _ => destruct (a_known a) eqn:?; try discriminate
  | H : context [match a_rest ?a with _ => _ end] |- _ => destruct (a_rest a) eqn:?; try discriminate
  | H : context [match from_utf8 ?a with _ => _ end] |- _ => destruct (from_utf8 a) eqn:?; try discriminate
  | H : Some _ = Some _ |- _ => injection H; clear H; intros; subst
  end; cbn [a_rest length]; try congruence; try reflexivity.

Lemma rest_peek a r a' : a_peek a = Some (r, a') -> a_rest a' = a_rest a.
Proof. unfold a_peek. intros H. src. Qed.
Lemma rest_skip a a' : a_skip a = Some a' -> exists b, a_rest a = b :: a_rest a'.
Proof. unfold a_skip. intros H. src. eexists. reflexivity. Qed.
Lemma rest_vnew a a' : a_vnew a = Some a' -> a_rest a' = a_rest a.
Proof. unfold a_vnew. intros H. src. Qed.
Lemma rest_vpeek a r a' : a_vpeek a = Some (r, a') -> a_rest a' = a_rest a.
Proof. unfold a_vpeek. intros H. src. Qed.
Lemma rest_vconsume a a' : a_vconsume a = Some a' -> exists b, a_rest a = b :: a_rest a'.
Proof. unfold a_vconsume. intros H. src; eexists; reflexivity. Qed.
Lemma rest_vskip_prev a a' : a_vskip_prev a = Some a' -> a_rest a' = a_rest a.
Proof. unfold a_vskip_prev. intros H. src. Qed.
Lemma rest_vskip_final a a' : a_vskip_final a = Some a' -> a_rest a' = a_rest a.
Proof. unfold a_vskip_final. intros H. src. Qed.
Lemma rest_vpush bs a a' : a_vpush bs a = Some a' -> a_rest a' = a_rest a.
Proof. unfold a_vpush. intros H. src. Qed.
Lemma rest_vget b a a' : a_vget b a = Some a' -> a_rest a' = a_rest a.
Proof. unfold a_vget. intros H. src. Qed.
Lemma rest_vstr a s a' : a_vstr a = Some (s, a') -> a_rest a' = a_rest a.
Proof. unfold a_vstr. intros H. src. Qed.
Lemma rest_vstring a s a' : a_vstring a = Some (s, a') -> a_rest a' = a_rest a.
Proof. unfold a_vstring. intros H. src. Qed.

Lemma bound_sound {A : Type} (p : prog A) : forall n Q a x a', bound p n Q -> arun p a = Some (x, a') ->
  exists n', Q x n' /\ acost p a + n' = n + K * (rlen a - rlen a').
Proof.
  induction p as [y|k IH|k IH|k IH|k IH|k IH|k IH|k IH|bs k IH|b k IH|k IH|k IH|k IH];
    intros n Q a x a' Hb H; cbn [bound acost arun] in *.
  - injection H as <- <-. exists n. split; [exact Hb|]. lia.
  - destruct (a_peek a) as [[r a1]|] eqn:E; [|discriminate]. destruct (IH _ _ _ _ _ _ (Hb r) H) as (n' & HQ & He).
    exists n'. split; [exact HQ|]. unfold rlen in *. rewrite (rest_peek _ _ _ E) in He. lia.
  - destruct (a_skip a) as [a1|] eqn:E; [|discriminate]. destruct (IH _ _ _ _ _ Hb H) as (n' & HQ & He).
    exists n'. split; [exact HQ|]. destruct (rest_skip _ _ E) as (b & Hr). unfold rlen in *. rewrite Hr. cbn [length]. lia.
  - destruct (a_vnew a) as [a1|] eqn:E; [|discriminate]. destruct (IH _ _ _ _ _ Hb H) as (n' & HQ & He).
    exists n'. split; [exact HQ|]. unfold rlen in *. rewrite (rest_vnew _ _ E) in He. lia.
  - destruct (a_vpeek a) as [[r a1]|] eqn:E; [|discriminate]. destruct (IH _ _ _ _ _ _ (Hb r) H) as (n' & HQ & He).
    exists n'. split; [exact HQ|]. unfold rlen in *. rewrite (rest_vpeek _ _ _ E) in He. lia.
  - destruct (a_vconsume a) as [a1|] eqn:E; [|discriminate]. destruct (IH _ _ _ _ _ Hb H) as (n' & HQ & He).
    exists n'. split; [exact HQ|]. destruct (rest_vconsume _ _ E) as (b & Hr). unfold rlen in *. rewrite Hr. cbn [length]. lia.
  - destruct (a_vskip_prev a) as [a1|] eqn:E; [|discriminate]. destruct (IH _ _ _ _ _ Hb H) as (n' & HQ & He).
    exists n'. split; [exact HQ|]. unfold rlen in *. rewrite (rest_vskip_prev _ _ E) in He. lia.
  - destruct (a_vskip_final a) as [a1|] eqn:E; [|discriminate]. destruct (IH _ _ _ _ _ Hb H) as (n' & HQ & He).
    exists n'. split; [exact HQ|]. unfold rlen in *. rewrite (rest_vskip_final _ _ E) in He. lia.
  - destruct (a_vpush bs a) as [a1|] eqn:E; [|discriminate]. destruct (IH _ _ _ _ _ Hb H) as (n' & HQ & He).
    exists n'. split; [exact HQ|]. unfold rlen in *. rewrite (rest_vpush _ _ _ E) in He. lia.
  - destruct (a_vget b a) as [a1|] eqn:E; [|discriminate]. destruct (IH _ _ _ _ _ Hb H) as (n' & HQ & He).
    exists n'. split; [exact HQ|]. unfold rlen in *. rewrite (rest_vget _ _ _ E) in He. lia.
  - destruct (a_vstr_peek a) as [r|] eqn:E; [|discriminate]. destruct (IH _ _ _ _ _ _ (Hb r) H) as (n' & HQ & He).
    exists n'. split; [exact HQ|]. lia.
  - destruct (a_vstr a) as [[r a1]|] eqn:E; [|discriminate]. destruct (IH _ _ _ _ _ _ (Hb r) H) as (n' & HQ & He).
    exists n'. split; [exact HQ|]. unfold rlen in *. rewrite (rest_vstr _ _ _ E) in He. lia.
  - destruct (a_vstring a) as [[r a1]|] eqn:E; [|discriminate]. destruct (IH _ _ _ _ _ _ (Hb r) H) as (n' & HQ & He).
    exists n'. split; [exact HQ|]. unfold rlen in *. rewrite (rest_vstring _ _ _ E) in He. lia.
Qed.

(** The operations on the buffer are those of the abstract view *)
Lemma operations_acost {A : Type} (p : prog A) : forall c a x a', rel c a -> arun p a = Some (x, a') ->
  Z.of_N (operations p c) = acost p a.
Proof.
  induction p as [y|k IH|k IH|k IH|k IH|k IH|k IH|k IH|bs k IH|b k IH|k IH|k IH|k IH];
    intros c a x a' R H; cbn [operations acost arun] in *; [reflexivity|..]; rewrite N2Z.inj_add; f_equal.
  - destruct (a_peek a) as [[r a1]|] eqn:E; [|discriminate].
    destruct (peek_spec _ _ _ _ R E) as (c1 & -> & R1). eauto.
  - destruct (a_skip a) as [a1|] eqn:E; [|discriminate].
    destruct (skip_spec _ _ _ R E) as (c1 & -> & R1). eauto.
  - destruct (a_vnew a) as [a1|] eqn:E; [|discriminate].
    destruct (vnew_spec _ _ _ R E) as (c1 & -> & R1). eauto.
  - destruct (a_vpeek a) as [[r a1]|] eqn:E; [|discriminate].
    destruct (vpeek_spec _ _ _ _ R E) as (c1 & -> & R1). eauto.
  - destruct (a_vconsume a) as [a1|] eqn:E; [|discriminate].
    destruct (vconsume_spec _ _ _ R E) as (c1 & -> & R1). eauto.
  - destruct (a_vskip_prev a) as [a1|] eqn:E; [|discriminate].
    destruct (vskip_prev_spec _ _ _ R E) as (c1 & -> & R1). eauto.
  - destruct (a_vskip_final a) as [a1|] eqn:E; [|discriminate].
    eapply IH; [|exact H]. eapply vskip_final_spec; eauto.
  - destruct (a_vpush bs a) as [a1|] eqn:E; [|discriminate].
    destruct (vpush_spec _ _ _ _ R E) as (c1 & -> & R1). eauto.
  - destruct (a_vget b a) as [a1|] eqn:E; [|discriminate].
    destruct (vget_spec _ _ _ _ R E) as (c1 & -> & R1). eauto.
  - destruct (a_vstr_peek a) as [s|] eqn:E; [|discriminate].
    rewrite (vstr_peek_spec _ _ _ R E). eauto.
  - destruct (a_vstr a) as [[s a1]|] eqn:E; [|discriminate].
    destruct (vstr_spec _ _ _ _ R E) as (c1 & -> & R1). eauto.
  - destruct (a_vstring a) as [[s a1]|] eqn:E; [|discriminate].
    destruct (vstring_spec _ _ _ _ R E) as (c1 & -> & R1). eauto.
Qed.
