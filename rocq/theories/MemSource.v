(** * The memory needed by programs over the buffer

    Auxiliary: a logic which compares the bytes collected for a value with the
    bytes which have been consumed. *)

From Verif Require Import Base Utf8Model SourceModel SourceProofs ReaderModel SpecCost SpecMemory CostProofs.

(** ** Running programs one after the other *)

Lemma throughout_weak {A : Type} (P P' : csrc -> Prop) (p : prog A) : (forall c, P c -> P' c) ->
  forall c, throughout P p c -> throughout P' p c.
Proof.
  intros H. induction p as [y|k IH|k IH|k IH|k IH|k IH|k IH|k IH|bs k IH|b k IH|k IH|k IH|k IH];
    intros c [H1 H2]; cbn [throughout]; (split; [auto|]); auto;
    repeat match goal with
    | |- match ?x with _ => _ end => destruct x as [[]|] || destruct x as [[[]|] ?] || destruct x as [[|] ?] || destruct x
    end; auto.
Qed.

Lemma throughout_bind {A B : Type} P (p : prog A) (f : A -> prog B) : forall c,
  throughout P p c -> (forall x c', crun p c = Some (x, c') -> throughout P (f x) c') -> throughout P (pbind p f) c.
Proof.
  induction p as [y|k IH|k IH|k IH|k IH|k IH|k IH|k IH|bs k IH|b k IH|k IH|k IH|k IH];
    intros c [H1 H2] H3; cbn [pbind].
  - apply H3. reflexivity.
  - split; [exact H1|]. cbn [crun] in H3. destruct (c_peek c) as [[r|] c']; [|exact I]. apply IH; assumption.
  - split; [exact H1|]. cbn [crun] in H3. destruct (c_skip c) as [c'|]; [|exact I]. apply IH; assumption.
  - split; [exact H1|]. cbn [crun] in H3. destruct (c_vnew c) as [c'|]; [|exact I]. apply IH; assumption.
  - split; [exact H1|]. cbn [crun] in H3. destruct (c_vpeek c) as [[r|] c']; [|exact I]. apply IH; assumption.
  - split; [exact H1|]. cbn [crun] in H3. destruct (c_vconsume c) as [c'|]; [|exact I]. apply IH; assumption.
  - split; [exact H1|]. cbn [crun] in H3. destruct (c_vskip_prev c) as [c'|]; [|exact I]. apply IH; assumption.
  - split; [exact H1|]. cbn [crun] in H3. apply IH; assumption.
  - split; [exact H1|]. cbn [crun] in H3. destruct (c_vpush bs c) as [c'|]; [|exact I]. apply IH; assumption.
  - split; [exact H1|]. cbn [crun] in H3. destruct (c_vget b c) as [c'|]; [|exact I]. apply IH; assumption.
  - split; [exact H1|]. cbn [crun] in H3. destruct (c_vstr_peek c) as [s|]; [|exact I]. apply IH; assumption.
  - split; [exact H1|]. cbn [crun] in H3. destruct (c_vstr c) as [[s c']|]; [|exact I]. apply IH; assumption.
  - split; [exact H1|]. cbn [crun] in H3. destruct (c_vstring c) as [[s c']|]; [|exact I]. apply IH; assumption.
Qed.

Lemma throughout_end {A : Type} P (p : prog A) : forall c x c', throughout P p c -> crun p c = Some (x, c') -> P c'.
Proof.
  induction p as [y|k IH|k IH|k IH|k IH|k IH|k IH|k IH|bs k IH|b k IH|k IH|k IH|k IH];
    intros c x c' [H1 H2] H3; cbn [crun] in H3.
  - injection H3 as _ <-. exact H1.
  - destruct (c_peek c) as [[r|] c1]; [|discriminate]. eapply IH; eassumption.
  - destruct (c_skip c) as [c1|]; [|discriminate]. eapply IH; eassumption.
  - destruct (c_vnew c) as [c1|]; [|discriminate]. eapply IH; eassumption.
  - destruct (c_vpeek c) as [[r|] c1]; [|discriminate]. eapply IH; eassumption.
  - destruct (c_vconsume c) as [c1|]; [|discriminate]. eapply IH; eassumption.
  - destruct (c_vskip_prev c) as [c1|]; [|discriminate]. eapply IH; eassumption.
  - eapply IH; eassumption.
  - destruct (c_vpush bs c) as [c1|]; [|discriminate]. eapply IH; eassumption.
  - destruct (c_vget b c) as [c1|]; [|discriminate]. eapply IH; eassumption.
  - destruct (c_vstr_peek c) as [s|]; [|discriminate]. eapply IH; eassumption.
  - destruct (c_vstr c) as [[s c1]|]; [|discriminate]. eapply IH; eassumption.
  - destruct (c_vstring c) as [[s c1]|]; [|discriminate]. eapply IH; eassumption.
Qed.

(** ** The size of the first buffer *)

Local Opaque READER_BUF_SIZE.
Definition small (c : csrc) : Prop := (length (c_buf c) <= READER_BUF_SIZE)%nat.

Lemma read_events_length evs space : match fst (read_events evs space) with inr d => (length d <= space)%nat | inl _ => True end.
Proof.
  induction evs as [|[bs| |e] evs IH]; cbn [read_events fst]; [cbn; lia|rewrite firstn_length; lia|exact IH|exact I].
Qed.
Lemma small_fill start c : small c -> small (snd (fill_buffer start c)).
Proof.
  intros H. unfold fill_buffer. destruct (c_eof c); [exact H|]. destruct (negb _); [exact H|].
  destruct (Nat.ltb start READER_BUF_SIZE) eqn:Hs; cbn [negb]; [|exact H]. destruct (c_used c); [exact H|].
  pose proof (read_events_length (c_events c) (READER_BUF_SIZE - start)) as Hr. destruct (read_events _ _) as [[e|d] evs]; cbn [fst snd] in *.
  - exact H.
  - unfold small. cbn [c_buf]. rewrite app_length, firstn_length. apply Nat.ltb_lt in Hs. lia.
Qed.
Lemma small_after (x : option (N + bool) * csrc) r c' : small (snd x) -> byte_after_fill x = (r, c') -> small c'.
Proof.
  intros H. unfold byte_after_fill. destruct x as [[[e|[|]]|] c]; cbn [snd] in H; try (intros [= _ <-]; exact H).
  destruct (nth_error _ _); intros [= _ <-]; exact H.
Qed.
Lemma small_peek c r c' : small c -> c_peek c = (r, c') -> small c'.
Proof.
  intros H. unfold c_peek. destruct (Nat.ltb _ _); [destruct (nth_error _ _); intros [= _ <-]; exact H|].
  apply small_after, small_fill, H.
Qed.
Lemma small_vpeek c r c' : small c -> c_vpeek c = (r, c') -> small c'.
Proof.
  intros H. unfold c_vpeek. destruct (c_final c); [intros [= _ <-]; exact H|].
  destruct (Nat.ltb (c_pos c) _); [destruct (nth_error _ _); intros [= _ <-]; exact H|].
  destruct (_ || _)%bool; [|apply small_after, small_fill, H].
  destruct (Nat.ltb (c_vstart c) _); apply small_after, small_fill, H.
Qed.

Ltac some := repeat match goal with
  | H : Some _ = Some _ |- _ => injection H; clear H; intros; subst
  | H : (_, _) = (_, _) |- _ => injection H; clear H; intros; subst
  | H : None = Some _ |- _ => discriminate H
  | H : context [if ?x then _ else _] |- _ => destruct x eqn:?
  | H : context [match ?x with _ => _ end] |- _ => destruct x eqn:?
  end.

Lemma small_throughout {A : Type} (p : prog A) : forall c, small c -> throughout small p c.
Proof.
  induction p as [y|k IH|k IH|k IH|k IH|k IH|k IH|k IH|bs k IH|b k IH|k IH|k IH|k IH];
    intros c H; cbn [throughout]; (split; [exact H|]).
  - exact I.
  - destruct (c_peek c) as [[r|] c'] eqn:E; [|exact I]. apply IH, (small_peek _ _ _ H E).
  - destruct (c_skip c) as [c'|] eqn:E; [|exact I]. apply IH. unfold c_skip in E. some. exact H.
  - destruct (c_vnew c) as [c'|] eqn:E; [|exact I]. apply IH. unfold c_vnew in E. some. unfold small in *. cbn [c_buf]. rewrite skipn_length. lia.
  - destruct (c_vpeek c) as [[r|] c'] eqn:E; [|exact I]. apply IH, (small_vpeek _ _ _ H E).
  - apply IH. exact H.
  - destruct (c_vskip_prev c) as [c'|] eqn:E; [|exact I]. apply IH. unfold c_vskip_prev in E. some; exact H.
  - apply IH. exact H.
  - destruct (c_vpush bs c) as [c'|] eqn:E; [|exact I]. apply IH. unfold c_vpush in E. some; exact H.
  - destruct (c_vget b c) as [c'|] eqn:E; [|exact I]. apply IH. unfold c_vget in E. some; exact H.
  - destruct (c_vstr_peek c) as [s|] eqn:E; [|exact I]. apply IH. exact H.
  - destruct (c_vstr c) as [[s c']|] eqn:E; [|exact I]. apply IH. unfold c_vstr in E. some; exact H.
  - destruct (c_vstring c) as [[s c']|] eqn:E; [|exact I]. apply IH. unfold c_vstring in E. some; exact H.
Qed.

(** ** Programs which collect nothing *)

(** [Q] holds for every result; the operations on values are only used if [v]
    holds *)
Fixpoint ops {A : Type} (v : bool) (p : prog A) (Q : A -> Prop) : Prop :=
  match p with
  | Ret x => Q x
  | DPeek k => forall r, ops v (k r) Q
  | DSkip k => ops v k Q
  | DVPeek k => v = true /\ forall r, ops v (k r) Q
  | DVNew k | DVConsume k | DVSkipPrev k | DVSkipFinal k | DVPush _ k | DVGet _ k => v = true /\ ops v k Q
  | DVStrPeek k | DVStr k | DVString k => v = true /\ forall s, ops v (k s) Q
  end.

Lemma ops_impl {A : Type} v (p : prog A) : forall (Q Q2 : A -> Prop), ops v p Q -> (forall x, Q x -> Q2 x) -> ops v p Q2.
Proof. induction p; cbn [ops]; intros Q Q2 H1 H2; intuition eauto. Qed.
Lemma ops_pbind {A B : Type} v (p : prog A) (f : A -> prog B) : forall Q, ops v p (fun x => ops v (f x) Q) -> ops v (pbind p f) Q.
Proof. induction p; cbn [ops pbind]; intros Q H1; intuition eauto. Qed.

Lemma ops_result {A : Type} v (p : prog A) : forall Q c x c', ops v p Q -> crun p c = Some (x, c') -> Q x.
Proof.
  induction p as [y|k IH|k IH|k IH|k IH|k IH|k IH|k IH|bs k IH|b k IH|k IH|k IH|k IH]; intros Q c x c' Ho H; cbn [crun ops] in *;
    try destruct Ho as [_ Ho].
  - injection H as <- _. exact Ho.
  - destruct (c_peek c) as [[r|] c1]; [|discriminate]. eapply IH; [apply Ho|exact H].
  - destruct (c_skip c) as [c1|]; [|discriminate]. eapply IH; eassumption.
  - destruct (c_vnew c) as [c1|]; [|discriminate]. eapply IH; eassumption.
  - destruct (c_vpeek c) as [[r|] c1]; [|discriminate]. eapply IH; [apply Ho|exact H].
  - destruct (c_vconsume c) as [c1|]; [|discriminate]. eapply IH; eassumption.
  - destruct (c_vskip_prev c) as [c1|]; [|discriminate]. eapply IH; eassumption.
  - eapply IH; eassumption.
  - destruct (c_vpush bs c) as [c1|]; [|discriminate]. eapply IH; eassumption.
  - destruct (c_vget b c) as [c1|]; [|discriminate]. eapply IH; eassumption.
  - destruct (c_vstr_peek c) as [s|]; [|discriminate]. eapply IH; [apply Ho|exact H].
  - destruct (c_vstr c) as [[s c1]|]; [|discriminate]. eapply IH; [apply Ho|exact H].
  - destruct (c_vstring c) as [[s c1]|]; [|discriminate]. eapply IH; [apply Ho|exact H].
Qed.

(** what is collected, and the value, are left alone *)
Definition same_value (c c' : csrc) : Prop := c_vbuf c' = c_vbuf c /\ c_value c' = c_value c.
Lemma same_value_collected c c' : same_value c c' -> collected c' = collected c.
Proof. intros [H1 H2]. unfold collected. rewrite H1, H2. reflexivity. Qed.
Lemma fill_value start c : same_value c (snd (fill_buffer start c)).
Proof.
  unfold fill_buffer. destruct (c_eof c); [split; reflexivity|]. destruct (negb _); [split; reflexivity|].
  destruct (negb _); [split; reflexivity|]. destruct (c_used c); [split; reflexivity|].
  destruct (read_events _ _) as [[e|d] evs]; split; reflexivity.
Qed.
Lemma after_value (x : option (N + bool) * csrc) r c' : byte_after_fill x = (r, c') -> c' = snd x.
Proof.
  unfold byte_after_fill. destruct x as [[[e|[|]]|] c]; cbn [snd]; try (intros [= _ <-]; reflexivity).
  destruct (nth_error _ _); intros [= _ <-]; reflexivity.
Qed.
Lemma peek_value_same c r c' : c_peek c = (r, c') -> same_value c c'.
Proof.
  unfold c_peek. destruct (Nat.ltb _ _); [destruct (nth_error _ _); intros [= _ <-]; split; reflexivity|].
  intros H. rewrite (after_value _ _ _ H). apply fill_value.
Qed.
Lemma skip_value_same c c' : c_skip c = Some c' -> same_value c c'.
Proof. unfold c_skip. intros H. some. split; reflexivity. Qed.

Lemma ops_collects_nothing {A : Type} (p : prog A) Q n : forall c, ops false p Q -> (collected c <= n)%nat ->
  throughout (fun c => (collected c <= n)%nat) p c.
Proof.
  induction p as [y|k IH|k IH|k IH|k IH|k IH|k IH|k IH|bs k IH|b k IH|k IH|k IH|k IH];
    intros c Ho Hc; cbn [throughout ops] in *; (split; [exact Hc|]); try (destruct Ho; discriminate).
  - exact I.
  - destruct (c_peek c) as [[r|] c'] eqn:E; [|exact I]. apply IH; [apply Ho|]. rewrite (same_value_collected _ _ (peek_value_same _ _ _ E)). exact Hc.
  - destruct (c_skip c) as [c'|] eqn:E; [|exact I]. apply IH; [apply Ho|]. rewrite (same_value_collected _ _ (skip_value_same _ _ E)). exact Hc.
Qed.

(** ** Bytes consumed for a value *)

(** how the bytes of a number or of a string which have been consumed continue:
    with the characters of a number, of a string, with an escaped character, or
    not at all *)
Inductive lex : Type := LNumber | LPlain | LEscaped | LClosed.

Definition lex_step (l : lex) (b : byte) : option lex :=
  match l with
  | LNumber => if number_text [b] then Some LNumber else None
  | LPlain => Some (if b <? 0x20 then LClosed else if b =? 0x5C then LEscaped else if b =? 0x22 then LClosed else LPlain)
  | LEscaped => Some (if b <? 0x20 then LClosed else LPlain)
  | LClosed => None
  end.

Fixpoint lex_all (l : lex) (t : bytes) : option lex :=
  match t with
  | [] => Some l
  | b :: t' => match lex_step l b with Some l' => lex_all l' t' | None => None end
  end.

Lemma lex_all_snoc b : forall t l l1 l2, lex_all l t = Some l1 -> lex_step l1 b = Some l2 -> lex_all l (t ++ [b]) = Some l2.
Proof.
  induction t as [|x t IH]; intros l l1 l2 H Hl; cbn [lex_all app] in *.
  - injection H as ->. rewrite Hl. reflexivity.
  - destruct (lex_step l x); [|discriminate]. eapply IH; eassumption.
Qed.

Lemma lex_number : forall t l1, lex_all LNumber t = Some l1 -> number_text t = true.
Proof.
  induction t as [|b t IH]; intros l1; cbn [lex_all lex_step]; [reflexivity|].
  destruct (number_text [b]) eqn:Hb; [|discriminate]. intros H. unfold number_text in *. cbn [forallb] in *.
  rewrite Bool.andb_true_r in Hb. rewrite Hb. exact (IH _ H).
Qed.
Lemma lex_closed t l1 : lex_all LClosed t = Some l1 -> t = [].
Proof. destruct t; [reflexivity|discriminate]. Qed.
Lemma lex_string : forall t l1, (lex_all LPlain t = Some l1 -> string_text false t = true) /\
  (lex_all LEscaped t = Some l1 -> string_text true t = true).
Proof.
  induction t as [|b t IH]; intros l1; cbn [lex_all string_text lex_step]; [split; reflexivity|].
  split; destruct (b <? 0x20); try (intros H; apply lex_closed in H; subst t; reflexivity); [|apply IH].
  destruct (b =? 0x5C); [apply IH|]. destruct (b =? 0x22); [|apply IH]. intros H. apply lex_closed in H. subst t. reflexivity.
Qed.

Definition byte_of (r : peek_res) : option byte := match r with PkByte b => Some b | _ => None end.

(** the state: the lexical state of the bytes consumed since the value was
    started; how many of them are not part of the collected bytes; the next
    byte, if it has been looked at; whether the last byte is known to be a quote *)
Record gst : Type := G { g_lex : lex; g_slack : nat; g_peeked : option byte; g_quote : bool }.
Definition sees (r : peek_res) (g : gst) : gst := G (g_lex g) (g_slack g) (byte_of r) (g_quote g).
Definition skips (g : gst) : gst :=
  G (g_lex g) (g_slack g) None match g_peeked g with Some b => b =? 0x22 | None => false end.
Definition slack (d : nat) (g : gst) : gst := G (g_lex g) d (g_peeked g) (g_quote g).

Fixpoint mem {A : Type} (p : prog A) (g : gst) (Q : A -> gst -> Prop) : Prop :=
  match p with
  | Ret x => Q x g
  | DPeek k | DVPeek k => forall r, mem (k r) (sees r g) Q
  | DSkip k => mem k (skips g) Q
  | DVNew k => exists l, (l = LNumber \/ l = LPlain /\ g_quote g = true) /\ mem k (G l 0 (g_peeked g) false) Q
  | DVConsume k =>
    match g_peeked g with
    | Some b => exists l, lex_step (g_lex g) b = Some l /\ mem k (G l (g_slack g) None false) Q
    | None => False
    end
  | DVSkipPrev k => mem k (slack (S (g_slack g)) g) Q
  | DVSkipFinal k | DVGet _ k => mem k g Q
  | DVPush bs k => (length bs <= g_slack g)%nat /\ mem k (slack (g_slack g - length bs) g) Q
  | DVStrPeek k | DVStr k | DVString k => forall s, mem (k s) g Q
  end.

Lemma mem_impl {A : Type} (p : prog A) : forall g (Q Q2 : A -> gst -> Prop), mem p g Q ->
  (forall x g', Q x g' -> Q2 x g') -> mem p g Q2.
Proof.
  induction p as [y|k IH|k IH|k IH|k IH|k IH|k IH|k IH|bs k IH|b k IH|k IH|k IH|k IH]; cbn [mem]; intros g Q Q2 H1 H2; eauto.
  - destruct H1 as (l & Hl & H1). eauto.
  - destruct (g_peeked g); [|exact H1]. destruct H1 as (l & Hl & H1). eauto.
  - destruct H1. eauto.
Qed.
Lemma mem_pbind {A B : Type} (p : prog A) (f : A -> prog B) : forall g Q,
  mem p g (fun x g' => mem (f x) g' Q) -> mem (pbind p f) g Q.
Proof.
  induction p as [y|k IH|k IH|k IH|k IH|k IH|k IH|k IH|bs k IH|b k IH|k IH|k IH|k IH]; cbn [mem pbind]; intros g Q H1; eauto.
  - destruct H1 as (l & Hl & H1). eauto.
  - destruct (g_peeked g); [|exact H1]. destruct H1 as (l & Hl & H1). eauto.
  - destruct H1. eauto.
Qed.

Definition tokens (n0 : nat) (W : bytes) (n : nat) : Prop := (n <= n0)%nat \/ one_token_has n W.
Lemma tokens_le n0 W n m : tokens n0 W n -> (m <= n)%nat -> tokens n0 W m.
Proof. intros [H|(b & t & r & H1 & H2 & H3)] Hm; [left; lia|right; exists b, t, r; repeat split; auto; lia]. Qed.

Record ghost (n0 : nat) (W : bytes) (g : gst) (c : csrc) (a : asrc) : Prop := {
  g_rel : rel_ok c a;
  g_next : forall b, g_peeked g = Some b -> exists r, a_rest a = b :: r;
  g_input : exists before, W = before ++ a_rest a /\ (g_quote g = true -> exists before', before = before' ++ [0x22]);
  g_value : match a_mode a with VGot _ _ => True | _ => c_value c = None end;
  g_now : tokens n0 W (collected c);
  g_mode : forall acc jr final, a_mode a = VActive acc jr final ->
    exists before token l, W = before ++ token ++ a_rest a /\
      (l = LNumber \/ l = LPlain /\ exists before', before = before' ++ [0x22]) /\ lex_all l token = Some (g_lex g) /\
      (length acc + g_slack g <= length token)%nat /\ (jr = true -> acc <> []) /\ a_failed a = false
}.

Lemma failed_ends {A : Type} (p : prog A) a x a' : a_failed a = true -> arun p a = Some (x, a') -> p = Ret x.
Proof.
  intros Hf. destruct p; cbn [arun]; [intros [= -> _]; reflexivity|..];
    unfold a_peek, a_skip, a_vnew, a_vpeek, a_vconsume, a_vskip_prev, a_vskip_final, a_vpush, a_vget, a_vstr_peek, a_vstr, a_vstring;
    rewrite Hf; discriminate.
Qed.

Lemma failed_throughout {A : Type} (P : csrc -> Prop) (p : prog A) a x a' c : a_failed a = true -> arun p a = Some (x, a') -> P c -> throughout P p c.
Proof. intros Hf H Hc. rewrite (failed_ends _ _ _ _ Hf H). split; [exact Hc|exact I]. Qed.

(** while a value is collected *)
Lemma active_collected c acc jr final : mode_rel c (VActive acc jr final) -> c_value c = None -> (collected c <= length acc)%nat.
Proof.
  intros (_ & _ & _ & _ & _ & H) Hv. unfold collected. rewrite Hv.
  destruct final; [destruct H as [_ <-]|subst acc]; rewrite app_length; lia.
Qed.

Lemma vpeek_collected c a acc jr r c1 : rel_ok c a -> a_mode a = VActive acc jr false -> c_value c = None ->
  c_vpeek c = (r, c1) -> c_value c1 = None /\ (collected c1 <= length acc)%nat.
Proof.
  intros R Hm Hv H. pose proof (ro_mode _ _ R) as M. rewrite Hm in M. pose proof (active_collected _ _ _ _ M Hv) as Hc.
  destruct M as (_ & Hf & Hs & _ & _ & Ha). pose proof (ro_pos _ _ R) as Hp.
  unfold c_vpeek in H. rewrite Hf in H. destruct (Nat.ltb (c_pos c) (length (c_buf c))) eqn:Hl.
  - destruct (nth_error _ _); injection H as _ <-; split; assumption.
  - apply Nat.ltb_ge in Hl. destruct (_ || _)%bool.
    + apply after_value in H. subst c1. destruct (Nat.ltb (c_vstart c) (length (c_buf c))).
      * destruct (fill_value 0 (set_vbuf (c_vbuf c ++ slice (c_buf c) (c_vstart c) (length (c_buf c))) true 0 c)) as [H1 H2].
        cbn [set_vbuf c_vbuf c_value] in H1, H2. split; [congruence|]. unfold collected. rewrite H1, H2, Hv.
        replace (length (c_buf c)) with (c_pos c) by lia. rewrite Ha. lia.
      * destruct (fill_value 0 (set_vbuf (c_vbuf c) (c_using c) 0 c)) as [H1 H2].
        cbn [set_vbuf c_vbuf c_value] in H1, H2. split; [congruence|]. unfold collected in *. rewrite H1, H2. exact Hc.
    + apply after_value in H. subst c1. destruct (fill_value (length (c_buf c)) c) as [H1 H2]. split; [congruence|].
      unfold collected in *. rewrite H1, H2. exact Hc.
Qed.

Lemma token_now n0 W before token rest l l1 n : W = before ++ token ++ rest ->
  (l = LNumber \/ l = LPlain /\ exists before', before = before' ++ [0x22]) -> lex_all l token = Some l1 -> (n <= length token)%nat -> tokens n0 W n.
Proof.
  intros H1 Hl H2 H3. right. exists before, token, rest. split; [exact H1|]. split; [exact H3|]. destruct Hl as [->|[-> Hl]].
  - left. exact (lex_number _ _ H2).
  - right. split; [exact (proj1 (lex_string _ _) H2)|exact Hl].
Qed.

Lemma rel_live c a : rel c a -> a_failed a = false -> rel_ok c a.
Proof. intros [H|H] Hf; [congruence|exact H]. Qed.
Lemma length_removelast {B : Type} (x : list B) : x <> [] -> S (length (removelast x)) = length x.
Proof. intros H. destruct (exists_last H) as (y & z & ->). rewrite removelast_last, app_length. cbn. lia. Qed.

Lemma mem_sound {A : Type} n0 W (p : prog A) : forall g Q c a x a', mem p g Q -> ghost n0 W g c a ->
  a_failed a = false -> arun p a = Some (x, a') -> throughout (fun c => tokens n0 W (collected c)) p c.
Proof.
  induction p as [y|k IH|k IH|k IH|k IH|k IH|k IH|k IH|bs k IH|b k IH|k IH|k IH|k IH];
    intros g Q c a x a' Hm Gh Hfa H; cbn [mem arun throughout] in *; (split; [apply (g_now _ _ _ _ _ Gh)|]);
    destruct Gh as [R Hn Hi Hv Hnow Hmode]; pose proof (or_intror R : rel c a) as R'.
  - exact I.
  - destruct (a_peek a) as [[r a1]|] eqn:E; [|discriminate]. destruct (peek_spec _ _ _ _ R' E) as (c1 & Hc & R1). rewrite Hc.
    pose proof (peek_value_same _ _ _ Hc) as Hsv. pose proof (same_value_collected _ _ Hsv) as Hcol. destruct Hsv as [_ Hsv].
    destruct (a_failed a1) eqn:Hf. { eapply failed_throughout; [exact Hf|exact H|]. rewrite Hcol. exact Hnow. }
    eapply IH; [apply Hm| |exact Hf|exact H]. pose proof (rest_peek _ _ _ E) as Hr.
    assert (Ha : r = a_peek_res a /\ a_mode a1 = a_mode a /\ (forall acc jr final, a_mode a <> VActive acc jr final)).
    { unfold a_peek in E. rewrite Hfa in E. destruct (a_mode a) as [|acc jr fi|gv bo] eqn:Em; [|discriminate|].
      - injection E as <- <-. split; [reflexivity|]. split; [reflexivity|discriminate].
      - destruct (a_known a); [|discriminate]. injection E as <- <-. split; [reflexivity|]. split; [exact Em|discriminate]. }
    destruct Ha as (-> & Ha & Hno). constructor.
    + exact (rel_live _ _ R1 Hf).
    + intros b0 Hb. rewrite Hr. unfold a_peek_res in Hb. destruct (a_rest a); [destruct (a_tail a); discriminate|]. injection Hb as <-. eauto.
    + rewrite Hr. exact Hi.
    + rewrite Ha, Hsv. exact Hv.
    + rewrite Hcol. exact Hnow.
    + intros acc jr fi Hx. rewrite Ha in Hx. exfalso. exact (Hno _ _ _ Hx).
  - destruct (a_skip a) as [a1|] eqn:E; [|discriminate]. destruct (skip_spec _ _ _ R' E) as (c1 & Hc & R1). rewrite Hc.
    pose proof (skip_value_same _ _ Hc) as Hsv. pose proof (same_value_collected _ _ Hsv) as Hcol. destruct Hsv as [_ Hsv].
    destruct (rest_skip _ _ E) as (b & Hr).
    assert (Ha : a_failed a1 = false /\ a_mode a1 = VNone /\ a_mode a = VNone).
    { unfold a_skip in E. src. repeat split. }
    destruct Ha as (Hf & Ha & Ha0). eapply IH; [apply Hm| |exact Hf|exact H]. constructor.
    + exact (rel_live _ _ R1 Hf).
    + discriminate.
    + destruct Hi as (be & -> & _). exists (be ++ [b]). split; [rewrite Hr, <- app_assoc; reflexivity|]. unfold skips. cbn [g_quote].
      destruct (g_peeked g) as [b0|]; [|discriminate]. destruct (Hn b0 eq_refl) as (r0 & Hr0). assert (b0 = b) as -> by congruence.
      intros Hq. apply N.eqb_eq in Hq. subst b. eauto.
    + rewrite Ha, Hsv. rewrite Ha0 in Hv. exact Hv.
    + rewrite Hcol. exact Hnow.
    + intros acc jr fi Hx. rewrite Ha in Hx. discriminate.
  - destruct (a_vnew a) as [a1|] eqn:E; [|discriminate]. destruct (vnew_spec _ _ _ R' E) as (c1 & Hc & R1). rewrite Hc.
    pose proof (rest_vnew _ _ E) as Hr.
    assert (Ha : a_failed a1 = false /\ a_mode a1 = VActive [] false false /\ a_mode a = VNone).
    { unfold a_vnew in E. rewrite Hfa in E. destruct (a_mode a); try discriminate. injection E as <-. repeat split. }
    destruct Ha as (Hf & Ha & Ha0). rewrite Ha0 in Hv.
    assert (Hc1 : c_value c1 = None /\ collected c1 = O).
    { unfold c_vnew in Hc. some. split; [exact Hv|]. unfold collected. cbn [c_vbuf c_value]. rewrite Hv. reflexivity. }
    destruct Hc1 as [Hcv Hcol]. destruct Hm as (l0 & Hl0 & Hm). eapply IH; [exact Hm| |exact Hf|exact H]. constructor.
    + exact (rel_live _ _ R1 Hf).
    + intros b Hb. rewrite Hr. auto.
    + rewrite Hr. destruct Hi as (be & Hb & _). exists be. split; [exact Hb|discriminate].
    + rewrite Ha. exact Hcv.
    + rewrite Hcol. apply (tokens_le _ _ _ _ Hnow). lia.
    + intros acc jr fi Hx. rewrite Ha in Hx. injection Hx as <- <- <-. destruct Hi as (be & Hb & Hq). exists be, [], l0. rewrite Hr.
      split; [exact Hb|]. split; [destruct Hl0 as [->|[-> Hl0]]; [left; reflexivity|right; split; [reflexivity|exact (Hq Hl0)]]|]. split; [reflexivity|]. split; [cbn; lia|]. split; [discriminate|exact Hf].
  - destruct (a_vpeek a) as [[r a1]|] eqn:E; [|discriminate]. destruct (vpeek_spec _ _ _ _ R' E) as (c1 & Hc & R1). rewrite Hc.
    pose proof (rest_vpeek _ _ _ E) as Hr.
    assert (Ha : exists acc jr, a_mode a = VActive acc jr false /\ a_mode a1 = VActive acc false false /\ r = a_peek_res a).
    { unfold a_vpeek in E. rewrite Hfa in E. destruct (a_mode a) as [|acc jr [|]|]; try discriminate. exists acc, jr.
      destruct (a_known a), (a_rest a); try discriminate; injection E as <- <-; repeat split. }
    destruct Ha as (acc & jr & Ha0 & Ha & ->). rewrite Ha0 in Hv. destruct (vpeek_collected _ _ _ _ _ _ R Ha0 Hv Hc) as [Hcv Hcol].
    destruct (Hmode _ _ _ Ha0) as (be & token & l0 & Hw & Hl0 & Hlex & Hlen & Hjr & _).
    assert (Hnow1 : tokens n0 W (collected c1)) by (apply (token_now _ _ _ _ _ _ _ _ Hw Hl0 Hlex); lia).
    destruct (a_failed a1) eqn:Hf. { eapply failed_throughout; [exact Hf|exact H|exact Hnow1]. }
    eapply IH; [apply Hm| |exact Hf|exact H]. constructor.
    + exact (rel_live _ _ R1 Hf).
    + intros b0 Hb. rewrite Hr. unfold a_peek_res in Hb. destruct (a_rest a); [destruct (a_tail a); discriminate|]. injection Hb as <-. eauto.
    + rewrite Hr. exact Hi.
    + rewrite Ha. exact Hcv.
    + exact Hnow1.
    + intros acc2 jr2 fi Hx. rewrite Ha in Hx. injection Hx as <- <- <-. exists be, token, l0. rewrite Hr. cbn [slack sees g_lex g_slack g_peeked g_quote] in *; repeat split; try assumption. discriminate.
  - destruct (a_vconsume a) as [a1|] eqn:E; [|discriminate]. destruct (vconsume_spec _ _ _ R' E) as (c1 & Hc & R1).
    unfold c_vconsume in Hc |- *. injection Hc as <-. destruct (rest_vconsume _ _ E) as (b & Hr).
    destruct (g_peeked g) as [b0|]; [|contradiction]. destruct Hm as (l2 & Hl2 & Hm). destruct (Hn b0 eq_refl) as (r0 & Hr0).
    assert (b0 = b) as -> by congruence.
    assert (Ha : exists acc jr, a_mode a = VActive acc jr false /\ a_mode a1 = VActive (acc ++ [b]) true false /\ a_failed a1 = false).
    { unfold a_vconsume in E. rewrite Hfa, Hr in E. destruct (a_mode a) as [|acc jr [|]|]; try discriminate. exists acc, jr.
      destruct (a_known a); try discriminate. injection E as <-. repeat split. }
    destruct Ha as (acc & jr & Ha0 & Ha & Hf). rewrite Ha0 in Hv.
    destruct (Hmode _ _ _ Ha0) as (be & token & l0 & Hw & Hl0 & Hlex & Hlen & Hjr & _).
    eapply IH; [exact Hm| |exact Hf|exact H]. constructor.
    + exact (rel_live _ _ R1 Hf).
    + discriminate.
    + destruct Hi as (be2 & -> & _). exists (be2 ++ [b]). split; [rewrite Hr, <- app_assoc; reflexivity|discriminate].
    + rewrite Ha. exact Hv.
    + exact Hnow.
    + intros acc2 jr2 fi Hx. rewrite Ha in Hx. injection Hx as <- <- <-. exists be, (token ++ [b]), l0.
      split; [rewrite Hw, Hr, <- app_assoc; reflexivity|]. split; [exact Hl0|]. split; [eapply lex_all_snoc; eassumption|].
      split; [rewrite !app_length; cbn [length g_slack]; lia|]. split; [intros _; destruct acc; discriminate|exact Hf].
  - destruct (a_vskip_prev a) as [a1|] eqn:E; [|discriminate]. destruct (vskip_prev_spec _ _ _ R' E) as (c1 & Hc & R1). rewrite Hc.
    pose proof (rest_vskip_prev _ _ E) as Hr.
    assert (Ha : exists acc, a_mode a = VActive acc true false /\ a_mode a1 = VActive (removelast acc) false false /\ a_failed a1 = false).
    { unfold a_vskip_prev in E. rewrite Hfa in E. destruct (a_mode a) as [|acc [|] [|]|]; try discriminate. exists acc. injection E as <-. repeat split. }
    destruct Ha as (acc & Ha0 & Ha & Hf). rewrite Ha0 in Hv.
    destruct (Hmode _ _ _ Ha0) as (be & token & l0 & Hw & Hl0 & Hlex & Hlen & Hjr & _). pose proof (length_removelast _ (Hjr eq_refl)) as Hrl.
    pose proof (rel_live _ _ R1 Hf) as R2.
    assert (Hcv : c_value c1 = None) by (unfold c_vskip_prev in Hc; some; exact Hv).
    eapply IH; [exact Hm| |exact Hf|exact H]. constructor.
    + exact R2.
    + rewrite Hr. exact Hn.
    + rewrite Hr. exact Hi.
    + rewrite Ha. exact Hcv.
    + pose proof (ro_mode _ _ R2) as M2. rewrite Ha in M2. pose proof (active_collected _ _ _ _ M2 Hcv).
      apply (token_now _ _ _ _ _ _ _ _ Hw Hl0 Hlex). lia.
    + intros acc2 jr2 fi Hx. rewrite Ha in Hx. injection Hx as <- <- <-. exists be, token, l0. rewrite Hr. cbn [slack sees g_lex g_slack g_peeked g_quote] in *; repeat split; try assumption; [lia|discriminate].
  - destruct (a_vskip_final a) as [a1|] eqn:E; [|discriminate]. pose proof (vskip_final_spec _ _ _ R' E) as R1.
    pose proof (rest_vskip_final _ _ E) as Hr.
    assert (Ha : exists acc, a_mode a = VActive acc true false /\ a_mode a1 = VActive (removelast acc) false true /\ a_failed a1 = false).
    { unfold a_vskip_final in E. rewrite Hfa in E. destruct (a_mode a) as [|acc [|] [|]|]; try discriminate. exists acc. injection E as <-. repeat split. }
    destruct Ha as (acc & Ha0 & Ha & Hf). rewrite Ha0 in Hv.
    destruct (Hmode _ _ _ Ha0) as (be & token & l0 & Hw & Hl0 & Hlex & Hlen & Hjr & _). pose proof (length_removelast _ (Hjr eq_refl)) as Hrl.
    eapply IH; [exact Hm| |exact Hf|exact H]. constructor.
    + exact (rel_live _ _ R1 Hf).
    + rewrite Hr. exact Hn.
    + rewrite Hr. exact Hi.
    + rewrite Ha. exact Hv.
    + exact Hnow.
    + intros acc2 jr2 fi Hx. rewrite Ha in Hx. injection Hx as <- <- <-. exists be, token, l0. rewrite Hr. cbn [slack sees g_lex g_slack g_peeked g_quote] in *; repeat split; try assumption; [lia|discriminate].
  - destruct (a_vpush bs a) as [a1|] eqn:E; [|discriminate]. destruct (vpush_spec _ _ _ _ R' E) as (c1 & Hc & R1). rewrite Hc.
    pose proof (rest_vpush _ _ _ E) as Hr. destruct Hm as [Hd Hm].
    assert (Ha : exists acc jr, a_mode a = VActive acc jr false /\ a_mode a1 = VActive (acc ++ bs) false false /\ a_failed a1 = false).
    { unfold a_vpush in E. rewrite Hfa in E. destruct (a_mode a) as [|acc jr [|]|]; try discriminate. exists acc, jr. injection E as <-. repeat split. }
    destruct Ha as (acc & jr & Ha0 & Ha & Hf). rewrite Ha0 in Hv.
    destruct (Hmode _ _ _ Ha0) as (be & token & l0 & Hw & Hl0 & Hlex & Hlen & Hjr & _).
    pose proof (rel_live _ _ R1 Hf) as R2.
    assert (Hcv : c_value c1 = None) by (unfold c_vpush in Hc; some; exact Hv).
    eapply IH; [exact Hm| |exact Hf|exact H]. constructor.
    + exact R2.
    + rewrite Hr. exact Hn.
    + rewrite Hr. exact Hi.
    + rewrite Ha. exact Hcv.
    + pose proof (ro_mode _ _ R2) as M2. rewrite Ha in M2. pose proof (active_collected _ _ _ _ M2 Hcv) as Hx. rewrite app_length in Hx.
      apply (token_now _ _ _ _ _ _ _ _ Hw Hl0 Hlex). lia.
    + intros acc2 jr2 fi Hx. rewrite Ha in Hx. injection Hx as <- <- <-. exists be, token, l0. rewrite Hr, app_length. cbn [slack sees g_lex g_slack g_peeked g_quote] in *; repeat split; try assumption; [lia|discriminate].
  - destruct (a_vget b a) as [a1|] eqn:E; [|discriminate]. destruct (vget_spec _ _ _ _ R' E) as (c1 & Hc & R1). rewrite Hc.
    pose proof (rest_vget _ _ _ E) as Hr.
    assert (Ha : exists acc jr fi, a_mode a = VActive acc jr fi /\ a_mode a1 = VGot acc b /\ a_failed a1 = false).
    { unfold a_vget in E. rewrite Hfa in E. destruct (a_mode a) as [|acc jr fi|]; try discriminate. exists acc, jr, fi. injection E as <-. repeat split. }
    destruct Ha as (acc & jr & fi & Ha0 & Ha & Hf). rewrite Ha0 in Hv.
    destruct (Hmode _ _ _ Ha0) as (be & token & l0 & Hw & Hl0 & Hlex & Hlen & Hjr & _).
    pose proof (rel_live _ _ R1 Hf) as R2. pose proof (ro_mode _ _ R) as M1. rewrite Ha0 in M1. destruct M1 as (_ & _ & _ & Hus & _).
    assert (Hcol : (collected c1 <= length acc)%nat).
    { pose proof (ro_mode _ _ R2) as M2. rewrite Ha in M2. destruct M2 as (v & Hv1 & Hv2).
      unfold collected. rewrite Hv1. unfold c_vget in Hc. some; cbn [set_value set_vbuf set_used c_value c_vbuf] in *; injection Hv1 as <-; cbn [value_rel] in Hv2;
        rewrite ?(Hus eq_refl); try rewrite Hus by assumption; cbn; try lia; destruct Hv2 as [_ Hv2]; cbn [set_value set_vbuf c_vbuf] in Hv2.
      all: try (rewrite Hv2; lia). all: destruct Hv2 as [Hv2 _]; rewrite Hv2; lia. }
    eapply IH; [exact Hm| |exact Hf|exact H]. constructor.
    + exact R2.
    + rewrite Hr. exact Hn.
    + rewrite Hr. exact Hi.
    + rewrite Ha. exact I.
    + apply (token_now _ _ _ _ _ _ _ _ Hw Hl0 Hlex). lia.
    + intros acc2 jr2 fi2 Hx. rewrite Ha in Hx. discriminate.
  - destruct (a_vstr_peek a) as [s|] eqn:E; [|discriminate]. rewrite (vstr_peek_spec _ _ _ R' E).
    eapply IH; [apply Hm| |exact Hfa|exact H]. constructor; assumption.
  - destruct (a_vstr a) as [[s a1]|] eqn:E; [|discriminate]. destruct (vstr_spec _ _ _ _ R' E) as (c1 & Hc & R1). rewrite Hc.
    pose proof (rest_vstr _ _ _ E) as Hr.
    assert (Ha : a_mode a1 = VNone /\ a_failed a1 = false).
    { unfold a_vstr in E. rewrite Hfa in E. destruct (a_mode a) as [| |gv [|]]; try discriminate. destruct (from_utf8 gv); [|discriminate]. injection E as _ <-. split; reflexivity. }
    destruct Ha as [Ha Hf].
    assert (Hcv : c_value c1 = None /\ (collected c1 <= collected c)%nat).
    { unfold c_vstr in Hc. some; (split; [reflexivity|]; unfold collected; cbn; lia). }
    eapply IH; [apply Hm| |exact Hf|exact H]. constructor.
    + exact (rel_live _ _ R1 Hf).
    + rewrite Hr. exact Hn.
    + rewrite Hr. exact Hi.
    + rewrite Ha. apply Hcv.
    + apply (tokens_le _ _ _ _ Hnow), Hcv.
    + intros acc2 jr2 fi2 Hx. rewrite Ha in Hx. discriminate.
  - destruct (a_vstring a) as [[s a1]|] eqn:E; [|discriminate]. destruct (vstring_spec _ _ _ _ R' E) as (c1 & Hc & R1). rewrite Hc.
    pose proof (rest_vstring _ _ _ E) as Hr.
    assert (Ha : a_mode a1 = VNone /\ a_failed a1 = false).
    { unfold a_vstring in E. rewrite Hfa in E. destruct (a_mode a) as [| |gv fg]; try discriminate. destruct (from_utf8 gv); [|discriminate]. injection E as _ <-. split; reflexivity. }
    destruct Ha as [Ha Hf].
    assert (Hcv : c_value c1 = None /\ (collected c1 <= collected c)%nat).
    { unfold c_vstring in Hc. some; (split; [reflexivity|]; unfold collected; cbn; lia). }
    eapply IH; [apply Hm| |exact Hf|exact H]. constructor.
    + exact (rel_live _ _ R1 Hf).
    + rewrite Hr. exact Hn.
    + rewrite Hr. exact Hi.
    + rewrite Ha. apply Hcv.
    + apply (tokens_le _ _ _ _ Hnow), Hcv.
    + intros acc2 jr2 fi2 Hx. rewrite Ha in Hx. discriminate.
Qed.
