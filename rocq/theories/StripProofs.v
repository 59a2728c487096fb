(** * A document without comments and trailing commas has the same data *)

From Verif Require Import Base Utf8Model Utf8Proofs SpecNumber SpecJson SourceModel ReaderModel ReaderGrammar SpecCursor SpecRead GrammarFacts SpecStrip.

Ltac bnum := repeat match goal with
  | |- context [?a =? ?b] => destruct (N.eqb_spec a b); try lia; try (exfalso; congruence)
  end.

Ltac splits := repeat match goal with |- _ /\ _ => split end.

(** ** Texts which a pass copies *)
Definition rc (sep t : bytes) := replace_comments sep Outside t.
Definition tc (t : bytes) := remove_trailing_commas Outside t.

Definition copied1 (sep x : bytes) : Prop := forall t, rc sep (x ++ t) = x ++ rc sep t.
Definition copied2 (x : bytes) : Prop := forall t, tc (x ++ t) = x ++ tc t.

Definition plain_byte (b : byte) : Prop := b <> 0x22 /\ b <> 0x2F /\ b <> 0x2C.

Lemma plain_copied1 sep x : Forall (fun b => b <> 0x22 /\ b <> 0x2F) x -> copied1 sep x.
Proof.
  unfold copied1, rc. induction 1 as [|b x (H1 & H2) _ IH]; intros t; [reflexivity|]. cbn [app replace_comments].
  destruct (N.eqb_spec b 0x2F); [contradiction|]. destruct (N.eqb_spec b 0x22); [contradiction|]. rewrite IH. reflexivity.
Qed.
Lemma plain_copied2 x : Forall (fun b => b <> 0x22 /\ b <> 0x2C) x -> copied2 x.
Proof.
  unfold copied2, tc. induction 1 as [|b x (H1 & H2) _ IH]; intros t; [reflexivity|]. cbn [app remove_trailing_commas].
  destruct (N.eqb_spec b 0x2C); [contradiction|]. destruct (N.eqb_spec b 0x22); [contradiction|]. cbn [andb]. rewrite IH. reflexivity.
Qed.

(** Strings *)
Lemma high_string1 sep x : Forall (fun b => b <> 0x22 /\ b <> 0x5C) x -> forall t,
  replace_comments sep InString (x ++ t) = x ++ replace_comments sep InString t.
Proof.
  induction 1 as [|b x (H1 & H2) _ IH]; intros t; [reflexivity|]. cbn [app replace_comments].
  destruct (N.eqb_spec b 0x22); [contradiction|]. destruct (N.eqb_spec b 0x5C); [contradiction|]. rewrite IH. reflexivity.
Qed.
Lemma high_string2 x : Forall (fun b => b <> 0x22 /\ b <> 0x5C) x -> forall t,
  remove_trailing_commas InString (x ++ t) = x ++ remove_trailing_commas InString t.
Proof.
  induction 1 as [|b x (H1 & H2) _ IH]; intros t; [reflexivity|]. cbn [app remove_trailing_commas].
  destruct (N.eqb_spec b 0x22); [contradiction|]. destruct (N.eqb_spec b 0x5C); [contradiction|]. rewrite IH. reflexivity.
Qed.

Lemma encode_char_other c d : is_char c -> d < 0x80 -> c <> d -> Forall (fun b => b <> d) (encode_char c).
Proof.
  intros Hc Hd Hn. destruct (N.ltb_spec c 0x80) as [H|H].
  - rewrite encode_char_1 by assumption. constructor; [assumption|constructor].
  - pose proof (encode_char_high c Hc H) as Hh. eapply Forall_impl; [|exact Hh]. intros b (Hb & _). lia.
Qed.
Lemma unescaped_plain c : unescaped c -> Forall (fun b => b <> 0x22 /\ b <> 0x5C) (encode_char c).
Proof.
  intros (Hc & _ & H1 & H2). apply Forall_forall. intros b Hb. split.
  - exact (proj1 (Forall_forall _ _) (encode_char_other c 0x22 Hc ltac:(lia) H1) b Hb).
  - exact (proj1 (Forall_forall _ _) (encode_char_other c 0x5C Hc ltac:(lia) H2) b Hb).
Qed.
Lemma hex_plain b v : hex_value b v -> b <> 0x22 /\ b <> 0x5C.
Proof. unfold hex_value. lia. Qed.
Lemma hex4_plain t v : hex4 t v -> Forall (fun b => b <> 0x22 /\ b <> 0x5C) t.
Proof. intros (h1 & h2 & h3 & h4 & v1 & v2 & v3 & v4 & -> & H1 & H2 & H3 & H4 & _). repeat (constructor; [eapply hex_plain; eassumption|]). constructor. Qed.

Lemma esc1 sep b t : replace_comments sep InString (0x5C :: b :: t) = 0x5C :: b :: replace_comments sep InString t.
Proof. reflexivity. Qed.
Lemma esc2 b t : remove_trailing_commas InString (0x5C :: b :: t) = 0x5C :: b :: remove_trailing_commas InString t.
Proof. reflexivity. Qed.

Lemma str_copied1 sep body s : str_text body s -> forall t, replace_comments sep InString (body ++ t) = body ++ replace_comments sep InString t.
Proof.
  induction 1; intros r; [reflexivity|..].
  - rewrite <- !app_assoc, (high_string1 sep _ (unescaped_plain _ H)), IHstr_text. reflexivity.
  - cbn [app]. rewrite esc1, IHstr_text. reflexivity.
  - cbn [app]. rewrite esc1, <- !app_assoc, (high_string1 sep _ (hex4_plain _ _ H)), IHstr_text. reflexivity.
  - cbn [app]. rewrite esc1, <- !app_assoc, (high_string1 sep _ (hex4_plain _ _ H)). cbn [app]. rewrite esc1, <- !app_assoc, (high_string1 sep _ (hex4_plain _ _ H0)), IHstr_text. reflexivity.
Qed.
Lemma str_copied2 body s : str_text body s -> forall t, remove_trailing_commas InString (body ++ t) = body ++ remove_trailing_commas InString t.
Proof.
  induction 1; intros r; [reflexivity|..].
  - rewrite <- !app_assoc, (high_string2 _ (unescaped_plain _ H)), IHstr_text. reflexivity.
  - cbn [app]. rewrite esc2, IHstr_text. reflexivity.
  - cbn [app]. rewrite esc2, <- !app_assoc, (high_string2 _ (hex4_plain _ _ H)), IHstr_text. reflexivity.
  - cbn [app]. rewrite esc2, <- !app_assoc, (high_string2 _ (hex4_plain _ _ H)). cbn [app]. rewrite esc2, <- !app_assoc, (high_string2 _ (hex4_plain _ _ H0)), IHstr_text. reflexivity.
Qed.

Lemma quoted_copied1 sep t s : quoted t s -> copied1 sep t.
Proof.
  intros (body & -> & H) r. unfold rc. cbn [app replace_comments]. change (0x22 =? 0x2F) with false. change (0x22 =? 0x22) with true. cbn iota.
  rewrite <- app_assoc, (str_copied1 sep _ _ H). cbn [app replace_comments]. change (0x22 =? 0x22) with true. cbn iota. rewrite <- app_assoc. reflexivity.
Qed.
Lemma quoted_copied2 t s : quoted t s -> copied2 t.
Proof.
  intros (body & -> & H) r. unfold tc. cbn [app remove_trailing_commas]. change (0x22 =? 0x2C) with false. change (0x22 =? 0x22) with true. cbn [andb].
  rewrite <- app_assoc, (str_copied2 _ _ H). cbn [app remove_trailing_commas]. change (0x22 =? 0x22) with true. cbn iota. rewrite <- app_assoc. reflexivity.
Qed.

Lemma copied1_app sep x y : copied1 sep x -> copied1 sep y -> copied1 sep (x ++ y).
Proof. intros Hx Hy t. rewrite <- !app_assoc, Hx, Hy. reflexivity. Qed.
Lemma copied2_app x y : copied2 x -> copied2 y -> copied2 (x ++ y).
Proof. intros Hx Hy t. rewrite <- !app_assoc, Hx, Hy. reflexivity. Qed.

Lemma digit_plain b : digit b -> plain_byte b.
Proof. unfold digit, plain_byte. lia. Qed.
Lemma number_chars t : number_text t -> Forall number_char t.
Proof.
  assert (Hds : forall ds, Forall digit ds -> Forall number_char ds) by (intros ds; apply Forall_impl; intros b; left; assumption).
  intros (n & m & i & f & e & -> & Hm & Hi & Hf & He). rewrite !Forall_app. splits.
  - destruct Hm as [->| ->]; [constructor|constructor; [unfold number_char; tauto|constructor]].
  - destruct Hi as [->|(d & ds & -> & Hd & H)]; [constructor; [left; unfold digit; lia|constructor]|]. constructor; [left; unfold digit; lia|auto].
  - destruct Hf as [->|(ds & -> & _ & H)]; [constructor|]. constructor; [unfold number_char; tauto|auto].
  - destruct He as [(-> & _)|(x & sg & ds & -> & Hx & Hs & (_ & H) & _)]; [constructor|].
    constructor; [unfold number_char; tauto|]. apply Forall_app. split; [|auto].
    destruct Hs as [->|[->| ->]]; [constructor|..]; (constructor; [unfold number_char; tauto|constructor]).
Qed.
Lemma number_char_plain b : number_char b -> plain_byte b.
Proof. unfold number_char, digit, plain_byte. lia. Qed.
Lemma plain1 sep x : Forall plain_byte x -> copied1 sep x.
Proof. intros H. apply plain_copied1. eapply Forall_impl; [|exact H]. unfold plain_byte. tauto. Qed.
Lemma plain2 x : Forall plain_byte x -> copied2 x.
Proof. intros H. apply plain_copied2. eapply Forall_impl; [|exact H]. unfold plain_byte. tauto. Qed.
Lemma number_plain t : number_text t -> Forall plain_byte t.
Proof. intros H. eapply Forall_impl; [|exact (number_chars t H)]. exact number_char_plain. Qed.

(** ** Whitespace and comments *)
Lemma line_body_removed sep body : line_comment_body body -> forall t,
  replace_comments sep InLine (body ++ t) = replace_comments sep InLine t.
Proof.
  intros (cs & -> & H) t.
  assert (Hb : Forall (fun b => b <> 0x0A /\ b <> 0x0D) (encode_utf8 cs)).
  { induction H as [|c cs ((Hc & _) & Hn) _ IH]; [constructor|]. rewrite encode_utf8_cons. apply Forall_app. split; [|exact IH].
    apply Forall_forall. intros b Hb. unfold line_break in Hn. split.
    - exact (proj1 (Forall_forall _ _) (encode_char_other c 0x0A Hc ltac:(lia) ltac:(tauto)) b Hb).
    - exact (proj1 (Forall_forall _ _) (encode_char_other c 0x0D Hc ltac:(lia) ltac:(tauto)) b Hb). }
  induction Hb as [|b x (H1 & H2) _ IH]; [reflexivity|]. cbn [app replace_comments].
  destruct (N.eqb_spec b 0x0A); [contradiction|]. destruct (N.eqb_spec b 0x0D); [contradiction|]. exact IH.
Qed.

Lemma block_body_removed sep body : ~ (exists t1 t2, body = t1 ++ [0x2A; 0x2F] ++ t2) -> forall t,
  replace_comments sep InBlock (body ++ [0x2A; 0x2F] ++ t) = rc sep t /\
  ((forall x, body <> 0x2F :: x) -> replace_comments sep InBlockStar (body ++ [0x2A; 0x2F] ++ t) = rc sep t).
Proof.
  induction body as [|b body IH]; intros Hn t; [split; reflexivity|].
  assert (Hn' : ~ (exists t1 t2, body = t1 ++ [0x2A; 0x2F] ++ t2)).
  { intros (t1 & t2 & ->). apply Hn. exists (b :: t1), t2. reflexivity. }
  destruct (IH Hn' t) as (IH1 & IH2).
  assert (Hnext : b = 0x2A -> replace_comments sep InBlockStar (body ++ [0x2A; 0x2F] ++ t) = rc sep t).
  { intros ->. apply IH2. intros x ->. apply Hn. exists [], x. reflexivity. }
  assert (Hstep : replace_comments sep (if b =? 0x2A then InBlockStar else InBlock) (body ++ [0x2A; 0x2F] ++ t) = rc sep t).
  { destruct (N.eqb_spec b 0x2A) as [E|_]; [exact (Hnext E)|exact IH1]. }
  split.
  - exact Hstep.
  - intros Hx. cbn [app] in *. cbn [replace_comments]. destruct (N.eqb_spec b 0x2F) as [->|_]; [destruct (Hx body eq_refl)|]. exact Hstep.
Qed.

Definition gap (x : bytes) : Prop := Forall ws_byte x.

Lemma gap_text sx x : gap x -> ws_text sx x.
Proof. induction 1; constructor; auto. Qed.
Lemma text_gap b x : ws_text (Syntax false b) x -> gap x.
Proof. induction 1; try discriminate; constructor; auto. Qed.
Lemma ws_plain b : ws_byte b -> plain_byte b.
Proof. unfold ws_byte, plain_byte. lia. Qed.
Lemma gap_plain x : gap x -> Forall plain_byte x.
Proof. intros H. eapply Forall_impl; [|exact H]. exact ws_plain. Qed.
Lemma gap_app x y : gap x -> gap y -> gap (x ++ y).
Proof. intros Hx Hy. apply Forall_app. auto. Qed.

(** [x] becomes [x'] wherever it occurs *)
Definition becomes1 (sep x x' : bytes) : Prop := forall t, rc sep (x ++ t) = x' ++ rc sep t.
Definition becomes2 (x x' : bytes) : Prop := forall t, tc (x ++ t) = x' ++ tc t.

Lemma becomes1_app sep x x' y y' : becomes1 sep x x' -> becomes1 sep y y' -> becomes1 sep (x ++ y) (x' ++ y').
Proof. intros Hx Hy t. rewrite <- !app_assoc, Hx, Hy. reflexivity. Qed.
Lemma becomes2_app x x' y y' : becomes2 x x' -> becomes2 y y' -> becomes2 (x ++ y) (x' ++ y').
Proof. intros Hx Hy t. rewrite <- !app_assoc, Hx, Hy. reflexivity. Qed.

Lemma open_line sep t : rc sep ([0x2F; 0x2F] ++ t) = sep ++ replace_comments sep InLine t.
Proof. reflexivity. Qed.
Lemma open_block sep t : rc sep ([0x2F; 0x2A] ++ t) = sep ++ replace_comments sep InBlock t.
Proof. reflexivity. Qed.

Lemma ws_becomes sep sx w : gap sep -> ws_text sx w -> exists w', gap w' /\ becomes1 sep w w'.
Proof.
  intros Hsep. induction 1 as [|b t Hb _ (w' & Hw & IH)|body b t Hc Hbody Hb _ (w' & Hw & IH)|body t Hc Hbody _ (w' & Hw & IH)].
  - exists []. split; [constructor|intros t; reflexivity].
  - exists (b :: w'). split; [constructor; assumption|].
    apply (becomes1_app sep [b] [b] t w'); [|exact IH]. apply plain1. constructor; [exact (ws_plain b Hb)|constructor].
  - exists (sep ++ b :: w'). split; [apply gap_app; [assumption|]; constructor; [|assumption]; unfold line_break, ws_byte in *; tauto|].
    intros r. rewrite <- !app_assoc, open_line, (line_body_removed sep body Hbody). f_equal. cbn [app replace_comments].
    destruct Hb as [->| ->]; exact (f_equal (cons _) (IH r)).
  - exists (sep ++ w'). split; [apply gap_app; assumption|].
    intros r. rewrite <- !app_assoc, open_block. f_equal.
    rewrite (proj1 (block_body_removed sep body (proj2 Hbody) (t ++ r))). apply IH.
Qed.

Lemma final_becomes sep sx w : gap sep -> final_ws_text sx w -> exists w', gap w' /\ rc sep w = w'.
Proof.
  intros Hsep [H|(t1 & body & -> & H & _ & Hb)].
  - destruct (ws_becomes sep sx w Hsep H) as (w' & Hw & Hx). exists w'. split; [exact Hw|]. specialize (Hx []). rewrite !app_nil_r in Hx. exact Hx.
  - destruct (ws_becomes sep sx t1 Hsep H) as (w' & Hw & Hx). exists (w' ++ sep). split; [apply gap_app; assumption|].
    rewrite Hx, open_line. pose proof (line_body_removed sep body Hb []) as Hl. rewrite app_nil_r in Hl. rewrite Hl. cbn. rewrite app_nil_r. reflexivity.
Qed.

(** ** The first pass *)
Ltac word := repeat (constructor; [unfold plain_byte; lia|]); constructor.

Lemma pass1_values sep sx : gap sep ->
  let sx' := Syntax false (trailing_commas sx) in
  (forall v t, value_text sx v t -> exists t', value_text sx' v t' /\ becomes1 sep t t') /\
  (forall f vs t, items_text sx f vs t -> exists t', items_text sx' f vs t' /\ becomes1 sep t t') /\
  (forall f ms t, members_text sx f ms t -> exists t', members_text sx' f ms t' /\ becomes1 sep t t').
Proof.
  intros Hsep sx'.
  assert (Hg : forall w, ws_text sx w -> exists w', ws_text sx' w' /\ becomes1 sep w w').
  { intros w Hw. destruct (ws_becomes sep sx w Hsep Hw) as (w' & H1 & H2). exists w'. split; [apply gap_text, H1|exact H2]. }
  assert (Hp : forall x, Forall plain_byte x -> becomes1 sep x x) by (intros x; apply plain1).
  assert (Hpb : forall x, plain_byte x -> becomes1 sep [x] [x]) by (intros x Hx; apply Hp; constructor; [exact Hx|constructor]).
  assert (Hcomma : becomes1 sep [0x2C] [0x2C]) by (apply plain_copied1; constructor; [lia|constructor]).
  apply (value_items_members_ind sx (fun v t _ => exists t', value_text sx' v t' /\ becomes1 sep t t')
    (fun f vs t _ => exists t', items_text sx' f vs t' /\ becomes1 sep t t') (fun f ms t _ => exists t', members_text sx' f ms t' /\ becomes1 sep t t')).
  - exists lit_null. split; [constructor|]. apply Hp. word.
  - exists lit_true. split; [constructor|]. apply Hp. word.
  - exists lit_false. split; [constructor|]. apply Hp. word.
  - intros t H. exists t. split; [constructor; exact H|]. apply Hp, number_plain, H.
  - intros t s H. exists t. split; [constructor; exact H|]. exact (quoted_copied1 sep t s H).
  - intros vs t _ (t' & H1 & H2). exists ([0x5B] ++ t'). split; [constructor; exact H1|]. apply becomes1_app; [apply Hpb; unfold plain_byte; lia|exact H2].
  - intros vs t _ (t' & H1 & H2). exists ([0x7B] ++ t'). split; [constructor; exact H1|]. apply becomes1_app; [apply Hpb; unfold plain_byte; lia|exact H2].
  - intros f w Hw. destruct (Hg w Hw) as (w' & H1 & H2). exists (w' ++ [0x5D]). split; [constructor; exact H1|]. apply becomes1_app; [exact H2|]. apply Hpb; unfold plain_byte; lia.
  - intros w1 w2 Ht Hw1 Hw2. destruct (Hg w1 Hw1) as (w1' & H1 & H2). destruct (Hg w2 Hw2) as (w2' & H3 & H4). exists (w1' ++ [0x2C] ++ w2' ++ [0x5D]).
    split; [apply IT_trailing; auto|]. repeat (apply becomes1_app; try assumption). apply Hpb; unfold plain_byte; lia.
  - intros w v t vs t2 Hw _ (t' & H1 & H2) _ (t2' & H3 & H4). destruct (Hg w Hw) as (w' & H5 & H6). exists (w' ++ t' ++ t2').
    split; [constructor; assumption|]. repeat (apply becomes1_app; try assumption).
  - intros w1 w2 v t vs t2 Hw1 Hw2 _ (t' & H1 & H2) _ (t2' & H3 & H4). destruct (Hg w1 Hw1) as (w1' & H5 & H6). destruct (Hg w2 Hw2) as (w2' & H7 & H8).
    exists (w1' ++ [0x2C] ++ w2' ++ t' ++ t2'). split; [constructor; assumption|]. repeat (apply becomes1_app; try assumption).
  - intros f w Hw. destruct (Hg w Hw) as (w' & H1 & H2). exists (w' ++ [0x7D]). split; [constructor; exact H1|]. apply becomes1_app; [exact H2|]. apply Hpb; unfold plain_byte; lia.
  - intros w1 w2 Ht Hw1 Hw2. destruct (Hg w1 Hw1) as (w1' & H1 & H2). destruct (Hg w2 Hw2) as (w2' & H3 & H4). exists (w1' ++ [0x2C] ++ w2' ++ [0x7D]).
    split; [apply MT_trailing; auto|]. repeat (apply becomes1_app; try assumption). apply Hpb; unfold plain_byte; lia.
  - intros w n tn w1 w2 v t ms t2 Hw Hn Hw1 Hw2 _ (t' & H1 & H2) _ (t2' & H3 & H4).
    destruct (Hg w Hw) as (w' & H9 & H10). destruct (Hg w1 Hw1) as (w1' & H5 & H6). destruct (Hg w2 Hw2) as (w2' & H7 & H8).
    exists (w' ++ tn ++ w1' ++ [0x3A] ++ w2' ++ t' ++ t2'). split; [constructor; assumption|].
    pose proof (quoted_copied1 sep tn n Hn) as Hq. pose proof (Hpb 0x3A ltac:(unfold plain_byte; lia)) as Hc. repeat (apply becomes1_app; try assumption).
  - intros w0 w n tn w1 w2 v t ms t2 Hw0 Hw Hn Hw1 Hw2 _ (t' & H1 & H2) _ (t2' & H3 & H4).
    destruct (Hg w0 Hw0) as (w0' & H11 & H12). destruct (Hg w Hw) as (w' & H9 & H10). destruct (Hg w1 Hw1) as (w1' & H5 & H6). destruct (Hg w2 Hw2) as (w2' & H7 & H8).
    exists (w0' ++ [0x2C] ++ w' ++ tn ++ w1' ++ [0x3A] ++ w2' ++ t' ++ t2'). split; [constructor; assumption|].
    pose proof (quoted_copied1 sep tn n Hn) as Hq. pose proof (Hpb 0x3A ltac:(unfold plain_byte; lia)) as Hc. repeat (apply becomes1_app; try assumption).
Qed.

(** ** The second pass *)
Lemma closing_gap w t : gap w -> closing (w ++ t) = closing t.
Proof.
  induction 1 as [|b w Hb _ IH]; [reflexivity|]. cbn [app closing]. rewrite IH.
  destruct Hb as [->|[->|[->| ->]]]; reflexivity.
Qed.

Definition opens (t : bytes) : Prop := forall r, closing (t ++ r) = false.
Lemma opens_head b t : b <> 0x5D -> b <> 0x7D -> ~ ws_byte b -> opens (b :: t).
Proof.
  intros H1 H2 H3 r. unfold ws_byte in H3. cbn [app closing].
  destruct (N.eqb_spec b 0x20); [tauto|]. destruct (N.eqb_spec b 0x09); [tauto|]. destruct (N.eqb_spec b 0x0A); [tauto|]. destruct (N.eqb_spec b 0x0D); [tauto|].
  cbn [orb]. destruct (N.eqb_spec b 0x5D); [contradiction|]. destruct (N.eqb_spec b 0x7D); [contradiction|]. reflexivity.
Qed.
Lemma quoted_opens t s : quoted t s -> opens t.
Proof. intros (body & -> & _). apply opens_head; [lia|lia|unfold ws_byte; lia]. Qed.
Lemma value_opens sx v t : value_text sx v t -> opens t.
Proof.
  destruct 1.
  - apply opens_head; [lia|lia|unfold ws_byte; lia].
  - apply opens_head; [lia|lia|unfold ws_byte; lia].
  - apply opens_head; [lia|lia|unfold ws_byte; lia].
  - pose proof (number_chars t H) as Hc. destruct t as [|b t].
    + destruct H as (n & m & i & f & e & He & Hm & Hi & _). symmetry in He. apply app_eq_nil in He as (-> & He). apply app_eq_nil in He as (-> & _).
      destruct Hi as [Hi|(d & ds & Hi & _)]; discriminate.
    + inversion Hc; subst. unfold number_char, digit in *. apply opens_head; [lia|lia|unfold ws_byte; lia].
  - eapply quoted_opens; eassumption.
  - apply opens_head; [lia|lia|unfold ws_byte; lia].
  - apply opens_head; [lia|lia|unfold ws_byte; lia].
Qed.

Lemma comma_kept w x r : gap w -> opens x -> tc (0x2C :: w ++ x ++ r) = 0x2C :: tc (w ++ x ++ r).
Proof.
  intros Hw Hx. unfold tc. cbn [remove_trailing_commas]. rewrite (closing_gap w _ Hw), Hx. reflexivity.
Qed.
Lemma comma_dropped w b r : gap w -> b = 0x5D \/ b = 0x7D -> tc (0x2C :: w ++ b :: r) = tc (w ++ b :: r).
Proof.
  intros Hw Hb. unfold tc. cbn [remove_trailing_commas]. rewrite (closing_gap w _ Hw). cbn [closing]. destruct Hb as [->| ->]; reflexivity.
Qed.

Lemma comma_becomes w x x' : gap w -> opens x -> becomes2 x x' -> becomes2 ([0x2C] ++ w ++ x) ([0x2C] ++ w ++ x').
Proof.
  intros Hw Ho Hx r. cbn [app]. rewrite <- !app_assoc, (comma_kept w x r Hw Ho), (plain2 w (gap_plain w Hw)), Hx. reflexivity.
Qed.
Lemma opens_app x y : opens x -> opens (x ++ y).
Proof. intros H r. rewrite <- app_assoc. apply H. Qed.

Lemma pass2_values b :
  let sx := Syntax false b in
  (forall v t, value_text sx v t -> exists t', value_text rfc8259 v t' /\ becomes2 t t') /\
  (forall f vs t, items_text sx f vs t -> exists t', items_text rfc8259 f vs t' /\ becomes2 t t') /\
  (forall f ms t, members_text sx f ms t -> exists t', members_text rfc8259 f ms t' /\ becomes2 t t').
Proof.
  intros sx.
  assert (Hg : forall w, ws_text sx w -> ws_text rfc8259 w /\ becomes2 w w).
  { intros w Hw. apply text_gap in Hw. split; [apply gap_text, Hw|apply plain2, gap_plain, Hw]. }
  assert (Hp : forall x, Forall plain_byte x -> becomes2 x x) by (intros x; apply plain2).
  assert (Hpb : forall x, plain_byte x -> becomes2 [x] [x]) by (intros x Hx; apply Hp; constructor; [exact Hx|constructor]).
  assert (Hlast : forall w1 w2 x, ws_text sx w1 -> ws_text sx w2 -> x = 0x5D \/ x = 0x7D -> becomes2 (w1 ++ [0x2C] ++ w2 ++ [x]) ((w1 ++ w2) ++ [x])).
  { intros w1 w2 x Hw1 Hw2 Hx. rewrite <- app_assoc. apply becomes2_app; [apply Hg, Hw1|]. intros r. rewrite <- !app_assoc. cbn [app].
    rewrite (comma_dropped w2 x r (text_gap _ _ Hw2) Hx), (proj2 (Hg w2 Hw2)). f_equal. apply (Hpb x). unfold plain_byte. destruct Hx; subst; lia. }
  apply (value_items_members_ind sx (fun v t _ => exists t', value_text rfc8259 v t' /\ becomes2 t t')
    (fun f vs t _ => exists t', items_text rfc8259 f vs t' /\ becomes2 t t') (fun f ms t _ => exists t', members_text rfc8259 f ms t' /\ becomes2 t t')).
  - exists lit_null. split; [constructor|]. apply Hp. word.
  - exists lit_true. split; [constructor|]. apply Hp. word.
  - exists lit_false. split; [constructor|]. apply Hp. word.
  - intros t H. exists t. split; [constructor; exact H|]. apply Hp, number_plain, H.
  - intros t s H. exists t. split; [constructor; exact H|]. exact (quoted_copied2 t s H).
  - intros vs t _ (t' & H1 & H2). exists ([0x5B] ++ t'). split; [constructor; exact H1|]. apply becomes2_app; [apply Hpb; unfold plain_byte; lia|exact H2].
  - intros vs t _ (t' & H1 & H2). exists ([0x7B] ++ t'). split; [constructor; exact H1|]. apply becomes2_app; [apply Hpb; unfold plain_byte; lia|exact H2].
  - intros f w Hw. destruct (Hg w Hw) as (H1 & H2). exists (w ++ [0x5D]). split; [constructor; exact H1|]. apply becomes2_app; [exact H2|]. apply Hpb; unfold plain_byte; lia.
  - intros w1 w2 Ht Hw1 Hw2. exists ((w1 ++ w2) ++ [0x5D]). split; [|apply Hlast; auto].
    constructor. apply gap_text, gap_app; eapply text_gap; eassumption.
  - intros w v t vs t2 Hw _ (t' & H1 & H2) _ (t2' & H3 & H4). destruct (Hg w Hw) as (H5 & H6). exists (w ++ t' ++ t2').
    split; [constructor; assumption|]. repeat (apply becomes2_app; try assumption).
  - intros w1 w2 v t vs t2 Hw1 Hw2 Hv (t' & H1 & H2) _ (t2' & H3 & H4). destruct (Hg w1 Hw1) as (H5 & H6). destruct (Hg w2 Hw2) as (H7 & H8).
    exists (w1 ++ [0x2C] ++ w2 ++ t' ++ t2'). split; [constructor; assumption|]. apply becomes2_app; [exact H6|].
    apply comma_becomes; [eapply text_gap, Hw2|apply opens_app; eapply value_opens, Hv|]. apply becomes2_app; assumption.
  - intros f w Hw. destruct (Hg w Hw) as (H1 & H2). exists (w ++ [0x7D]). split; [constructor; exact H1|]. apply becomes2_app; [exact H2|]. apply Hpb; unfold plain_byte; lia.
  - intros w1 w2 Ht Hw1 Hw2. exists ((w1 ++ w2) ++ [0x7D]). split; [|apply Hlast; auto].
    constructor. apply gap_text, gap_app; eapply text_gap; eassumption.
  - intros w n tn w1 w2 v t ms t2 Hw Hn Hw1 Hw2 _ (t' & H1 & H2) _ (t2' & H3 & H4).
    destruct (Hg w Hw) as (H9 & H10). destruct (Hg w1 Hw1) as (H5 & H6). destruct (Hg w2 Hw2) as (H7 & H8).
    exists (w ++ tn ++ w1 ++ [0x3A] ++ w2 ++ t' ++ t2'). split; [constructor; assumption|].
    pose proof (quoted_copied2 tn n Hn) as Hq. pose proof (Hpb 0x3A ltac:(unfold plain_byte; lia)) as Hc. repeat (apply becomes2_app; try assumption).
  - intros w0 w n tn w1 w2 v t ms t2 Hw0 Hw Hn Hw1 Hw2 _ (t' & H1 & H2) _ (t2' & H3 & H4).
    destruct (Hg w0 Hw0) as (H11 & H12). destruct (Hg w Hw) as (H9 & H10). destruct (Hg w1 Hw1) as (H5 & H6). destruct (Hg w2 Hw2) as (H7 & H8).
    exists (w0 ++ [0x2C] ++ w ++ tn ++ w1 ++ [0x3A] ++ w2 ++ t' ++ t2'). split; [constructor; assumption|].
    pose proof (quoted_copied2 tn n Hn) as Hq. pose proof (Hpb 0x3A ltac:(unfold plain_byte; lia)) as Hc. apply becomes2_app; [exact H12|].
    apply comma_becomes; [eapply text_gap, Hw|apply opens_app; eapply quoted_opens, Hn|]. repeat (apply becomes2_app; try assumption).
Qed.

(** ** Documents *)
Lemma strip_document sep sx v t : gap sep -> document_text sx v t -> rfc8259_document v (without_extensions sep t).
Proof.
  intros Hsep (w1 & tv & w2 & -> & H1 & H2 & H3). destruct (ws_becomes sep sx w1 Hsep H1) as (w1' & Hg1 & Hb1).
  destruct (proj1 (pass1_values sep sx Hsep) v tv H2) as (tv1 & Hv1 & Hbv1). destruct (final_becomes sep sx w2 Hsep H3) as (w2' & Hg2 & Hb2).
  destruct (proj1 (pass2_values _) v tv1 Hv1) as (tv2 & Hv2 & Hbv2).
  exists w1', tv2, w2'. splits; [|apply gap_text, Hg1|exact Hv2|left; apply gap_text, Hg2].
  unfold without_extensions. fold (rc sep (w1 ++ tv ++ w2)). rewrite Hb1, Hbv1, Hb2. fold (tc (w1' ++ tv1 ++ w2')).
  rewrite (plain2 w1' (gap_plain _ Hg1)), Hbv2. rewrite <- (app_nil_r w2') at 1. rewrite (plain2 w2' (gap_plain _ Hg2)). cbn. rewrite app_nil_r. reflexivity.
Qed.

(** Several documents *)
Lemma starts_gap_pass1 sep t : gap sep -> sep <> [] -> starts_gap t -> starts_gap (rc sep t).
Proof.
  intros Hg Hs Ht. destruct t as [|b t]; [exact I|]. destruct Ht as [Hb| ->].
  - pose proof (plain1 sep [b] ltac:(constructor; [apply ws_plain, Hb|constructor]) t) as H. cbn [app] in H. rewrite H. left. exact Hb.
  - destruct Hg as [|c sep Hc Hg]; [contradiction|]. unfold rc. cbn [replace_comments]. change (0x2F =? 0x2F) with true. cbn iota.
    destruct t as [|b2 t]; [right; reflexivity|]. cbn [replace_comments]. destruct (b2 =? 0x2F); [left; exact Hc|]. destruct (b2 =? 0x2A); [left; exact Hc|]. right. reflexivity.
Qed.
Lemma starts_gap_pass2 t : starts_gap t -> starts_gap (tc t).
Proof.
  destruct t as [|b t]; [intros _; exact I|]. intros H. unfold tc. cbn [remove_trailing_commas starts_gap] in *.
  destruct (N.eqb_spec b 0x2C) as [->|_]; [unfold ws_byte in H; lia|]. cbn [andb starts_gap]. exact H.
Qed.

Lemma strip_stream sep sx vs t : gap sep -> sep <> [] -> stream_text sx vs t -> stream_text rfc8259 vs (without_extensions sep t).
Proof.
  intros Hsep Hne H. unfold without_extensions. fold (rc sep t). fold (tc (rc sep t)). induction H as [t H|w v tv vs t H1 H2 _ IH H3].
  - destruct (final_becomes sep sx t Hsep H) as (w' & Hg & ->). constructor. left. pose proof (plain2 w' (gap_plain _ Hg) []) as Hx. rewrite app_nil_r in Hx.
    rewrite Hx. cbn. rewrite app_nil_r. apply gap_text, Hg.
  - destruct (ws_becomes sep sx w Hsep H1) as (w' & Hg & Hb). destruct (proj1 (pass1_values sep sx Hsep) v tv H2) as (tv1 & Hv1 & Hbv1).
    destruct (proj1 (pass2_values _) v tv1 Hv1) as (tv2 & Hv2 & Hbv2).
    rewrite Hb, Hbv1, (plain2 w' (gap_plain _ Hg)), Hbv2. constructor; [apply gap_text, Hg|exact Hv2|exact IH|].
    intros Hw. apply starts_gap_pass2, starts_gap_pass1; auto.
Qed.

Definition plain_settings (s : settings) : settings :=
  Settings false false (allow_multiple_top_level s) (track_path s) (max_nesting_depth s) (restrict_number_values s).

Lemma strip_input sep s vs t : gap sep -> allow_multiple_top_level s = false \/ sep <> [] -> input_text s vs t ->
  input_text (plain_settings s) vs (without_extensions sep t).
Proof.
  intros Hg Hm. unfold input_text. cbn [allow_multiple_top_level plain_settings]. destruct (allow_multiple_top_level s).
  - destruct Hm as [Hm|Hm]; [discriminate|]. intros (H1 & H2). split; [exact H1|]. exact (strip_stream sep _ _ _ Hg Hm H2).
  - intros (v & -> & H). exists v. split; [reflexivity|]. exact (strip_document sep _ v t Hg H).
Qed.
