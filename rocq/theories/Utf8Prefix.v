(** * More facts about UTF-8: start bytes, and prefixes of encoded text *)

From Verif Require Import Base Utf8Model Utf8Proofs WriterModel SpecWriter.

(** Number of bytes announced by a start byte *)
Definition start_len (b : byte) : option nat :=
  if is_1byte b then Some 1%nat
  else if is_2byte_start b then Some 2%nat
  else if is_3byte_start b then Some 3%nat
  else if is_4byte_start b then Some 4%nat
  else None.

Definition is_cont (b : byte) : Prop := is_continuation b = true /\ start_len b = None.

Lemma is_cont_range b : 0x80 <= b <= 0xBF -> is_cont b.
Proof.
  intros H. assert (Hb : is_byte b) by (unfold is_byte; lia). unfold is_cont, start_len, is_1byte.
  rewrite is_continuation_range, is_2byte_start_range, is_3byte_start_range, is_4byte_start_range by exact Hb.
  split; [apply in_range_iff; lia|].
  destruct (N.leb_spec b 0x7F); [lia|].
  repeat match goal with |- context[in_range ?a ?c ?x] =>
    let E := fresh in destruct (in_range a c x) eqn:E; [apply in_range_iff in E; lia|] end.
  reflexivity.
Qed.

Ltac range_true E := let H := fresh in
  match type of E with ?lhs = ?rhs => assert (H : lhs = true); [apply in_range_iff; lia|]; rewrite H in E end.

Lemma start_len_2 b : 0xC0 <= b <= 0xDF -> start_len b = Some 2%nat.
Proof.
  intros H. assert (Hb : is_byte b) by (unfold is_byte; lia). unfold start_len, is_1byte.
  rewrite is_2byte_start_range by exact Hb. destruct (N.leb_spec b 0x7F); [lia|].
  replace (in_range 0xC0 0xDF b) with true by (symmetry; apply in_range_iff; lia). reflexivity.
Qed.
Lemma start_len_3 b : 0xE0 <= b <= 0xEF -> start_len b = Some 3%nat.
Proof.
  intros H. assert (Hb : is_byte b) by (unfold is_byte; lia). unfold start_len, is_1byte.
  rewrite is_2byte_start_range, is_3byte_start_range by exact Hb. destruct (N.leb_spec b 0x7F); [lia|].
  replace (in_range 0xC0 0xDF b) with false by (symmetry; apply in_range_false; lia).
  replace (in_range 0xE0 0xEF b) with true by (symmetry; apply in_range_iff; lia). reflexivity.
Qed.
Lemma start_len_4 b : 0xF0 <= b <= 0xF7 -> start_len b = Some 4%nat.
Proof.
  intros H. assert (Hb : is_byte b) by (unfold is_byte; lia). unfold start_len, is_1byte.
  rewrite is_2byte_start_range, is_3byte_start_range, is_4byte_start_range by exact Hb. destruct (N.leb_spec b 0x7F); [lia|].
  replace (in_range 0xC0 0xDF b) with false by (symmetry; apply in_range_false; lia).
  replace (in_range 0xE0 0xEF b) with false by (symmetry; apply in_range_false; lia).
  replace (in_range 0xF0 0xF7 b) with true by (symmetry; apply in_range_iff; lia). reflexivity.
Qed.

Lemma start_len_bounds b n : start_len b = Some n -> (1 <= n <= 4)%nat.
Proof.
  unfold start_len. destruct (is_1byte b), (is_2byte_start b), (is_3byte_start b), (is_4byte_start b);
    intros [= <-]; lia.
Qed.

Lemma encode_char_head c : is_char c -> exists b r, encode_char c = b :: r /\
  start_len b = Some (S (length r)) /\ Forall is_cont r.
Proof.
  intros Hc. unfold is_char in Hc. unfold encode_char.
  destruct (N.ltb_spec c 0x80); [|destruct (N.ltb_spec c 0x800); [|destruct (N.ltb_spec c 0x10000)]];
    eexists _, _; (split; [reflexivity|split]).
  - unfold start_len, is_1byte. destruct (N.leb_spec c 0x7F); [reflexivity|lia].
  - constructor.
  - apply start_len_2. lia.
  - repeat constructor; apply is_cont_range; lia.
  - apply start_len_3. lia.
  - repeat constructor; apply is_cont_range; lia.
  - apply start_len_4. lia.
  - repeat constructor; apply is_cont_range; lia.
Qed.

(** The bytes of encoded text are start bytes with all their bytes behind them,
    or continuation bytes. *)
Lemma encode_utf8_nth s : forall rest i, Forall is_char s -> (i < length (encode_utf8 s))%nat ->
  exists b, nth_error (encode_utf8 s ++ rest) i = Some b /\
    ((exists n, start_len b = Some n /\ (i + n <= length (encode_utf8 s))%nat) \/ is_cont b).
Proof.
  induction s as [|c s IH]; intros rest i Hs Hi; [cbn in Hi; lia|].
  apply Forall_cons_iff in Hs as [Hc Hs].
  destruct (encode_char_head c Hc) as (b & r & He & Hl & Hr).
  rewrite encode_utf8_cons, app_length in *. rewrite <- app_assoc.
  destruct (Nat.lt_ge_cases i (length (encode_char c))) as [Hlt|Hge].
  - rewrite nth_error_app1 by exact Hlt. rewrite He in *. destruct i as [|i].
    + exists b. split; [reflexivity|]. left. exists (S (length r)). split; [exact Hl|]. cbn. lia.
    + cbn. cbn in Hlt. destruct (nth_error r i) as [x|] eqn:Ex.
      * exists x. split; [reflexivity|]. right. rewrite Forall_forall in Hr. apply Hr. eapply nth_error_In, Ex.
      * apply nth_error_None in Ex. lia.
  - rewrite nth_error_app2 by exact Hge.
    destruct (IH rest (i - length (encode_char c))%nat Hs ltac:(lia)) as (x & Hx & Hx').
    exists x. split; [exact Hx|]. destruct Hx' as [(n & Hn & Hle)|Hx']; [left|right; exact Hx'].
    exists n. split; [exact Hn|]. lia.
Qed.

(** A proper, non-empty prefix of the encoding of a character, or nothing *)
Definition partial_char (t : bytes) : Prop :=
  t = [] \/ exists c more, is_char c /\ encode_char c = t ++ more /\ t <> [] /\ more <> [].

Lemma utf8_prefix_split bs : utf8_prefix bs ->
  exists s tail, bs = encode_utf8 s ++ tail /\ Forall is_char s /\ partial_char tail.
Proof.
  intros [more H]. destruct (from_utf8 (bs ++ more)) as [s0|] eqn:E; [clear H|contradiction].
  apply from_utf8_sound in E as [Hs He]. revert bs He.
  induction s0 as [|c s0 IH]; intros bs He.
  - cbn in He. symmetry in He. apply app_eq_nil in He as [-> _]. exists [], [].
    split; [reflexivity|]. split; [constructor|left; reflexivity].
  - apply Forall_cons_iff in Hs as [Hc Hs]. rewrite encode_utf8_cons in He.
    destruct (Nat.lt_ge_cases (length bs) (length (encode_char c))) as [Hlt|Hge].
    + exists [], bs. split; [reflexivity|]. split; [constructor|].
      destruct bs as [|b bs]; [left; reflexivity|]. right.
      exists c, (skipn (length (b :: bs)) (encode_char c)). split; [exact Hc|].
      split; [|split; [discriminate|]].
      * apply (f_equal (firstn (length (b :: bs)))) in He.
        rewrite !firstn_app, (firstn_all (b :: bs)), Nat.sub_diag in He.
        replace (length (b :: bs) - length (encode_char c))%nat with O in He by lia.
        cbn [firstn] in He. rewrite !app_nil_r in He.
        rewrite <- He at 1. symmetry. apply firstn_skipn.
      * intros E. apply (f_equal (@length N)) in E. rewrite skipn_length in E. cbn in E, Hlt. lia.
    + assert (Hbs : bs = encode_char c ++ skipn (length (encode_char c)) bs).
      { rewrite <- (firstn_skipn (length (encode_char c)) bs) at 1. f_equal.
        apply (f_equal (firstn (length (encode_char c)))) in He.
        rewrite !firstn_app, firstn_all, Nat.sub_diag in He.
        replace (length (encode_char c) - length bs)%nat with O in He by lia.
        cbn [firstn] in He. rewrite !app_nil_r in He. symmetry. exact He. }
      destruct (IH Hs (skipn (length (encode_char c)) bs)) as (s & tail & E & Hcs & Ht).
      { rewrite Hbs, <- app_assoc in He. apply app_inv_head in He. exact He. }
      exists (c :: s), tail. rewrite encode_utf8_cons, <- app_assoc, <- E. auto.
Qed.

Lemma utf8_prefix_encode s rest : Forall is_char s -> utf8_prefix (encode_utf8 s ++ rest) -> utf8_prefix rest.
Proof.
  intros Hs [more H]. exists more. rewrite <- app_assoc, from_utf8_encode_app in H by exact Hs.
  destruct (from_utf8 (rest ++ more)); [discriminate|exact H].
Qed.

Lemma utf8_prefix_app l1 l2 : utf8_prefix (l1 ++ l2) -> utf8_prefix l1.
Proof. intros [more H]. exists (l2 ++ more). rewrite app_assoc. exact H. Qed.

(** A start byte with all announced bytes: exactly one character, or not UTF-8 *)
Lemma one_char l b r : l = b :: r -> start_len b = Some (length l) -> utf8_prefix l ->
  exists c, is_char c /\ l = encode_char c.
Proof.
  intros -> Hl [more H]. destruct (from_utf8 ((b :: r) ++ more)) as [s0|] eqn:E; [|contradiction].
  apply from_utf8_sound in E as [Hs He]. destruct s0 as [|c s0]; [discriminate|].
  apply Forall_cons_iff in Hs as [Hc Hs]. exists c. split; [exact Hc|].
  destruct (encode_char_head c Hc) as (b' & r' & Hec & Hl' & _).
  rewrite encode_utf8_cons, Hec in He. injection He as <- He.
  rewrite Hl' in Hl. cbn in Hl. injection Hl as Hl.
  rewrite Hec. f_equal.
  apply (f_equal (firstn (length r))) in He. rewrite !firstn_app, firstn_all, Nat.sub_diag, <- Hl, firstn_all in He.
  replace (length r' - length r')%nat with O in He by lia. cbn [firstn] in He. rewrite !app_nil_r in He. symmetry. exact He.
Qed.

Lemma from_utf8_one_char l b r s : l = b :: r -> start_len b = Some (length l) -> from_utf8 l = Some s ->
  exists c, s = [c] /\ is_char c /\ l = encode_char c.
Proof.
  intros Hl Hs Hf.
  destruct (one_char l b r Hl Hs) as (c & Hc & E). { exists []. rewrite app_nil_r, Hf. discriminate. }
  exists c. split; [|auto]. rewrite <- (app_nil_r (encode_char c)) in E.
  assert (E2 : l = encode_utf8 [c]) by exact E.
  rewrite E2, from_utf8_encode in Hf by (constructor; [exact Hc|constructor]). congruence.
Qed.

Lemma partial_char_start t : partial_char t -> t <> [] ->
  exists b r n, t = b :: r /\ start_len b = Some n /\ (length t < n)%nat.
Proof.
  intros [->|(c & more & Hc & E & Hn & Hm)] Hne; [contradiction|].
  destruct (encode_char_head c Hc) as (b & r & He & Hl & _).
  destruct t as [|x t]; [contradiction|]. rewrite He in E. injection E as -> E.
  exists x, t, (S (length r)). split; [reflexivity|]. split; [exact Hl|].
  rewrite E, app_length. cbn. destruct more; [contradiction|]. cbn. lia.
Qed.
