(** * Strings and numbers: the reader agrees with the scanners *)

From Verif Require Import Base Utf8Model Utf8Proofs NumberModel SourceModel ReaderModel ReaderScan ReaderLex.

(** ** Unicode escapes *)

Lemma hex_digit_range b d : hex_digit b = Some d -> d < 16 /\ plain b.
Proof.
  unfold hex_digit, plain, is_1byte.
  destruct (N.leb_spec 0x30 b), (N.leb_spec b 0x39); cbn [andb];
  [intros [= <-]; splits; [lia|apply N.leb_le; lia|lia|lia]| | |];
  (destruct (N.leb_spec 0x61 b), (N.leb_spec b 0x66); cbn [andb];
   [intros [= <-]; splits; [lia|apply N.leb_le; lia|lia|lia]| | |]);
  (destruct (N.leb_spec 0x41 b), (N.leb_spec b 0x46); cbn [andb];
   [intros [= <-]; splits; [lia|apply N.leb_le; lia|lia|lia]| | |]); discriminate.
Qed.

Lemma hex4_value_sum d1 d2 d3 d4 : d1 < 16 -> d2 < 16 -> d3 < 16 -> d4 < 16 ->
  hex4_value d1 d2 d3 d4 = d1 * 0x1000 + d2 * 0x100 + d3 * 0x10 + d4.
Proof.
  intros H1 H2 H3 H4. unfold hex4_value.
  rewrite (N.lor_comm (N.shiftl d2 8)), (N.shiftl_mul_pow2 d2).
  rewrite (lor_shiftl_add d1) by (change (2 ^ 8) with 256; change (2 ^ 12) with 4096; lia).
  change (2 ^ 8) with 256. change (2 ^ 12) with 4096.
  replace (d1 * 4096 + d2 * 256) with (N.shiftl (d1 * 16 + d2) 8)
    by (rewrite N.shiftl_mul_pow2; change (2 ^ 8) with 256; lia).
  rewrite (N.lor_comm (N.shiftl d3 4)), (N.shiftl_mul_pow2 d3).
  rewrite (lor_shiftl_add (d1 * 16 + d2)) by (change (2 ^ 8) with 256; change (2 ^ 4) with 16; lia).
  change (2 ^ 8) with 256. change (2 ^ 4) with 16.
  replace ((d1 * 16 + d2) * 256 + d3 * 16) with (N.shiftl ((d1 * 16 + d2) * 16 + d3) 4)
    by (rewrite N.shiftl_mul_pow2; change (2 ^ 4) with 16; lia).
  rewrite N.lor_comm. rewrite lor_shiftl_add by (change (2 ^ 4) with 16; lia).
  change (2 ^ 4) with 16. rewrite N.shiftl_mul_pow2. change (2 ^ 8) with 256. lia.
Qed.

Lemma take_hex4_spec r c hs r' : take_hex4 r = Some (c, hs, r') ->
  exists h1 h2 h3 h4 d1 d2 d3 d4, hs = [h1; h2; h3; h4] /\ r = hs ++ r' /\
    hex_digit h1 = Some d1 /\ hex_digit h2 = Some d2 /\ hex_digit h3 = Some d3 /\ hex_digit h4 = Some d4 /\
    c = d1 * 0x1000 + d2 * 0x100 + d3 * 0x10 + d4.
Proof.
  unfold take_hex4. destruct r as [|h1 [|h2 [|h3 [|h4 r]]]]; try discriminate.
  destruct (hex_digit h1) as [d1|] eqn:E1; [|discriminate].
  destruct (hex_digit h2) as [d2|] eqn:E2; [|discriminate].
  destruct (hex_digit h3) as [d3|] eqn:E3; [|discriminate].
  destruct (hex_digit h4) as [d4|] eqn:E4; [|discriminate].
  intros [= <- <- <-]. exists h1, h2, h3, h4, d1, d2, d3, d4. splits; auto.
  apply hex4_value_sum; eapply hex_digit_range; eassumption.
Qed.

Lemma take_hex4_bound r c hs r' : take_hex4 r = Some (c, hs, r') ->
  c < 0x10000 /\ Forall plain hs /\ length hs = 4%nat /\ r = hs ++ r'.
Proof.
  intros H. apply take_hex4_spec in H.
  destruct H as (h1 & h2 & h3 & h4 & d1 & d2 & d3 & d4 & -> & Hr & H1 & H2 & H3 & H4 & ->).
  apply hex_digit_range in H1, H2, H3, H4. splits; auto.
  - lia.
  - repeat constructor; (apply H1 || apply H2 || apply H3 || apply H4).
Qed.

Lemma surrogate_sum hi lo : hi < 0x400 -> lo < 0x400 ->
  N.lor (N.shiftl hi 10) lo + 0x10000 = 0x10000 + hi * 0x400 + lo.
Proof.
  intros H1 H2. rewrite lor_shiftl_add by (change (2 ^ 10) with 1024; lia).
  change (2 ^ 10) with 1024. lia.
Qed.

Lemma is_charb_iff c : is_charb c = true <-> is_char c.
Proof.
  unfold is_charb, is_char. rewrite orb_true_iff, andb_true_iff, !N.ltb_lt, N.leb_le. tauto.
Qed.

Lemma take_escape_spec r c hs r' : take_escape r = Some (c, hs, r') ->
  r = hs ++ r' /\ is_char c /\ Forall plain hs.
Proof.
  unfold take_escape. destruct (take_hex4 r) as [[[c1 hs1] r1]|] eqn:E1; [|discriminate].
  apply take_hex4_bound in E1. destruct E1 as (Hc & Hp & Hl & ->).
  destruct (N.leb_spec 0xDC00 c1), (N.leb_spec c1 0xDFFF); cbn [andb]; try discriminate.
  - destruct (N.leb_spec 0xD800 c1), (N.leb_spec c1 0xDBFF); cbn [andb]; try lia.
    intros [= <- <- <-]. splits; auto. right. lia.
  - destruct (N.leb_spec 0xD800 c1), (N.leb_spec c1 0xDBFF); cbn [andb]; try lia.
    + destruct r1 as [|b1 [|b2 r2]]; try discriminate.
      destruct (N.eqb_spec b1 B_BACKSLASH) as [->|]; [|discriminate].
      destruct (N.eqb_spec b2 B_u) as [->|]; [|discriminate]. cbn [negb].
      destruct (take_hex4 r2) as [[[c2 hs2] r3]|] eqn:E2; [|discriminate].
      apply take_hex4_bound in E2. destruct E2 as (Hc2 & Hp2 & Hl2 & ->).
      destruct (N.leb_spec 0xDC00 c2), (N.leb_spec c2 0xDFFF); cbn [andb negb]; try discriminate.
      intros [= <- <- <-]. splits.
      * rewrite <- !app_assoc. reflexivity.
      * rewrite surrogate_sum by lia. right. lia.
      * rewrite Forall_app. split; [exact Hp|]. constructor; [unfold plain; splits; discriminate || reflexivity|].
        constructor; [unfold plain; splits; discriminate || reflexivity|exact Hp2].
    + intros [= <- <- <-]. splits; auto. left. lia.
  - exfalso. lia.
Qed.

Ltac rbs H := repeat (rb_step H; rw_bools); auto with lex.

Lemma read_unicode_escape_ex rb St : rb_spec rb St -> forall r c s,
  match take_hex4 r with
  | Some (v, hs, r') => exec (read_unicode_escape rb) s (St r c) = Some ((Ok v, s), St r' (c ++ hs))
  | None => fails (read_unicode_escape rb) s (St r c)
  end.
Proof.
  intros H r c s.
  assert (Hd : forall s r c, match r with
    | b :: r' => match hex_digit b with
                 | Some d => exec (read_hex_byte rb) s (St r c) = Some ((Ok d, s), St r' (c ++ [b]))
                 | None => fails (read_hex_byte rb) s (St r c)
                 end
    | [] => fails (read_hex_byte rb) s (St r c)
    end).
  { intros s0 r0 c0. unfold read_hex_byte. destruct r0 as [|b r0]; [rbs H|].
    destruct (hex_digit b) as [d|] eqn:E; rb_step H; rewrite E; [reflexivity|apply fails_syntax]. }
  unfold take_hex4, read_unicode_escape.
  destruct r as [|h1 r]. { apply fails_bind. apply (Hd s []). }
  pose proof (Hd s (h1 :: r) c) as H1. cbn beta iota in H1.
  destruct (hex_digit h1) as [d1|].
  2:{ destruct r as [|h2 [|h3 [|h4 r]]]; apply fails_bind; exact H1. }
  destruct r as [|h2 r]. { step H1. apply fails_bind. apply (Hd s []). }
  pose proof (Hd s (h2 :: r) (c ++ [h1])) as H2. cbn beta iota in H2.
  destruct (hex_digit h2) as [d2|].
  2:{ destruct r as [|h3 [|h4 r]]; step H1; apply fails_bind; exact H2. }
  destruct r as [|h3 r]. { step H1. step H2. apply fails_bind. apply (Hd s []). }
  pose proof (Hd s (h3 :: r) ((c ++ [h1]) ++ [h2])) as H3. cbn beta iota in H3.
  destruct (hex_digit h3) as [d3|].
  2:{ destruct r as [|h4 r]; step H1; step H2; apply fails_bind; exact H3. }
  destruct r as [|h4 r]. { step H1. step H2. step H3. apply fails_bind. apply (Hd s []). }
  pose proof (Hd s (h4 :: r) (((c ++ [h1]) ++ [h2]) ++ [h3])) as H4. cbn beta iota in H4.
  destruct (hex_digit h4) as [d4|].
  2:{ step H1. step H2. step H3. apply fails_bind. exact H4. }
  step H1. step H2. step H3. step H4. rewrite <- !app_assoc. reflexivity.
Qed.

Lemma read_unicode_escape_char_ex rb St : rb_spec rb St -> forall r c s,
  match take_escape r with
  | Some (v, hs, r') =>
    exec (read_unicode_escape_char rb) s (St r c) = Some ((Ok (v, len64 hs), s), St r' (c ++ hs))
  | None => fails (read_unicode_escape_char rb) s (St r c)
  end.
Proof.
  intros H r c s. pose proof (take_escape_spec r) as Hspec.
  unfold take_escape, read_unicode_escape_char in *.
  pose proof (read_unicode_escape_ex rb St H r c s) as H1.
  destruct (take_hex4 r) as [[[c1 hs1] r1]|] eqn:E1; [|apply fails_bind; exact H1].
  apply take_hex4_bound in E1. destruct E1 as (_ & _ & Hl1 & _).
  destruct ((0xDC00 <=? c1) && (c1 <=? 0xDFFF)) eqn:B1.
  { step H1. rewrite B1. apply fails_syntax. }
  destruct ((0xD800 <=? c1) && (c1 <=? 0xDBFF)) eqn:B2.
  2:{ destruct (Hspec _ _ _ eq_refl) as (_ & Hc & _). apply is_charb_iff in Hc.
      step H1. rewrite B1, B2. unfold char_from_u32. rewrite Hc. unfold len64. rewrite Hl1. reflexivity. }
  destruct r1 as [|b1 r1].
  { step H1. rewrite B1, B2. rb_step H. }
  destruct r1 as [|b2 r2].
  { step H1. rewrite B1, B2. rb_step H. destruct (b1 =? B_BACKSLASH); cbn [negb]; [rb_step H|apply fails_syntax]. }
  destruct (b1 =? B_BACKSLASH) eqn:B3; cbn [negb].
  2:{ step H1. rewrite B1, B2. rb_step H. rewrite B3. apply fails_syntax. }
  destruct (b2 =? B_u) eqn:B4; cbn [negb].
  2:{ step H1. rewrite B1, B2. rb_step H. rewrite B3. cbn [negb]. rb_step H. rewrite B4. apply fails_syntax. }
  pose proof (read_unicode_escape_ex rb St H r2 (((c ++ hs1) ++ [b1]) ++ [b2]) s) as H2.
  destruct (take_hex4 r2) as [[[c2 hs2] r3]|] eqn:E2.
  2:{ step H1. rewrite B1, B2. rb_step H. rewrite B3. cbn [negb]. rb_step H. rewrite B4. cbn [negb].
      apply fails_bind. exact H2. }
  apply take_hex4_bound in E2. destruct E2 as (_ & _ & Hl2 & _).
  destruct (negb ((0xDC00 <=? c2) && (c2 <=? 0xDFFF))) eqn:B5.
  { step H1. rewrite B1, B2. rb_step H. rewrite B3. cbn [negb]. rb_step H. rewrite B4. cbn [negb].
    step H2. rewrite B5. apply fails_syntax. }
  cbn [negb] in Hspec. destruct (Hspec _ _ _ eq_refl) as (_ & Hc & _). apply is_charb_iff in Hc.
  step H1. rewrite B1, B2. rb_step H. rewrite B3. cbn [negb]. rb_step H. rewrite B4. cbn [negb].
  step H2. rewrite B5. unfold char_from_u32. rewrite Hc. unfold len64.
  rewrite !app_length, Hl1, Hl2. rewrite <- !app_assoc. reflexivity.
Qed.

(** ** Strings *)

Lemma escape_literal_plain e : escape_literal e = true -> plain e.
Proof.
  unfold escape_literal, plain. rewrite !orb_true_iff, !N.eqb_eq.
  intros [[-> | ->] | ->]; splits; discriminate || reflexivity.
Qed.
Lemma escape_replacement_plain e x : escape_replacement e = Some x -> plain e.
Proof.
  unfold escape_replacement, plain.
  destruct (N.eqb_spec e B_b) as [->|]; [intros _; splits; discriminate || reflexivity|].
  destruct (N.eqb_spec e B_f) as [->|]; [intros _; splits; discriminate || reflexivity|].
  destruct (N.eqb_spec e B_n) as [->|]; [intros _; splits; discriminate || reflexivity|].
  destruct (N.eqb_spec e B_r) as [->|]; [intros _; splits; discriminate || reflexivity|].
  destruct (N.eqb_spec e B_t) as [->|]; [intros _; splits; discriminate || reflexivity|discriminate].
Qed.
Lemma plain_backslash : plain B_BACKSLASH. Proof. unfold plain. splits; discriminate || reflexivity. Qed.
Lemma plain_quote : plain B_QUOTE. Proof. unfold plain. splits; discriminate || reflexivity. Qed.
Lemma plain_u : plain B_u. Proof. unfold plain. splits; discriminate || reflexivity. Qed.

Lemma move_esc e hs s : plain e -> Forall plain hs ->
  move ([B_BACKSLASH; e] ++ hs) s = advance (2 + len64 hs) (2 + len64 hs) s.
Proof.
  intros He Hh. rewrite move_all_plain.
  2:{ constructor; [apply plain_backslash|]. constructor; assumption. }
  f_equal; unfold len64; cbn [app length]; lia.
Qed.
Lemma move_esc2 e s : plain e -> move [B_BACKSLASH; e] s = advance 2 2 s.
Proof. intros He. exact (move_esc e [] s He (Forall_nil _)). Qed.

Lemma raw_plain b : (b <=? 0x1F) = false -> (b <=? 0x7F) = true -> plain b.
Proof.
  intros H1 H2. apply N.leb_gt in H1. unfold plain, is_1byte. splits; [exact H2|lia|lia].
Qed.

Lemma move_multi b0 r bs r' s : take_multi b0 r = Some (bs, r') -> move bs s = advance 1 (len64 bs) s.
Proof. apply movecr_multi. Qed.

(** [read_string_bytes] *)
Lemma read_string_bytes_ex s r t kn :
  match scan_unit r with
  | UEnd r' =>
    exec read_string_bytes s (At r t kn) = Some ((Ok (true, []), move [B_QUOTE] s), At r' t false)
  | UChar bs w r' =>
    exec read_string_bytes s (At r t kn) = Some ((Ok (false, bs), move w s), At r' t false)
  | UFail => fails read_string_bytes s (At r t kn)
  end.
Proof.
  unfold scan_unit, read_string_bytes. destruct r as [|b r]; [apply fails_bind, read_none|].
  destruct (b =? B_BACKSLASH) eqn:Eb.
  { apply N.eqb_eq in Eb. subst b. destruct r as [|e r]; [step read_some; rewrite N.eqb_refl; apply fails_bind, read_none|].
    destruct (escape_literal e) eqn:E1.
    { step read_some. rewrite N.eqb_refl. step read_some. rewrite E1. step update_ok.
      rewrite move_esc2 by (apply escape_literal_plain; exact E1). reflexivity. }
    destruct (escape_replacement e) as [x|] eqn:E2.
    { step read_some. rewrite N.eqb_refl. step read_some. rewrite E1, E2. step update_ok.
      rewrite move_esc2 by (eapply escape_replacement_plain; exact E2). reflexivity. }
    destruct (e =? B_u) eqn:E3.
    2:{ step read_some. rewrite N.eqb_refl. step read_some. rewrite E1, E2, E3. apply fails_syntax. }
    pose proof (read_unicode_escape_char_ex _ _ (rb_read_byte t) r [] s) as H. cbn beta in H.
    pose proof (take_escape_spec r) as Hs.
    destruct (take_escape r) as [[[c hs] r']|].
    - step read_some. rewrite N.eqb_refl. step read_some. rewrite E1, E2, E3. step H. step update_ok.
      apply N.eqb_eq in E3. subst e. rewrite move_esc; [reflexivity|apply plain_u|].
      eapply Hs. reflexivity.
    - step read_some. rewrite N.eqb_refl. step read_some. rewrite E1, E2, E3. apply fails_bind. exact H. }
  destruct (b =? B_QUOTE) eqn:Eq.
  { step read_some. rewrite Eb, Eq. step update_ok. rewrite move_plain by apply plain_quote. reflexivity. }
  destruct (b <=? 0x1F) eqn:Ec. { step read_some. rewrite Eb, Eq, Ec. apply fails_syntax. }
  destruct (b <=? 0x7F) eqn:Ea.
  { step read_some. rewrite Eb, Eq, Ec, Ea. step update_ok.
    rewrite move_plain by (apply raw_plain; assumption). reflexivity. }
  pose proof (read_utf8_multibyte_ex _ _ (rb_read_byte t) b r [] s) as H. cbn beta in H.
  destruct (take_multi b r) as [[bs r']|] eqn:Em.
  - step read_some. rewrite Eb, Eq, Ec, Ea. step H. step update_ok.
    rewrite (move_multi _ _ _ _ _ Em). reflexivity.
  - step read_some. rewrite Eb, Eq, Ec, Ea. apply fails_bind. exact H.
Qed.

(** The text of a character does not contain line breaks *)
Lemma scan_unit_text r bs w r' : scan_unit r = UChar bs w r' ->
  r = w ++ r' /\ w <> [] /\ Forall (fun b => b <> B_LF /\ b <> B_CR) w.
Proof.
  assert (Hp : forall l, Forall plain l -> Forall (fun b => b <> B_LF /\ b <> B_CR) l).
  { intros l. apply Forall_impl. intros b (_ & H). exact H. }
  unfold scan_unit. destruct r as [|b r]; [discriminate|].
  destruct (b =? B_BACKSLASH) eqn:Eb.
  { apply N.eqb_eq in Eb. subst b. destruct r as [|e r]; [discriminate|].
    destruct (escape_literal e) eqn:E1.
    { intros [= <- <- <-]. splits; auto; [discriminate|]. apply Hp.
      repeat constructor; try (apply escape_literal_plain; exact E1); discriminate. }
    destruct (escape_replacement e) as [x|] eqn:E2.
    { intros [= <- <- <-]. splits; auto; [discriminate|]. apply Hp.
      repeat constructor; try (eapply escape_replacement_plain; exact E2); discriminate. }
    destruct (N.eqb_spec e B_u) as [->|]; [|discriminate].
    destruct (take_escape r) as [[[c hs] r2]|] eqn:E3; [|discriminate].
    apply take_escape_spec in E3. destruct E3 as (-> & _ & Hh).
    intros [= <- <- <-]. splits; [reflexivity|discriminate|]. apply Hp.
    constructor; [apply plain_backslash|]. constructor; [apply plain_u|exact Hh]. }
  destruct (b =? B_QUOTE) eqn:Eq; [discriminate|].
  destruct (b <=? 0x1F) eqn:Ec; [discriminate|].
  destruct (b <=? 0x7F) eqn:Ea.
  { intros [= <- <- <-]. splits; [reflexivity|discriminate|]. apply Hp. constructor; [|constructor].
    apply raw_plain; assumption. }
  destruct (take_multi b r) as [[bs' r2]|] eqn:Em; [|discriminate].
  intros [= <- <- <-]. splits.
  - apply take_multi_shape in Em. destruct Em as (l & -> & -> & _). reflexivity.
  - apply take_multi_shape in Em. destruct Em as (l & -> & _). discriminate.
  - exact (take_multi_no_cr _ _ _ _ Em).
Qed.

Lemma scan_unit_end r r' : scan_unit r = UEnd r' -> r = B_QUOTE :: r'.
Proof.
  unfold scan_unit. destruct r as [|b r]; [discriminate|].
  destruct (b =? B_BACKSLASH) eqn:Eb.
  { destruct r as [|e r]; [discriminate|]. destruct (escape_literal e); [discriminate|].
    destruct (escape_replacement e); [discriminate|]. destruct (e =? B_u); [|discriminate].
    destruct (take_escape r) as [[[c hs] r2]|]; discriminate. }
  destruct (N.eqb_spec b B_QUOTE) as [->|]; [intros [= ->]; reflexivity|].
  destruct (b <=? 0x1F); [discriminate|]. destruct (b <=? 0x7F); [discriminate|].
  destruct (take_multi b r) as [[bs r2]|]; discriminate.
Qed.

Lemma scan_string_text f : forall r d w r', scan_string f r = SOk (d, w, r') ->
  r = w ++ r' /\ Forall (fun b => b <> B_LF /\ b <> B_CR) w /\ exists w0, w = w0 ++ [B_QUOTE].
Proof.
  induction f as [|f IH]; intros r d w r' H; [discriminate|]. cbn [scan_string] in H.
  destruct (scan_unit r) as [r1|bs w1 r1|] eqn:E; [|discriminate H || idtac|discriminate].
  - injection H as <- <- <-. apply scan_unit_end in E. splits; auto.
    + constructor; [|constructor]. split; discriminate.
    + exists []. reflexivity.
  - destruct (scan_string f r1) as [[[d2 w2] r2]| |] eqn:E2; try discriminate.
    injection H as <- <- <-. destruct (IH _ _ _ _ E2) as (H1 & H2 & w0 & ->).
    apply scan_unit_text in E. destruct E as (-> & _ & Hw). splits.
    + rewrite H1, <- !app_assoc. reflexivity.
    + rewrite Forall_app. auto.
    + exists (w1 ++ w0). rewrite app_assoc. reflexivity.
Qed.

Lemma last_cr_breaks w : Forall (fun b => b <> B_LF /\ b <> B_CR) w -> last_cr false w = false.
Proof. intros H. apply last_cr_no. revert H. apply Forall_impl. tauto. Qed.

(** Skipping *)
Lemma skip_all_string_ex f : forall s r t kn,
  match scan_string f r with
  | SOk (d, w, r') =>
    exec (skip_all_string_bytes_loop f) s (At r t kn) = Some ((Ok tt, move w s), At r' t false)
  | SFail => fails (skip_all_string_bytes_loop f) s (At r t kn)
  | SFuel => True
  end.
Proof.
  induction f as [|f IH]; intros s r t kn; [exact I|].
  cbn [scan_string skip_all_string_bytes_loop].
  pose proof (read_string_bytes_ex s r t kn) as Hu.
  destruct (scan_unit r) as [r1|bs w1 r1|] eqn:E.
  - step Hu. reflexivity.
  - specialize (IH (move w1 s) r1 t false). apply scan_unit_text in E. destruct E as (_ & _ & Hw).
    destruct (scan_string f r1) as [[[d2 w2] r2]| |]; [| |exact I].
    + step Hu. cbn [fst]. rewrite IH. rewrite move_app by (apply last_cr_breaks; exact Hw). reflexivity.
    + step Hu. exact IH.
  - apply fails_bind. exact Hu.
Qed.

(** Collecting *)
Lemma vpush_ok bs r t kn acc jr s :
  exec (value_push bs) s (Av r t kn acc jr) = Some ((Ok tt, s), Av r t kn (acc ++ bs) false).
Proof. reflexivity. Qed.

Lemma read_string_escape_ex s r t acc :
  match scan_unit (B_BACKSLASH :: r) with
  | UChar bs w r' => exists jr,
    exec read_string_escape s (Av r t false (acc ++ [B_BACKSLASH]) true) =
    Some ((Ok tt, move w s), Av r' t false (acc ++ bs) jr)
  | UEnd _ => False
  | UFail => fails read_string_escape s (Av r t false (acc ++ [B_BACKSLASH]) true)
  end.
Proof.
  unfold scan_unit, read_string_escape. rewrite N.eqb_refl.
  destruct r as [|e r].
  { step vskip_previous. apply fails_bind. apply vread_none. }
  destruct (escape_literal e) eqn:E1.
  { eexists. step vskip_previous. step vread_some. rewrite E1. step ret_ok. rewrite update_ok.
    rewrite move_esc2 by (apply escape_literal_plain; exact E1). reflexivity. }
  destruct (escape_replacement e) as [x|] eqn:E2.
  { eexists. step vskip_previous. step vread_some. rewrite E1, E2.
    erewrite exec_bind_ok.
    2:{ rewrite (exec_bind_ok _ _ _ _ _ _ _ (vskip_previous _ _ _ _ _ _)). apply vpush_ok. }
    rewrite update_ok.
    rewrite move_esc2 by (eapply escape_replacement_plain; exact E2). reflexivity. }
  destruct (e =? B_u) eqn:E3.
  2:{ step vskip_previous. step vread_some. rewrite E1, E2, E3. apply fails_bind. apply fails_syntax. }
  pose proof (read_unicode_escape_char_ex _ _ (rb_value_skipped t acc) r [] s) as H. cbn beta in H.
  pose proof (take_escape_spec r) as Hs.
  destruct (take_escape r) as [[[c hs] r']|].
  - eexists. step vskip_previous. step vread_some. rewrite E1, E2, E3.
    erewrite exec_bind_ok.
    2:{ rewrite (exec_bind_ok _ _ _ _ _ _ _ (vskip_previous _ _ _ _ _ _)).
        rewrite (exec_bind_ok _ _ _ _ _ _ _ H).
        rewrite (exec_bind_ok _ _ _ _ _ _ _ (update_ok _ _ _)). apply vpush_ok. }
    rewrite update_ok. apply N.eqb_eq in E3. subst e. rewrite move_esc; [|apply plain_u|eapply Hs; reflexivity].
    cbn [fst snd]. rewrite advance_add. rewrite (N.add_comm 2). reflexivity.
  - step vskip_previous. step vread_some. rewrite E1, E2, E3. apply fails_bind.
    step vskip_previous. apply fails_bind. exact H.
Qed.

Lemma vfinal_get r t kn acc b bo s :
  exec (value_skip_final ;; value_get bo) s (Av r t kn (acc ++ [b]) true) = Some ((Ok tt, s), Got r t kn acc bo).
Proof.
  unfold exec, value_skip_final, value_get, Av. cbn -[removelast app]. rewrite removelast_last. reflexivity.
Qed.

Lemma read_string_loop_ex bo f : forall s r t kn acc jr, (r = [] -> kn = false) ->
  match scan_string f r with
  | SOk (d, w, r') =>
    exec (read_string_loop f bo) s (Av r t kn acc jr) = Some ((Ok tt, move w s), Got r' t false (acc ++ d) bo)
  | SFail => fails (read_string_loop f bo) s (Av r t kn acc jr)
  | SFuel => True
  end.
Proof.
  induction f as [|f IH]; intros s r t kn acc jr Hk; [exact I|].
  cbn [scan_string read_string_loop].
  destruct r as [|b r].
  { cbn [scan_unit]. rewrite Hk by reflexivity. apply fails_bind, vread_none. }
  destruct (b =? B_BACKSLASH) eqn:Eb.
  { apply N.eqb_eq in Eb. subst b.
    pose proof (read_string_escape_ex s r t acc) as He.
    destruct (scan_unit (B_BACKSLASH :: r)) as [r1|bs w1 r1|] eqn:E; [contradiction| |].
    - destruct He as (jr' & He). apply scan_unit_text in E. destruct E as (_ & _ & Hw).
      specialize (IH (move w1 s) r1 t false (acc ++ bs) jr' (fun _ => eq_refl)).
      destruct (scan_string f r1) as [[[d2 w2] r2]| |]; [| |exact I].
      + step vread_some. rewrite N.eqb_refl. step He. rewrite IH.
        rewrite move_app by (apply last_cr_breaks; exact Hw). rewrite app_assoc. reflexivity.
      + step vread_some. rewrite N.eqb_refl. step He. exact IH.
    - step vread_some. rewrite N.eqb_refl. apply fails_bind. exact He. }
  unfold scan_unit. rewrite Eb.
  destruct (b =? B_QUOTE) eqn:Eq.
  { step vread_some. rewrite Eb, Eq. step update_ok. rewrite vfinal_get, app_nil_r.
    rewrite move_plain by apply plain_quote. reflexivity. }
  destruct (b <=? 0x1F) eqn:Ec. { step vread_some. rewrite Eb, Eq, Ec. apply fails_syntax. }
  destruct (b <=? 0x7F) eqn:Ea.
  { specialize (IH (move [b] s) r t false (acc ++ [b]) true (fun _ => eq_refl)).
    assert (Hp : plain b) by (apply raw_plain; assumption).
    destruct (scan_string f r) as [[[d2 w2] r2]| |]; [| |exact I].
    - step vread_some. rewrite Eb, Eq, Ec, Ea. step update_ok.
      rewrite <- (move_plain b s Hp). rewrite IH.
      rewrite (move_app [b]) by (apply (last_cr_snoc false []); apply Hp). rewrite <- app_assoc. reflexivity.
    - step vread_some. rewrite Eb, Eq, Ec, Ea. step update_ok.
      rewrite <- (move_plain b s Hp). exact IH. }
  pose proof (read_utf8_multibyte_ex _ _ (rb_value_read_byte t (acc ++ [b])) b r [] s) as H. cbn beta in H.
  rewrite app_nil_r in H.
  destruct (take_multi b r) as [[bs r1]|] eqn:Em.
  - pose proof (take_multi_no_cr _ _ _ _ Em) as Hw.
    specialize (IH (move bs s) r1 t false (acc ++ bs) true (fun _ => eq_refl)).
    assert (Hacc : (acc ++ [b]) ++ [] ++ tl bs = acc ++ bs).
    { apply take_multi_shape in Em. destruct Em as (l & -> & _). rewrite <- app_assoc. reflexivity. }
    rewrite Hacc in H.
    destruct (scan_string f r1) as [[[d2 w2] r2]| |]; [| |exact I].
    + step vread_some. rewrite Eb, Eq, Ec, Ea. step H. step update_ok.
      rewrite <- (move_multi _ _ _ _ s Em). rewrite IH.
      rewrite move_app by (apply last_cr_breaks; exact Hw). rewrite <- app_assoc. reflexivity.
    + step vread_some. rewrite Eb, Eq, Ec, Ea. step H. step update_ok.
      rewrite <- (move_multi _ _ _ _ s Em). exact IH.
  - step vread_some. rewrite Eb, Eq, Ec, Ea. apply fails_bind. exact H.
Qed.

Lemma read_string_ex E bo s r t kn :
  match scan_string (fuel E) r with
  | SOk (d, w, r') =>
    exec (read_string E bo) s (At r t kn) = Some ((Ok tt, move w s), Got r' t false d bo)
  | SFail => fails (read_string E bo) s (At r t kn)
  | SFuel => True
  end.
Proof.
  assert (Hnew : exec value_reader_new s (At r t kn) =
    Some ((Ok tt, s), Av r t (match r with [] => false | _ => kn end) [] false)) by reflexivity.
  pose proof (read_string_loop_ex bo (fuel E) s r t (match r with [] => false | _ => kn end) [] false) as H.
  unfold read_string. destruct (scan_string (fuel E) r) as [[[d w] r']| |]; [| |exact I].
  - step Hnew. rewrite H; [reflexivity|]. intros ->. reflexivity.
  - step Hnew. apply H. intros ->. reflexivity.
Qed.

(** ** Numbers *)

(** At the end of the input the automaton asks for no further bytes *)
Inductive eof_stops : nprog -> Prop :=
| ES_ret r : eof_stops (NRet r)
| ES_fuel : eof_stops NFuel
| ES_next k : (exists r, k None = NRet r) -> (forall b, eof_stops (k (Some b))) -> eof_stops (NNext k).

Lemma eof_stops_end b n : eof_stops (number_end b n).
Proof. unfold number_end. destruct (_ || _); constructor. Qed.

Lemma eof_stops_digits f k : (forall b, eof_stops (k b)) -> eof_stops (digits_loop f k).
Proof.
  intros Hk. induction f as [|f IH]; cbn [digits_loop]; constructor; [eexists; reflexivity|].
  intros b. destruct (is_digit b); [exact IH|apply Hk].
Qed.

Lemma eof_stops_exp f : forall c, eof_stops (exponent_loop f c number_end).
Proof.
  induction f as [|f IH]; intros c; cbn [exponent_loop]; constructor; [eexists; reflexivity|].
  intros b. destruct (is_digit b); [destruct (_ || _); apply IH|apply eof_stops_end].
Qed.

Lemma eof_stops_exp_digits f b : eof_stops (exponent_digits f b).
Proof.
  unfold exponent_digits. destruct (is_digit19 b); [apply eof_stops_exp|].
  destruct (negb _); [constructor|apply eof_stops_exp].
Qed.

Lemma eof_stops_exp_part f b : eof_stops (exponent_part f b).
Proof.
  unfold exponent_part. destruct (_ || _); [|apply eof_stops_end].
  constructor; [eexists; reflexivity|]. intros b1. destruct (_ || _); [|apply eof_stops_exp_digits].
  constructor; [eexists; reflexivity|]. intros b2. apply eof_stops_exp_digits.
Qed.

Lemma eof_stops_fraction f b : eof_stops (fraction_part f b).
Proof.
  unfold fraction_part. destruct (b =? B_DOT); [|apply eof_stops_exp_part].
  constructor; [eexists; reflexivity|]. intros b1. destruct (negb _); [constructor|].
  apply eof_stops_digits. apply eof_stops_exp_part.
Qed.

Lemma eof_stops_integer f b : eof_stops (integer_part f b).
Proof.
  unfold integer_part. destruct (is_digit19 b); [apply eof_stops_digits, eof_stops_fraction|].
  destruct (b =? B_0); [|constructor].
  constructor; [eexists; reflexivity|]. intros b1. apply eof_stops_fraction.
Qed.

Lemma eof_stops_number f b : eof_stops (consume_json_number f b).
Proof.
  unfold consume_json_number. destruct (b =? B_MINUS); [|apply eof_stops_integer].
  constructor; [eexists; reflexivity|]. intros b1. apply eof_stops_integer.
Qed.

(** The end of the input was reached, but there is an IO error *)
Definition hits_error (t : tail_end) (rest : bytes) : bool :=
  match rest with [] => negb (is_eof t) | _ => false end.

Lemma number_next_ex s b l t acc :
  if hits_error t l then fails number_next s (Av (b :: l) t true acc false)
  else exec number_next s (Av (b :: l) t true acc false) =
       Some ((Ok (hd_error l), s), Av l t true (acc ++ [b]) false).
Proof.
  unfold number_next. destruct l as [|b' l]; cbn [hits_error].
  - destruct t; cbn [is_eof negb]; step vconsume_some; [apply vpeek_eof|apply vpeek_err].
  - step vconsume_some. apply vpeek_some.
Qed.

Lemma number_skip_next_ex s b l t :
  if hits_error t l then fails number_skip_next s (At (b :: l) t true)
  else exec number_skip_next s (At (b :: l) t true) = Some ((Ok (hd_error l), s), At l t true).
Proof.
  unfold number_skip_next. destruct l as [|b' l]; cbn [hits_error].
  - destruct t; cbn [is_eof negb]; step skip_some; [apply peek_eof|apply peek_err].
  - step skip_some. apply peek_some.
Qed.

(** Both ways to consume a number; [St l w] is the source with [l] still to be
    read and [w] consumed *)
Lemma run_number_ex (next : M (option byte)) (St : bytes -> bytes -> asrc) t :
  (forall s b l w, if hits_error t l then fails next s (St (b :: l) w)
                   else exec next s (St (b :: l) w) = Some ((Ok (hd_error l), s), St l (w ++ [b]))) ->
  forall p, eof_stops p -> forall l w0 c s, l <> [] ->
  match scan_nprog p l with
  | SOk (r, w, rest) =>
    if hits_error t rest then fails (run_number next p c) s (St l w0)
    else exec (run_number next p c) s (St l w0) = Some ((Ok (r, c + len64 w), s), St rest (w0 ++ w))
  | SFail => False
  | SFuel => True
  end.
Proof.
  intros Hnext p Hp. induction Hp as [r| |k Heof Hk IH]; intros l w0 c s Hl.
  - cbn [scan_nprog]. destruct l as [|b l]; [contradiction|]. cbn [hits_error run_number].
    rewrite app_nil_r. unfold len64. cbn [length]. rewrite N.add_0_r. reflexivity.
  - exact I.
  - cbn [scan_nprog]. destruct l as [|b l]; [contradiction|].
    specialize (Hnext s b l w0). destruct l as [|b' l].
    + destruct Heof as (r & Hr). cbn [hd_error]. rewrite Hr. cbn [scan_nprog hits_error run_number] in *.
      destruct (negb (is_eof t)); [apply fails_bind; exact Hnext|].
      step Hnext. cbn [hd_error]. rewrite Hr. reflexivity.
    + cbn [hd_error hits_error run_number] in *.
      specialize (IH b' (b' :: l) (w0 ++ [b]) (c + 1) s ltac:(discriminate)).
      destruct (scan_nprog (k (Some b')) (b' :: l)) as [[[r w] rest]| |]; [|exact IH|exact I].
      destruct (hits_error t rest).
      * step Hnext. exact IH.
      * step Hnext. rewrite IH, <- app_assoc. unfold len64. cbn [length].
        replace (c + 1 + N.of_nat (length w)) with (c + N.of_nat (S (length w))) by lia. reflexivity.
Qed.

Definition number_scan (E : env) (r : bytes) : sres (option N * bytes * bytes) :=
  match r with
  | [] => SFail
  | b :: _ => scan_nprog (consume_json_number (fuel E) b) r
  end.

Lemma run_number_value_ex E s b l t c :
  match number_scan E (b :: l) with
  | SOk (r, w, rest) =>
    if hits_error t rest
    then fails (run_number number_next (consume_json_number (fuel E) b) c) s (Av (b :: l) t true [] false)
    else exec (run_number number_next (consume_json_number (fuel E) b) c) s (Av (b :: l) t true [] false) =
         Some ((Ok (r, c + len64 w), s), Av rest t true w false)
  | SFail => False
  | SFuel => True
  end.
Proof.
  apply (run_number_ex number_next (fun l w => Av l t true w false) t).
  - intros s0 b0 l0 w. apply number_next_ex.
  - apply eof_stops_number.
  - discriminate.
Qed.

Lemma run_number_skip_ex E s b l t c :
  match number_scan E (b :: l) with
  | SOk (r, w, rest) =>
    if hits_error t rest
    then fails (run_number number_skip_next (consume_json_number (fuel E) b) c) s (At (b :: l) t true)
    else exec (run_number number_skip_next (consume_json_number (fuel E) b) c) s (At (b :: l) t true) =
         Some ((Ok (r, c + len64 w), s), At rest t true)
  | SFail => False
  | SFuel => True
  end.
Proof.
  apply (run_number_ex number_skip_next (fun l w => At l t true) t).
  - intros s0 b0 l0 w. apply number_skip_next_ex.
  - apply eof_stops_number.
  - exact [].
  - discriminate.
Qed.
