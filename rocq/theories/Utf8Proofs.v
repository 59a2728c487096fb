(** * Facts about UTF-8: the bit tests of src/utf8.rs, decoding and encoding *)

From Verif Require Import Base Utf8Model.

(** ** Lifting a check of all 256 byte values *)

Definition all_bytes : list N := List.map N.of_nat (seq 0 256).

Lemma all_bytes_complete b : is_byte b -> In b all_bytes.
Proof.
  unfold is_byte, all_bytes. intros H. apply in_map_iff.
  exists (N.to_nat b). split. - lia. - apply in_seq. lia.
Qed.

Lemma byte_sweep (f g : N -> bool) :
  forallb (fun b => Bool.eqb (f b) (g b)) all_bytes = true ->
  forall b, is_byte b -> f b = g b.
Proof.
  intros H b Hb. rewrite forallb_forall in H.
  apply Bool.eqb_prop. apply H. apply all_bytes_complete; exact Hb.
Qed.

Lemma byte_sweepN (f g : N -> N) :
  forallb (fun b => f b =? g b) all_bytes = true ->
  forall b, is_byte b -> f b = g b.
Proof.
  intros H b Hb. rewrite forallb_forall in H.
  apply N.eqb_eq. apply H. apply all_bytes_complete; exact Hb.
Qed.

Lemma is_2byte_start_range b : is_byte b -> is_2byte_start b = in_range 0xC0 0xDF b.
Proof. apply byte_sweep. vm_compute. reflexivity. Qed.
Lemma is_3byte_start_range b : is_byte b -> is_3byte_start b = in_range 0xE0 0xEF b.
Proof. apply byte_sweep. vm_compute. reflexivity. Qed.
Lemma is_4byte_start_range b : is_byte b -> is_4byte_start b = in_range 0xF0 0xF7 b.
Proof. apply byte_sweep. vm_compute. reflexivity. Qed.
Lemma is_continuation_range b : is_byte b -> is_continuation b = in_range 0x80 0xBF b.
Proof. apply byte_sweep. vm_compute. reflexivity. Qed.

(** ** Shifts and masks as arithmetic *)

Lemma lor_shiftl_add a b n : b < 2 ^ n -> N.lor (N.shiftl a n) b = a * 2 ^ n + b.
Proof.
  intros Hb.
  assert (Hland : N.land (N.shiftl a n) b = 0).
  { apply N.bits_inj. intros i. rewrite N.land_spec, N.bits_0.
    destruct (N.ltb_spec i n) as [Hi|Hi].
    - rewrite N.shiftl_spec_low by exact Hi. reflexivity.
    - destruct (N.eq_dec b 0) as [->|Hb0].
      + rewrite N.bits_0. apply andb_false_r.
      + rewrite (N.bits_above_log2 b i). * apply andb_false_r.
        * apply N.log2_lt_pow2 in Hb; lia. }
  rewrite <- N.lxor_lor by exact Hland.
  rewrite <- N.add_nocarry_lxor by exact Hland.
  rewrite N.shiftl_mul_pow2. reflexivity.
Qed.

Lemma land_cont b : is_byte b -> in_range 0x80 0xBF b = true -> N.land b 0x3F = b - 0x80.
Proof.
  intros Hb Hr. change 0x3F with (N.ones 6). rewrite N.land_ones.
  unfold in_range in Hr. apply andb_true_iff in Hr as [H1 H2].
  apply N.leb_le in H1, H2. change (2 ^ 6) with 64.
  replace b with ((b - 0x80) + 2 * 64) at 1 by lia.
  rewrite N.mod_add by lia. apply N.mod_small. lia.
Qed.

Lemma land_5 b : in_range 0xC0 0xDF b = true -> N.land b 0x1F = b - 0xC0.
Proof.
  intros Hr. change 0x1F with (N.ones 5). rewrite N.land_ones.
  unfold in_range in Hr. apply andb_true_iff in Hr as [H1 H2].
  apply N.leb_le in H1, H2. change (2 ^ 5) with 32.
  replace b with ((b - 0xC0) + 6 * 32) at 1 by lia.
  rewrite N.mod_add by lia. apply N.mod_small. lia.
Qed.

Lemma land_4 b : in_range 0xE0 0xEF b = true -> N.land b 0x0F = b - 0xE0.
Proof.
  intros Hr. change 0x0F with (N.ones 4). rewrite N.land_ones.
  unfold in_range in Hr. apply andb_true_iff in Hr as [H1 H2].
  apply N.leb_le in H1, H2. change (2 ^ 4) with 16.
  replace b with ((b - 0xE0) + 14 * 16) at 1 by lia.
  rewrite N.mod_add by lia. apply N.mod_small. lia.
Qed.

Lemma land_3 b : in_range 0xF0 0xF7 b = true -> N.land b 0x07 = b - 0xF0.
Proof.
  intros Hr. change 0x07 with (N.ones 3). rewrite N.land_ones.
  unfold in_range in Hr. apply andb_true_iff in Hr as [H1 H2].
  apply N.leb_le in H1, H2. change (2 ^ 3) with 8.
  replace b with ((b - 0xF0) + 30 * 8) at 1 by lia.
  rewrite N.mod_add by lia. apply N.mod_small. lia.
Qed.

Lemma in_range_iff lo hi b : in_range lo hi b = true <-> lo <= b /\ b <= hi.
Proof. unfold in_range. rewrite andb_true_iff, !N.leb_le. tauto. Qed.
Lemma in_range_false lo hi b : in_range lo hi b = false <-> b < lo \/ hi < b.
Proof.
  unfold in_range. rewrite andb_false_iff, !N.leb_gt. tauto.
Qed.

Lemma code_point2 b0 b1 : is_byte b1 -> in_range 0xC0 0xDF b0 = true -> in_range 0x80 0xBF b1 = true ->
  N.lor (N.shiftl (N.land b0 0x1F) 6) (N.land b1 0x3F) = (b0 - 0xC0) * 0x40 + (b1 - 0x80).
Proof.
  intros Hb1 H0 H1. rewrite land_5, land_cont by assumption.
  apply in_range_iff in H1. apply lor_shiftl_add. change (2 ^ 6) with 64. lia.
Qed.

Lemma code_point3 b0 b1 b2 : is_byte b1 -> is_byte b2 ->
  in_range 0xE0 0xEF b0 = true -> in_range 0x80 0xBF b1 = true -> in_range 0x80 0xBF b2 = true ->
  N.lor (N.lor (N.shiftl (N.land b0 0x0F) 12) (N.shiftl (N.land b1 0x3F) 6)) (N.land b2 0x3F)
  = (b0 - 0xE0) * 0x1000 + (b1 - 0x80) * 0x40 + (b2 - 0x80).
Proof.
  intros Hb1 Hb2 H0 H1 H2. rewrite land_4, (land_cont b1), (land_cont b2) by assumption.
  apply in_range_iff in H1, H2.
  replace (N.shiftl (b0 - 0xE0) 12) with (N.shiftl (N.shiftl (b0 - 0xE0) 6) 6)
    by (rewrite N.shiftl_shiftl; reflexivity).
  rewrite <- N.shiftl_lor.
  rewrite (lor_shiftl_add (b0 - 0xE0)) by (change (2 ^ 6) with 64; lia).
  rewrite lor_shiftl_add by (change (2 ^ 6) with 64; lia).
  change (2 ^ 6) with 64. lia.
Qed.

Lemma code_point4 b0 b1 b2 b3 : is_byte b1 -> is_byte b2 -> is_byte b3 ->
  in_range 0xF0 0xF7 b0 = true -> in_range 0x80 0xBF b1 = true -> in_range 0x80 0xBF b2 = true ->
  in_range 0x80 0xBF b3 = true ->
  N.lor (N.lor (N.lor (N.shiftl (N.land b0 0x07) 18) (N.shiftl (N.land b1 0x3F) 12))
               (N.shiftl (N.land b2 0x3F) 6)) (N.land b3 0x3F)
  = (b0 - 0xF0) * 0x40000 + (b1 - 0x80) * 0x1000 + (b2 - 0x80) * 0x40 + (b3 - 0x80).
Proof.
  intros Hb1 Hb2 Hb3 H0 H1 H2 H3.
  rewrite land_3, (land_cont b1), (land_cont b2), (land_cont b3) by assumption.
  apply in_range_iff in H1, H2, H3.
  replace (N.shiftl (b0 - 0xF0) 18) with (N.shiftl (N.shiftl (N.shiftl (b0 - 0xF0) 6) 6) 6)
    by (rewrite !N.shiftl_shiftl; reflexivity).
  replace (N.shiftl (b1 - 0x80) 12) with (N.shiftl (N.shiftl (b1 - 0x80) 6) 6)
    by (rewrite !N.shiftl_shiftl; reflexivity).
  rewrite <- !N.shiftl_lor.
  rewrite (lor_shiftl_add (b0 - 0xF0)) by (change (2 ^ 6) with 64; lia).
  rewrite (lor_shiftl_add (_ + _)) by (change (2 ^ 6) with 64; lia).
  rewrite lor_shiftl_add by (change (2 ^ 6) with 64; lia).
  change (2 ^ 6) with 64. lia.
Qed.

(** ** The multi-byte checks of src/utf8.rs accept exactly the encodings *)

Ltac range_hyps :=
  repeat match goal with
  | H : in_range _ _ _ = true |- _ => apply in_range_iff in H
  | H : in_range _ _ _ = false |- _ => apply in_range_false in H
  | H : _ && _ = true |- _ => apply andb_true_iff in H as [? ?]
  | H : negb _ = true |- _ => apply negb_true_iff in H
  | H : _ =? _ = true |- _ => apply N.eqb_eq in H
  | H : _ =? _ = false |- _ => apply N.eqb_neq in H
  | H : _ <=? _ = true |- _ => apply N.leb_le in H
  | H : _ <=? _ = false |- _ => apply N.leb_gt in H
  | H : _ <? _ = true |- _ => apply N.ltb_lt in H
  | H : _ <? _ = false |- _ => apply N.ltb_ge in H
  end.

Ltac Zify.zify_post_hook ::= Z.div_mod_to_equations.

Lemma encode_char_2 c : 0x80 <= c -> c < 0x800 ->
  encode_char c = [0xC0 + c / 0x40; 0x80 + c mod 0x40].
Proof.
  intros H1 H2. unfold encode_char.
  destruct (N.ltb_spec c 0x80); [lia|]. destruct (N.ltb_spec c 0x800); [reflexivity|lia].
Qed.
Lemma encode_char_3 c : 0x800 <= c -> c < 0x10000 ->
  encode_char c = [0xE0 + c / 0x1000; 0x80 + (c / 0x40) mod 0x40; 0x80 + c mod 0x40].
Proof.
  intros H1 H2. unfold encode_char.
  destruct (N.ltb_spec c 0x80); [lia|]. destruct (N.ltb_spec c 0x800); [lia|].
  destruct (N.ltb_spec c 0x10000); [reflexivity|lia].
Qed.
Lemma encode_char_4 c : 0x10000 <= c ->
  encode_char c = [0xF0 + c / 0x40000; 0x80 + (c / 0x1000) mod 0x40;
                   0x80 + (c / 0x40) mod 0x40; 0x80 + c mod 0x40].
Proof.
  intros H1. unfold encode_char.
  destruct (N.ltb_spec c 0x80); [lia|]. destruct (N.ltb_spec c 0x800); [lia|].
  destruct (N.ltb_spec c 0x10000); [lia|reflexivity].
Qed.

Lemma dec_enc2 b0 b1 : 0xC2 <= b0 <= 0xDF -> 0x80 <= b1 <= 0xBF ->
  let c := (b0 - 0xC0) * 0x40 + (b1 - 0x80) in
  0x80 <= c /\ c < 0x800 /\ encode_char c = [b0; b1].
Proof.
  intros H0 H1 c. assert (0x80 <= c /\ c < 0x800) as [Hl Hh] by (subst c; lia).
  split; [exact Hl|]. split; [exact Hh|].
  rewrite encode_char_2 by assumption. subst c. repeat (f_equal; try lia).
Qed.

Lemma dec_enc3 b0 b1 b2 : 0xE0 <= b0 <= 0xEF -> 0x80 <= b1 <= 0xBF -> 0x80 <= b2 <= 0xBF ->
  let c := (b0 - 0xE0) * 0x1000 + (b1 - 0x80) * 0x40 + (b2 - 0x80) in
  0x800 <= c -> c < 0x10000 /\ encode_char c = [b0; b1; b2].
Proof.
  intros H0 H1 H2 c Hc. assert (c < 0x10000) as Hh by (subst c; lia).
  split; [exact Hh|].
  rewrite encode_char_3 by assumption. subst c. repeat (f_equal; try lia).
Qed.

Lemma dec_enc4 b0 b1 b2 b3 :
  0xF0 <= b0 <= 0xF7 -> 0x80 <= b1 <= 0xBF -> 0x80 <= b2 <= 0xBF -> 0x80 <= b3 <= 0xBF ->
  let c := (b0 - 0xF0) * 0x40000 + (b1 - 0x80) * 0x1000 + (b2 - 0x80) * 0x40 + (b3 - 0x80) in
  0x10000 <= c -> encode_char c = [b0; b1; b2; b3].
Proof.
  intros H0 H1 H2 H3 c Hc.
  rewrite encode_char_4 by assumption. subst c. repeat (f_equal; try lia).
Qed.

(** ** [from_utf8] and [encode_utf8] are inverse *)

Lemma encode_utf8_cons c s : encode_utf8 (c :: s) = encode_char c ++ encode_utf8 s.
Proof. reflexivity. Qed.

Lemma encode_utf8_app s1 s2 : encode_utf8 (s1 ++ s2) = encode_utf8 s1 ++ encode_utf8 s2.
Proof. unfold encode_utf8. apply flat_map_app. Qed.

Lemma from_utf8_encode_char c rest : is_char c ->
  from_utf8 (encode_char c ++ rest) = option_map (cons c) (from_utf8 rest).
Proof.
  intros Hc.
  destruct (N.ltb_spec c 0x80) as [H1|H1].
  { unfold encode_char. replace (c <? 0x80) with true by (symmetry; apply N.ltb_lt; lia).
    cbn [app from_utf8]. replace (c <=? 0x7F) with true by (symmetry; apply N.leb_le; lia).
    reflexivity. }
  destruct (N.ltb_spec c 0x800) as [H2|H2].
  { rewrite encode_char_2 by assumption. cbn [app from_utf8].
    replace (0xC0 + c / 0x40 <=? 0x7F) with false by (symmetry; apply N.leb_gt; lia).
    replace (in_range 0xC2 0xDF (0xC0 + c / 0x40)) with true
      by (symmetry; apply in_range_iff; lia).
    replace (in_range 0x80 0xBF (0x80 + c mod 0x40)) with true
      by (symmetry; apply in_range_iff; lia).
    f_equal. f_equal. lia. }
  destruct (N.ltb_spec c 0x10000) as [H3|H3].
  { rewrite encode_char_3 by assumption. cbn [app from_utf8].
    replace (0xE0 + c / 0x1000 <=? 0x7F) with false by (symmetry; apply N.leb_gt; lia).
    replace (in_range 0xC2 0xDF (0xE0 + c / 0x1000)) with false
      by (symmetry; apply in_range_false; lia).
    replace (in_range 0xE0 0xEF (0xE0 + c / 0x1000)) with true
      by (symmetry; apply in_range_iff; lia).
    replace (in_range 0x80 0xBF (0x80 + c mod 0x40)) with true
      by (symmetry; apply in_range_iff; lia).
    assert (Hg : (if 0xE0 + c / 0x1000 =? 0xE0 then in_range 0xA0 0xBF (0x80 + (c / 0x40) mod 0x40)
            else if 0xE0 + c / 0x1000 =? 0xED then in_range 0x80 0x9F (0x80 + (c / 0x40) mod 0x40)
            else in_range 0x80 0xBF (0x80 + (c / 0x40) mod 0x40)) = true).
    { unfold is_char in Hc.
      destruct (N.eqb_spec (0xE0 + c / 0x1000) 0xE0); [|destruct (N.eqb_spec (0xE0 + c / 0x1000) 0xED)];
        apply in_range_iff; lia. }
    rewrite Hg. cbn [andb]. f_equal. f_equal. lia. }
  rewrite encode_char_4 by assumption. cbn [app from_utf8].
  unfold is_char in Hc.
  replace (0xF0 + c / 0x40000 <=? 0x7F) with false by (symmetry; apply N.leb_gt; lia).
  replace (in_range 0xC2 0xDF (0xF0 + c / 0x40000)) with false
    by (symmetry; apply in_range_false; lia).
  replace (in_range 0xE0 0xEF (0xF0 + c / 0x40000)) with false
    by (symmetry; apply in_range_false; lia).
  replace (in_range 0xF0 0xF4 (0xF0 + c / 0x40000)) with true
    by (symmetry; apply in_range_iff; lia).
  replace (in_range 0x80 0xBF (0x80 + c mod 0x40)) with true
    by (symmetry; apply in_range_iff; lia).
  replace (in_range 0x80 0xBF (0x80 + (c / 0x40) mod 0x40)) with true
    by (symmetry; apply in_range_iff; lia).
  assert (Hg : (if 0xF0 + c / 0x40000 =? 0xF0 then in_range 0x90 0xBF (0x80 + (c / 0x1000) mod 0x40)
          else if 0xF0 + c / 0x40000 =? 0xF4 then in_range 0x80 0x8F (0x80 + (c / 0x1000) mod 0x40)
          else in_range 0x80 0xBF (0x80 + (c / 0x1000) mod 0x40)) = true).
  { destruct (N.eqb_spec (0xF0 + c / 0x40000) 0xF0); [|destruct (N.eqb_spec (0xF0 + c / 0x40000) 0xF4)];
      apply in_range_iff; lia. }
  rewrite Hg. cbn [andb]. f_equal. f_equal. lia.
Qed.

Lemma from_utf8_encode_app s rest : Forall is_char s ->
  from_utf8 (encode_utf8 s ++ rest) = option_map (app s) (from_utf8 rest).
Proof.
  induction 1 as [|c s Hc Hs IH].
  - cbn. destruct (from_utf8 rest); reflexivity.
  - rewrite encode_utf8_cons, <- app_assoc, from_utf8_encode_char by exact Hc.
    rewrite IH. destruct (from_utf8 rest); reflexivity.
Qed.

Lemma from_utf8_encode s : Forall is_char s -> from_utf8 (encode_utf8 s) = Some s.
Proof.
  intros H. rewrite <- (app_nil_r (encode_utf8 s)), from_utf8_encode_app by exact H.
  cbn. rewrite app_nil_r. reflexivity.
Qed.

(** Strong induction on the length of a list. *)
Lemma list_len_ind {A} (P : list A -> Prop) :
  (forall l, (forall l', (length l' < length l)%nat -> P l') -> P l) -> forall l, P l.
Proof.
  intros H l. remember (length l) as n eqn:Hn. revert l Hn.
  induction n as [n IH] using (well_founded_induction Wf_nat.lt_wf). intros l Hn.
  apply H. intros l' Hl'. apply (IH (length l')); [lia|reflexivity].
Qed.

Lemma from_utf8_sound bs : forall s, from_utf8 bs = Some s -> Forall is_char s /\ encode_utf8 s = bs.
Proof.
  induction bs as [bs IH] using list_len_ind. intros s H.
  destruct bs as [|b0 r0]; cbn [from_utf8] in H.
  { injection H as <-. split; [constructor|reflexivity]. }
  destruct (b0 <=? 0x7F) eqn:E0.
  { destruct (from_utf8 r0) as [s0|] eqn:E; [|discriminate]. injection H as <-.
    apply IH in E as [Hf He]; [|cbn; lia]. range_hyps. split.
    - constructor; [left; lia|exact Hf].
    - rewrite encode_utf8_cons, He. unfold encode_char.
      replace (b0 <? 0x80) with true by (symmetry; apply N.ltb_lt; lia). reflexivity. }
  destruct r0 as [|b1 r1]; [discriminate|].
  destruct (in_range 0xC2 0xDF b0) eqn:E1.
  { destruct (in_range 0x80 0xBF b1) eqn:E2; [|discriminate].
    destruct (from_utf8 r1) as [s0|] eqn:E; [|discriminate].
    cbn [option_map] in H. injection H as <-.
    apply IH in E as [Hf He]; [|cbn; lia]. range_hyps.
    destruct (dec_enc2 b0 b1) as (Hl & Hh & Henc); [lia..|]. split.
    - constructor; [left; lia|exact Hf].
    - rewrite encode_utf8_cons, He, Henc. reflexivity. }
  destruct r1 as [|b2 r2]; [discriminate|].
  destruct (in_range 0xE0 0xEF b0) eqn:E2.
  { match type of H with (if ?g && _ then _ else _) = _ => destruct g eqn:Eg end;
      [cbn [andb] in H|discriminate].
    destruct (in_range 0x80 0xBF b2) eqn:E3; [|discriminate].
    destruct (from_utf8 r2) as [s0|] eqn:E; [|discriminate].
    cbn [option_map] in H. injection H as <-.
    apply IH in E as [Hf He]; [|cbn; lia]. range_hyps.
    assert (Hb1 : 0x80 <= b1 <= 0xBF /\ 0x800 <= (b0 - 0xE0) * 0x1000 + (b1 - 0x80) * 0x40 + (b2 - 0x80)
                  /\ is_char ((b0 - 0xE0) * 0x1000 + (b1 - 0x80) * 0x40 + (b2 - 0x80))).
    { unfold is_char. destruct (b0 =? 0xE0) eqn:Ea; [|destruct (b0 =? 0xED) eqn:Eb]; range_hyps; lia. }
    destruct Hb1 as (Hb1 & Hl & Hc).
    destruct (dec_enc3 b0 b1 b2) as (Hh & Henc); [lia..|]. split.
    - constructor; [exact Hc|exact Hf].
    - rewrite encode_utf8_cons, He, Henc. reflexivity. }
  destruct r2 as [|b3 r3]; [discriminate|].
  destruct (in_range 0xF0 0xF4 b0) eqn:E3; [|discriminate].
  match type of H with (if ?g && _ && _ then _ else _) = _ => destruct g eqn:Eg end;
    [cbn [andb] in H|discriminate].
  destruct (in_range 0x80 0xBF b2) eqn:E4; [cbn [andb] in H|discriminate].
  destruct (in_range 0x80 0xBF b3) eqn:E5; [|discriminate].
  destruct (from_utf8 r3) as [s0|] eqn:E; [|discriminate].
  cbn [option_map] in H. injection H as <-.
  apply IH in E as [Hf He]; [|cbn; lia]. range_hyps.
  assert (Hb1 : 0x80 <= b1 <= 0xBF
     /\ 0x10000 <= (b0 - 0xF0) * 0x40000 + (b1 - 0x80) * 0x1000 + (b2 - 0x80) * 0x40 + (b3 - 0x80)
     /\ is_char ((b0 - 0xF0) * 0x40000 + (b1 - 0x80) * 0x1000 + (b2 - 0x80) * 0x40 + (b3 - 0x80))).
  { unfold is_char. destruct (b0 =? 0xF0) eqn:Ea; [|destruct (b0 =? 0xF4) eqn:Eb]; range_hyps; lia. }
  destruct Hb1 as (Hb1 & Hl & Hc).
  pose proof (dec_enc4 b0 b1 b2 b3) as Henc.
  cbv zeta in Henc. split.
  - constructor; [exact Hc|exact Hf].
  - rewrite encode_utf8_cons, He, Henc by lia. reflexivity.
Qed.

Lemma encode_char_bytes c : is_char c -> Forall is_byte (encode_char c).
Proof.
  unfold is_char, encode_char, is_byte. intros Hc.
  destruct (N.ltb_spec c 0x80); [|destruct (N.ltb_spec c 0x800); [|destruct (N.ltb_spec c 0x10000)]];
    repeat constructor; lia.
Qed.

Lemma encode_utf8_bytes s : Forall is_char s -> Forall is_byte (encode_utf8 s).
Proof.
  induction 1 as [|c s Hc Hs IH]; [constructor|].
  rewrite encode_utf8_cons. apply Forall_app. split; [apply encode_char_bytes; exact Hc|exact IH].
Qed.

Lemma encode_char_length c : length (encode_char c) = len_utf8 c.
Proof.
  unfold encode_char, len_utf8.
  destruct (c <? 0x80); [|destruct (c <? 0x800); [|destruct (c <? 0x10000)]]; reflexivity.
Qed.

Lemma encode_char_nonempty c : exists b r, encode_char c = b :: r.
Proof.
  unfold encode_char.
  destruct (c <? 0x80); [|destruct (c <? 0x800); [|destruct (c <? 0x10000)]]; eauto.
Qed.

Lemma encode_utf8_inj s1 s2 : Forall is_char s1 -> Forall is_char s2 ->
  encode_utf8 s1 = encode_utf8 s2 -> s1 = s2.
Proof.
  intros H1 H2 He. apply from_utf8_encode in H1, H2. congruence.
Qed.
