(** * Proofs about the [Debug] output *)

From Verif Require Import Base Utf8Model Utf8Proofs SourceModel SourceProofs WriterModel ReaderModel SpecCost DebugModel SpecDebug.

(** ** [valid_up_to] *)

Lemma slice_0 {A} (l : list A) n : slice l 0 n = firstn n l.
Proof. unfold slice. rewrite Nat.sub_0_r. reflexivity. Qed.

(** What a first byte, and the following ones, decide *)
Lemma valid_up_to_spec : forall bs, exists s rest, bs = encode_utf8 s ++ rest /\ Forall is_char s /\
  valid_up_to bs = length (encode_utf8 s) /\ no_char rest.
Proof.
  assert (Hno : forall bs, valid_up_to bs = O -> no_char bs).
  { intros bs H c r Hc E. subst bs. revert H.
    destruct (N.lt_ge_cases c 0x80) as [H1|H1].
    { unfold encode_char. replace (c <? 0x80) with true by (symmetry; apply N.ltb_lt; exact H1). cbn [app valid_up_to].
      replace (c <=? 0x7F) with true by (symmetry; apply N.leb_le; lia). discriminate. }
    pose proof (from_utf8_encode_char c [] Hc) as Hf. rewrite app_nil_r in Hf. cbn [from_utf8 option_map] in Hf.
    destruct (encode_char c) as [|b0 l0] eqn:E0; [discriminate|]. cbn [app valid_up_to]. cbn [from_utf8] in Hf.
    destruct (b0 <=? 0x7F); [discriminate|]. destruct l0 as [|b1 l1]; [discriminate|]. cbn [app].
    destruct (in_range 0xC2 0xDF b0). { destruct (in_range 0x80 0xBF b1); discriminate. }
    destruct l1 as [|b2 l2]; [discriminate|]. cbn [app].
    destruct (in_range 0xE0 0xEF b0). { destruct (_ && _); discriminate. }
    destruct l2 as [|b3 l3]; [discriminate|]. cbn [app].
    destruct (in_range 0xF0 0xF4 b0); [|discriminate]. destruct (_ && _); discriminate. }
  apply list_len_ind. intros bs IH.
  assert (Hstep : forall w r, bs = w ++ r -> w <> [] -> from_utf8 w <> None -> valid_up_to bs = (length w + valid_up_to r)%nat ->
    exists s rest, bs = encode_utf8 s ++ rest /\ Forall is_char s /\ valid_up_to bs = length (encode_utf8 s) /\ no_char rest).
  { intros w r -> Hw Hf Hv. destruct (from_utf8 w) as [s0|] eqn:E; [|congruence]. apply from_utf8_sound in E as [Hs He].
    destruct (IH r) as (s & rest & -> & Hs1 & Hn & Hr).
    { rewrite app_length. destruct w; [congruence|cbn; lia]. }
    exists (s0 ++ s), rest. rewrite Hv, encode_utf8_app, He, app_length, Hn.
    split; [apply app_assoc|]. split; [apply Forall_app; auto|]. auto. }
  assert (Hstop : valid_up_to bs = O ->
    exists s rest, bs = encode_utf8 s ++ rest /\ Forall is_char s /\ valid_up_to bs = length (encode_utf8 s) /\ no_char rest).
  { intros H. exists [], bs. repeat split; auto. }
  destruct bs as [|b0 r0]; [apply Hstop; reflexivity|].
  destruct (b0 <=? 0x7F) eqn:E0.
  { apply (Hstep [b0] r0); [reflexivity|discriminate|cbn [from_utf8]; rewrite E0; discriminate|cbn [valid_up_to]; rewrite E0; reflexivity]. }
  destruct r0 as [|b1 r1]; [apply Hstop; cbn [valid_up_to]; rewrite E0; reflexivity|].
  destruct (in_range 0xC2 0xDF b0) eqn:E1.
  { destruct (in_range 0x80 0xBF b1) eqn:E2.
    - apply (Hstep [b0; b1] r1); [reflexivity|discriminate|cbn [from_utf8]; rewrite E0, E1, E2; discriminate|cbn [valid_up_to]; rewrite E0, E1, E2; reflexivity].
    - apply Hstop. cbn [valid_up_to]. rewrite E0, E1, E2. reflexivity. }
  destruct r1 as [|b2 r2]; [apply Hstop; cbn [valid_up_to]; rewrite E0, E1; reflexivity|].
  destruct (in_range 0xE0 0xEF b0) eqn:E2.
  { match goal with |- context [valid_up_to (b0 :: b1 :: b2 :: r2)] => idtac end.
    destruct ((if b0 =? 0xE0 then in_range 0xA0 0xBF b1 else if b0 =? 0xED then in_range 0x80 0x9F b1 else in_range 0x80 0xBF b1)
              && in_range 0x80 0xBF b2) eqn:E3.
    - apply (Hstep [b0; b1; b2] r2); [reflexivity|discriminate|cbn [from_utf8]; rewrite E0, E1, E2, E3; discriminate|cbn [valid_up_to]; rewrite E0, E1, E2, E3; reflexivity].
    - apply Hstop. cbn [valid_up_to]. rewrite E0, E1, E2, E3. reflexivity. }
  destruct r2 as [|b3 r3]; [apply Hstop; cbn [valid_up_to]; rewrite E0, E1, E2; reflexivity|].
  destruct (in_range 0xF0 0xF4 b0) eqn:E3; [|apply Hstop; cbn [valid_up_to]; rewrite E0, E1, E2, E3; reflexivity].
  destruct ((if b0 =? 0xF0 then in_range 0x90 0xBF b1 else if b0 =? 0xF4 then in_range 0x80 0x8F b1 else in_range 0x80 0xBF b1)
            && in_range 0x80 0xBF b2 && in_range 0x80 0xBF b3) eqn:E4.
  - apply (Hstep [b0; b1; b2; b3] r3); [reflexivity|discriminate|cbn [from_utf8]; rewrite E0, E1, E2, E3, E4; discriminate|cbn [valid_up_to]; rewrite E0, E1, E2, E3, E4; reflexivity].
  - apply Hstop. cbn [valid_up_to]. rewrite E0, E1, E2, E3, E4. reflexivity.
Qed.

(** ** The reader *)

Definition pos_ok (c : csrc) : Prop := (c_pos c <= length (c_buf c))%nat.

Lemma chars_bytes s : Forall is_char s -> (length s <= length (encode_utf8 s))%nat.
Proof.
  induction 1 as [|c s Hc _ IH]; [cbn; lia|]. rewrite encode_utf8_cons, app_length. cbn [length].
  destruct (encode_char_nonempty c) as (b & r & ->). cbn. lia.
Qed.

Lemma Forall_firstn {A} (P : A -> Prop) l n : Forall P l -> Forall P (firstn n l).
Proof. intros H. rewrite <- (firstn_skipn n l) in H. apply Forall_app in H. apply H. Qed.
Lemma Forall_skipn {A} (P : A -> Prop) l n : Forall P l -> Forall P (skipn n l).
Proof. intros H. rewrite <- (firstn_skipn n l) in H. apply Forall_app in H. apply H. Qed.

Lemma limit_cases s : Forall is_char s ->
  (nth_error s 45 = None /\ (length s <= 45)%nat) \/
  exists x, nth_error s 45 = Some x /\ length (firstn 45 s) = 45%nat /\ exists y l, skipn 45 s = y :: l /\ Forall is_char (y :: l).
Proof.
  intros H. destruct (nth_error s 45) as [x|] eqn:E.
  - right. exists x. assert (Hl : (45 < length s)%nat) by (apply nth_error_Some; congruence).
    split; [reflexivity|]. split; [rewrite firstn_length; lia|].
    destruct (skipn 45 s) as [|y l] eqn:Es.
    + assert (length (skipn 45 s) = O) by (rewrite Es; reflexivity). rewrite skipn_length in *. lia.
    + exists y, l. split; [reflexivity|]. rewrite <- Es. apply Forall_skipn, H.
  - left. split; [reflexivity|]. apply nth_error_None, E.
Qed.

Lemma encode_nonempty c s r : encode_utf8 (c :: s) ++ r <> [].
Proof. rewrite encode_utf8_cons. destruct (encode_char_nonempty c) as (b & t & ->). discriminate. Qed.

Lemma debug_reader_spec c : pos_ok c -> exists d, debug_reader c = Some d /\
  (c_eof c = true -> d = RdEof) /\ (c_eof c = false -> d <> RdEof /\ reader_shows d (skipn (c_pos c) (c_buf c))).
Proof.
  intros Hp. unfold debug_reader. destruct (c_eof c); [eexists; repeat split; auto; discriminate|].
  assert (Hlt : Nat.ltb (length (c_buf c)) (c_pos c) = false) by (apply Nat.ltb_ge; exact Hp). rewrite Hlt.
  unfold checked_slice at 1. replace (Nat.leb (c_pos c) (length (c_buf c))) with true by (symmetry; apply Nat.leb_le; exact Hp).
  rewrite Nat.leb_refl. cbn [andb]. rewrite slice_full. set (content := skipn (c_pos c) (c_buf c)).
  assert (Hcount : (length (c_buf c) - c_pos c)%nat = length content) by (unfold content; rewrite skipn_length; reflexivity).
  rewrite Hcount. clearbody content. clear Hcount. destruct (from_utf8 content) as [s|] eqn:E.
  - apply from_utf8_sound in E as [Hs He]. eexists. split; [reflexivity|]. split; [discriminate|]. intros _. split; [discriminate|].
    cbn [reader_shows]. split; [reflexivity|]. unfold limit_str. destruct (limit_cases s Hs) as [[-> Hl]|(x & -> & Hl & y & l & Hy & Hc)].
    + exists s, []. rewrite app_nil_r. repeat split; auto.
    + exists (firstn 45 s), (encode_utf8 (skipn 45 s)). rewrite <- encode_utf8_app, firstn_skipn.
      split; [auto|]. split; [apply Forall_firstn, Hs|]. split; [lia|]. right. split; [|split; [reflexivity|split; [left; exact Hl|]]].
      * rewrite Hy, <- (app_nil_r (encode_utf8 (y :: l))). apply encode_nonempty.
      * pose proof (chars_bytes _ (Forall_firstn _ _ 45%nat Hs)). lia.
  - destruct (valid_up_to_spec content) as (s & rest & Hc & Hs & Hv & Hn).
    assert (Hrest : rest <> []).
    { intros ->. rewrite app_nil_r in Hc. rewrite Hc, (from_utf8_encode s Hs) in E. discriminate. }
    rewrite Hv. unfold checked_slice at 1. cbn [Nat.leb andb].
    replace (Nat.leb (length (encode_utf8 s)) (length content)) with true
      by (symmetry; apply Nat.leb_le; rewrite Hc, app_length; lia).
    assert (Hfirst : firstn (length (encode_utf8 s)) content = encode_utf8 s)
      by (rewrite Hc, firstn_app, Nat.sub_diag, firstn_all, app_nil_r; reflexivity).
    rewrite slice_0, Hfirst, (from_utf8_encode s Hs).
    unfold limit_str. destruct (limit_cases s Hs) as [[-> Hl]|(x & -> & Hl & y & l & Hy & Hcy)].
    + destruct (Nat.ltb (length (encode_utf8 s)) 15) eqn:E15.
      * unfold checked_slice.
        replace (Nat.leb (length (encode_utf8 s)) (Nat.min (length (encode_utf8 s) + 30) (length content))) with true
          by (symmetry; apply Nat.leb_le; rewrite Hc, app_length; lia).
        replace (Nat.leb (Nat.min (length (encode_utf8 s) + 30) (length content)) (length content)) with true
          by (symmetry; apply Nat.leb_le; lia).
        cbn [andb]. eexists. split; [reflexivity|]. split; [discriminate|]. intros _. split; [discriminate|].
        cbn [reader_shows]. split; [reflexivity|]. exists s, rest. split; [exact Hc|]. split; [exact Hs|]. split; [exact Hl|].
        right. split; [exact Hrest|]. split; [reflexivity|]. split; [right; exact Hn|]. split; [apply Nat.ltb_lt, E15|].
        split; [exact Hn|]. unfold slice.
        assert (Hskip : skipn (length (encode_utf8 s)) content = rest)
          by (rewrite Hc, skipn_app, Nat.sub_diag, skipn_all; reflexivity).
        rewrite Hskip.
        rewrite Hc, app_length. destruct (Nat.le_gt_cases 30 (length rest)) as [H|H].
        -- f_equal. lia.
        -- rewrite !firstn_all2 by lia. reflexivity.
      * eexists. split; [reflexivity|]. split; [discriminate|]. intros _. split; [discriminate|].
        cbn [reader_shows]. split; [reflexivity|]. exists s, rest. split; [exact Hc|]. split; [exact Hs|]. split; [exact Hl|].
        right. split; [exact Hrest|]. split; [reflexivity|]. split; [right; exact Hn|]. apply Nat.ltb_ge, E15.
    + pose proof (chars_bytes _ (Forall_firstn _ _ 45%nat Hs)) as Hb.
      replace (Nat.ltb (length (encode_utf8 (firstn 45 s))) 15) with false by (symmetry; apply Nat.ltb_ge; lia).
      eexists. split; [reflexivity|]. split; [discriminate|]. intros _. split; [discriminate|].
      cbn [reader_shows]. split; [reflexivity|]. exists (firstn 45 s), (encode_utf8 (skipn 45 s) ++ rest).
      split; [rewrite Hc, app_assoc, <- encode_utf8_app, firstn_skipn; reflexivity|].
      split; [apply Forall_firstn, Hs|]. split; [lia|]. right. split; [rewrite Hy; apply encode_nonempty|].
      split; [reflexivity|]. split; [left; exact Hl|lia].
Qed.

(** The position never passes the end of the buffer *)
Lemma fill_pos start c r c' : (start <= length (c_buf c))%nat -> pos_ok c -> fill_buffer start c = (r, c') -> pos_ok c'.
Proof.
  intros Hs Hp. unfold fill_buffer, pos_ok in *. destruct (c_eof c); [intros [= _ <-]; exact Hp|].
  destruct (negb _); [intros [= _ <-]; exact Hp|]. destruct (negb _); [intros [= _ <-]; exact Hp|]. destruct (c_used c); [intros [= _ <-]; exact Hp|].
  destruct (read_events _ _) as [[e|data] evs]; intros [= _ <-]; cbn; [exact Hs|]. rewrite app_length, firstn_length. lia.
Qed.
Lemma after_fill_pos r c' : pos_ok (snd r) -> forall x, byte_after_fill r = (x, c') -> pos_ok c'.
Proof. destruct r as [[[e|[|]]|] c1]; cbn; intros H x; try (intros [= _ <-]; exact H). destruct (nth_error _ _); intros [= _ <-]; exact H. Qed.

Lemma peek_pos c r c' : pos_ok c -> c_peek c = (r, c') -> pos_ok c'.
Proof.
  intros Hp. unfold c_peek. destruct (Nat.ltb _ _).
  - destruct (nth_error _ _); intros [= _ <-]; exact Hp.
  - apply after_fill_pos. destruct (fill_buffer 0 c) as [x c1] eqn:E. cbn. eapply fill_pos; [|exact Hp|exact E]. lia.
Qed.
Lemma vpeek_pos c r c' : pos_ok c -> c_vpeek c = (r, c') -> pos_ok c'.
Proof.
  intros Hp. unfold c_vpeek. destruct (c_final c); [intros [= _ <-]; exact Hp|]. destruct (Nat.ltb _ _).
  - destruct (nth_error _ _); intros [= _ <-]; exact Hp.
  - destruct (_ || _).
    + match goal with |- byte_after_fill (fill_buffer 0 ?c1) = _ -> _ => assert (Hp1 : pos_ok c1) by (destruct (Nat.ltb _ _); exact Hp);
        destruct (fill_buffer 0 c1) as [x c2] eqn:E end.
      apply after_fill_pos. cbn. eapply fill_pos; [|exact Hp1|exact E]. lia.
    + apply after_fill_pos. destruct (fill_buffer _ c) as [x c1] eqn:E. cbn. eapply fill_pos; [|exact Hp|exact E]. lia.
Qed.

Theorem refines_pos {A} (p : prog A) : forall c a x a', rel c a -> pos_ok c -> arun p a = Some (x, a') ->
  exists c', crun p c = Some (x, c') /\ rel c' a' /\ pos_ok c'.
Proof.
  induction p as [y|k IH|k IH|k IH|k IH|k IH|k IH|k IH|bs k IH|b k IH|k IH|k IH|k IH];
    intros c a x a' R Hp H; cbn in H |- *.
  - injection H as <- <-. eauto.
  - destruct (a_peek a) as [[r a1]|] eqn:E; [|discriminate].
    destruct (peek_spec _ _ _ _ R E) as (c1 & Ec & R1). rewrite Ec. pose proof (peek_pos _ _ _ Hp Ec). eauto.
  - destruct (a_skip a) as [a1|] eqn:E; [|discriminate].
    destruct (skip_spec _ _ _ R E) as (c1 & Ec & R1). rewrite Ec. apply (IH c1 a1); auto.
    unfold c_skip in Ec. destruct (Nat.ltb _ _) eqn:El; [|discriminate]. injection Ec as <-. apply Nat.ltb_lt in El. unfold pos_ok; cbn. lia.
  - destruct (a_vnew a) as [a1|] eqn:E; [|discriminate].
    destruct (vnew_spec _ _ _ R E) as (c1 & Ec & R1). rewrite Ec. apply (IH c1 a1); auto.
    unfold c_vnew in Ec. destruct (Nat.leb _ _); [|discriminate]. injection Ec as <-. unfold pos_ok; cbn. lia.
  - destruct (a_vpeek a) as [[r a1]|] eqn:E; [|discriminate].
    destruct (vpeek_spec _ _ _ _ R E) as (c1 & Ec & R1). rewrite Ec. pose proof (vpeek_pos _ _ _ Hp Ec). eauto.
  - destruct (a_vconsume a) as [a1|] eqn:E; [|discriminate].
    destruct (vconsume_spec _ _ _ R E) as (c1 & Hc & R1). unfold c_vconsume in Hc.
    injection Hc as <-. apply (IH _ a1); auto. destruct R1 as [R1|R1]; [|exact (ro_pos _ _ R1)].
    unfold a_vconsume in E. destruct (a_failed a), (a_mode a) as [|? ? []|], (a_known a), (a_rest a); try discriminate. injection E as <-. discriminate R1.
  - destruct (a_vskip_prev a) as [a1|] eqn:E; [|discriminate].
    destruct (vskip_prev_spec _ _ _ R E) as (c1 & Ec & R1). rewrite Ec. apply (IH c1 a1); auto.
    unfold c_vskip_prev in Ec. destruct (c_final c); [discriminate|]. destruct (Nat.eqb _ _); [injection Ec as <-; exact Hp|].
    destruct (c_pos c) eqn:Epos; [discriminate|]. destruct (buf_slice _ _ _); [|discriminate]. injection Ec as <-. exact Hp.
  - destruct (a_vskip_final a) as [a1|] eqn:E; [|discriminate].
    eapply IH; [| |exact H]; [eapply vskip_final_spec; eauto|exact Hp].
  - destruct (a_vpush bs a) as [a1|] eqn:E; [|discriminate].
    destruct (vpush_spec _ _ _ _ R E) as (c1 & Ec & R1). rewrite Ec. apply (IH c1 a1); auto.
    unfold c_vpush in Ec. destruct (Nat.ltb _ _); [destruct (buf_slice _ _ _); [|discriminate]|]; injection Ec as <-; exact Hp.
  - destruct (a_vget b a) as [a1|] eqn:E; [|discriminate].
    destruct (vget_spec _ _ _ _ R E) as (c1 & Ec & R1). rewrite Ec. apply (IH c1 a1); auto.
    unfold c_vget in Ec. destruct (if c_final c then _ else _) as [e|]; [|discriminate].
    destruct (c_using c); [destruct (buf_slice _ _ _); [|discriminate]; destruct b|destruct (c_used c); [discriminate|]]; injection Ec as <-; exact Hp.
  - destruct (a_vstr_peek a) as [s|] eqn:E; [|discriminate].
    rewrite (vstr_peek_spec _ _ _ R E). eauto.
  - destruct (a_vstr a) as [[s a1]|] eqn:E; [|discriminate].
    destruct (vstr_spec _ _ _ _ R E) as (c1 & Ec & R1). rewrite Ec. apply (IH s c1 a1); auto.
    unfold c_vstr in Ec. destruct (c_value c); [|discriminate]. destruct (c_ref_str _ _); [|discriminate]. injection Ec as _ <-. exact Hp.
  - destruct (a_vstring a) as [[s a1]|] eqn:E; [|discriminate].
    destruct (vstring_spec _ _ _ _ R E) as (c1 & Ec & R1). rewrite Ec. apply (IH s c1 a1); auto.
    unfold c_vstring in Ec. destruct (c_value c) as [[| |]|]; try discriminate;
      [destruct (c_ref_str _ _)|destruct (c_ref_str _ _)|destruct (from_utf8 _)]; try discriminate; injection Ec as _ <-; exact Hp.
Qed.

(** Without IO errors the views agree to the end *)
Lemma arun_no_fail {A} (p : prog A) : forall a x a', a_tail a = TEof -> a_failed a = false -> arun p a = Some (x, a') -> a_failed a' = false.
Proof.
  induction p as [y|k IH|k IH|k IH|k IH|k IH|k IH|k IH|bs k IH|b k IH|k IH|k IH|k IH]; intros a x a' Ht Hf H; cbn in H.
  - injection H as <- <-. exact Hf.
  - destruct (a_peek a) as [[r a1]|] eqn:E; [|discriminate]. unfold a_peek in E. rewrite Hf in E.
    destruct (a_mode a); [|discriminate|destruct (a_known a); [|discriminate]]; injection E as <- <-; (eapply IH; [| |exact H]); cbn; auto.
    unfold a_peek_res. rewrite Ht. destruct (a_rest a); reflexivity.
  - destruct (a_skip a) as [a1|] eqn:E; [|discriminate]. unfold a_skip in E. rewrite Hf in E.
    destruct (a_mode a), (a_known a), (a_rest a); try discriminate. injection E as <-. eapply IH; [| |exact H]; auto.
  - destruct (a_vnew a) as [a1|] eqn:E; [|discriminate]. unfold a_vnew in E. rewrite Hf in E.
    destruct (a_mode a); try discriminate. injection E as <-. eapply IH; [| |exact H]; auto.
  - destruct (a_vpeek a) as [[r a1]|] eqn:E; [|discriminate]. unfold a_vpeek in E. rewrite Hf in E.
    destruct (a_mode a) as [|? ? []|]; try discriminate.
    assert (Hn : is_err (a_peek_res a) = false) by (unfold a_peek_res; rewrite Ht; destruct (a_rest a); reflexivity).
    destruct (a_known a), (a_rest a); try discriminate; injection E as <- <-; (eapply IH; [| |exact H]); cbn; auto.
  - destruct (a_vconsume a) as [a1|] eqn:E; [|discriminate]. unfold a_vconsume in E. rewrite Hf in E.
    destruct (a_mode a) as [|? ? []|], (a_known a), (a_rest a); try discriminate. injection E as <-. eapply IH; [| |exact H]; auto.
  - destruct (a_vskip_prev a) as [a1|] eqn:E; [|discriminate]. unfold a_vskip_prev in E. rewrite Hf in E.
    destruct (a_mode a) as [|? [] []|]; try discriminate. injection E as <-. eapply IH; [| |exact H]; auto.
  - destruct (a_vskip_final a) as [a1|] eqn:E; [|discriminate]. unfold a_vskip_final in E. rewrite Hf in E.
    destruct (a_mode a) as [|? [] []|]; try discriminate. injection E as <-. eapply IH; [| |exact H]; auto.
  - destruct (a_vpush bs a) as [a1|] eqn:E; [|discriminate]. unfold a_vpush in E. rewrite Hf in E.
    destruct (a_mode a) as [|? ? []|]; try discriminate. injection E as <-. eapply IH; [| |exact H]; auto.
  - destruct (a_vget b a) as [a1|] eqn:E; [|discriminate]. unfold a_vget in E. rewrite Hf in E.
    destruct (a_mode a); try discriminate. injection E as <-. eapply IH; [| |exact H]; auto.
  - destruct (a_vstr_peek a) as [s|] eqn:E; [|discriminate]. eauto.
  - destruct (a_vstr a) as [[s a1]|] eqn:E; [|discriminate]. unfold a_vstr in E. rewrite Hf in E.
    destruct (a_mode a) as [| |bs []]; try discriminate. destruct (from_utf8 bs); [|discriminate]. injection E as <- <-. eapply IH; [| |exact H]; auto.
  - destruct (a_vstring a) as [[s a1]|] eqn:E; [|discriminate]. unfold a_vstring in E. rewrite Hf in E.
    destruct (a_mode a) as [| |bs bb]; try discriminate. destruct (from_utf8 bs); [|discriminate]. injection E as <- <-. eapply IH; [| |exact H]; auto.
Qed.

(** ** The writer *)

Lemma skipn_add {A} (l : list A) : forall a b, skipn b (skipn a l) = skipn (a + b) l.
Proof. induction l as [|x l IH]; intros [|a] b; cbn; rewrite ?skipn_nil; auto. Qed.
Lemma limit_middle_spec s : exists t, limit_str_middle s = Some t /\ shows_ends s t.
Proof.
  unfold limit_str_middle. destruct (Nat.leb (length s) 55) eqn:E.
  - apply Nat.leb_le in E. eexists. split; [reflexivity|]. left. auto.
  - apply Nat.leb_gt in E. destruct (nth_error s 25) eqn:E1; [|apply nth_error_None in E1; lia].
    destruct (nth_error (rev s) 24) eqn:E2; [|apply nth_error_None in E2; rewrite rev_length in E2; lia].
    eexists. split; [reflexivity|]. right. split; [exact E|].
    exists (firstn 25 s), (firstn (length s - 50) (skipn 25 s)), (skipn (length s - 25) s).
    split; [|split; [rewrite firstn_length; lia|split; [rewrite skipn_length; lia|reflexivity]]].
    rewrite <- (firstn_skipn 25 s) at 1. f_equal.
    rewrite <- (firstn_skipn (length s - 50) (skipn 25 s)) at 1. f_equal.
    replace (length s - 25)%nat with (25 + (length s - 50))%nat by lia.
    rewrite skipn_add. reflexivity.
Qed.

Lemma valid_suffix_spec buf : forall n i,
  match valid_suffix buf n i with
  | Some (j, s) => (i <= j < i + n)%nat /\ from_utf8 (skipn j buf) = Some s /\ forall k, (i <= k < j)%nat -> from_utf8 (skipn k buf) = None
  | None => forall k, (i <= k < i + n)%nat -> from_utf8 (skipn k buf) = None
  end.
Proof.
  induction n as [|n IH]; intros i; cbn [valid_suffix]; [intros; lia|].
  destruct (from_utf8 (skipn i buf)) as [s|] eqn:E; [split; [lia|split; [exact E|intros; lia]]|].
  specialize (IH (S i)). destruct (valid_suffix buf n (S i)) as [[j s]|].
  - destruct IH as (H1 & H2 & H3). split; [lia|]. split; [exact H2|]. intros k Hk.
    destruct (Nat.eq_dec k i) as [->|]; [exact E|apply H3; lia].
  - intros k Hk. destruct (Nat.eq_dec k i) as [->|]; [exact E|apply IH; lia].
Qed.

Lemma debug_writer_spec st : exists d, debug_writer st = Some d /\ writer_shows d (w_buf st) /\
  forall bs, wd_buf d = Some bs -> forall k, (0 < k < length bs)%nat -> from_utf8 (skipn k (w_buf st)) = None.
Proof.
  unfold debug_writer. destruct (from_utf8 (w_buf st)) as [s|] eqn:E.
  - apply from_utf8_sound in E as [Hs He]. destruct (limit_middle_spec s) as (t & -> & Ht).
    eexists. split; [reflexivity|]. split; [|discriminate]. split; [reflexivity|]. cbn. eauto.
  - pose proof (valid_suffix_spec (w_buf st) (length (w_buf st) - 1) 1) as Hv.
    destruct (valid_suffix _ _ _) as [[j s]|].
    + destruct Hv as (Hj & Hf & Hk). apply from_utf8_sound in Hf as [Hs He]. destruct (limit_middle_spec s) as (t & -> & Ht).
      unfold checked_slice. replace (Nat.leb j (length (w_buf st))) with true by (symmetry; apply Nat.leb_le; lia). cbn [Nat.leb andb].
      eexists. split; [reflexivity|]. rewrite slice_0. split.
      * split; [reflexivity|]. cbn. split; [exact E|]. exists s, t. rewrite He, firstn_skipn. auto.
      * intros bs [= <-] k Hk'. apply Hk. rewrite firstn_length in Hk'. lia.
    + eexists. split; [reflexivity|]. split.
      * split; [reflexivity|]. cbn. split; [exact E|]. exists [], []. rewrite app_nil_r. repeat split; auto. left. cbn. split; [lia|reflexivity].
      * intros bs [= <-] k Hk. apply Hv. lia.
Qed.
