(** * Writer: the string value writer *)

From Verif Require Import Base Utf8Model Utf8Proofs Utf8Prefix NumberModel SpecNumber SpecJson
  WriterModel SpecWriter WriterProofs WriterDocProofs.

(** As [wr], but for methods of the string value writer *)
Definition svwr {A} (m : SV A) (sv : svw) (k : core) (t : bytes) (a : A) (sv' : svw) (k' : core) : Prop :=
  forall st, core_of st = k -> buf_ok st ->
  match m sv st with (r, sv1, st1) =>
    (r = Ok a /\ sv1 = sv' /\ emitted st1 = emitted st ++ t /\ core_of st1 = k' /\ buf_ok st1 /\
     (good_sink (w_sink st) -> good_sink (w_sink st1))) \/
    (exists e, r = Err e /\ sink_error e /\ ~ good_sink (w_sink st) /\
     exists rest, received (w_sink st1) ++ rest = emitted st ++ t)
  end.

(** The method rejects what it is given as malformed (unless the sink fails first) *)
Definition svbad {A} (m : SV A) (sv : svw) (k : core) : Prop :=
  forall st, core_of st = k -> buf_ok st ->
  match m sv st with (r, sv1, st1) =>
    exists e, r = Err e /\ (e = WInvalidData \/ (sink_error e /\ ~ good_sink (w_sink st)))
  end.

Lemma svwr_lift {A} (m : W A) sv k t a k' : wr m k t a k' -> svwr (sv_lift m) sv k t a sv k'.
Proof.
  intros Hm st Hk Hb. specialize (Hm st Hk Hb). unfold sv_lift. destruct (m st) as [r st1].
  destruct Hm as [(-> & H)|(e & -> & H)].
  - left. tauto.
  - right. exists e. tauto.
Qed.

Lemma svwr_ret {A} (a : A) sv k : svwr (sv_ret a) sv k [] a sv k.
Proof. intros st Hk Hb. cbn. left. rewrite app_nil_r. auto 10. Qed.

Lemma svwr_set b n sv k : svwr (sv_set b n) sv k [] tt (Svw b n (sv_error sv)) k.
Proof. intros st Hk Hb. cbn. left. rewrite app_nil_r. auto 10. Qed.

Lemma svwr_bind {A B} (m : SV A) (f : A -> SV B) sv k t1 a sv1 k1 t2 b sv2 k2 :
  svwr m sv k t1 a sv1 k1 -> svwr (f a) sv1 k1 t2 b sv2 k2 -> svwr (sv_bind m f) sv k (t1 ++ t2) b sv2 k2.
Proof.
  intros Hm Hf st Hk Hb. specialize (Hm st Hk Hb). unfold sv_bind. destruct (m sv st) as [[r sv'] st'].
  destruct Hm as [(-> & -> & He & Hk1 & Hb1 & Hg)|(e & -> & Hs & Hg & rest & Hr)].
  - specialize (Hf st' Hk1 Hb1). destruct (f a sv1 st') as [[r2 sv''] st''].
    destruct Hf as [(-> & -> & He2 & Hk2 & Hb2 & Hg2)|(e & -> & Hs & Hg2 & rest & Hr)].
    + left. splits; auto. rewrite He2, He, app_assoc. reflexivity.
    + right. exists e. splits; auto. exists rest. rewrite Hr, He, app_assoc. reflexivity.
  - right. exists e. splits; auto. exists (rest ++ t2). rewrite app_assoc, Hr, app_assoc. reflexivity.
Qed.

Lemma svwr_bind0 {A B} (m : SV A) (f : A -> SV B) sv k a sv1 k1 t b sv2 k2 :
  svwr m sv k [] a sv1 k1 -> svwr (f a) sv1 k1 t b sv2 k2 -> svwr (sv_bind m f) sv k t b sv2 k2.
Proof. apply svwr_bind. Qed.
Lemma svwr_bind_r {A B} (m : SV A) (f : A -> SV B) sv k t a sv1 k1 b sv2 k2 :
  svwr m sv k t a sv1 k1 -> svwr (f a) sv1 k1 [] b sv2 k2 -> svwr (sv_bind m f) sv k t b sv2 k2.
Proof. rewrite <- (app_nil_r t) at 2. apply svwr_bind. Qed.

Lemma svbad_bind1 {A B} (m : SV A) (f : A -> SV B) sv k : svbad m sv k -> svbad (sv_bind m f) sv k.
Proof.
  intros Hm st Hk Hb. specialize (Hm st Hk Hb). unfold sv_bind. destruct (m sv st) as [[r sv'] st'].
  destruct Hm as (e & -> & H). exists e. auto.
Qed.
Lemma svbad_bind2 {A B} (m : SV A) (f : A -> SV B) sv k t a sv1 k1 :
  svwr m sv k t a sv1 k1 -> svbad (f a) sv1 k1 -> svbad (sv_bind m f) sv k.
Proof.
  intros Hm Hf st Hk Hb. specialize (Hm st Hk Hb). unfold sv_bind. destruct (m sv st) as [[r sv'] st'].
  destruct Hm as [(-> & -> & He & Hk1 & Hb1 & Hg)|(e & -> & Hs & Hg & rest & Hr)].
  - specialize (Hf st' Hk1 Hb1). destruct (f a sv1 st') as [[r2 sv''] st''].
    destruct Hf as (e & -> & [->|[H1 H2]]); eexists; (split; [reflexivity|]); [left; reflexivity|right; auto].
  - exists e. auto.
Qed.

(** Incomplete character in the buffer *)
Definition sv_ok (sv : svw) : Prop :=
  sv_buf sv = [] \/
  exists b r, sv_buf sv = b :: r /\ start_len b = Some (sv_expected_len sv) /\
    (length (sv_buf sv) < sv_expected_len sv)%nat.

Lemma wr_piece cfg s k : Forall is_char s -> wr (write_string_value_piece cfg s) k (string_content cfg s) tt k.
Proof. intros Hs st <-. apply writes_piece, Hs. Qed.

Lemma sv_from_utf8_spec {B} bs (f : str -> SV B) sv k :
  (exists s, Forall is_char s /\ bs = encode_utf8 s /\
     forall t b sv' k', svwr (f s) sv k t b sv' k' -> svwr (sv_bind (sv_from_utf8 bs) f) sv k t b sv' k') \/
  (from_utf8 bs = None /\ svbad (sv_bind (sv_from_utf8 bs) f) sv k).
Proof.
  unfold sv_from_utf8. destruct (from_utf8 bs) as [s|] eqn:E.
  - left. exists s. destruct (from_utf8_sound _ _ E) as [Hs He]. splits; auto.
  - right. split; [reflexivity|]. intros st Hk Hb. cbn. eauto.
Qed.

Lemma skipn_skipn_add {A} (l : list A) a b : skipn a (skipn b l) = skipn (b + a) l.
Proof. revert l; induction b as [|b IH]; intros [|x l]; cbn; auto. destruct a; reflexivity. Qed.

(** The end of the loop: what is before [j] is written, the rest is kept *)
Lemma write_until cfg buf start_pos j (m : SV nat) sv k n :
  (start_pos <= j <= length buf)%nat ->
  m = sv_bind (sv_from_utf8 (slice buf start_pos j)) (fun s =>
       sv_bind (sv_lift (write_string_value_piece cfg s)) (fun _ =>
       sv_bind (sv_set (skipn j buf) n) (fun _ => sv_ret (length buf)))) ->
  sv_ok (Svw (skipn j buf) n (sv_error sv)) ->
  (exists s, Forall is_char s /\ skipn start_pos buf = encode_utf8 s ++ skipn j buf /\
    svwr m sv k (string_content cfg s) (length buf) (Svw (skipn j buf) n (sv_error sv)) k) \/
  (svbad m sv k /\ from_utf8 (slice buf start_pos j) = None).
Proof.
  intros Hj Em Hok. rewrite Em.
  destruct (sv_from_utf8_spec (slice buf start_pos j) (fun s =>
       sv_bind (sv_lift (write_string_value_piece cfg s)) (fun _ =>
       sv_bind (sv_set (skipn j buf) n) (fun _ => sv_ret (length buf)))) sv k) as [(s & Hs & He & Hw)|[Hn Hbad]].
  - left. exists s. splits; auto.
    + rewrite <- He. unfold slice.
      replace (skipn j buf) with (skipn (j - start_pos) (skipn start_pos buf)).
      * symmetry. apply firstn_skipn.
      * rewrite skipn_skipn_add. f_equal. lia.
    + apply Hw. eapply svwr_bind_r; [apply svwr_lift, wr_piece, Hs|].
      eapply svwr_bind0; [apply svwr_set|]. apply svwr_ret.
  - right. split; assumption.
Qed.

Lemma nth_error_skipn_len {A} (l : list A) i : nth_error l i = None -> (length l <= i)%nat.
Proof. apply nth_error_None. Qed.

Lemma slice_prefix (buf : bytes) start_pos j s tail : (start_pos <= j <= length buf)%nat ->
  skipn start_pos buf = encode_utf8 s ++ tail -> j = (start_pos + length (encode_utf8 s))%nat ->
  slice buf start_pos j = encode_utf8 s.
Proof.
  intros Hj E ->. unfold slice. rewrite E.
  replace (start_pos + length (encode_utf8 s) - start_pos)%nat with (length (encode_utf8 s) + 0)%nat by lia.
  rewrite firstn_app_2. cbn. apply app_nil_r.
Qed.

Lemma nth_error_skipn_add {A} (l : list A) a i : nth_error (skipn a l) i = nth_error l (a + i).
Proof.
  revert l; induction a as [|a IH]; intros l; [reflexivity|]. destruct l as [|x l]; cbn; [destruct i; reflexivity|apply IH].
Qed.

Lemma scan_spec cfg buf start_pos : forall fuel i sv k,
  sv_buf sv = [] -> (start_pos <= length buf)%nat -> (i <= length buf)%nat -> (length buf - i < fuel)%nat ->
  (forall j, (i <= j < start_pos)%nat -> exists b, nth_error buf j = Some b /\ is_cont b) ->
  (forall s tail, skipn start_pos buf = encode_utf8 s ++ tail -> Forall is_char s -> partial_char tail ->
     (i <= start_pos + length (encode_utf8 s))%nat) ->
  let m := write_scan_loop cfg fuel buf start_pos i in
  (exists s tail n, Forall is_char s /\ skipn start_pos buf = encode_utf8 s ++ tail /\
    sv_ok (Svw tail n (sv_error sv)) /\
    svwr m sv k (string_content cfg s) (length buf) (Svw tail n (sv_error sv)) k) \/
  (svbad m sv k /\ ~ utf8_prefix (skipn start_pos buf)).
Proof.
  induction fuel as [|fuel IH]; intros i sv k Hsv Hstart Hi Hfuel Hcont Hpre m; [lia|].
  subst m. cbn [write_scan_loop].
  destruct (nth_error buf i) as [b|] eqn:Eb.
  2:{ (* end of the buffer *)
      apply nth_error_None in Eb. assert (i = length buf) by lia. subst i.
      destruct (Nat.ltb_spec (length buf) start_pos) as [H|_]; [lia|].
      assert (Esl : skipn start_pos buf = slice buf start_pos (length buf)).
      { unfold slice. symmetry. apply firstn_all2. rewrite skipn_length. lia. }
      destruct (sv_from_utf8_spec (skipn start_pos buf) (fun s =>
         sv_lift (write_string_value_piece cfg s) ;;% sv_ret (length buf)) sv k) as [(s & Hs & He & Hw)|[Hn Hbad]].
      - left. exists s, [], (sv_expected_len sv). rewrite app_nil_r. splits; auto; [left; reflexivity|].
        apply Hw. replace (Svw [] (sv_expected_len sv) (sv_error sv)) with sv by (destruct sv; cbn in *; congruence).
        eapply svwr_bind_r; [apply svwr_lift, wr_piece, Hs|apply svwr_ret].
      - right. split; [exact Hbad|]. intros Hp. destruct (utf8_prefix_split _ Hp) as (s & tail & E & Hs & Ht).
        pose proof (Hpre s tail E Hs Ht) as Hle.
        assert (tail = []) as ->.
        { apply length_zero_iff_nil. apply (f_equal (@length N)) in E. rewrite skipn_length, app_length in E. lia. }
        rewrite app_nil_r in E. rewrite E, from_utf8_encode in Hn by exact Hs. discriminate. }
  assert (Hlt : (i < length buf)%nat) by (apply nth_error_Some; congruence).
  (* the byte at [i], if the rest is a prefix of UTF-8 and [i] is not the incomplete character *)
  assert (Hclass : forall s tail, skipn start_pos buf = encode_utf8 s ++ tail -> Forall is_char s ->
     (start_pos <= i < start_pos + length (encode_utf8 s))%nat ->
     (exists n, start_len b = Some n /\ (i + n <= start_pos + length (encode_utf8 s))%nat) \/ is_cont b).
  { intros s tail E Hs Hr. destruct (encode_utf8_nth s tail (i - start_pos)%nat Hs ltac:(lia)) as (b' & Hb' & Hcl).
    rewrite <- E, nth_error_skipn_add in Hb'. replace (start_pos + (i - start_pos))%nat with i in Hb' by lia.
    assert (b' = b) by congruence. subst b'. destruct Hcl as [(n & Hn & Hle)|Hc]; [left|right; exact Hc].
    exists n. split; [exact Hn|lia]. }
  (* stepping over the byte, or over all [n] bytes of the character *)
  assert (Hnext : forall n, (0 < n)%nat -> (i + n <= length buf)%nat ->
     (start_len b = Some n \/ (n = 1%nat /\ (forall n', start_len b = Some n' -> False))) ->
     (start_len b = None \/ (start_pos <= i)%nat) ->
     let m := write_scan_loop cfg fuel buf start_pos (i + n) in
     (exists s tail n, Forall is_char s /\ skipn start_pos buf = encode_utf8 s ++ tail /\
      sv_ok (Svw tail n (sv_error sv)) /\
      svwr m sv k (string_content cfg s) (length buf) (Svw tail n (sv_error sv)) k) \/
     (svbad m sv k /\ ~ utf8_prefix (skipn start_pos buf))).
  { intros n Hn0 Hn Hcl Hst. apply IH; auto; try lia.
    - intros j Hj. apply Hcont. lia.
    - intros s tail E Hs Ht. pose proof (Hpre s tail E Hs Ht) as Hle.
      destruct (Nat.lt_ge_cases i start_pos) as [Hi'|Hi'].
      + destruct Hst as [Hst|]; [|lia]. destruct Hcl as [Hcl|[-> _]]; [congruence|lia].
      + destruct (Nat.lt_ge_cases i (start_pos + length (encode_utf8 s))) as [Hlt'|Hge].
        * destruct (Hclass s tail E Hs ltac:(lia)) as [(n' & Hn' & Hle')|[_ Hc]].
          -- destruct Hcl as [Hcl|[_ Hcl]]; [|exfalso; eapply Hcl, Hn']. assert (n' = n) by congruence. lia.
          -- destruct Hcl as [Hcl|[-> _]]; [congruence|lia].
        * (* [i] would be the incomplete character *)
          exfalso.
          assert (Etail : nth_error tail O = Some b).
          { assert (Hix : nth_error (skipn start_pos buf) (length (encode_utf8 s)) = Some b).
            { rewrite nth_error_skipn_add. rewrite <- Eb. f_equal. lia. }
            rewrite E, nth_error_app2, Nat.sub_diag in Hix by lia. exact Hix. }
          destruct tail as [|x tail]; [discriminate|]. injection Etail as ->.
          destruct (partial_char_start _ Ht ltac:(discriminate)) as (b' & r & n' & E' & Hl' & Hlen).
          injection E' as <- <-.
          destruct Hcl as [Hcl|[-> Hcl]]; [|eapply Hcl, Hl'].
          assert (n' = n) by congruence. subst n'.
          apply (f_equal (@length N)) in E. rewrite skipn_length, app_length in E. lia. }
  (* the incomplete character starts at [i] *)
  assert (Hstop : forall n, start_len b = Some n -> (length buf - i < n)%nat -> (start_pos <= i)%nat ->
     let m := sv_bind (sv_from_utf8 (slice buf start_pos i)) (fun s =>
       sv_bind (sv_lift (write_string_value_piece cfg s)) (fun _ =>
       sv_bind (sv_set (skipn i buf) n) (fun _ => sv_ret (length buf)))) in
     (exists s tail n, Forall is_char s /\ skipn start_pos buf = encode_utf8 s ++ tail /\
      sv_ok (Svw tail n (sv_error sv)) /\
      svwr m sv k (string_content cfg s) (length buf) (Svw tail n (sv_error sv)) k) \/
     (svbad m sv k /\ ~ utf8_prefix (skipn start_pos buf))).
  { intros n Hn Hrem Hst m.
    assert (Hok : sv_ok (Svw (skipn i buf) n (sv_error sv))).
    { right. cbn. assert (Hhd : nth_error (skipn i buf) O = Some b) by (rewrite nth_error_skipn_add, Nat.add_0_r; exact Eb).
      destruct (skipn i buf) as [|x r] eqn:Er; [discriminate|]. injection Hhd as ->.
      exists b, r. splits; auto. rewrite <- Er, skipn_length. exact Hrem. }
    destruct (write_until cfg buf start_pos i m sv k n ltac:(lia) eq_refl Hok) as [(s & Hs & E & Hw)|[Hbad Hnone]].
    - left. exists s, (skipn i buf), n. auto.
    - right. split; [exact Hbad|]. intros Hp.
      destruct (utf8_prefix_split _ Hp) as (s & tail & E & Hs & Ht).
      pose proof (Hpre s tail E Hs Ht) as Hle.
      assert (i = start_pos + length (encode_utf8 s))%nat.
      { destruct (Nat.lt_ge_cases i (start_pos + length (encode_utf8 s))) as [Hlt'|Hge]; [exfalso|lia].
        destruct (Hclass s tail E Hs ltac:(lia)) as [(n' & Hn' & Hle')|[_ Hc]]; [|congruence].
        assert (n' = n) by congruence. subst n'.
        apply (f_equal (@length N)) in E. rewrite skipn_length, app_length in E. lia. }
      rewrite (slice_prefix buf start_pos i s tail ltac:(lia) E ltac:(assumption)), from_utf8_encode in Hnone by exact Hs.
      discriminate. }
  (* before [start_pos] there are only continuation bytes *)
  assert (Hge : start_len b <> None -> (start_pos <= i)%nat).
  { intros Hne. destruct (Nat.lt_ge_cases i start_pos) as [Hi'|Hi']; [exfalso|exact Hi'].
    destruct (Hcont i ltac:(lia)) as (b' & Hb' & _ & Hc). congruence. }
  unfold start_len in Hge, Hnext, Hstop.
  destruct (is_1byte b) eqn:E1.
  { apply Hnext; auto; try lia. right. apply Hge. discriminate. }
  assert (Hexp : forall n, start_len b = Some n -> (0 < n)%nat ->
     (forall X, (start_pos <= i)%nat -> 
     (if Nat.ltb (length buf - i) n then
        if Nat.ltb i start_pos then sv_panic Bug else X
      else write_scan_loop cfg fuel buf start_pos (i + (n - 1) + 1)) =
     (if Nat.ltb (length buf - i) n then X else write_scan_loop cfg fuel buf start_pos (i + n)))).
  { intros n _ Hn X Hle. destruct (Nat.ltb_spec i start_pos); [lia|].
    replace (i + (n - 1) + 1)%nat with (i + n)%nat by lia. reflexivity. }
  destruct (is_2byte_start b) eqn:E2; [|destruct (is_3byte_start b) eqn:E3; [|destruct (is_4byte_start b) eqn:E4]].
  1: assert (Hle : (start_pos <= i)%nat) by (apply Hge; discriminate).
  1: rewrite (Hexp 2%nat); [|unfold start_len; rewrite E1, E2; reflexivity|lia|exact Hle].
  1: destruct (Nat.ltb_spec (length buf - i) 2); [apply Hstop; auto|apply Hnext; auto; lia].
  1: assert (Hle : (start_pos <= i)%nat) by (apply Hge; discriminate).
  1: rewrite (Hexp 3%nat); [|unfold start_len; rewrite E1, E2, E3; reflexivity|lia|exact Hle].
  1: destruct (Nat.ltb_spec (length buf - i) 3); [apply Hstop; auto|apply Hnext; auto; lia].
  1: assert (Hle : (start_pos <= i)%nat) by (apply Hge; discriminate).
  1: rewrite (Hexp 4%nat); [|unfold start_len; rewrite E1, E2, E3, E4; reflexivity|lia|exact Hle].
  1: destruct (Nat.ltb_spec (length buf - i) 4); [apply Hstop; auto|apply Hnext; auto; lia].
  destruct (is_continuation b) eqn:E5.
  { apply Hnext; auto; try lia. right. split; [reflexivity|]. intros n'; discriminate. }
  right. split.
  - intros st Hk Hb. cbn. eauto.
  - intros Hp. destruct (utf8_prefix_split _ Hp) as (s & tail & E & Hs & Ht).
    pose proof (Hpre s tail E Hs Ht) as Hle.
    assert (Hi2 : (start_pos <= i)%nat).
    { destruct (Nat.lt_ge_cases i start_pos) as [Hi'|Hi']; [exfalso|exact Hi'].
      destruct (Hcont i ltac:(lia)) as (b' & Hb' & Hc & _). congruence. }
    destruct (Nat.lt_ge_cases i (start_pos + length (encode_utf8 s))) as [Hlt'|Hge'].
    + destruct (Hclass s tail E Hs ltac:(lia)) as [(n' & Hn' & Hle')|[Hc _]].
      * unfold start_len in Hn'. rewrite E1, E2, E3, E4 in Hn'. discriminate.
      * congruence.
    + assert (Etail : nth_error tail O = Some b).
      { assert (Hix : nth_error (skipn start_pos buf) (length (encode_utf8 s)) = Some b).
        { rewrite nth_error_skipn_add. rewrite <- Eb. f_equal. lia. }
        rewrite E, nth_error_app2, Nat.sub_diag in Hix by lia. exact Hix. }
      destruct tail as [|x tail]; [discriminate|]. injection Etail as ->.
      destruct (partial_char_start _ Ht ltac:(discriminate)) as (b' & r & n' & E' & Hl' & Hlen).
      injection E' as <- <-. unfold start_len in Hl'. rewrite E1, E2, E3, E4 in Hl'. discriminate.
Qed.

(** Equal methods *)
Lemma svwr_ext {A} (m m' : SV A) sv k t a sv' k' : (forall st, m sv st = m' sv st) -> svwr m' sv k t a sv' k' -> svwr m sv k t a sv' k'.
Proof. intros H Hm st Hk Hb. rewrite H. apply Hm; assumption. Qed.
Lemma svbad_ext {A} (m m' : SV A) sv k : (forall st, m sv st = m' sv st) -> svbad m' sv k -> svbad m sv k.
Proof. intros H Hm st Hk Hb. rewrite H. apply Hm; assumption. Qed.

Lemma max_or_offset_spec a b off : (a <= b)%nat ->
  max_or_offset_negative a b off = Some (if Nat.ltb b off then a else (b - off)%nat).
Proof.
  intros H. unfold max_or_offset_negative. destruct (Nat.ltb_spec b a); [lia|].
  destruct (Nat.ltb b off); reflexivity.
Qed.

Lemma partial_char_short t : partial_char t -> (length t <= 3)%nat.
Proof.
  intros Ht. destruct t as [|x t]; [cbn; lia|].
  destruct (partial_char_start _ Ht ltac:(discriminate)) as (b & r & n & _ & Hn & Hl).
  apply start_len_bounds in Hn. lia.
Qed.

(** The scan from where the loop starts *)
Lemma scan_start cfg buf start_pos sv k :
  sv_buf sv = [] -> (start_pos <= length buf)%nat ->
  (forall j, (j < start_pos)%nat -> exists b, nth_error buf j = Some b /\ (start_pos <= 3)%nat /\ is_cont b) ->
  let m := match max_or_offset_negative start_pos (length buf) MAX_BYTES_PER_CHAR with
     | None => sv_panic Bug
     | Some i => write_scan_loop cfg (S (length buf)) buf start_pos i
     end in
  (exists s tail n, Forall is_char s /\ skipn start_pos buf = encode_utf8 s ++ tail /\
    sv_ok (Svw tail n (sv_error sv)) /\
    svwr m sv k (string_content cfg s) (length buf) (Svw tail n (sv_error sv)) k) \/
  (svbad m sv k /\ ~ utf8_prefix (skipn start_pos buf)).
Proof.
  intros Hsv Hst Hcont m. subst m. rewrite max_or_offset_spec by exact Hst. unfold MAX_BYTES_PER_CHAR.
  apply scan_spec; auto.
  - destruct (Nat.ltb_spec (length buf) 4); lia.
  - destruct (Nat.ltb_spec (length buf) 4); lia.
  - intros j Hj. destruct (Hcont j ltac:(lia)) as (b & Hb & _ & Hc). eauto.
  - intros s tail E Hs Ht. apply partial_char_short in Ht.
    apply (f_equal (@length N)) in E. rewrite skipn_length, app_length in E.
    destruct (Nat.ltb_spec (length buf) 4); lia.
Qed.

Lemma sv_write_impl_spec cfg buf sv k : sv_ok sv ->
  (exists s sv', Forall is_char s /\ sv_buf sv ++ buf = encode_utf8 s ++ sv_buf sv' /\ sv_ok sv' /\
     sv_error sv' = sv_error sv /\
     svwr (sv_write_impl cfg buf) sv k (string_content cfg s) (length buf) sv' k) \/
  (svbad (sv_write_impl cfg buf) sv k /\ ~ utf8_prefix (sv_buf sv ++ buf)).
Proof.
  intros Hok. destruct buf as [|x0 buf0].
  { left. exists [], sv. rewrite app_nil_r. splits; auto. apply svwr_ret. }
  assert (Hsuff : forall B : SV nat, (forall st, sv_write_impl cfg (x0 :: buf0) sv st = B sv st) ->
    ((exists s sv', Forall is_char s /\ sv_buf sv ++ (x0 :: buf0) = encode_utf8 s ++ sv_buf sv' /\ sv_ok sv' /\
     sv_error sv' = sv_error sv /\
     svwr B sv k (string_content cfg s) (length (x0 :: buf0)) sv' k) \/
     (svbad B sv k /\ ~ utf8_prefix (sv_buf sv ++ (x0 :: buf0)))) ->
    ((exists s sv', Forall is_char s /\ sv_buf sv ++ (x0 :: buf0) = encode_utf8 s ++ sv_buf sv' /\ sv_ok sv' /\
     sv_error sv' = sv_error sv /\
     svwr (sv_write_impl cfg (x0 :: buf0)) sv k (string_content cfg s) (length (x0 :: buf0)) sv' k) \/
     (svbad (sv_write_impl cfg (x0 :: buf0)) sv k /\ ~ utf8_prefix (sv_buf sv ++ (x0 :: buf0))))).
  { intros B HB [(s & sv' & H1 & H2 & H3 & H4 & H5)|[H1 H2]].
    - left. exists s, sv'. splits; auto. eapply svwr_ext; eassumption.
    - right. split; [eapply svbad_ext; eassumption|exact H2]. }
  eapply Hsuff; [intros st; unfold sv_write_impl; reflexivity|]. clear Hsuff.
  remember (x0 :: buf0) as buf eqn:Ebuf.
  destruct Hok as [Hnil|(b & r & Hb & Hexp & Hlen)].
  - rewrite Hnil. cbn [app].
    assert (Hscan := scan_start cfg buf 0 sv k Hnil ltac:(lia) ltac:(intros; lia)). cbn [skipn] in Hscan.
    destruct Hscan as [(s & tail & n & Hs & E & Hok & Hw)|[Hbad Hp]].
    + left. exists s, (Svw tail n (sv_error sv)). splits; auto.
    + right. split; [exact Hbad|exact Hp].
  - rewrite Hb. rewrite <- Hb. pose proof (start_len_bounds _ _ Hexp) as Hbnd.
    assert (Hpos : (0 < length (sv_buf sv))%nat) by (rewrite Hb; cbn; lia).
    remember (sv_expected_len sv) as n eqn:En.
    remember (Nat.min (n - length (sv_buf sv)) (length buf)) as cc eqn:Ecc.
    remember (sv_buf sv ++ firstn cc buf) as ub eqn:Eub.
    assert (Hub : length ub = (length (sv_buf sv) + cc)%nat).
    { subst ub. rewrite app_length, firstn_length. lia. }
    assert (Hhead : exists r', ub = b :: r') by (subst ub; rewrite Hb; cbn; eauto).
    destruct Hhead as [r' Hr'].
    destruct (Nat.ltb_spec n (length (sv_buf sv))) as [H|_]; [lia|].
    destruct (Nat.ltb_spec MAX_BYTES_PER_CHAR (length ub)) as [H|_]; [unfold MAX_BYTES_PER_CHAR in H; lia|].
    assert (Hall : sv_buf sv ++ buf = ub ++ skipn cc buf).
    { subst ub. rewrite <- app_assoc, firstn_skipn. reflexivity. }
    destruct (Nat.leb_spec n (length ub)) as [Hfull|Hpart].
    + (* the character is complete *)
      assert (Hl : length ub = n) by lia.
      destruct (from_utf8 ub) as [s0|] eqn:Ef.
      * destruct (from_utf8_one_char ub b r' s0 Hr' ltac:(congruence) Ef) as (c & -> & Hc & Hec).
        assert (Hcs : Forall is_char [c]) by (constructor; [exact Hc|constructor]).
        set (sv1 := Svw [] n (sv_error sv)).
        assert (Hfirst : svwr (
           (sv_set [] n ;;% s <-% decode_utf8_char ub ;; sv_lift (write_string_value_piece cfg s)) ;;% sv_ret cc)
           sv k (string_content cfg [c]) cc sv1 k).
        { eapply svwr_bind_r; [|apply svwr_ret].
          eapply svwr_bind0; [apply svwr_set|].
          eapply svwr_bind0; [|apply svwr_lift, wr_piece, Hcs].
          unfold decode_utf8_char. eapply svwr_bind0.
          - unfold sv_from_utf8. rewrite Ef. apply svwr_ret.
          - apply svwr_ret. }
        assert (Hscan := scan_start cfg buf cc sv1 k eq_refl ltac:(lia)).
        destruct Hscan as [(s & tail & n' & Hs & E & Hok' & Hw)|[Hbad Hp]].
        { intros j Hj. assert (Hj' : (j < length buf)%nat) by lia.
          destruct (nth_error buf j) as [x|] eqn:Ex; [|apply nth_error_None in Ex; lia].
          exists x. splits; auto; [lia|].
          destruct (encode_char_head c Hc) as (b2 & r2 & He2 & _ & Hcont).
          assert (Hr2 : r' = r2) by congruence. subst r2.
          rewrite Forall_forall in Hcont. apply Hcont.
          assert (Hn : nth_error ub (length (sv_buf sv) + j) = Some x).
          { rewrite Eub, nth_error_app2 by lia.
            replace (length (sv_buf sv) + j - length (sv_buf sv))%nat with j by lia.
            rewrite <- Ex. rewrite <- (firstn_skipn cc buf) at 2. rewrite nth_error_app1; [reflexivity|].
            rewrite firstn_length. lia. }
          rewrite Hr' in Hn. destruct (length (sv_buf sv) + j)%nat as [|q] eqn:Eq; [lia|]. cbn in Hn.
          eapply nth_error_In, Hn. }
        -- left. exists (c :: s), (Svw tail n' (sv_error sv)). splits; auto.
           ++ rewrite Hall, E, encode_utf8_cons, <- Hec, <- app_assoc. reflexivity.
           ++ change (c :: s) with ([c] ++ s). rewrite string_content_app.
              eapply svwr_bind; [exact Hfirst|exact Hw].
        -- right. split.
           ++ eapply svbad_bind2; [exact Hfirst|exact Hbad].
           ++ rewrite Hall, Hec. intros Hpre. apply Hp.
              apply (utf8_prefix_encode [c]); [exact Hcs|]. unfold encode_utf8. cbn [flat_map]. rewrite app_nil_r. exact Hpre.
      * right. split.
        -- apply svbad_bind1. apply svbad_bind1. eapply svbad_bind2; [apply svwr_set|]. apply svbad_bind1.
           unfold decode_utf8_char. apply svbad_bind1. unfold sv_from_utf8. rewrite Ef.
           intros st Hk Hbo. cbn. eauto.
        -- rewrite Hall. intros Hp. apply utf8_prefix_app in Hp.
           destruct (one_char ub b r' Hr' ltac:(congruence) Hp) as (c & Hc & He).
           assert (E2 : ub = encode_utf8 [c]) by (unfold encode_utf8; cbn [flat_map]; rewrite app_nil_r; exact He).
           rewrite E2, from_utf8_encode in Ef by (constructor; [exact Hc|constructor]). discriminate.
    + (* still incomplete: everything was copied *)
      assert (Hcc : cc = length buf) by lia.
      left. exists [], (Svw ub n (sv_error sv)). splits; auto.
      * rewrite Hall, Hcc, skipn_all, app_nil_r. reflexivity.
      * right. exists b, r'. cbn. splits; auto.
      * cbn [string_content flat_map].
        eapply svwr_bind0.
        { eapply svwr_bind0; [apply svwr_set|apply svwr_ret]. }
        rewrite max_or_offset_spec by lia.
        assert (Hl4 : (length buf < 4)%nat) by lia.
        destruct (Nat.ltb_spec (length buf) MAX_BYTES_PER_CHAR) as [_|H]; [|unfold MAX_BYTES_PER_CHAR in H; lia].
        cbn [write_scan_loop]. rewrite Hcc.
        replace (nth_error buf (length buf)) with (@None N) by (symmetry; apply nth_error_None; lia).
        destruct (Nat.ltb_spec (length buf) (length buf)); [lia|].
        rewrite skipn_all. cbn [sv_from_utf8 from_utf8].
        eapply svwr_bind0; [apply svwr_ret|].
        eapply svwr_bind0; [|apply svwr_ret].
        change [] with (string_content cfg []) at 2. apply svwr_lift, wr_piece. constructor.
Qed.

(** ** Public methods *)

Lemma svwr_tracked {A} (m : SV A) sv k t a sv' k' : sv_error sv = None ->
  svwr m sv k t a sv' k' -> svwr (run_with_error_tracking m) sv k t a sv' k'.
Proof.
  intros He Hm st Hk Hb. specialize (Hm st Hk Hb). unfold run_with_error_tracking, sv_bind, check_previous_error.
  rewrite He. destruct (m sv st) as [[r sv1] st1].
  destruct Hm as [(-> & H)|(e & -> & H)]; [left; tauto|right; exists e; tauto].
Qed.
Lemma svbad_tracked {A} (m : SV A) sv k : sv_error sv = None ->
  svbad m sv k -> svbad (run_with_error_tracking m) sv k.
Proof.
  intros He Hm st Hk Hb. specialize (Hm st Hk Hb). unfold run_with_error_tracking, sv_bind, check_previous_error.
  rewrite He. destruct (m sv st) as [[r sv1] st1].
  destruct Hm as (e & -> & H). exists e. auto.
Qed.

Lemma wr_flush k : wr flush k [] tt k.
Proof.
  intros st Hk Hb. unfold flush. destruct (write_all (w_sink st) (w_buf st)) as [r s1] eqn:Ew.
  apply write_all_spec in Ew as (Hg & Hfr & _ & [[-> Hr]|(e & p & q & -> & He & Hr & Hpq & Hbad)]).
  - unfold sink_flush.
    assert (Hem : forall rs n, emitted (set_sink_buf st (Sink (received s1) (write_resps s1) rs n) []) = emitted st ++ []).
    { intros. unfold emitted. cbn. rewrite Hr, !app_nil_r. reflexivity. }
    destruct (flush_resps s1) as [|[e|] l] eqn:Efr.
    + left. splits; auto.
      * intros H. apply Hg in H as [H1 H2]. split; cbn; [exact H1|constructor].
    + right. exists (WSink e). splits; auto; try exact I.
      * intros [_ H2]. rewrite <- Hfr in H2. apply Forall_inv in H2. discriminate.
      * exists []. cbn. rewrite Hr, !app_nil_r. reflexivity.
    + left. splits; auto.
      * intros H. apply Hg in H as [H1 H2]. rewrite Efr in H2. split; cbn; [exact H1|]. apply Forall_inv_tail in H2. exact H2.
  - right. exists e. splits; auto. exists q. cbn. rewrite Hr, <- app_assoc, <- Hpq, app_nil_r. reflexivity.
Qed.

Lemma svwr_flush sv k : sv_error sv = None -> svwr sv_flush sv k [] tt sv k.
Proof. intros He. apply svwr_tracked; [exact He|]. apply svwr_lift, wr_flush. Qed.

Lemma sv_write_spec cfg buf sv k : sv_ok sv -> sv_error sv = None ->
  (exists s sv', Forall is_char s /\ sv_buf sv ++ buf = encode_utf8 s ++ sv_buf sv' /\ sv_ok sv' /\
     sv_error sv' = None /\
     svwr (sv_write cfg buf) sv k (string_content cfg s) (length buf) sv' k) \/
  (svbad (sv_write cfg buf) sv k /\ ~ utf8_prefix (sv_buf sv ++ buf)).
Proof.
  intros Hok He. destruct (sv_write_impl_spec cfg buf sv k Hok) as [(s & sv' & Hs & E & Hok' & He' & Hw)|[Hbad Hp]].
  - left. exists s, sv'. splits; auto; [congruence|]. apply svwr_tracked; assumption.
  - right. split; [apply svbad_tracked; assumption|exact Hp].
Qed.

Lemma sv_write_str_spec cfg s sv k : Forall is_char s -> sv_error sv = None ->
  (sv_buf sv = [] /\ svwr (sv_write_str cfg s) sv k (string_content cfg s) tt sv k) \/
  (sv_buf sv <> [] /\ svbad (sv_write_str cfg s) sv k).
Proof.
  intros Hs He. unfold sv_write_str. destruct (sv_buf sv) as [|b r] eqn:Eb.
  - left. split; [reflexivity|]. apply svwr_tracked; [exact He|].
    eapply svwr_ext; [intros st; rewrite Eb; reflexivity|]. apply svwr_lift, wr_piece, Hs.
  - right. split; [discriminate|]. apply svbad_tracked; [exact He|].
    intros st Hk Hb. rewrite Eb. eauto.
Qed.

Lemma sv_finish_spec sv k : sv_error sv = None ->
  (sv_buf sv = [] /\ svwr sv_finish_value sv k [0x22] tt sv (k_set_active false k)) \/
  (sv_buf sv <> [] /\ svbad sv_finish_value sv k).
Proof.
  intros He. unfold sv_finish_value, check_previous_error. destruct (sv_buf sv) as [|b r] eqn:Eb.
  - left. split; [reflexivity|].
    eapply svwr_ext.
    { intros st. unfold sv_bind at 1. rewrite He, Eb. reflexivity. }
    eapply svwr_bind_r; [apply svwr_lift, wr_bytes|]. apply svwr_lift. mod_last (k_set_active false).
  - right. split; [discriminate|]. intros st Hk Hb. unfold sv_bind. rewrite He, Eb. eauto.
Qed.

(** The buffered incomplete character is never UTF-8 *)
Lemma sv_ok_not_utf8 sv s : sv_ok sv -> Forall is_char s -> sv_buf sv <> [] ->
  from_utf8 (encode_utf8 s ++ sv_buf sv) = None.
Proof.
  intros [H|(b & r & Hb & Hl & Hlen)] Hs Hne; [contradiction|].
  rewrite from_utf8_encode_app by exact Hs.
  destruct (from_utf8 (sv_buf sv)) as [s0|] eqn:E; [exfalso|reflexivity].
  apply from_utf8_sound in E as [Hs0 He]. destruct s0 as [|c s0]; [rewrite Hb in He; discriminate|].
  apply Forall_cons_iff in Hs0 as [Hc _]. destruct (encode_char_head c Hc) as (b' & r' & Hec & Hl' & _).
  rewrite encode_utf8_cons, Hec, Hb in He. injection He as <- He.
  rewrite Hl' in Hl. injection Hl as Hl. rewrite Hb, <- He in Hlen. cbn in Hlen. rewrite app_length in Hlen. lia.
Qed.
