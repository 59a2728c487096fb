(** * The buffer of the reader implements the abstract view of the input *)

From Verif Require Import Base Utf8Model SourceModel.

Ltac splits := repeat match goal with |- _ /\ _ => split end.

Lemma buf_size_pos : (0 < READER_BUF_SIZE)%nat.
Proof. unfold READER_BUF_SIZE. lia. Qed.
Local Opaque READER_BUF_SIZE.

Lemma slice_full {A} (l : list A) a : slice l a (length l) = skipn a l.
Proof. unfold slice. apply firstn_all2. rewrite skipn_length. lia. Qed.

Lemma slice_nil {A} (l : list A) a : slice l a a = [].
Proof. unfold slice. rewrite Nat.sub_diag. reflexivity. Qed.

Lemma slice_snoc {A} (l : list A) a b x : (a <= b)%nat -> nth_error l b = Some x ->
  slice l a (S b) = slice l a b ++ [x].
Proof.
  unfold slice. intros Hab Hx. rewrite Nat.sub_succ_l by lia.
  assert (Hy : nth_error (skipn a l) (b - a) = Some x).
  { rewrite <- Hx. rewrite <- (firstn_skipn a l) at 2.
    assert (Hl : (b < length l)%nat) by (apply nth_error_Some; congruence).
    rewrite nth_error_app2; rewrite firstn_length; [|lia]. f_equal. lia. }
  revert Hy. generalize (skipn a l) as m, (b - a)%nat as n. clear.
  intros m n. revert m. induction n as [|n IH]; intros [|y m]; cbn; try discriminate.
  - intros [= ->]. reflexivity.
  - intros H. f_equal. exact (IH m H).
Qed.

Lemma slice_app1 {A} (l l' : list A) a b : (b <= length l)%nat -> slice (l ++ l') a b = slice l a b.
Proof.
  intros Hb. unfold slice. destruct (Nat.le_gt_cases a b) as [H|H].
  - rewrite skipn_app, firstn_app, skipn_length.
    replace (b - a - (length l - a))%nat with O by lia. cbn. apply app_nil_r.
  - replace (b - a)%nat with O by lia. reflexivity.
Qed.

Lemma slice_app2 {A} (l l' : list A) a : (a <= length l)%nat ->
  slice (l ++ l') a (length l) = slice l a (length l).
Proof. intros H. apply slice_app1. lia. Qed.

(** ** The schedule *)

Lemma read_events_spec evs space : (0 < space)%nat ->
  match read_events evs space with
  | (inl e, _) => supplied evs = ([], TErr e)
  | (inr d, evs') =>
    (length d <= space)%nat /\
    match d with
    | [] => supplied evs = ([], TEof)
    | _ => supplied evs = (d ++ fst (supplied evs'), snd (supplied evs'))
    end
  end.
Proof.
  intros Hs. induction evs as [|[bs| |e] evs IH]; cbn.
  - auto using Nat.le_0_l.
  - destruct bs as [|b bs].
    + rewrite firstn_nil. cbn. auto using Nat.le_0_l.
    + split; [rewrite firstn_length; cbn; lia|].
      destruct space as [|sp]; [lia|]. cbn [firstn].
      destruct (Nat.leb (length (b :: bs)) (S sp)) eqn:E.
      * apply Nat.leb_le in E. cbn in E. rewrite firstn_all2 by lia.
        destruct (supplied evs). reflexivity.
      * apply Nat.leb_gt in E. cbn in E. cbn [skipn].
        destruct (skipn sp bs) as [|y l] eqn:Ek.
        { assert (length (skipn sp bs) = O) by (rewrite Ek; reflexivity).
          rewrite skipn_length in H. lia. }
        cbn [supplied]. rewrite <- Ek. destruct (supplied evs) as [r t]. cbn.
        rewrite app_assoc, firstn_skipn. reflexivity.
  - exact IH.
  - reflexivity.
Qed.

(** ** The relation between the two views *)

Definition value_rel (v : cval) (c : csrc) (bs : bytes) (borrowed : bool) : Prop :=
  match v with
  | CReaderBuf x y => c_used c = true /\ (x <= y <= length (c_buf c))%nat /\ slice (c_buf c) x y = bs
  | CValueBuf => c_used c = false /\ c_vbuf c = bs
  | CVec l => c_used c = false /\ l = bs /\ borrowed = false
  end.

Definition mode_rel (c : csrc) (m : vmode) : Prop :=
  match m with
  | VNone => c_used c = false
  | VActive acc jr final =>
    c_used c = false /\ c_final c = final /\ (c_vstart c <= c_pos c)%nat /\
    (c_using c = false -> c_vbuf c = []) /\
    (jr = true -> (c_vstart c < c_pos c)%nat) /\
    (if final : bool then (c_vstart c < c_pos c)%nat /\ c_vbuf c ++ slice (c_buf c) (c_vstart c) (pred (c_pos c)) = acc
     else c_vbuf c ++ slice (c_buf c) (c_vstart c) (c_pos c) = acc)
  | VGot bs borrowed => exists v, c_value c = Some v /\ value_rel v c bs borrowed
  end.

Record rel_ok (c : csrc) (a : asrc) : Prop := {
  ro_pos : (c_pos c <= length (c_buf c))%nat;
  ro_size : (length (c_buf c) <= READER_BUF_SIZE)%nat;
  ro_data : c_eof c = false ->
    a_rest a = skipn (c_pos c) (c_buf c) ++ fst (supplied (c_events c)) /\
    a_tail a = snd (supplied (c_events c));
  ro_eof : c_eof c = true ->
    a_rest a = [] /\ c_pos c = length (c_buf c) /\ a_tail a = TEof /\
    (a_known a = true \/ c_buf c = []);
  ro_known : a_known a = true -> (c_pos c < length (c_buf c))%nat \/ c_eof c = true;
  ro_mode : mode_rel c (a_mode a)
}.

Definition rel (c : csrc) (a : asrc) : Prop := a_failed a = true \/ rel_ok c a.

Lemma rel_new evs : rel (csrc_new evs) (asrc_new (fst (supplied evs)) (snd (supplied evs))).
Proof.
  right. constructor; cbn; auto; try discriminate. lia.
Qed.

(** The next byte is in the buffer *)
Lemma buffered_byte c a : rel_ok c a -> (c_pos c < length (c_buf c))%nat ->
  exists b r, nth_error (c_buf c) (c_pos c) = Some b /\ a_rest a = b :: r /\
    c_eof c = false /\
    r = skipn (S (c_pos c)) (c_buf c) ++ fst (supplied (c_events c)).
Proof.
  intros R H. assert (He : c_eof c = false).
  { destruct (c_eof c) eqn:E; [|reflexivity]. destruct (ro_eof _ _ R E) as (_ & Hp & _). lia. }
  destruct (ro_data _ _ R He) as (Hr & _).
  destruct (nth_error (c_buf c) (c_pos c)) as [b|] eqn:En.
  2:{ apply nth_error_None in En. lia. }
  exists b, (skipn (S (c_pos c)) (c_buf c) ++ fst (supplied (c_events c))). splits; auto.
  rewrite Hr. clear -En. revert En. generalize (c_buf c) as l, (c_pos c) as n.
  intros l n. revert l. induction n as [|n IH]; intros [|y l]; cbn; try discriminate.
  - intros [= ->]. reflexivity.
  - apply IH.
Qed.

Lemma known_byte c a b r : rel_ok c a -> a_known a = true -> a_rest a = b :: r ->
  (c_pos c < length (c_buf c))%nat.
Proof.
  intros R Hk Hr. destruct (ro_known _ _ R Hk) as [H|H]; [exact H|].
  destruct (ro_eof _ _ R H) as (H1 & _). congruence.
Qed.

(** The relation for the parts of the state other than the value *)
Definition same_source (c c' : csrc) : Prop :=
  c_events c' = c_events c /\ c_buf c' = c_buf c /\ c_pos c' = c_pos c /\ c_eof c' = c_eof c.

Lemma rel_mode c c' a m : rel_ok c a -> same_source c c' -> mode_rel c' m ->
  rel_ok c' (ASrc (a_rest a) (a_tail a) (a_known a) m false).
Proof.
  intros R (He & Hb & Hp & Hf) Hm. destruct R as [R1 R2 R3 R4 R5 R6].
  constructor; cbn; rewrite ?He, ?Hb, ?Hp, ?Hf; auto.
Qed.

(** ** Peeking *)

(** Effect of [fill_buffer] when the buffer is used up *)
Lemma fill_spec start c a : rel_ok c a -> (length (c_buf c) <= c_pos c)%nat -> c_used c = false ->
  (start < READER_BUF_SIZE)%nat -> (start <= length (c_buf c))%nat -> c_eof c = false ->
  exists c', byte_after_fill (fill_buffer start c) = (Some (a_peek_res a), c') /\
    (is_err (a_peek_res a) = false ->
      c_pos c' = start /\ (length (c_buf c') <= READER_BUF_SIZE)%nat /\
      c_used c' = false /\ c_vbuf c' = c_vbuf c /\ c_using c' = c_using c /\
      c_vstart c' = c_vstart c /\ c_final c' = c_final c /\ c_value c' = c_value c /\
      (start <= length (c_buf c'))%nat /\ firstn start (c_buf c') = firstn start (c_buf c) /\
      ((c_eof c' = true /\ a_rest a = [] /\ a_tail a = TEof /\ length (c_buf c') = start) \/
       (c_eof c' = false /\ (start < length (c_buf c'))%nat /\
        a_rest a = skipn start (c_buf c') ++ fst (supplied (c_events c')) /\
        a_tail a = snd (supplied (c_events c'))))).
Proof.
  intros R Hpos Hu Hs Hsl He. unfold fill_buffer. rewrite He.
  replace (Nat.leb (length (c_buf c)) (c_pos c)) with true by (symmetry; apply Nat.leb_le; lia).
  replace (Nat.ltb start READER_BUF_SIZE) with true by (symmetry; apply Nat.ltb_lt; lia).
  rewrite Hu. cbn [negb].
  destruct (ro_data _ _ R He) as (Hr & Ht).
  rewrite skipn_all2 in Hr by lia. cbn [app] in Hr.
  pose proof (read_events_spec (c_events c) (READER_BUF_SIZE - start) ltac:(lia)) as Hspec.
  destruct (read_events (c_events c) (READER_BUF_SIZE - start)) as [[e|d] evs'].
  - rewrite Hspec in Hr, Ht. cbn in Hr, Ht.
    eexists. unfold a_peek_res. rewrite Hr, Ht. cbn. split; [reflexivity|]. discriminate.
  - destruct Hspec as (Hd & Hspec). destruct d as [|x d].
    + rewrite Hspec in Hr, Ht. cbn in Hr, Ht.
      eexists. unfold a_peek_res. rewrite Hr, Ht. cbn. split; [reflexivity|].
      intros _. cbn. rewrite app_nil_r. rewrite firstn_length.
      splits; try reflexivity; try lia; auto.
      * rewrite firstn_firstn. f_equal. lia.
      * left. splits; try reflexivity; try assumption; lia.
    + rewrite Hspec in Hr, Ht. cbn in Hr, Ht.
      eexists. unfold a_peek_res. rewrite Hr. cbn [length Nat.eqb negb byte_after_fill c_buf c_pos].
      assert (Hl : length (firstn start (c_buf c)) = start) by (rewrite firstn_length; lia).
      rewrite nth_error_app2 by lia. rewrite Hl, Nat.sub_diag. cbn [nth_error].
      split; [reflexivity|]. intros _. cbn. rewrite app_length, Hl. cbn [length] in *.
      splits; try reflexivity; try lia; auto.
      * rewrite firstn_app, Hl, Nat.sub_diag. cbn. rewrite app_nil_r, firstn_firstn. f_equal. lia.
      * right. splits; try reflexivity; try lia.
        -- rewrite skipn_app, Hl, Nat.sub_diag. cbn. rewrite skipn_all2 by lia. reflexivity.
        -- exact Ht.
Qed.

Lemma peek_res_byte a b r : a_rest a = b :: r -> a_peek_res a = PkByte b.
Proof. unfold a_peek_res. intros ->. reflexivity. Qed.

Lemma peek_spec c a r a' : rel c a -> a_peek a = Some (r, a') ->
  exists c', c_peek c = (Some r, c') /\ rel c' a'.
Proof.
  intros [Hf|R]; [unfold a_peek; rewrite Hf; discriminate|].
  unfold a_peek. destruct (a_failed a) eqn:Hf; [discriminate|].
  destruct (a_mode a) as [|acc jr fin|bs bo] eqn:Em; [|discriminate|].
  - intros [= <- <-]. unfold c_peek.
    destruct (Nat.ltb (c_pos c) (length (c_buf c))) eqn:Hb.
    + apply Nat.ltb_lt in Hb. destruct (buffered_byte _ _ R Hb) as (b & r & Hn & Hr & He & _).
      rewrite Hn. exists c. rewrite (peek_res_byte _ _ _ Hr). split; [reflexivity|]. right.
      destruct R as [R1 R2 R3 R4 R5 R6]. rewrite Em in R6. constructor; cbn; auto.
      intros E. rewrite He in E. discriminate.
    + apply Nat.ltb_ge in Hb. destruct (c_eof c) eqn:He.
      * destruct (ro_eof _ _ R He) as (Hr & Hp & Ht & Hk).
        unfold fill_buffer. rewrite He. cbn. exists c. unfold a_peek_res. rewrite Hr, Ht. cbn.
        split; [reflexivity|]. right.
        destruct R as [R1 R2 R3 R4 R5 R6]. rewrite Em in R6. constructor; cbn; auto; try tauto; try congruence.
      * pose proof (ro_mode _ _ R) as Hm. rewrite Em in Hm. cbn in Hm.
        destruct (fill_spec 0 c a R Hb Hm) as (c' & Hfill & Hc').
        { exact buf_size_pos. }
        { lia. }
        { exact He. }
        exists c'. split; [exact Hfill|].
        destruct (is_err (a_peek_res a)) eqn:Herr; [left; reflexivity|].
        specialize (Hc' eq_refl).
        destruct Hc' as (Hp & Hsz & Hu & _ & _ & _ & _ & _ & Hstart & _ & [(E & Hr & Ht & Hl)|(E & Hlt & Hr & Ht)]).
        -- right. constructor; cbn; rewrite ?Hp; auto; try lia; try congruence.
        -- right. constructor; cbn; rewrite ?Hp; auto; try lia; try congruence.
  - destruct (a_known a) eqn:Hk; [|discriminate]. intros [= <- <-]. unfold c_peek.
    destruct (ro_known _ _ R Hk) as [Hb|He].
    + destruct (buffered_byte _ _ R Hb) as (b & r & Hn & Hr & He & _).
      apply Nat.ltb_lt in Hb. rewrite Hb, Hn. exists c. rewrite (peek_res_byte _ _ _ Hr).
      split; [reflexivity|]. right. exact R.
    + destruct (ro_eof _ _ R He) as (Hr & Hp & Ht & _).
      rewrite Hp, Nat.ltb_irrefl. unfold fill_buffer. rewrite He. cbn.
      exists c. unfold a_peek_res. rewrite Hr, Ht. split; [reflexivity|]. right. exact R.
Qed.

Lemma skip_spec c a a' : rel c a -> a_skip a = Some a' ->
  exists c', c_skip c = Some c' /\ rel c' a'.
Proof.
  intros [Hf|R]; [unfold a_skip; rewrite Hf; discriminate|].
  unfold a_skip. destruct (a_failed a) eqn:Hf; [discriminate|].
  destruct (a_mode a) eqn:Em; try discriminate.
  destruct (a_known a) eqn:Hk; [|discriminate].
  destruct (a_rest a) as [|b r] eqn:Hr; [discriminate|]. intros [= <-].
  pose proof (known_byte _ _ _ _ R Hk Hr) as Hb.
  destruct (buffered_byte _ _ R Hb) as (b' & r' & Hn & Hr' & He & Hrest).
  rewrite Hr in Hr'. injection Hr' as <- <-.
  unfold c_skip. pose proof Hb as Hb'. apply Nat.ltb_lt in Hb'. rewrite Hb'.
  eexists. split; [reflexivity|]. right.
  destruct R as [R1 R2 R3 R4 R5 R6]. rewrite Em in R6.
  constructor; cbn -[skipn]; auto; try lia; try congruence; try discriminate.
  intros _. split; [exact Hrest|]. apply R3. exact He.
Qed.

(** ** Collecting a value *)

Lemma vnew_spec c a a' : rel c a -> a_vnew a = Some a' ->
  exists c', c_vnew c = Some c' /\ rel c' a'.
Proof.
  intros [Hf|R]; [unfold a_vnew; rewrite Hf; discriminate|].
  unfold a_vnew. destruct (a_failed a) eqn:Hf; [discriminate|].
  destruct (a_mode a) eqn:Em; try discriminate. intros [= <-].
  unfold c_vnew. destruct R as [R1 R2 R3 R4 R5 R6]. rewrite Em in R6.
  replace (Nat.leb (c_pos c) (length (c_buf c))) with true by (symmetry; apply Nat.leb_le; lia).
  eexists. split; [reflexivity|]. right.
  constructor; cbn; rewrite ?skipn_length; try lia.
  - exact R3.
  - intros He. destruct (R4 He) as (H1 & H2 & H3 & H4). splits; auto; [lia|].
    right. rewrite H2. apply skipn_all.
  - intros Hk. destruct (a_rest a) eqn:Hr; [discriminate|].
    destruct (R5 Hk) as [H|H]; [left; lia|right; exact H].
  - splits; auto; discriminate.
Qed.

Lemma rel_after_fill c' a m start : c_pos c' = start ->
  (length (c_buf c') <= READER_BUF_SIZE)%nat -> (start <= length (c_buf c'))%nat ->
  (c_eof c' = true /\ a_rest a = [] /\ a_tail a = TEof /\ length (c_buf c') = start) \/
  (c_eof c' = false /\ (start < length (c_buf c'))%nat /\
   a_rest a = skipn start (c_buf c') ++ fst (supplied (c_events c')) /\
   a_tail a = snd (supplied (c_events c'))) ->
  mode_rel c' m ->
  rel_ok c' (ASrc (a_rest a) (a_tail a) true m false).
Proof.
  intros Hp Hsz Hst [(E & Hr & Ht & Hl)|(E & Hlt & Hr & Ht)] Hm;
    constructor; cbn -[mode_rel]; rewrite ?Hp; auto; try congruence.
Qed.

Lemma vpeek_spec c a r a' : rel c a -> a_vpeek a = Some (r, a') ->
  exists c', c_vpeek c = (Some r, c') /\ rel c' a'.
Proof.
  intros [Hf|R]; [unfold a_vpeek; rewrite Hf; discriminate|].
  unfold a_vpeek. destruct (a_failed a) eqn:Hf; [discriminate|].
  destruct (a_mode a) as [|acc jr fin|] eqn:Em; try discriminate.
  destruct fin; [discriminate|]. intros H.
  assert (Hne : a_known a = true -> a_rest a <> []).
  { intros Hk Hr. rewrite Hk, Hr in H. discriminate. }
  assert (H' : Some (a_peek_res a, ASrc (a_rest a) (a_tail a) true (VActive acc false false)
                                   (is_err (a_peek_res a))) = Some (r, a')).
  { destruct (a_known a), (a_rest a); try discriminate; exact H. }
  injection H' as <- <-. clear H.
  pose proof (ro_mode _ _ R) as Hm. rewrite Em in Hm.
  destruct Hm as (Hu & Hfin & Hvs & Hus & Hjr & Hacc).
  unfold c_vpeek. rewrite Hfin.
  destruct (Nat.ltb (c_pos c) (length (c_buf c))) eqn:Hb.
  - apply Nat.ltb_lt in Hb. destruct (buffered_byte _ _ R Hb) as (b & r & Hn & Hr & He & _).
    rewrite Hn. exists c. rewrite (peek_res_byte _ _ _ Hr). split; [reflexivity|]. right.
    destruct R as [R1 R2 R3 R4 R5 R6]. constructor; cbn; auto; try congruence.
    splits; auto. discriminate.
  - apply Nat.ltb_ge in Hb. pose proof (ro_pos _ _ R) as Hp.
    destruct (c_eof c) eqn:He.
    { (* at the end of the input, and nothing in the buffer *)
      destruct (ro_eof _ _ R He) as (Hr & Hp' & Ht & [Hk|Hbuf]); [exfalso; exact (Hne Hk Hr)|].
      assert (Hp0 : c_pos c = O) by (rewrite Hp', Hbuf; reflexivity).
      assert (Hv0 : c_vstart c = O) by lia.
      unfold a_peek_res. rewrite Hr, Ht, Hbuf, Hp0, Hv0.
      change (Nat.ltb 0 (length (@nil N))) with false. cbn iota.
      assert (Hend : forall c', c_eof c' = true -> c_buf c' = [] -> c_pos c' = O -> c_used c' = false ->
        c_final c' = false -> c_vstart c' = O -> c_vbuf c' = acc -> (c_using c' = false -> acc = []) ->
        rel_ok c' (ASrc [] TEof true (VActive acc false false) false)).
      { intros c' H1 H2 H3 H4 H5 H6 H7 H8.
        constructor; cbn; rewrite ?H1, ?H2, ?H3, ?H6, ?H7; auto; try discriminate; try apply Nat.le_0_l.
        splits; auto; try discriminate. rewrite slice_nil. apply app_nil_r. }
      assert (Ha : c_vbuf c = acc).
      { rewrite <- Hacc, Hp0, Hv0, slice_nil. symmetry. apply app_nil_r. }
      destruct (c_using c || Nat.leb READER_BUF_SIZE 0) eqn:Hcase.
      - unfold fill_buffer. cbn [c_eof set_vbuf]. rewrite He. cbn [byte_after_fill].
        eexists. split; [reflexivity|]. right. cbn [is_err]. apply Hend; cbn; auto.
        rewrite <- Ha. exact Hus.
      - unfold fill_buffer. rewrite He. cbn [byte_after_fill].
        eexists. split; [reflexivity|]. right. cbn [is_err]. apply Hend; auto.
        rewrite <- Ha. exact Hus. }
    assert (Heq : c_pos c = length (c_buf c)) by lia.
    destruct (c_using c || Nat.leb READER_BUF_SIZE (c_pos c)) eqn:Hcase.
    + (* start at index 0 again *)
      match goal with |- context [fill_buffer 0 ?x] => set (c1 := x) end.
      assert (Hc1 : c_events c1 = c_events c /\ c_buf c1 = c_buf c /\ c_pos c1 = c_pos c /\
                    c_used c1 = c_used c /\ c_eof c1 = c_eof c /\ c_final c1 = c_final c /\
                    c_vstart c1 = O /\ c_vbuf c1 = acc /\ (c_using c1 = false -> acc = [])).
      { unfold c1. rewrite <- Heq. destruct (Nat.ltb (c_vstart c) (c_pos c)) eqn:Hlt; cbn; splits; auto.
        - discriminate.
        - apply Nat.ltb_ge in Hlt. rewrite <- Hacc. replace (c_vstart c) with (c_pos c) by lia.
          rewrite slice_nil, app_nil_r. reflexivity.
        - intros E. apply Nat.ltb_ge in Hlt. rewrite <- Hacc. replace (c_vstart c) with (c_pos c) by lia.
          rewrite slice_nil, app_nil_r. auto. }
      destruct Hc1 as (C1 & C2 & C3 & C4 & C5 & C6 & C7 & C8 & C9).
      assert (R1 : rel_ok c1 (ASrc (a_rest a) (a_tail a) (a_known a) VNone false)).
      { apply (rel_mode c); [exact R| unfold same_source; auto|]. cbn. rewrite C4. exact Hu. }
      clearbody c1.
      destruct (fill_spec 0 c1 _ R1) as (c' & Hfill & Hc').
      { rewrite C2, C3. exact Hb. }
      { rewrite C4. exact Hu. }
      { exact buf_size_pos. }
      { apply Nat.le_0_l. }
      { rewrite C5. exact He. }
      exists c'. split; [exact Hfill|].
      change (a_peek_res (ASrc (a_rest a) (a_tail a) (a_known a) VNone false)) with (a_peek_res a) in Hc'.
      destruct (is_err (a_peek_res a)) eqn:Herr; [left; reflexivity|].
      specialize (Hc' eq_refl). cbn in Hc'.
      destruct Hc' as (Hp' & Hsz & Hu' & D1 & D2 & D3 & D4 & _ & Hstart & _ & Hend).
      assert (Hmr : mode_rel c' (VActive acc false false)).
      { cbn. rewrite Hp', D1, D2, D3, D4, C6, C7, C8. splits; auto; try discriminate.
        rewrite slice_nil. apply app_nil_r. }
      right. exact (rel_after_fill c' a _ _ Hp' Hsz Hstart Hend Hmr).
    + (* continue behind the data which has been read *)
      apply orb_false_iff in Hcase. destruct Hcase as (Hus' & Hle). apply Nat.leb_gt in Hle.
      assert (R1 : rel_ok c (ASrc (a_rest a) (a_tail a) (a_known a) VNone false)).
      { apply (rel_mode c); [exact R| unfold same_source; auto|]. exact Hu. }
      destruct (fill_spec (length (c_buf c)) c _ R1) as (c' & Hfill & Hc');
        [exact Hb | exact Hu | rewrite <- Heq; exact Hle | apply Nat.le_refl | exact He |].
      exists c'. split; [exact Hfill|].
      change (a_peek_res (ASrc (a_rest a) (a_tail a) (a_known a) VNone false)) with (a_peek_res a) in Hc'.
      destruct (is_err (a_peek_res a)) eqn:Herr; [left; reflexivity|].
      specialize (Hc' eq_refl). cbn in Hc'.
      destruct Hc' as (Hp' & Hsz & Hu' & D1 & D2 & D3 & D4 & _ & Hstart & Hpre & Hend).
      assert (Hmr : mode_rel c' (VActive acc false false)).
      { cbn. rewrite Hp', D1, D2, D3, D4. rewrite <- Heq. splits; auto; try discriminate.
        rewrite <- Hacc. f_equal.
        rewrite <- (firstn_skipn (length (c_buf c)) (c_buf c')), Hpre, firstn_all.
        rewrite slice_app1 by exact Hp. reflexivity. }
      right. exact (rel_after_fill c' a _ _ Hp' Hsz Hstart Hend Hmr).
Qed.

Lemma vconsume_spec c a a' : rel c a -> a_vconsume a = Some a' ->
  exists c', c_vconsume c = Some c' /\ rel c' a'.
Proof.
  intros [Hf|R]; [unfold a_vconsume; rewrite Hf; discriminate|].
  unfold a_vconsume. destruct (a_failed a) eqn:Hf; [discriminate|].
  destruct (a_mode a) as [|acc jr fin|] eqn:Em; try discriminate.
  destruct fin; [discriminate|]. destruct (a_known a) eqn:Hk; [|discriminate].
  destruct (a_rest a) as [|b r] eqn:Hr; [discriminate|]. intros [= <-].
  pose proof (known_byte _ _ _ _ R Hk Hr) as Hb.
  destruct (buffered_byte _ _ R Hb) as (b' & r' & Hn & Hr' & He & Hrest).
  rewrite Hr in Hr'. injection Hr' as <- <-.
  eexists. split; [reflexivity|]. right.
  destruct R as [R1 R2 R3 R4 R5 R6]. rewrite Em in R6.
  destruct R6 as (Hu & Hfin & Hvs & Hus & Hjr & Hacc).
  constructor; cbn -[skipn slice]; auto; try lia; try congruence; try discriminate.
  - intros _. split; [exact Hrest|]. apply R3. exact He.
  - splits; auto; try lia. rewrite (slice_snoc _ _ _ b) by (auto; lia).
    rewrite app_assoc, Hacc. reflexivity.
Qed.

Lemma vskip_prev_spec c a a' : rel c a -> a_vskip_prev a = Some a' ->
  exists c', c_vskip_prev c = Some c' /\ rel c' a'.
Proof.
  intros [Hf|R]; [unfold a_vskip_prev; rewrite Hf; discriminate|].
  unfold a_vskip_prev. destruct (a_failed a) eqn:Hf; [discriminate|].
  destruct (a_mode a) as [|acc jr fin|] eqn:Em; try discriminate.
  destruct jr; [|discriminate]. destruct fin; [discriminate|]. intros [= <-].
  pose proof (ro_pos _ _ R) as Hpos.
  pose proof (ro_mode _ _ R) as Hm. rewrite Em in Hm.
  destruct Hm as (Hu & Hfin & Hvs & Hus & Hjr & Hacc). specialize (Hjr eq_refl).
  unfold c_vskip_prev. rewrite Hfin.
  destruct (c_pos c) as [|p] eqn:Hp; [lia|].
  destruct (nth_error (c_buf c) p) as [x|] eqn:Hx; [|apply nth_error_None in Hx; lia].
  rewrite (slice_snoc _ _ _ x) in Hacc by (auto; lia). rewrite app_assoc in Hacc.
  assert (Hrl : removelast acc = c_vbuf c ++ slice (c_buf c) (c_vstart c) p).
  { rewrite <- Hacc. apply removelast_last. }
  destruct (Nat.eqb (S (c_vstart c)) (S p)) eqn:Heq.
  - apply Nat.eqb_eq in Heq. injection Heq as Heq.
    eexists. split; [reflexivity|]. right.
    refine (rel_mode _ _ _ _ R _ _); [repeat split|].
    cbn -[slice]. rewrite Hp, Heq. splits; auto; try lia; try discriminate.
    rewrite slice_nil, Hrl, Heq, slice_nil. reflexivity.
  - unfold buf_slice.
    replace (Nat.leb (c_vstart c) p && Nat.leb p (length (c_buf c))) with true.
    2:{ symmetry. apply andb_true_iff. split; apply Nat.leb_le; lia. }
    eexists. split; [reflexivity|]. right.
    refine (rel_mode _ _ _ _ R _ _); [repeat split|].
    cbn -[slice]. rewrite Hp. splits; auto; try lia; try discriminate.
    rewrite slice_nil, app_nil_r. symmetry. exact Hrl.
Qed.

Lemma vskip_final_spec c a a' : rel c a -> a_vskip_final a = Some a' ->
  rel (set_skip_final true c) a'.
Proof.
  intros [Hf|R]; [unfold a_vskip_final; rewrite Hf; discriminate|].
  unfold a_vskip_final. destruct (a_failed a) eqn:Hf; [discriminate|].
  destruct (a_mode a) as [|acc jr fin|] eqn:Em; try discriminate.
  destruct jr; [|discriminate]. destruct fin; [discriminate|]. intros [= <-].
  pose proof (ro_pos _ _ R) as Hpos.
  pose proof (ro_mode _ _ R) as Hm. rewrite Em in Hm.
  destruct Hm as (Hu & Hfin & Hvs & Hus & Hjr & Hacc). specialize (Hjr eq_refl).
  right. refine (rel_mode _ _ _ _ R _ _); [repeat split|].
  cbn -[slice]. splits; auto; try discriminate.
  destruct (c_pos c) as [|p] eqn:Hp; [lia|].
  destruct (nth_error (c_buf c) p) as [x|] eqn:Hx; [|apply nth_error_None in Hx; lia].
  rewrite (slice_snoc _ _ _ x) in Hacc by (auto; lia). rewrite app_assoc in Hacc.
  rewrite <- Hacc. cbn [pred]. symmetry. apply removelast_last.
Qed.

Lemma vpush_spec bs c a a' : rel c a -> a_vpush bs a = Some a' ->
  exists c', c_vpush bs c = Some c' /\ rel c' a'.
Proof.
  intros [Hf|R]; [unfold a_vpush; rewrite Hf; discriminate|].
  unfold a_vpush. destruct (a_failed a) eqn:Hf; [discriminate|].
  destruct (a_mode a) as [|acc jr fin|] eqn:Em; try discriminate.
  destruct fin; [discriminate|]. intros [= <-].
  pose proof (ro_pos _ _ R) as Hpos.
  pose proof (ro_mode _ _ R) as Hm. rewrite Em in Hm.
  destruct Hm as (Hu & Hfin & Hvs & Hus & Hjr & Hacc).
  unfold c_vpush. destruct (Nat.ltb (c_vstart c) (c_pos c)) eqn:Hlt.
  - apply Nat.ltb_lt in Hlt. unfold buf_slice.
    replace (Nat.leb (c_vstart c) (c_pos c) && Nat.leb (c_pos c) (length (c_buf c))) with true.
    2:{ symmetry. apply andb_true_iff. split; apply Nat.leb_le; lia. }
    eexists. split; [reflexivity|]. right. refine (rel_mode _ _ _ _ R _ _); [repeat split|].
    cbn -[slice]. splits; auto; try lia; try discriminate.
    rewrite slice_nil, app_nil_r, app_assoc, Hacc. reflexivity.
  - apply Nat.ltb_ge in Hlt. replace (c_vstart c) with (c_pos c) in Hacc by lia.
    rewrite slice_nil, app_nil_r in Hacc.
    eexists. split; [reflexivity|]. right. refine (rel_mode _ _ _ _ R _ _); [repeat split|].
    cbn -[slice]. splits; auto; try lia; try discriminate.
    replace (c_vstart c) with (c_pos c) by lia. rewrite slice_nil, app_nil_r, Hacc. reflexivity.
Qed.

Lemma vget_spec b c a a' : rel c a -> a_vget b a = Some a' ->
  exists c', c_vget b c = Some c' /\ rel c' a'.
Proof.
  intros [Hf|R]; [unfold a_vget; rewrite Hf; discriminate|].
  unfold a_vget. destruct (a_failed a) eqn:Hf; [discriminate|].
  destruct (a_mode a) as [|acc jr fin|] eqn:Em; try discriminate. intros [= <-].
  pose proof (ro_pos _ _ R) as Hpos.
  pose proof (ro_mode _ _ R) as Hm. rewrite Em in Hm.
  destruct Hm as (Hu & Hfin & Hvs & Hus & Hjr & Hacc).
  assert (Hend : exists e,
    (if c_final c then match c_pos c with O => None | S p => Some p end else Some (c_pos c)) = Some e /\
    (c_vstart c <= e <= length (c_buf c))%nat /\ c_vbuf c ++ slice (c_buf c) (c_vstart c) e = acc).
  { rewrite Hfin. destruct fin.
    - destruct Hacc as (Hlt & Hacc). destruct (c_pos c) as [|p] eqn:Hp; [lia|].
      exists p. splits; auto; lia.
    - exists (c_pos c). splits; auto. }
  destruct Hend as (e & He1 & He2 & He3).
  unfold c_vget. rewrite He1.
  assert (Hsl : buf_slice c (c_vstart c) e = Some (slice (c_buf c) (c_vstart c) e)).
  { unfold buf_slice. replace (_ && _) with true; [reflexivity|].
    symmetry. apply andb_true_iff. split; apply Nat.leb_le; lia. }
  destruct (c_using c) eqn:Hu2.
  - rewrite Hsl. destruct b.
    + eexists. split; [reflexivity|]. right. refine (rel_mode _ _ _ _ R _ _); [repeat split|].
      exists CValueBuf. cbn -[slice]. auto.
    + eexists. split; [reflexivity|]. right. refine (rel_mode _ _ _ _ R _ _); [repeat split|].
      eexists. cbn -[slice]. split; [reflexivity|]. cbn. auto.
  - rewrite Hu. eexists. split; [reflexivity|]. right.
    refine (rel_mode _ _ _ _ R _ _); [repeat split|].
    eexists. cbn -[slice]. split; [reflexivity|]. cbn -[slice]. splits; auto; try lia.
    rewrite <- He3, Hus by reflexivity. reflexivity.
Qed.

Lemma ref_str_spec v c bs : value_rel v c bs true -> c_ref_str v c = from_utf8 bs.
Proof.
  destruct v as [x y| |l]; cbn.
  - intros (_ & Hxy & <-). unfold buf_slice.
    replace (Nat.leb x y && Nat.leb y (length (c_buf c))) with true; [reflexivity|].
    symmetry. apply andb_true_iff. split; apply Nat.leb_le; lia.
  - intros (_ & <-). reflexivity.
  - intros (_ & _ & H). discriminate.
Qed.

(** [set_used] does not matter for the bytes of the value *)
Lemma ref_str_used v c u : c_ref_str v (set_used u c) = c_ref_str v c.
Proof. destruct v; reflexivity. Qed.

Lemma vstr_peek_spec c a s : rel c a -> a_vstr_peek a = Some s -> c_vstr_peek c = Some s.
Proof.
  intros [Hf|R]; [unfold a_vstr_peek; rewrite Hf; discriminate|].
  unfold a_vstr_peek. destruct (a_failed a) eqn:Hf; [discriminate|].
  destruct (a_mode a) as [| |bs bo] eqn:Em; try discriminate.
  destruct bo; [|discriminate]. intros H.
  pose proof (ro_mode _ _ R) as Hm. rewrite Em in Hm. destruct Hm as (v & Hv & Hr).
  unfold c_vstr_peek. rewrite Hv, (ref_str_spec _ _ _ Hr). exact H.
Qed.

Lemma vstr_spec c a s a' : rel c a -> a_vstr a = Some (s, a') ->
  exists c', c_vstr c = Some (s, c') /\ rel c' a'.
Proof.
  intros [Hf|R]; [unfold a_vstr; rewrite Hf; discriminate|].
  unfold a_vstr. destruct (a_failed a) eqn:Hf; [discriminate|].
  destruct (a_mode a) as [| |bs bo] eqn:Em; try discriminate.
  destruct bo; [|discriminate]. destruct (from_utf8 bs) as [s'|] eqn:Hs; [|discriminate].
  intros [= <- <-].
  pose proof (ro_mode _ _ R) as Hm. rewrite Em in Hm. destruct Hm as (v & Hv & Hr).
  unfold c_vstr. rewrite Hv, ref_str_used, (ref_str_spec _ _ _ Hr), Hs.
  eexists. split; [reflexivity|]. right. refine (rel_mode _ _ _ _ R _ _); [repeat split|].
  reflexivity.
Qed.

Lemma vstring_spec c a s a' : rel c a -> a_vstring a = Some (s, a') ->
  exists c', c_vstring c = Some (s, c') /\ rel c' a'.
Proof.
  intros [Hf|R]; [unfold a_vstring; rewrite Hf; discriminate|].
  unfold a_vstring. destruct (a_failed a) eqn:Hf; [discriminate|].
  destruct (a_mode a) as [| |bs bo] eqn:Em; try discriminate.
  destruct (from_utf8 bs) as [s'|] eqn:Hs; [|discriminate].
  intros [= <- <-].
  pose proof (ro_mode _ _ R) as Hm. rewrite Em in Hm. destruct Hm as (v & Hv & Hr).
  unfold c_vstring. rewrite Hv. destruct v as [x y| |l].
  - rewrite ref_str_used. cbn in Hr. rewrite (ref_str_spec (CReaderBuf x y) c bs Hr), Hs.
    eexists. split; [reflexivity|]. right. refine (rel_mode _ _ _ _ R _ _); [repeat split|].
    reflexivity.
  - rewrite ref_str_used. cbn in Hr. rewrite (ref_str_spec CValueBuf c bs Hr), Hs.
    eexists. split; [reflexivity|]. right. refine (rel_mode _ _ _ _ R _ _); [repeat split|].
    reflexivity.
  - cbn in Hr. destruct Hr as (Hu & -> & _). rewrite Hs.
    eexists. split; [reflexivity|]. right. refine (rel_mode _ _ _ _ R _ _); [repeat split|].
    exact Hu.
Qed.

(** ** Refinement *)

Theorem refines {A} (p : prog A) : forall c a x a', rel c a -> arun p a = Some (x, a') ->
  exists c', crun p c = Some (x, c') /\ rel c' a'.
Proof.
  induction p as [y|k IH|k IH|k IH|k IH|k IH|k IH|k IH|bs k IH|b k IH|k IH|k IH|k IH];
    intros c a x a' R H; cbn in H |- *.
  - injection H as <- <-. eauto.
  - destruct (a_peek a) as [[r a1]|] eqn:E; [|discriminate].
    destruct (peek_spec _ _ _ _ R E) as (c1 & -> & R1). eauto.
  - destruct (a_skip a) as [a1|] eqn:E; [|discriminate].
    destruct (skip_spec _ _ _ R E) as (c1 & -> & R1). eauto.
  - destruct (a_vnew a) as [a1|] eqn:E; [|discriminate].
    destruct (vnew_spec _ _ _ R E) as (c1 & -> & R1). eauto.
  - destruct (a_vpeek a) as [[r a1]|] eqn:E; [|discriminate].
    destruct (vpeek_spec _ _ _ _ R E) as (c1 & -> & R1). eauto.
  - destruct (a_vconsume a) as [a1|] eqn:E; [|discriminate].
    destruct (vconsume_spec _ _ _ R E) as (c1 & Hc & R1). unfold c_vconsume in Hc.
    injection Hc as <-. eauto.
  - destruct (a_vskip_prev a) as [a1|] eqn:E; [|discriminate].
    destruct (vskip_prev_spec _ _ _ R E) as (c1 & -> & R1). eauto.
  - destruct (a_vskip_final a) as [a1|] eqn:E; [|discriminate].
    eapply IH; [|exact H]. eapply vskip_final_spec; eauto.
  - destruct (a_vpush bs a) as [a1|] eqn:E; [|discriminate].
    destruct (vpush_spec _ _ _ _ R E) as (c1 & -> & R1). eauto.
  - destruct (a_vget b a) as [a1|] eqn:E; [|discriminate].
    destruct (vget_spec _ _ _ _ R E) as (c1 & -> & R1). eauto.
  - destruct (a_vstr_peek a) as [s|] eqn:E; [|discriminate].
    rewrite (vstr_peek_spec _ _ _ R E). eauto.
  - destruct (a_vstr a) as [[s a1]|] eqn:E; [|discriminate].
    destruct (vstr_spec _ _ _ _ R E) as (c1 & -> & R1). eauto.
  - destruct (a_vstring a) as [[s a1]|] eqn:E; [|discriminate].
    destruct (vstring_spec _ _ _ _ R E) as (c1 & -> & R1). eauto.
Qed.
