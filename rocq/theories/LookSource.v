(** * Which calls of [read] happen

    Auxiliary: as long as enough bytes have been supplied, the reader does not
    ask for more. *)

From Verif Require Import Base Utf8Model SourceModel SourceProofs CostProofs LookReader.

Lemma read_events_app e2 space : (0 < space)%nat -> forall e, fst (supplied e) <> [] ->
  exists d e', read_events (e ++ e2) space = (inr d, e' ++ e2) /\ d <> [] /\ fst (supplied e) = d ++ fst (supplied e').
Proof.
  intros Hs. induction e as [|[bs| |x] e IH]; cbn [supplied app read_events]; intros H; [cbn in H; congruence| |exact (IH H)|cbn in H; congruence].
  destruct bs as [|b bs]; [cbn in H; congruence|]. destruct (Nat.leb (length (b :: bs)) space) eqn:Hl.
  - exists (b :: bs), e. rewrite firstn_all2 by (apply Nat.leb_le; exact Hl). split; [reflexivity|]. split; [discriminate|].
    destruct (supplied e). reflexivity.
  - exists (firstn space (b :: bs)), (EvData (skipn space (b :: bs)) :: e). split; [reflexivity|]. split; [destruct space; [lia|discriminate]|].
    apply Nat.leb_gt in Hl. destruct (skipn space (b :: bs)) as [|x l] eqn:E.
    { apply (f_equal (@length _)) in E. rewrite skipn_length in E. cbn [length] in *. lia. }
    cbn [supplied]. rewrite <- E. destruct (supplied e) as [r t]. cbn [fst]. rewrite app_assoc, firstn_skipn. reflexivity.
Qed.

(** the next [n] bytes are there without the events [e2] *)
Definition within (e2 : list event) (n : nat) (c : csrc) : Prop :=
  exists e, c_events c = e ++ e2 /\
    (n <= length (skipn (c_pos c) (c_buf c)) + (if c_eof c then 0 else length (fst (supplied e))))%nat.

Lemma within_fill e2 n start c r c' : within e2 (S n) c -> (length (c_buf c) <= c_pos c)%nat -> (start <= length (c_buf c))%nat ->
  byte_after_fill (fill_buffer start c) = (Some r, c') -> within e2 (S n) c'.
Proof.
  intros (e & He & Hn) Hp Hs H. rewrite skipn_all2 in Hn by exact Hp. cbn [length] in Hn. unfold fill_buffer in H.
  destruct (c_eof c) eqn:Heof; [cbn in Hn; lia|]. cbn [plus] in Hn.
  destruct (negb _); [discriminate|]. destruct (Nat.ltb start READER_BUF_SIZE) eqn:Hst; [|discriminate]. cbn [negb] in H. destruct (c_used c); [discriminate|].
  apply Nat.ltb_lt in Hst.
  assert (Hsup : fst (supplied e) <> []) by (intros Hx; rewrite Hx in Hn; cbn in Hn; lia).
  destruct (read_events_app e2 (READER_BUF_SIZE - start) ltac:(lia) e Hsup) as (d & e' & Hr & Hd & Hsd). rewrite He, Hr in H.
  assert (Hl : Nat.eqb (length d) 0 = false) by (destruct d; [congruence|reflexivity]). rewrite Hl in H. cbn [negb byte_after_fill c_buf c_pos] in H.
  destruct (nth_error _ _); [|discriminate]. injection H as _ <-. exists e'. cbn [c_events c_pos c_buf c_eof]. split; [reflexivity|].
  rewrite Hsd, app_length in Hn. rewrite skipn_length, app_length, firstn_length. lia.
Qed.

Lemma within_peek e2 n c r c' : within e2 (S n) c -> c_peek c = (Some r, c') -> within e2 (S n) c'.
Proof.
  intros H Hc. unfold c_peek in Hc. destruct (Nat.ltb (c_pos c) (length (c_buf c))) eqn:Hl.
  - destruct (nth_error _ _); [|discriminate]. injection Hc as _ <-. exact H.
  - apply Nat.ltb_ge in Hl. eapply within_fill; [exact H|exact Hl| |exact Hc]. lia.
Qed.
Lemma within_vpeek e2 n c r c' : within e2 (S n) c -> c_vpeek c = (Some r, c') -> within e2 (S n) c'.
Proof.
  intros H Hc. unfold c_vpeek in Hc. destruct (c_final c); [discriminate|]. destruct (Nat.ltb (c_pos c) (length (c_buf c))) eqn:Hl.
  - destruct (nth_error _ _); [|discriminate]. injection Hc as _ <-. exact H.
  - apply Nat.ltb_ge in Hl. destruct (_ || _)%bool.
    + destruct (Nat.ltb (c_vstart c) _); (eapply within_fill; [|..|exact Hc]; [exact H|exact Hl|cbn; lia]).
    + eapply within_fill; [exact H|exact Hl| |exact Hc]. lia.
Qed.

Lemma within_take e2 n c p : within e2 (S n) c -> p = S (c_pos c) -> within e2 n (set_pos p c).
Proof.
  intros (e & He & Hn) ->. exists e. cbn [set_pos c_events c_pos c_buf c_eof]. split; [exact He|].
  rewrite skipn_length in *. lia.
Qed.
Lemma within_same e2 n c c' : within e2 n c -> c_events c' = c_events c -> c_pos c' = c_pos c -> c_buf c' = c_buf c -> c_eof c' = c_eof c -> within e2 n c'.
Proof. intros (e & He & Hn) H1 H2 H3 H4. exists e. rewrite H1, H2, H3, H4. auto. Qed.
Lemma within_vnew e2 n c c' : within e2 n c -> c_vnew c = Some c' -> within e2 n c'.
Proof.
  intros (e & He & Hn) H. unfold c_vnew in H. destruct (Nat.leb _ _); [|discriminate]. injection H as <-. exists e. cbn [c_events c_pos c_buf c_eof].
  split; [exact He|]. rewrite skipn_O. exact Hn.
Qed.
Lemma within_vbuf e2 n c v u s : within e2 n c -> within e2 n (set_vbuf v u s c).
Proof. intros H. exact H. Qed.
Lemma within_skip_prev e2 n c c' : within e2 n c -> c_vskip_prev c = Some c' -> within e2 n c'.
Proof.
  intros H E. unfold c_vskip_prev in E. destruct (c_final c); [discriminate|]. destruct (Nat.eqb _ _).
  - injection E as <-. apply within_vbuf, H.
  - destruct (c_pos c) as [|p] eqn:Hp; [discriminate|]. destruct (buf_slice _ _ _); [|discriminate]. injection E as <-. apply within_vbuf, H.
Qed.
Lemma within_push e2 n bs c c' : within e2 n c -> c_vpush bs c = Some c' -> within e2 n c'.
Proof.
  intros H E. unfold c_vpush in E. destruct (Nat.ltb _ _); [destruct (buf_slice _ _ _); [|discriminate]|]; injection E as <-; apply within_vbuf, H.
Qed.
Lemma within_get e2 n b c c' : within e2 n c -> c_vget b c = Some c' -> within e2 n c'.
Proof.
  intros H E. unfold c_vget in E. destruct (if c_final c then _ else _) as [q|]; [|discriminate].
  destruct (c_using c); [destruct (buf_slice _ _ _); [|discriminate]; destruct b|destruct (c_used c); [discriminate|]]; injection E as <-;
    (eapply within_same; [exact H|reflexivity..]).
Qed.
Lemma within_str e2 n c s c' : within e2 n c -> c_vstr c = Some (s, c') -> within e2 n c'.
Proof.
  intros H E. unfold c_vstr in E. destruct (c_value c); [|discriminate]. cbv zeta in E. destruct (c_ref_str _ _); [|discriminate]. injection E as _ <-.
  eapply within_same; [exact H|reflexivity..].
Qed.
Lemma within_string e2 n c s c' : within e2 n c -> c_vstring c = Some (s, c') -> within e2 n c'.
Proof.
  intros H E. unfold c_vstring in E. destruct (c_value c) as [[| |bs]|]; [| | |discriminate]; cbv zeta in E;
    match type of E with context [match ?x with _ => _ end] => destruct x; [|discriminate] end; injection E as _ <-; (eapply within_same; [exact H|reflexivity..]).
Qed.

Definition needed (a a' : asrc) : nat := length (a_rest a) - length (a_rest a').

Lemma look_within {A : Type} e2 (p : prog A) : forall K Q c a x a', look p K Q -> arun p a = Some (x, a') -> rel c a -> within e2 (needed a a') c ->
  exists K' c', Q x K' /\ (a_rest a' = a_rest a -> K = true -> K' = true) /\ crun p c = Some (x, c') /\ rel c' a' /\
    (K' = false -> within e2 0 c').
Proof.
  induction p as [y|k IH|k IH|k IH|k IH|k IH|k IH|k IH|bs k IH|b k IH|k IH|k IH|k IH];
    intros K Q c a x a' Hl H R Hw; cbn [look arun crun] in *.
  - injection H as <- <-. exists K, c. unfold needed in Hw. rewrite Nat.sub_diag in Hw. auto 6.
  - destruct (a_peek a) as [[r a1]|] eqn:E; [|discriminate]. pose proof (rest_peek _ _ _ E) as Hr.
    destruct (peek_spec _ _ _ _ R E) as (c1 & Hc & R1). rewrite Hc.
    destruct (arun_rest _ _ _ _ H) as (y & Hy). destruct y as [|b y].
    + destruct (refines _ _ _ _ _ R1 H) as (c' & Hc' & R'). destruct (look_sound _ _ _ _ _ _ (Hl r) H (fun _ => eq_refl)) as (K' & HQ & _ & Hf & _).
      assert (HK : K' = true) by (apply Hf; [symmetry; exact Hy|reflexivity]).
      exists K', c'. split; [exact HQ|]. split; [auto|]. split; [exact Hc'|]. split; [exact R'|]. congruence.
    + assert (Hn : needed a1 a' = S (length y)) by (unfold needed; rewrite Hy, app_length; cbn [length]; lia).
      assert (Hn' : needed a a' = S (length y)) by (unfold needed; rewrite <- Hr, Hy, app_length; cbn [length]; lia).
      rewrite Hn' in Hw. pose proof (within_peek _ _ _ _ _ Hw Hc) as Hw1. rewrite <- Hn in Hw1.
      destruct (IH r true Q c1 a1 x a' (Hl r) H R1 Hw1) as (K' & c' & H1 & H2 & H3 & H4 & H5).
      exists K', c'. split; [exact H1|]. split; [intros Hs _; apply H2; congruence|]. auto.
  - destruct (a_skip a) as [a1|] eqn:E; [|discriminate]. destruct (skip_spec _ _ _ R E) as (c1 & Hc & R1). rewrite Hc.
    destruct (rest_skip _ _ E) as (b & Hr). destruct (arun_rest _ _ _ _ H) as (y & Hy).
    assert (Hn : needed a a' = S (needed a1 a')) by (unfold needed; rewrite Hr, Hy; cbn [length]; rewrite app_length; lia). rewrite Hn in Hw.
    unfold c_skip in Hc. destruct (Nat.ltb _ _); [|discriminate]. injection Hc as <-.
    destruct (IH false Q _ a1 x a' Hl H R1 (within_take _ _ _ _ Hw eq_refl)) as (K' & c' & H1 & H2 & H3 & H4 & H5).
    exists K', c'. split; [exact H1|]. split; [|auto]. intros Hs. exfalso. rewrite Hr, Hy in Hs. apply (f_equal (@length _)) in Hs.
    cbn [length] in Hs. rewrite app_length in Hs. lia.
  - destruct (a_vnew a) as [a1|] eqn:E; [|discriminate]. destruct (vnew_spec _ _ _ R E) as (c1 & Hc & R1). rewrite Hc.
    pose proof (rest_vnew _ _ E) as Hr. unfold needed in *. rewrite <- Hr in *.
    exact (IH K Q c1 a1 x a' Hl H R1 (within_vnew _ _ _ _ Hw Hc)).
  - destruct (a_vpeek a) as [[r a1]|] eqn:E; [|discriminate]. pose proof (rest_vpeek _ _ _ E) as Hr.
    destruct (vpeek_spec _ _ _ _ R E) as (c1 & Hc & R1). rewrite Hc.
    destruct (arun_rest _ _ _ _ H) as (y & Hy). destruct y as [|b y].
    + destruct (refines _ _ _ _ _ R1 H) as (c' & Hc' & R'). destruct (look_sound _ _ _ _ _ _ (Hl r) H (fun _ => eq_refl)) as (K' & HQ & _ & Hf & _).
      assert (HK : K' = true) by (apply Hf; [symmetry; exact Hy|reflexivity]).
      exists K', c'. split; [exact HQ|]. split; [auto|]. split; [exact Hc'|]. split; [exact R'|]. congruence.
    + assert (Hn : needed a1 a' = S (length y)) by (unfold needed; rewrite Hy, app_length; cbn [length]; lia).
      assert (Hn' : needed a a' = S (length y)) by (unfold needed; rewrite <- Hr, Hy, app_length; cbn [length]; lia).
      rewrite Hn' in Hw. pose proof (within_vpeek _ _ _ _ _ Hw Hc) as Hw1. rewrite <- Hn in Hw1.
      destruct (IH r true Q c1 a1 x a' (Hl r) H R1 Hw1) as (K' & c' & H1 & H2 & H3 & H4 & H5).
      exists K', c'. split; [exact H1|]. split; [intros Hs _; apply H2; congruence|]. auto.
  - destruct (a_vconsume a) as [a1|] eqn:E; [|discriminate]. destruct (vconsume_spec _ _ _ R E) as (c1 & Hc & R1). unfold c_vconsume in *. injection Hc as <-.
    destruct (rest_vconsume _ _ E) as (b & Hr). destruct (arun_rest _ _ _ _ H) as (y & Hy).
    assert (Hn : needed a a' = S (needed a1 a')) by (unfold needed; rewrite Hr, Hy; cbn [length]; rewrite app_length; lia). rewrite Hn in Hw.
    destruct (IH false Q _ a1 x a' Hl H R1 (within_take _ _ _ _ Hw eq_refl)) as (K' & c' & H1 & H2 & H3 & H4 & H5).
    exists K', c'. split; [exact H1|]. split; [|auto]. intros Hs. exfalso. rewrite Hr, Hy in Hs. apply (f_equal (@length _)) in Hs.
    cbn [length] in Hs. rewrite app_length in Hs. lia.
  - destruct (a_vskip_prev a) as [a1|] eqn:E; [|discriminate]. destruct (vskip_prev_spec _ _ _ R E) as (c1 & Hc & R1). rewrite Hc.
    pose proof (rest_vskip_prev _ _ E) as Hr. unfold needed in *. rewrite <- Hr in *.
    exact (IH K Q c1 a1 x a' Hl H R1 (within_skip_prev _ _ _ _ Hw Hc)).
  - destruct (a_vskip_final a) as [a1|] eqn:E; [|discriminate]. pose proof (vskip_final_spec _ _ _ R E) as R1.
    pose proof (rest_vskip_final _ _ E) as Hr. unfold needed in *. rewrite <- Hr in *.
    refine (IH K Q _ a1 x a' Hl H R1 _). exact Hw.
  - destruct (a_vpush bs a) as [a1|] eqn:E; [|discriminate]. destruct (vpush_spec _ _ _ _ R E) as (c1 & Hc & R1). rewrite Hc.
    pose proof (rest_vpush _ _ _ E) as Hr. unfold needed in *. rewrite <- Hr in *.
    exact (IH K Q c1 a1 x a' Hl H R1 (within_push _ _ _ _ _ Hw Hc)).
  - destruct (a_vget b a) as [a1|] eqn:E; [|discriminate]. destruct (vget_spec _ _ _ _ R E) as (c1 & Hc & R1). rewrite Hc.
    pose proof (rest_vget _ _ _ E) as Hr. unfold needed in *. rewrite <- Hr in *.
    exact (IH K Q c1 a1 x a' Hl H R1 (within_get _ _ _ _ _ Hw Hc)).
  - destruct (a_vstr_peek a) as [r|] eqn:E; [|discriminate]. rewrite (vstr_peek_spec _ _ _ R E).
    exact (IH r K Q c a x a' (Hl r) H R Hw).
  - destruct (a_vstr a) as [[r a1]|] eqn:E; [|discriminate]. destruct (vstr_spec _ _ _ _ R E) as (c1 & Hc & R1). rewrite Hc.
    pose proof (rest_vstr _ _ _ E) as Hr. unfold needed in *. rewrite <- Hr in *.
    exact (IH r K Q c1 a1 x a' (Hl r) H R1 (within_str _ _ _ _ _ Hw Hc)).
  - destruct (a_vstring a) as [[r a1]|] eqn:E; [|discriminate]. destruct (vstring_spec _ _ _ _ R E) as (c1 & Hc & R1). rewrite Hc.
    pose proof (rest_vstring _ _ _ E) as Hr. unfold needed in *. rewrite <- Hr in *.
    exact (IH r K Q c1 a1 x a' (Hl r) H R1 (within_string _ _ _ _ _ Hw Hc)).
Qed.
