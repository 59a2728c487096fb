(** * Proofs of the property theorems about the end of several top-level values *)

From Verif Require Import Base Utf8Model SpecNumber SpecJson SourceModel SourceProofs
  ReaderModel ReaderScan ReaderMid ReaderAgree ReaderSess ReaderSafe SpecCursor SpecRead ReaderRepr ReaderForward
  ReaderBack ReaderText ReaderCursor ReaderFinal2 ReaderFinal ReaderFinal5.


Lemma consumed_then_none E inp s r s' r' : inv E inp s r -> allow_multiple_top_level (cfg E) = true ->
  peeked s = None -> d_consume_trailing E TEof s r = MOk tt s' r' -> exists s2 r2, d_has_next E TEof s r = MOk false s2 r2.
Proof.
  intros Hi Hs Hp Hc. apply consume_ok in Hc as (Ha & Hst & Hem & w & Hw).
  assert (Hv : expects_member_value s = false).
  { destruct (expects_member_value s) eqn:Ev; [|reflexivity]. unfold expects_member_value, is_in_object in Ev. rewrite Hst in Ev. discriminate Ev. }
  unfold d_has_next, d_peek_optional, dbind, dget, dmisuse_if, dret. rewrite Hv. cbn beta iota. rewrite Hst. cbn beta iota. rewrite Hem, Hs. cbn beta iota delta [negb]. rewrite Ha. cbn beta iota. rewrite Hp, andb_false_r. cbn beta iota.
  rewrite Hv. cbn beta iota. unfold d_fresh. rewrite Hw. cbn beta iota. eauto.
Qed.

(** A call which reads or skips a complete element *)
Definition reads_element (c : rcall) : Prop :=
  In c [CEndArray; CEndObject; CNextString; CNextStr; CNextNumberStr; CNextNumberString; CNextBool; CNextNull] \/ c = CSkipValue.

Lemma dbind_ok {A B : Type} (d : D A) (f : A -> D B) s r y s' r' : dbind d f s r = MOk y s' r' ->
  exists x s1 r1, d s r = MOk x s1 r1 /\ f x s1 r1 = MOk y s' r'.
Proof. unfold dbind. destruct (d s r) as [x s1 r1| | | |]; try discriminate. intros H. exists x, s1, r1. auto. Qed.
Lemma good_inv {A : Type} E inp (m : mres A) Q x s r : good E inp m Q -> m = MOk x s r -> inv E inp s r.
Proof. intros H ->. exact (proj1 H). Qed.

Lemma skip_start_clear E inp t s r s' r' : (length inp < fuel E)%nat -> inv E inp s r -> d_skip_value_start E t s r = MOk false s' r' -> peeked s' = None.
Proof.
  intros Hf Hi H. unfold d_skip_value_start in H. apply dbind_ok in H as (ty & s1 & r1 & H1 & H).
  pose proof (good_inv _ _ _ _ _ _ _ (peek_good E inp t s r Hf Hi) H1) as Hi1. destruct ty.
  - apply dbind_ok in H as (? & ? & ? & _ & H). discriminate H.
  - apply dbind_ok in H as (? & ? & ? & _ & H). discriminate H.
  - apply dbind_ok in H as (p & s2 & r2 & H2 & H). pose proof (start_good E inp t TString false s1 r1 Hf Hi1) as Hg. rewrite H2 in Hg.
    destruct Hg as (Hi2 & _ & _ & _ & Hp & _). apply dbind_ok in H as (? & s3 & r3 & H3 & H).
    pose proof (skip_string_good E inp s2 r2 Hf Hi2 Hp) as Hg. rewrite H3 in Hg. destruct Hg as (_ & _ & Hp3 & _).
    apply dbind_ok in H as (? & s4 & r4 & H4 & H). injection H as <- _. apply value_end_text in H4 as [_ H4]. congruence.
  - apply dbind_ok in H as (? & s2 & r2 & H2 & H). injection H as <- _. exact (number_clear _ _ _ _ _ _ _ _ _ Hf Hi1 H2).
  - apply dbind_ok in H as (? & s2 & r2 & H2 & H). injection H as <- _. exact (next_bool_clear _ _ _ _ _ _ _ _ Hf Hi1 H2).
  - apply dbind_ok in H as (? & s2 & r2 & H2 & H). injection H as <- _. exact (next_null_clear _ _ _ _ _ _ _ _ Hf Hi1 H2).
Qed.

Lemma skip_step_clear E inp t depth s r s' r' : (length inp < fuel E)%nat -> inv E inp s r -> d_skip_step E t depth s r = MOk O s' r' -> peeked s' = None.
Proof.
  intros Hf Hi H. unfold d_skip_step in H. apply dbind_ok in H as (h & s1 & r1 & H1 & H).
  assert (Hi1 : inv E inp s1 r1).
  { destruct depth; [injection H1 as _ <- <-; exact Hi|]. exact (good_inv _ _ _ _ _ _ _ (has_next_good E inp t s r Hf Hi) H1). }
  destruct (negb h).
  - apply dbind_ok in H as ([] & s2 & r2 & H2 & H). injection H as _ <- _. unfold d_end_container in H2. apply dbind_ok in H2 as (s3 & ? & ? & E3 & H2).
    injection E3 as <- <- <-. destruct (is_in_array s1); [exact (end_array_clear _ _ _ _ _ _ _ _ Hf Hi1 H2)|exact (end_object_clear _ _ _ _ _ _ _ _ Hf Hi1 H2)].
  - apply dbind_ok in H as (s3 & ? & ? & E3 & H). injection E3 as <- <- <-. apply dbind_ok in H as ([] & s2 & r2 & H2 & H).
    assert (Hi2 : inv E inp s2 r2).
    { destruct (expects_member_name s1); [|injection H2 as <- <-; exact Hi1]. exact (good_inv _ _ _ _ _ _ _ (skip_name_good E inp t s1 r1 Hf Hi1) H2). }
    apply dbind_ok in H as (st & s4 & r4 & H4 & H). destruct st; [discriminate H|]. injection H as _ <- _. exact (skip_start_clear _ _ _ _ _ _ _ Hf Hi2 H4).
Qed.

Lemma skip_loop_clear E inp t f : forall depth s r s' r', (length inp < fuel E)%nat -> inv E inp s r ->
  d_skip_value_loop E t f depth s r = MOk tt s' r' -> peeked s' = None.
Proof.
  induction f as [|f IH]; intros depth s r s' r' Hf Hi H; [discriminate|]. cbn [d_skip_value_loop] in H.
  apply dbind_ok in H as (depth' & s1 & r1 & H1 & H). pose proof (good_inv _ _ _ _ _ _ _ (skip_step_good E inp t depth s r Hf Hi) H1) as Hi1.
  destruct depth'; [injection H as <- _; exact (skip_step_clear _ _ _ _ _ _ _ _ Hf Hi H1)|]. exact (IH _ _ _ _ _ Hf Hi1 H).
Qed.

Lemma nothing_peeked' E inp t d c v : (length inp < fuel E)%nat -> dinv E inp d -> reads_element c ->
  matches (OOk v) (fst (d_call E t c d)) ->
  exists s' r', snd (d_call E t c d) = DRun s' None r' /\ inv E inp s' r' /\ peeked s' = None.
Proof.
  intros Hf Hd [Hc|Hc] Hm; [exact (nothing_peeked E inp t d c v Hf Hd Hc Hm)|]. subst c.
  pose proof (call_good E inp t CSkipValue d Hf Hd) as Hg.
  destruct d as [s rd r|h| | |]; try (cbn in Hm; try discriminate; contradiction).
  destruct Hd as (Hi & _). cbn [d_call d_call_run] in *. unfold d_run in *.
  destruct (d_skip_value E t s r) as [[] s' r'|e s' r'|[n|]| |] eqn:Es; cbn in Hm, Hg; try discriminate; try contradiction.
  - exists s', r'. split; [reflexivity|]. split; [apply Hg|]. unfold d_skip_value in Es. apply dbind_ok in Es as (s3 & ? & ? & E3 & Es). injection E3 as <- <- <-.
    apply dbind_ok in Es as (u & s2 & r2 & H2 & Es). assert (s2 = s /\ r2 = r) as [-> ->].
    { destruct (expects_member_name s); [discriminate|]. injection H2 as _ <- <-. auto. }
    exact (skip_loop_clear E inp t _ _ _ _ _ _ Hf Hi Es).
  - destruct Hm as (l & Hm). discriminate.
  - destruct Hm as (l & Hm & _). discriminate.
Qed.

Lemma skipn_nth {A : Type} (l : list A) : forall n, nth_error l n = hd_error (skipn n l).
Proof. induction l as [|x l IH]; intros [|n]; cbn; auto. Qed.

Lemma several_end s evs cs c v : Forall is_byte (fst (supplied evs)) -> allow_multiple_top_level s = true ->
  reads_element c ->
  read_session s evs (cs ++ [c; CConsumeTrailingWhitespace]) = firstn (length cs) (read_session s evs (cs ++ [c; CConsumeTrailingWhitespace])) ++ [OOk v; OOk RUnit] ->
  (exists vs, document_input s vs evs) /\
  nth_error (read_session s evs (cs ++ [c; CHasNext])) (S (length cs)) = Some (OOk (RBool false)).
Proof.
  intros Hb Hs Hc Hos. destruct (session_split s evs cs [c; CConsumeTrailingWhitespace] _ Hb Hos) as (Hd & Hm & Hlen).
  destruct (session_split s evs cs [c; CHasNext] _ Hb eq_refl) as (_ & Hm2 & Hlen2).
  set (E := Env s (enough_fuel (fst (supplied evs)))) in *. set (inp := fst (supplied evs)) in *.
  set (t := snd (supplied evs)) in *. set (d0 := DRun (rstate_new s) None inp) in *.
  assert (Hf : (length inp < fuel E)%nat) by (cbn; unfold enough_fuel; lia).
  assert (Hfl : length (firstn (length cs) (read_session s evs (cs ++ [c; CConsumeTrailingWhitespace]))) = length cs).
  { rewrite !app_length in Hlen. cbn in Hlen. lia. }
  rewrite <- Hfl in Hm at 1. rewrite skipn_app, skipn_all, Nat.sub_diag in Hm. cbn [skipn app d_calls] in Hm.
  destruct (d_calls E t cs d0) as [os0 d] eqn:Ed. cbn [snd] in *.
  pose proof (nothing_peeked' E inp t d c v Hf Hd Hc) as Hnp.
  cbn [d_calls] in Hm2. destruct (d_call E t c d) as [o1 d1] eqn:E1. cbn [fst snd] in *.
  destruct (d_call E t CConsumeTrailingWhitespace d1) as [o2 d2] eqn:E2. destruct (d_call E t CHasNext d1) as [o3 d3] eqn:E3. cbn [fst] in *.
  inversion Hm as [|? ? ? ? H1 Hm']; subst. inversion Hm' as [|? ? ? ? H2 _]; subst.
  destruct (Hnp H1) as (s1 & r1 & -> & Hi & Hpk). cbn [d_call d_call_run] in E2, E3.
  assert (Hl1 : (length r1 < fuel E)%nat).
  { pose proof (mu_bound _ _ _ _ Hi) as H. unfold mu, ahead in H. rewrite app_length in H. lia. }
  unfold d_run_consume in E2. destruct (d_consume_trailing E t s1 r1) as [x s2 r2|e s2 r2|n| |] eqn:Ec;
    try (injection E2 as <- _; cbn in H2; try contradiction; discriminate H2).
  2: { injection E2 as <- _. cbn in H2. destruct n; [destruct H2; discriminate|]. destruct H2 as (? & ? & _). discriminate. }
  pose proof (consume_eof E t s1 r1 _ _ _ Ec (i_bytes _ _ _ _ Hi) Hl1) as He.
  assert (Ht : t = TEof) by (destruct t; [reflexivity|discriminate]). rewrite Ht in *. destruct x. split.
  - pose proof (consume_ready E inp s1 r1 s2 r2 Hf Hi Ec Hpk) as Hr.
    assert (Hd0 : dinv E inp d0) by (split; [apply inv_start; exact Hb|exact I]).
    pose proof (calls_back E inp (cs ++ [c]) Hf d0 Hd0) as Hback. rewrite d_calls_app in Hback.
    rewrite Ed in Hback. cbn [snd d_calls] in Hback. rewrite E1 in Hback. cbn [snd] in Hback. specialize (Hback Hr).
    destruct (start_document s _ inp Hback) as (vs & Hv1 & Hv2). exists vs. split; [exact Ht|]. split; assumption.
  - destruct (consumed_then_none E inp s1 r1 s2 r2 Hi Hs Hpk Ec) as (s3 & r3 & Hh). unfold d_run in E3. rewrite Hh in E3. injection E3 as <- _.
    rewrite skipn_nth.
    replace (S (length cs)) with (1 + length cs)%nat by lia.
    assert (Hss : forall (l : list outcome) n, skipn (1 + n) l = skipn 1 (skipn n l)).
    { clear. induction l as [|y l IH]; intros [|n]; auto. apply (IH n). }
    rewrite (Hss _ (length cs)). destruct (skipn (length cs) (read_session s evs (cs ++ [c; CHasNext]))) as [|y1 l1]; [inversion Hm2|].
    inversion Hm2 as [|? ? ? ? _ Hm2']; subst. inversion Hm2' as [|y2 ? l2 ? H3 _]; subst. cbn in H3 |- *. congruence.
Qed.

Lemma C32_exactly_at_the_end_of_several_values_holds : forall (s : settings) (evs : list event) (cs : list rcall) (c : rcall) (os : list outcome) (v : rvalue) (o : outcome),
  Forall is_byte (fst (supplied evs)) -> allow_multiple_top_level s = true ->
  In c [CEndArray; CEndObject; CNextString; CNextStr; CNextNumberStr; CNextNumberString; CNextBool; CNextNull] \/ c = CSkipValue ->
  read_session s evs (cs ++ [c; CConsumeTrailingWhitespace]) = os ++ [OOk v; o] ->
  (o = OOk RUnit <->
   exists vs cur, document_input s vs evs /\
     snd (walk_calls s (cs ++ [c]) (AtCursor (cursor_start vs))) = AtCursor cur /\
     frames cur = [] /\ top cur = [] /\ started cur = true /\ is_reading cur = false).
Proof.
  intros s evs cs c os v o Hb Hs Hc Hos.
  assert (Hlen : length (read_session s evs (cs ++ [c; CConsumeTrailingWhitespace])) = length (cs ++ [c; CConsumeTrailingWhitespace])).
  { destruct (session_split s evs cs [c; CConsumeTrailingWhitespace] _ Hb eq_refl) as (_ & _ & H). exact H. }
  assert (Hl : length os = length cs) by (rewrite Hos, !app_length in Hlen; cbn in Hlen; lia).
  assert (Hcs : cs ++ [c; CConsumeTrailingWhitespace] = (cs ++ [c]) ++ [CConsumeTrailingWhitespace]) by (rewrite <- app_assoc; reflexivity).
  split.
  - intros ->.
    destruct (several_end s evs cs c v Hb Hs Hc) as ((vs & Hd) & Hn).
    { rewrite Hos. rewrite <- Hl, firstn_app, firstn_all, Nat.sub_diag. cbn [firstn]. rewrite app_nil_r. reflexivity. }
    assert (Hcs2 : cs ++ [c; CHasNext] = (cs ++ [c]) ++ [CHasNext]) by (rewrite <- app_assoc; reflexivity). rewrite Hcs2 in Hn.
    pose proof (doc_session s vs evs ((cs ++ [c]) ++ [CHasNext]) Hd) as H. rewrite walk_calls_app in H.
    pose proof (walk_length s (cs ++ [c]) (AtCursor (cursor_start vs))) as Hwl.
    destruct (walk_calls s (cs ++ [c]) (AtCursor (cursor_start vs))) as [xs w] eqn:Ew. cbn [fst] in Hwl.
    cbn [walk_calls] in H. destruct (walk_call s CHasNext w) as [x w1] eqn:Ex. cbn [fst] in H.
    replace (S (length cs)) with (length xs) in Hn by (rewrite Hwl, app_length; cbn; lia).
    assert (Hr : is_result s x (OOk (RBool false))).
    { clear - H Hn. apply Forall2_app_inv_l in H as (l1 & l2 & H1 & H2 & E). rewrite E in Hn.
      assert (Hl : length l1 = length xs) by (clear - H1; induction H1; cbn; congruence).
      rewrite nth_error_app2, Hl, Nat.sub_diag in Hn by lia. inversion H2; subst. cbn in Hn. injection Hn as <-. assumption. }
    destruct w as [cur| |]; cbn [walk_call] in Ex; [|injection Ex as <- _; discriminate Hr|injection Ex as <- _; discriminate Hr].
    exists vs, cur. rewrite Ew. split; [exact Hd|]. split; [reflexivity|].
    pose proof (doc_session s vs evs ((cs ++ [c]) ++ [CConsumeTrailingWhitespace]) Hd) as H'. rewrite walk_calls_app, Ew in H'.
    cbn [walk_calls] in H'. destruct (walk_call s CConsumeTrailingWhitespace (AtCursor cur)) as [y w2] eqn:Ey. cbn [fst] in H'.
    rewrite <- Hcs, Hos in H'. change (os ++ [OOk v; OOk RUnit]) with (os ++ [OOk v] ++ [OOk RUnit]) in H'. rewrite app_assoc in H'.
    apply forall2_tail in H' as (_ & H'); [|reflexivity]. inversion H' as [|? ? ? ? Hy _]; subst. clear H'.
    cbn [walk_call before_call] in Ex, Ey.
    assert (Hdrop : frames (drop_reader cur) = frames cur /\ started (drop_reader cur) = started cur /\ is_reading (drop_reader cur) = is_reading cur /\ top (drop_reader cur) = top cur).
    { clear. destruct cur as [? ? ? []]; cbn; auto. }
    destruct Hdrop as (<- & <- & <- & <-).
    cbn [call_at] in Ex, Ey. unfold more in Ex.
    destruct (is_reading (drop_reader cur)); [injection Ey as <- _; discriminate Hy|].
    destruct (frames (drop_reader cur)) as [|f fs]; [|injection Ey as <- _; discriminate Hy].
    destruct (started (drop_reader cur)); [|injection Ey as <- _; discriminate Hy].
    rewrite Hs in Ex. cbn [negb orb] in Ex. injection Ex as <- _. destruct (top (drop_reader cur)); [auto|discriminate Hr].
  - intros (vs & cur & Hd & Hw & Hfr & Htop & Hst & Hrd).
    pose proof (doc_session s vs evs ((cs ++ [c]) ++ [CConsumeTrailingWhitespace]) Hd) as H'. rewrite walk_calls_app in H'.
    destruct (walk_calls s (cs ++ [c]) (AtCursor (cursor_start vs))) as [xs w] eqn:Ew. cbn [snd] in Hw. subst w.
    cbn [walk_calls] in H'. destruct (walk_call s CConsumeTrailingWhitespace (AtCursor cur)) as [y w2] eqn:Ey. cbn [fst] in H'.
    rewrite <- Hcs, Hos in H'. change (os ++ [OOk v; o]) with (os ++ [OOk v] ++ [o]) in H'. rewrite app_assoc in H'.
    apply forall2_tail in H' as (_ & H'); [|reflexivity]. inversion H' as [|? ? ? ? Hy _]; subst. clear H'.
    assert (Hdrop : frames (drop_reader cur) = frames cur /\ started (drop_reader cur) = started cur /\ is_reading (drop_reader cur) = is_reading cur /\ top (drop_reader cur) = top cur).
    { clear. destruct cur as [? ? ? []]; cbn; auto. }
    destruct Hdrop as (D1 & D2 & D3 & D4).
    cbn [walk_call before_call call_at] in Ey. rewrite D1, D2, D3, D4, Hrd, Hfr, Hst, Htop in Ey. injection Ey as <- _. exact Hy.
Qed.
