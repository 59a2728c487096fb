(** * Proofs of the property theorems about the buffering of the writer *)

From Verif Require Import Base Utf8Model Utf8Proofs Utf8Prefix NumberModel SpecNumber SpecJson WriterModel SpecWriter
  WriterProofs WriterDocProofs WriterStringProofs WriterSession WriterRun WriterMore WriterSafe WriterFinal SpecBuffer BufferProofs.


Lemma described_sess cfg out cs rs s d : received out = [] -> Forall valid_call cs ->
  wrun cfg cs (new_session out) = (rs, s) -> Forall2 success cs rs ->
  describes_all (multi_top_level cfg) empty_doc cs d -> sess_ok cfg d s.
Proof.
  intros Ho Hv Hr Hs Hd.
  pose proof (new_session_ok cfg out Ho) as Hok. revert Hok Hr Hd. generalize (new_session out) empty_doc. clear Ho.
  revert rs Hs. induction cs as [|c cs IH]; intros rs Hs s0 d0 Hok Hr Hd.
  - cbn in Hr. injection Hr as <- <-. inversion Hd; subst. exact Hok.
  - apply Forall_cons_iff in Hv as [Hc Hv]. inversion Hd as [|? ? d1 ? ? Hd1 Hd2]; subst.
    inversion Hs as [|? r ? rs0 Hs1 Hss]; subst. cbn [wrun] in Hr. destruct (wstep cfg c s0) as [r1 s1] eqn:E1.
    assert (Hr1 : r1 = r /\ wrun cfg cs s1 = (rs0, s)).
    { destruct (wrun cfg cs s1). destruct r1; injection Hr as E E2; try (injection E2 as E2; subst; auto); subst; auto;
        exfalso; eapply success_not_panic, Hs1. }
    destruct Hr1 as [-> Hrun].
    destruct (step_outcome cfg d0 s0 c Hok Hc) as [(d2 & Hd' & Hcall)|[(_ & E)|[(_ & e & He & _)|[(_ & _ & E)|(Hne & E & Hm)]]]].
    + rewrite E1 in Hcall. destruct Hcall as [(_ & Hok1 & _)|(e & He & _)]; [|cbn in He; subst; exfalso; eapply success_not_error, Hs1].
      assert (d1 = d2) as -> by (eapply describes_det; eauto). eapply IH; eauto.
    + rewrite E1 in E. injection E as -> _. exfalso; eapply success_not_panic, Hs1.
    + rewrite E1 in He. cbn in He. subst. exfalso; eapply success_not_error, Hs1.
    + rewrite E1 in E. injection E as -> _. exfalso; eapply success_not_inexpressible, Hs1.
    + exfalso. destruct Hd1; try contradiction; try congruence; apply Hne; apply H.
Qed.

Lemma items_text_body cfg level items : forall first, items_text cfg (S level) first items = items_body cfg level first items.
Proof. induction items as [|x l IH]; intros first; cbn; [|rewrite IH]; reflexivity. Qed.
Lemma members_text_body cfg level ms : forall first, members_text cfg (S level) first ms = members_body cfg level first ms.
Proof. induction ms as [|[n x] l IH]; intros first; cbn; [|rewrite IH]; reflexivity. Qed.
Lemma open_text_eq cfg top o : open_text_so_far cfg top o = open_text cfg top o.
Proof.
  induction o as [|f o IH]; [reflexivity|]. cbn [open_text_so_far open_text]. rewrite IH, <- app_assoc. f_equal. f_equal.
  destruct f as [items|ms [n|]]; cbn [frame_open]; rewrite ?items_text_body, ?members_text_body, ?app_nil_r; reflexivity.
Qed.

Lemma incomplete_tail sv : sv_ok sv -> (length (sv_buf sv) <= 3)%nat /\
  forall c r, is_char c -> sv_buf sv <> encode_char c ++ r.
Proof.
  intros [H|(b & r & Hb & Hs & Hl)].
  - rewrite H. split; [cbn; lia|]. intros c r Hc E. destruct (encode_char_nonempty c) as (b & t & Hn).
    rewrite Hn in E. discriminate.
  - pose proof (start_len_bounds _ _ Hs) as Hn. split; [lia|]. intros c r' Hc E.
    destruct (encode_char_head c Hc) as (b' & t & Ec & Hs' & _).
    rewrite Ec in E. rewrite E in Hl. rewrite E in Hb. injection Hb as Hb1 Hb2. rewrite Hb1, Hs in Hs'. injection Hs' as Hx.
    cbn [app length] in Hl. rewrite app_length in Hl. lia.
Qed.

Lemma sess_text_so_far cfg d s : sess_ok cfg d s -> text_so_far cfg d (emitted (ws_writer s)).
Proof.
  intros (_ & _ & H). unfold text_so_far. destruct (d_string d) as [acc|].
  - destruct H as (_ & _ & sv & s0 & _ & Hsv & _ & Hs & Hacc & He). exists s0. split.
    + split; [exact Hs|]. exists (sv_buf sv). split; [exact Hacc|]. apply incomplete_tail, Hsv.
    + rewrite He, open_text_eq. reflexivity.
  - destruct H as (_ & _ & He). rewrite He, open_text_eq. reflexivity.
Qed.
Lemma all_ok cs rs : Forall2 success cs rs -> Forall (fun r => res_ok r = true) rs.
Proof. induction 1; constructor; auto. eapply success_ok; eauto. Qed.
Lemma new_buf_lt out : (length (w_buf (ws_writer (new_session out))) < WRITER_BUF_SIZE)%nat.
Proof. cbn. apply buf_size_pos. Qed.
Lemma run_stp cfg out cs rs s : wrun cfg cs (new_session out) = (rs, s) -> Forall2 success cs rs ->
  (length (w_buf (ws_writer s)) < WRITER_BUF_SIZE)%nat /\
  flushes (w_sink (ws_writer s)) = flushes out + N.of_nat (flush_calls cs).
Proof.
  intros Hr Hs. destruct (run_ok cfg cs _ _ _ Hr (all_ok _ _ Hs)) as [_ H].
  pose proof (new_buf_lt out) as Hn. destruct H as (A & B & C & D); [lia|]. split; auto.
Qed.
Lemma flush_step cfg s s' : wstep cfg CFlush s = (RDone, s') ->
  received (w_sink (ws_writer s')) = emitted (ws_writer s') /\ w_buf (ws_writer s') = [].
Proof.
  cbn [wstep]. unfold string_call. destruct (ws_string s) as [sv|]; [|discriminate].
  unfold sv_flush, run_with_error_tracking, sv_bind, check_previous_error. destruct (sv_error sv); [discriminate|].
  unfold sv_lift. pose proof (stp_flush (ws_writer s)) as [_ H]. destruct (flush (ws_writer s)) as [[a| | |] st']; cbn; try discriminate.
  intros E. injection E as <-. cbn. cbn in H. unfold emitted. rewrite H by reflexivity. rewrite app_nil_r. auto.
Qed.
Lemma weak_count cfg n cs s : s = snd (wrun cfg cs (new_session (counting_sink n))) ->
  (WRITER_BUF_SIZE * write_calls n (w_sink (ws_writer s)) <=
   length (received (w_sink (ws_writer s))) + WRITER_BUF_SIZE * flush_calls cs)%nat /\ bulk (w_sink (ws_writer s)) /\
  (length (w_buf (ws_writer s)) <= WRITER_BUF_SIZE)%nat.
Proof.
  intros ->. pose proof (run_weak cfg cs (new_session (counting_sink n))) as H.
  destruct H as (A & _ & _ & H); [cbn; lia|]. destruct H as [H1 H2].
  { unfold bulk. cbn. apply Forall_forall. intros x Hx. symmetry. eapply repeat_spec; eauto. }
  cbn [new_session ws_writer new_writer w_sink counting_sink write_resps received length] in H2. rewrite repeat_length in H2.
  unfold write_calls. splits; auto. nia.
Qed.


Lemma C54_held_back_bounded_holds : forall (cfg : wsettings) (out : sink) (cs : list wcall) (rs : list wresult) (s : wsession) (d : wdoc),
  received out = [] -> Forall valid_call cs ->
  wrun cfg cs (new_session out) = (rs, s) -> Forall2 success cs rs ->
  describes_all (multi_top_level cfg) empty_doc cs d ->
  exists text held_back, text_so_far cfg d text /\
    received (w_sink (ws_writer s)) ++ held_back = text /\ N.of_nat (length held_back) < 1024.
Proof.
  intros cfg out cs rs s d Ho Hv Hr Hs Hd.
  pose proof (described_sess cfg out cs rs s d Ho Hv Hr Hs Hd) as Hok.
  exists (emitted (ws_writer s)), (w_buf (ws_writer s)). splits; [apply sess_text_so_far, Hok|reflexivity|].
  destruct (run_stp cfg out cs rs s Hr Hs) as [H _]. rewrite cap_eq in H. lia.
Qed.

Lemma C54_flush_passes_on_holds : forall (cfg : wsettings) (out : sink) (cs : list wcall) (rs : list wresult) (s s' : wsession) (d : wdoc),
  received out = [] -> Forall valid_call cs ->
  wrun cfg cs (new_session out) = (rs, s) -> Forall2 success cs rs ->
  describes_all (multi_top_level cfg) empty_doc cs d ->
  flushes (w_sink (ws_writer s)) = flushes out + N.of_nat (flush_calls cs) /\
  (wstep cfg CFlush s = (RDone, s') ->
   text_so_far cfg d (received (w_sink (ws_writer s'))) /\
   flushes (w_sink (ws_writer s')) = flushes (w_sink (ws_writer s)) + 1) /\
  (forall out', wfinish s = (RDone, out') -> flushes out' = flushes (w_sink (ws_writer s)) + 1).
Proof.
  intros cfg out cs rs s s' d Ho Hv Hr Hs Hd.
  pose proof (described_sess cfg out cs rs s d Ho Hv Hr Hs Hd) as Hok.
  destruct (run_stp cfg out cs rs s Hr Hs) as [Hl Hf]. split; [exact Hf|]. split.
  - intros E. destruct (flush_step cfg s s' E) as [Hre Hb].
    pose proof (step_stp cfg CFlush s) as Hst. rewrite E in Hst. cbn [fst snd] in Hst. destruct Hst as (_ & _ & Hfl & _); [lia|].
    split; [|exact (Hfl eq_refl)]. rewrite Hre.
    destruct (step_outcome cfg d s CFlush Hok I) as [(d2 & Hd' & Hcall)|[(Hm & _)|[(Hm & e & He & _)|[(Hj & Hn & E2)|(Hne & E2 & Hm)]]]].
    + rewrite E in Hcall. destruct Hcall as [(_ & Hok1 & _)|(e & He & _)]; [|discriminate He].
      inversion Hd'; subst. apply sess_text_so_far, Hok1.
    + destruct Hm.
    + rewrite E in He. discriminate He.
    + rewrite E in E2. discriminate E2.
    + destruct Hm.
  - intros out'. rewrite wfinish_cases.
    destruct (w_string_active (ws_writer s)); [discriminate|]. destruct (w_expects_member_name (ws_writer s)); [discriminate|].
    destruct (w_stack (ws_writer s)); [|discriminate]. destruct (w_is_empty (ws_writer s)); [discriminate|].
    pose proof (stp_flush (ws_writer s)) as [H _]. destruct (flush (ws_writer s)) as [[a| | |] st']; try discriminate.
    cbn. intros E. injection E as <-. destruct H as (_ & _ & H & _); [lia|]. apply H. reflexivity.
Qed.

Lemma C54_number_of_writes_holds : forall (cfg : wsettings) (cs : list wcall) (n : nat),
  let s := snd (wrun cfg cs (new_session (counting_sink n))) in
  let out := w_sink (ws_writer s) in
  let out' := snd (wfinish s) in
  N.of_nat (write_calls n out) <= N.of_nat (length (received out)) / 1024 + N.of_nat (flush_calls cs) /\
  N.of_nat (write_calls n out') <= N.of_nat (length (received out')) / 1024 + N.of_nat (flush_calls cs) + 1.
Proof.
  intros cfg cs n. cbv zeta. set (s := snd (wrun cfg cs (new_session (counting_sink n)))).
  destruct (weak_count cfg n cs s eq_refl) as (H1 & H2 & H3). rewrite cap_eq in *.
  assert (Hdiv : forall w r f, (N.to_nat 1024 * w <= r + N.to_nat 1024 * f)%nat ->
    N.of_nat w <= N.of_nat r / 1024 + N.of_nat f).
  { intros w r f H. assert (H' : 1024 * N.of_nat w <= N.of_nat r + 1024 * N.of_nat f) by lia. clear H.
    pose proof (N.div_mod (N.of_nat r) 1024 ltac:(lia)). pose proof (N.mod_lt (N.of_nat r) 1024 ltac:(lia)). lia. }
  split; [apply Hdiv, H1|].
  replace (N.of_nat (flush_calls cs) + 1) with (N.of_nat (S (flush_calls cs))) by lia.
  replace (N.of_nat (length (received (snd (wfinish s)))) / 1024 + N.of_nat (flush_calls cs) + 1)
    with (N.of_nat (length (received (snd (wfinish s)))) / 1024 + N.of_nat (S (flush_calls cs))) by lia.
  apply Hdiv. rewrite wfinish_cases.
  destruct (w_string_active (ws_writer s)); [cbn [snd]; lia|]. destruct (w_expects_member_name (ws_writer s)); [cbn [snd]; lia|].
  destruct (w_stack (ws_writer s)); [|cbn [snd]; lia]. destruct (w_is_empty (ws_writer s)); [cbn [snd]; lia|].
  pose proof (stp_flush (ws_writer s)) as [H _]. destruct (flush (ws_writer s)) as [r st']. cbn [snd fst] in *.
  rewrite <- cap_eq in H3. destruct (H H3) as (_ & _ & _ & Hb). destruct (Hb H2) as [_ Hb2]. rewrite cap_eq in Hb2.
  unfold write_calls in *. lia.
Qed.

Lemma C54_buffer_capacity_holds : forall (cfg : wsettings) (out : sink) (cs : list wcall),
  N.of_nat (length (w_buf (ws_writer (snd (wrun cfg cs (new_session out)))))) <= 1024.
Proof.
  intros cfg out cs. pose proof (run_weak cfg cs (new_session out)) as H.
  destruct H as (A & _); [cbn; lia|]. rewrite cap_eq in A. lia.
Qed.
