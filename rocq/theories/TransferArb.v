(** * Sessions with a copied value, for any input

    Auxiliary. *)

From Verif Require Import Base Utf8Model Utf8Proofs NumberModel SpecJson WriterModel SourceModel SourceProofs ReaderModel
  ReaderScan ReaderLex ReaderLexStr ReaderMid ReaderAgree ReaderSess ReaderGrammar ReaderSafe ReaderOut SpecCursor ReaderFits SpecRead TransferModel SpecTransfer
  SpecReformat TransferProofs TransferFinal ReaderBack TransferBack.

(** [transfer_to] while a string reader is active *)
Lemma transfer_dead {F W : Type} (h : handler F W) E s w : string_reader_active s = true -> (0 < fuel E)%nat ->
  exists s', forall a, arun (transfer_to E h s w) a = Some ((Panic Misuse, s', w), a).
Proof.
  intros Ha Hf. destruct (expects_member_name s) eqn:Hn.
  - exists s. intros a. unfold transfer_to, tbind, on_reader, get_state. cbn [pbind]. rewrite Hn. reflexivity.
  - destruct (pm_peek E s Ha) as (s' & Hp). exists s'. intros a.
    apply (start_refused h E s w a (Panic Misuse)); [exact Hn|exact Hf| |reflexivity].
    unfold on_reader. rewrite Hp. reflexivity.
Qed.

Lemma transfer_any {F W : Type} (h : handler F W) s evs before w : Forall is_byte (fst (supplied evs)) ->
  let E := Env s (enough_fuel (fst (supplied evs))) in let t := snd (supplied evs) in let inp := fst (supplied evs) in
  let d0 := DRun (rstate_new s) None inp in
  exists os1 r w' d2,
    (forall after, exists os2, transfer_session s evs h w before after = Some (os1, r, w', os2) /\ Forall2 matches os2 (fst (d_calls E t after d2))) /\
    Forall2 matches os1 (fst (d_calls E t before d0)) /\ dinv E inp d2 /\
    (tame h -> match r with Some r => settled r | None => True end) /\
    (t = TEof -> dready E d2 -> dready E d0).
Proof.
  intros Hb E t inp d0. assert (Hf : (length inp < fuel E)%nat) by (cbn; unfold enough_fuel; fold inp; lia).
  assert (Hd0 : dinv E inp d0) by (split; [apply inv_start; exact Hb|exact I]).
  pose proof (calls_good E inp t before Hf d0 Hd0) as Hd1.
  assert (Hs0 : srel t (session_new s) (asrc_new inp t) d0) by (unfold d0; cbn [srel]; splits; [reflexivity|exists false; reflexivity|exact I]).
  destruct (calls_agree E t before ltac:(lia) _ _ d0 Hs0) as (os1 & st1 & a1 & Hr1 & Hm1 & Hs1).
  { intros H. rewrite H in Hd1. exact Hd1. }
  set (d1 := snd (d_calls E t before d0)) in *.
  assert (H : exists r w' st2 a2 d2, arun (call_transfer E h w st1) a1 = Some ((r, w', st2), a2) /\ srel t st2 a2 d2 /\ dinv E inp d2 /\
    (tame h -> match r with Some r => settled r | None => True end) /\ (t = TEof -> dready E d2 -> dready E d1)).
  { destruct d1 as [s1 rd r1|held| | |]; cbn [srel] in Hs1; unfold call_transfer.
    - destruct Hs1 as (-> & (kn & ->) & _). destruct Hd1 as [Hi1 _]. cbn [s_phase s_state].
      destruct (transfer_to_good h E inp t s1 r1 Hf Hi1 w kn) as (o & s2 & w2 & a2 & He & Hset & Ho).
      exists (Some o), w2, (Session s2 None (match o with Ok _ => Running | _ => Stopped end)), a2.
      destruct o as [[]|e|k|]; [|exists DStop..].
      + destruct Ho as (r2 & kn2 & -> & Hi2 & Hbr). exists (DRun s2 None r2). rewrite arun_bind, He. cbn [arun]. splits; auto.
        * cbn [srel]. splits; [reflexivity|eexists; reflexivity|exact I].
        * split; [exact Hi2|exact I].
      + rewrite arun_bind, He. cbn [arun]. splits; auto; try reflexivity. intros _ [].
      + rewrite arun_bind, He. cbn [arun]. splits; auto; try reflexivity. intros _ [].
      + rewrite arun_bind, He. cbn [arun]. splits; auto; try reflexivity. intros _ [].
    - destruct Hs1 as (s1 & sv & -> & Hact & _). cbn [s_phase s_state].
      destruct (transfer_dead h E s1 w Hact ltac:(lia)) as (s2 & He).
      exists (Some (Panic Misuse)), w, (Session s2 None Stopped), a1, DStop. rewrite arun_bind, He. cbn [arun]. splits; auto; try reflexivity.
    - rewrite Hs1. exists None, w, st1, a1, DStop. cbn [arun]. splits; auto; reflexivity.
    - rewrite Hs1. exists None, w, st1, a1, DDone. cbn [arun]. splits; auto; reflexivity.
    - contradiction. }
  destruct H as (r & w' & st2 & a2 & d2 & Hr2 & Hs2 & Hd2 & Hset & Hback).
  exists os1, r, w', d2. splits; auto.
  - intros after. pose proof (calls_good E inp t after Hf d2 Hd2) as Hd3.
    destruct (calls_agree E t after ltac:(lia) _ _ d2 Hs2) as (os2 & st3 & a3 & Hr3 & Hm3 & _).
    { intros H. rewrite H in Hd3. exact Hd3. }
    exists os2. split; [|exact Hm3].
    assert (Hall : arun (client_transfer E h w before after (session_new s)) (asrc_new inp t) = Some ((os1, r, w', os2), a3)).
    { unfold client_transfer. rewrite arun_bind, Hr1. cbn [fst snd]. rewrite arun_bind, Hr2, arun_bind, Hr3. reflexivity. }
    pose proof (rel_new evs) as Hrel.
    unfold transfer_session. destruct (refines _ _ _ _ _ Hrel Hall) as (c' & Hcr & _).
    change (enough_fuel (fst (supplied evs))) with (fuel E). change {| cfg := s; fuel := fuel E |} with E. rewrite Hcr. reflexivity.
  - intros Ht Hr. specialize (Hback Ht Hr). subst d1. rewrite Ht in Hback. exact (calls_back E inp before Hf d0 Hd0 Hback).
Qed.

Lemma matches_all_sane E t cs d os : Forall2 matches os (fst (d_calls E t cs d)) -> Forall sane os.
Proof.
  intros Hm. pose proof (d_calls_sane E t cs d) as Hs. revert Hs. induction Hm as [|o x os ds Ho Hm IH]; [constructor|].
  intros Hs. inversion Hs as [|? ? H1 H2]. constructor; [exact (matches_sane _ _ Ho H1)|auto].
Qed.

(** The last call is a successful [consume_trailing_whitespace] *)
Lemma transfer_consumed {F W : Type} (h : handler F W) s evs w before after os1 r w' os2 : Forall is_byte (fst (supplied evs)) ->
  allow_multiple_top_level s = false ->
  transfer_session s evs h w before (after ++ [CConsumeTrailingWhitespace]) = Some (os1, r, w', os2 ++ [OOk RUnit]) ->
  exists v, document_input s [v] evs.
Proof.
  intros Hb Hms Hrun. destruct (transfer_any h s evs before w Hb) as (os1' & r' & w2 & d2 & Hall & _ & Hd2 & _ & Hback).
  set (E := Env s (enough_fuel (fst (supplied evs)))) in *. set (inp := fst (supplied evs)) in *.
  set (t := snd (supplied evs)) in *. set (d0 := DRun (rstate_new s) None inp) in *.
  assert (Hf : (length inp < fuel E)%nat) by (cbn; unfold enough_fuel; lia).
  destruct (Hall (after ++ [CConsumeTrailingWhitespace])) as (os2' & Hrun' & Hm). rewrite Hrun in Hrun'. injection Hrun' as _ _ _ <-.
  rewrite d_calls_app in Hm. cbn [fst] in Hm. apply Forall2_app_inv_r in Hm as (l1 & l2 & Hm1 & Hm & Heq).
  assert (l2 = [OOk RUnit]) as ->.
  { cbn [d_calls] in Hm. destruct (d_call E t CConsumeTrailingWhitespace _) as [? ?]. cbn [fst] in Hm.
    inversion Hm as [|o x l l' Ho Hl]; subst. inversion Hl; subst. apply app_inj_tail in Heq as [_ <-]. reflexivity. }
  pose proof (calls_good E inp t after Hf d2 Hd2) as Hd3.
  destruct (snd (d_calls E t after d2)) as [s1 rd r1|held| | |] eqn:Ed; cbn [d_calls d_call d_call_run d_call_dead] in Hm;
    try (inversion Hm as [|? ? ? ? H1 _]; subst; cbn in H1; discriminate H1).
  2: { inversion Hm as [|? ? ? ? H1 _]; subst. cbn in H1. contradiction. }
  destruct Hd3 as [Hi Hrd]. unfold d_run_consume in Hm.
  assert (Hl1 : (length r1 < fuel E)%nat).
  { pose proof (mu_bound _ _ _ _ Hi) as H. unfold mu, ahead in H. rewrite app_length in H. lia. }
  destruct (d_consume_trailing E t s1 r1) as [x s2 r2|e s2 r2|n| |] eqn:Ec;
    try (inversion Hm as [|? ? ? ? H1 _]; subst; cbn in H1; try contradiction; discriminate H1).
  2: { inversion Hm as [|? ? ? ? H1 _]; subst. cbn in H1. destruct n; [destruct H1; discriminate|]. destruct H1 as (? & ? & _). discriminate. }
  pose proof (consume_eof E t s1 r1 _ _ _ Ec (i_bytes _ _ _ _ Hi) Hl1) as He.
  assert (Ht : t = TEof) by (destruct t; [reflexivity|discriminate]). rewrite Ht in *.
  destruct x. pose proof (consume_ok _ _ _ _ _ _ Ec) as (_ & Hst & Hem & _).
  assert (Hpk : peeked s1 = None).
  { destruct (peeked s1) as [p|] eqn:Ep; [|reflexivity]. pose proof (i_peek _ _ _ _ Hi) as H. unfold peek_ok in H. rewrite Ep in H.
    destruct H as (_ & _ & _ & _ & _ & H). unfold is_behind_top_level in H. rewrite Hst, Hem in H. specialize (H eq_refl).
    cbn in H. congruence. }
  pose proof (consume_ready E inp s1 r1 s2 r2 Hf Hi Ec Hpk) as Hr.
  pose proof (calls_back E inp after Hf d2 Hd2) as Hback2. rewrite Ed in Hback2. specialize (Hback2 Hr).
  destruct (start_document s _ inp (Hback eq_refl Hback2)) as (vs & H1 & H2).
  pose proof H1 as H1'. unfold input_text in H1'. rewrite Hms in H1'. destruct H1' as (v & -> & _). exists v. split; [exact Ht|]. split; assumption.
Qed.
