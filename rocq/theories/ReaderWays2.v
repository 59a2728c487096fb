(** * Reading a string with a string reader *)

From Verif Require Import Base Utf8Model Utf8Proofs NumberModel SourceModel SourceProofs ReaderModel ReaderScan ReaderLex ReaderLexStr
  ReaderMid ReaderAgree ReaderSess ReaderGrammar ReaderSafe ReaderErase ReaderOut SpecCursor SpecRead SpecSessions ReaderPeek ReaderWays.

(** ** Whether the next byte has been peeked already does not matter *)

Definition kle (a a' : asrc) : Prop :=
  a_rest a = a_rest a' /\ a_tail a = a_tail a' /\ a_mode a = a_mode a' /\ a_failed a = a_failed a' /\
  (a_known a = true -> a_known a' = true) /\
  (match a_mode a, a_rest a with VActive _ _ _, [] => a_known a = a_known a' | _, _ => True end).

Lemma kle_refl a : kle a a.
Proof. unfold kle. splits; auto. destruct (a_mode a); auto. destruct (a_rest a); auto. Qed.

Lemma kle_run {A} (p : prog A) : forall a a' x a1, kle a a' -> arun p a = Some (x, a1) ->
  exists a1', arun p a' = Some (x, a1') /\ kle a1 a1'.
Proof.
  induction p as [x|k IH|k IH|k IH|k IH|k IH|k IH|k IH|bs k IH|b k IH|k IH|k IH|k IH]; intros a a' y a1 Hk H;
    destruct a as [r t kn m f], a' as [r' t' kn' m' f']; destruct Hk as (H1 & H2 & H3 & H4 & H5 & H6);
    cbn [a_rest a_tail a_known a_mode a_failed] in *; subst r' t' m' f'; cbn [arun] in *.
  - injection H as <- <-. eexists. split; [reflexivity|]. unfold kle; cbn; auto 8.
  - unfold a_peek, a_peek_res in *. cbn [a_rest a_tail a_known a_mode a_failed] in *. destruct f; [discriminate|].
    destruct m; [|discriminate|].
    + eapply IH; [|exact H]. apply kle_refl.
    + destruct kn; [|discriminate]. rewrite (H5 eq_refl) in *. eapply IH; [|exact H]. apply kle_refl.
  - unfold a_skip in *. cbn [a_rest a_tail a_known a_mode a_failed] in *. destruct f, m, kn, r; try discriminate.
    rewrite (H5 eq_refl). eapply IH; [|exact H]. apply kle_refl.
  - unfold a_vnew in *. cbn [a_rest a_tail a_known a_mode a_failed] in *. destruct f, m; try discriminate.
    eapply IH; [|exact H]. unfold kle; cbn. destruct r; splits; auto.
  - unfold a_vpeek, a_peek_res in *. cbn [a_rest a_tail a_known a_mode a_failed] in *. destruct f, m as [|acc jr []|]; try discriminate.
    destruct r as [|b r].
    + rewrite <- H6. destruct kn; [discriminate|]. eapply IH; [|exact H]. apply kle_refl.
    + destruct kn, kn'; (eapply IH; [|exact H]; apply kle_refl).
  - unfold a_vconsume in *. cbn [a_rest a_tail a_known a_mode a_failed] in *. destruct f, m as [|acc jr []|], kn, r; try discriminate.
    rewrite (H5 eq_refl). eapply IH; [|exact H]. apply kle_refl.
  - unfold a_vskip_prev in *. cbn [a_rest a_tail a_known a_mode a_failed] in *. destruct f, m as [|acc [] []|]; try discriminate.
    eapply IH; [|exact H]. unfold kle; cbn. splits; auto.
  - unfold a_vskip_final in *. cbn [a_rest a_tail a_known a_mode a_failed] in *. destruct f, m as [|acc [] []|]; try discriminate.
    eapply IH; [|exact H]. unfold kle; cbn. splits; auto.
  - unfold a_vpush in *. cbn [a_rest a_tail a_known a_mode a_failed] in *. destruct f, m as [|acc jr []|]; try discriminate.
    eapply IH; [|exact H]. unfold kle; cbn. splits; auto.
  - unfold a_vget in *. cbn [a_rest a_tail a_known a_mode a_failed] in *. destruct f, m as [|acc jr fi|]; try discriminate.
    eapply IH; [|exact H]. unfold kle; cbn. splits; auto.
  - unfold a_vstr_peek in *. cbn [a_rest a_tail a_known a_mode a_failed] in *. destruct f, m as [|acc jr fi|bs []]; try discriminate.
    destruct (from_utf8 bs); [|discriminate]. eapply IH; [|exact H]. unfold kle; cbn. splits; auto.
  - unfold a_vstr in *. cbn [a_rest a_tail a_known a_mode a_failed] in *. destruct f, m as [|acc jr fi|bs []]; try discriminate.
    destruct (from_utf8 bs); [|discriminate]. eapply IH; [|exact H]. unfold kle; cbn. splits; auto.
  - unfold a_vstring in *. cbn [a_rest a_tail a_known a_mode a_failed] in *. destruct f, m as [|acc jr fi|bs bo]; try discriminate.
    destruct (from_utf8 bs); [|discriminate]. eapply IH; [|exact H]. unfold kle; cbn. splits; auto.
Qed.

(** ** Reading in chunks *)

Lemma sv_loop_text len f : forall out sv s r, Forall is_byte r -> (length r < f)%nat -> sv_reached_end sv = false ->
  ((length out < len)%nat -> sv_buf sv = [] /\ sv_start sv = O) -> (length out <= len)%nat -> forall f0,
  match scan_string f0 r with
  | SOk (d, w, r') =>
    if Nat.leb len (length (out ++ sv_buf sv ++ d))
    then exists sv' d' w' w1 r1 f1, d_sv_loop f len out sv s r = MOk (firstn len (out ++ sv_buf sv ++ d), sv') (move w1 s) r1 /\
      scan_string f1 r1 = SOk (d', w', r') /\ w = w1 ++ w' /\ last_cr false w1 = false /\ sv_reached_end sv' = false /\
      skipn len (out ++ sv_buf sv ++ d) = sv_buf sv' ++ d'
    else exists sv', d_sv_loop f len out sv s r =
      (dupdate (set_active false) ;; d_on_value_end ;; dret (out ++ sv_buf sv ++ d, sv'))%dm (move w s) r' /\
      sv_reached_end sv' = true
  | SFail => d_sv_loop f len out sv s r = MFail None \/
      exists o sv' s' r1 f1, d_sv_loop f len out sv s r = MOk (o, sv') s' r1 /\ length o = len /\
        scan_string f1 r1 = SFail /\ sv_reached_end sv' = false
  | SFuel => True
  end.
Proof.
  induction f as [|f IH]; intros out sv s r Hb Hl He Hbuf Hle f0; [lia|]. cbn [d_sv_loop].
  destruct (Nat.ltb_spec (length out) len) as [Hlt|Hge].
  - destruct (Hbuf Hlt) as [Hb1 Hb2]. rewrite Hb1, Hb2. cbn [length Nat.eqb andb negb app].
    destruct f0 as [|f0]; cbn [scan_string]; [exact I|].
    pose proof (scan_unit_sound r Hb) as Hu. pose proof (scan_unit_length r) as Hul.
    destruct (scan_unit r) as [r'|bs w r'|] eqn:Eu.
    + rewrite app_nil_r. destruct (Nat.leb_spec len (length out)); [lia|].
      eexists. split; [reflexivity|reflexivity].
    + destruct Hu as (-> & c & -> & Hu). pose proof (encode_char_max c) as Hmax.
      assert (Hcr : last_cr false w = false) by (apply last_cr_breaks; exact (proj2 (proj2 (scan_unit_text _ _ _ _ Eu)))).
      assert (Hb' : Forall is_byte r') by (apply Forall_app in Hb; apply Hb).
      cbv zeta.
      destruct (Nat.ltb_spec STRING_VALUE_READER_BUF_SIZE (length (skipn (len - length out) (encode_char c)))) as [Hx|_].
      { rewrite skipn_length in Hx. unfold STRING_VALUE_READER_BUF_SIZE in Hx. lia. }
      pose proof (IH (out ++ firstn (len - length out) (encode_char c))
        (SvState (skipn (len - length out) (encode_char c)) 0 false (sv_error sv)) (move w s) r' Hb' ltac:(lia) eq_refl) as H.
      cbn [sv_buf sv_start] in H.
      assert (H1 : (length (out ++ firstn (len - length out) (encode_char c)) < len)%nat ->
        skipn (len - length out) (encode_char c) = [] /\ O = O).
      { rewrite app_length, firstn_length. intros Hlt2. split; [|reflexivity].
        apply length_zero_iff_nil. rewrite skipn_length. lia. }
      assert (H2 : (length (out ++ firstn (len - length out) (encode_char c)) <= len)%nat)
        by (rewrite app_length, firstn_length; lia).
      specialize (H H1 H2 f0).
      destruct (scan_string f0 r') as [[[d w'] r'']| |]; [|exact H|exact I].
      assert (Hcat : (out ++ firstn (len - length out) (encode_char c)) ++ skipn (len - length out) (encode_char c) ++ d =
        out ++ encode_char c ++ d).
      { rewrite <- app_assoc. f_equal. rewrite app_assoc, firstn_skipn. reflexivity. }
      rewrite Hcat in H. destruct (Nat.leb len (length (out ++ encode_char c ++ d))).
      * destruct H as (sv' & d' & w2 & w1 & r1 & f1 & Ha & Hb2' & -> & Hd & Hr & Hs).
        exists sv', d', w2, (w ++ w1), r1, f1. splits; auto.
        -- rewrite move_app by exact Hcr. exact Ha.
        -- apply app_assoc.
        -- rewrite last_cr_app, Hcr. exact Hd.
      * destruct H as (sv' & Ha & Hr). exists sv'. rewrite move_app by exact Hcr. split; [exact Ha|exact Hr].
    + left. reflexivity.
  - assert (Hlen : length out = len) by lia.
    destruct (scan_string f0 r) as [[[d w] r']| |] eqn:Es; [| |exact I].
    + destruct (Nat.leb_spec len (length (out ++ sv_buf sv ++ d))) as [_|Hx]; [|rewrite app_length in Hx; lia].
      exists sv, d, w, [], r, f0. rewrite move_nil. rewrite <- Hlen. rewrite firstn_app, firstn_all, Nat.sub_diag.
      rewrite skipn_app, skipn_all, Nat.sub_diag. cbn [firstn skipn app]. rewrite app_nil_r. splits; auto.
    + right. exists out, sv, s, r, f0. splits; auto.
Qed.

Lemma sv_read_text E len sv s r : Forall is_byte r -> (length r < fuel E)%nat -> sv_reached_end sv = false -> forall f0,
  match scan_string f0 r with
  | SOk (d, w, r') =>
    if Nat.leb len (length (sv_buf sv ++ d))
    then exists sv' d' w' w1 r1 f1, d_sv_read E len sv s r = MOk (firstn len (sv_buf sv ++ d), sv') (move w1 s) r1 /\
      scan_string f1 r1 = SOk (d', w', r') /\ w = w1 ++ w' /\ last_cr false w1 = false /\ sv_reached_end sv' = false /\
      skipn len (sv_buf sv ++ d) = sv_buf sv' ++ d'
    else exists sv', d_sv_read E len sv s r =
      (dupdate (set_active false) ;; d_on_value_end ;; dret (sv_buf sv ++ d, sv'))%dm (move w s) r' /\
      sv_reached_end sv' = true
  | SFail => d_sv_read E len sv s r = MFail None \/
      exists o sv' s' r1 f1, d_sv_read E len sv s r = MOk (o, sv') s' r1 /\ length o = len /\
        scan_string f1 r1 = SFail /\ sv_reached_end sv' = false
  | SFuel => True
  end.
Proof.
  intros Hb Hl He f0. unfold d_sv_read. rewrite He. cbn [orb].
  destruct (Nat.eqb_spec len 0) as [->|Hn0].
  { destruct (scan_string f0 r) as [[[d w] r']| |] eqn:Es; [| |exact I].
    - cbn [Nat.leb firstn skipn]. exists sv, d, w, [], r, f0. rewrite move_nil. splits; auto.
    - right. exists [], sv, s, r, f0. splits; auto. }
  cbv zeta.
  destruct (Nat.eqb_spec (Nat.min (length (sv_buf sv)) len) (length (sv_buf sv))) as [Hm|Hm].
  - pose proof (sv_loop_text len (fuel E) (firstn (Nat.min (length (sv_buf sv)) len) (sv_buf sv))
      (SvState [] 0 false (sv_error sv)) s r Hb Hl eq_refl ltac:(auto)) as H.
    rewrite Hm, firstn_all in H. rewrite Hm, firstn_all. apply H. lia.
  - pose proof (sv_loop_text len (fuel E) (firstn (Nat.min (length (sv_buf sv)) len) (sv_buf sv))
      (SvState (skipn (Nat.min (length (sv_buf sv)) len) (sv_buf sv)) (sv_start sv + Nat.min (length (sv_buf sv)) len) false (sv_error sv))
      s r Hb Hl eq_refl) as H.
    cbn [sv_buf sv_start] in H.
    assert (Hx : forall d, firstn (Nat.min (length (sv_buf sv)) len) (sv_buf sv) ++ skipn (Nat.min (length (sv_buf sv)) len) (sv_buf sv) ++ d = sv_buf sv ++ d)
      by (intros d; rewrite app_assoc, firstn_skipn; reflexivity).
    specialize (H ltac:(rewrite firstn_length; lia) ltac:(rewrite firstn_length; lia) f0).
    destruct (scan_string f0 r) as [[[d w] r']| |]; [|exact H|exact I]. rewrite (Hx d) in H. exact H.
Qed.


Lemma reads_at_end E t lens : forall s sv r, sv_reached_end sv = true ->
  d_calls E t (map CRead lens) (DRun s (Some sv) r) =
  (map (fun bs => DOut (OOk (RBytes bs))) (chunks lens []), DRun s (Some sv) r).
Proof.
  induction lens as [|n lens IH]; intros s sv r He; [reflexivity|]. cbn [map chunks d_calls d_call d_call_run d_run_read].
  unfold d_sv_read. rewrite He. cbn [orb]. unfold dret. rewrite (IH _ _ _ He). rewrite firstn_nil, skipn_nil. reflexivity.
Qed.

Lemma reads_text E inp t lens : (length inp < fuel E)%nat -> forall s sv r f0 d w r' s2,
  inv E inp s r -> reader_ok s (Some sv) -> sv_reached_end sv = false ->
  scan_string f0 r = SOk (d, w, r') -> d_on_value_end (set_active false (move w s)) r' = MOk tt s2 r' ->
  exists D', d_calls E t (map CRead lens) (DRun s (Some sv) r) =
    (map (fun bs => DOut (OOk (RBytes bs))) (chunks lens (sv_buf sv ++ d)), D') /\ D' <> DBug /\
    ((length (sv_buf sv ++ d) < list_sum lens)%nat -> exists sv', D' = DRun s2 (Some sv') r').
Proof.
  intros Hf. induction lens as [|n lens IH]; intros s sv r f0 d w r' s2 Hi Hrd He Hs Hv.
  - exists (DRun s (Some sv) r). split; [reflexivity|]. split; [discriminate|]. cbn. lia.
  - cbn [map chunks d_calls d_call d_call_run d_run_read list_sum fold_right].
    assert (Hl : (length r < fuel E)%nat).
    { pose proof (mu_bound _ _ _ _ Hi) as Hm. unfold mu, ahead in Hm. rewrite app_length in Hm. lia. }
    pose proof (sv_read_text E n sv s r (i_bytes _ _ _ _ Hi) Hl He f0) as H. rewrite Hs in H.
    pose proof (sv_read_good E inp n sv s r Hf Hi Hrd) as Hg.
    destruct (Nat.leb_spec n (length (sv_buf sv ++ d))) as [Hn|Hn].
    + destruct H as (sv' & d' & w' & w1 & r1 & f1 & H1 & H2 & -> & H4 & H5 & H6). rewrite H1 in *. rewrite H6.
      pose proof (sv_read_ok _ _ _ _ _ _ _ _ _ Hrd H1) as Hrd'.
      rewrite move_app in Hv by exact H4.
      destruct (IH (move w1 s) sv' r1 f1 d' w' r' s2 Hg Hrd' H5 H2 Hv) as (D' & HD & Hb & Hend).
      rewrite HD. exists D'. split; [reflexivity|]. split; [exact Hb|]. intros Hlt. apply Hend.
      rewrite <- H6, skipn_length. fold (list_sum lens) in *. lia.
    + destruct H as (sv' & H1 & H2). rewrite H1. unfold dbind, dupdate. rewrite Hv. unfold dret.
      rewrite (reads_at_end E t lens s2 sv' r' H2). rewrite firstn_all2 by lia. rewrite skipn_all2 by lia.
      exists (DRun s2 (Some sv') r'). split; [reflexivity|]. split; [discriminate|]. eauto.
Qed.

(** Reads of a string with a mistake: all the bytes which were asked for, or an error *)
Definition d_full_or_error (n : nat) (o : dout) : Prop :=
  (exists bs, o = DOut (OOk (RBytes bs)) /\ length bs = n) \/ o = DReadErr \/ o = DOut (OReadErr SvPreviousError).

Lemma reads_dead E t lens :
  Forall2 d_full_or_error lens (fst (d_calls E t (map CRead lens) (DDead true))) /\
  snd (d_calls E t (map CRead lens) (DDead true)) = DDead true.
Proof.
  induction lens as [|n lens IH]; cbn [map d_calls]; [split; [constructor|reflexivity]|].
  cbn [d_call d_call_dead]. destruct (d_calls E t (map CRead lens) (DDead true)) as [os D'].
  cbn [fst snd] in *. split; [constructor; [right; right; reflexivity|apply IH]|apply IH].
Qed.

Lemma reads_fail E inp t lens : (length inp < fuel E)%nat -> forall s sv r f0,
  inv E inp s r -> reader_ok s (Some sv) -> sv_reached_end sv = false -> scan_string f0 r = SFail ->
  Forall2 d_full_or_error lens (fst (d_calls E t (map CRead lens) (DRun s (Some sv) r))) /\
  snd (d_calls E t (map CRead lens) (DRun s (Some sv) r)) <> DBug.
Proof.
  intros Hf. induction lens as [|n lens IH]; intros s sv r f0 Hi Hrd He Hs; [split; [constructor|discriminate]|].
  cbn [map d_calls d_call d_call_run d_run_read].
  assert (Hl : (length r < fuel E)%nat).
  { pose proof (mu_bound _ _ _ _ Hi) as Hm. unfold mu, ahead in Hm. rewrite app_length in Hm. lia. }
  pose proof (sv_read_text E n sv s r (i_bytes _ _ _ _ Hi) Hl He f0) as H. rewrite Hs in H.
  pose proof (sv_read_good E inp n sv s r Hf Hi Hrd) as Hg.
  destruct H as [H|(o & sv' & s' & r1 & f1 & H1 & H2 & H3 & H4)].
  - rewrite H. pose proof (reads_dead E t lens) as [Hd1 Hd2]. destruct (d_calls E t (map CRead lens) (DDead true)) as [os D'].
    cbn [fst snd] in *. split; [constructor; [right; left; reflexivity|exact Hd1]|]. rewrite Hd2. discriminate.
  - rewrite H1 in *. pose proof (sv_read_ok _ _ _ _ _ _ _ _ _ Hrd H1) as Hrd'.
    specialize (IH s' sv' r1 f1 Hg Hrd' H4 H3).
    destruct (d_calls E t (map CRead lens) (DRun s' (Some sv') r1)) as [os D']. cbn [fst snd] in *.
    split; [constructor; [left; eauto|apply IH]|apply IH].
Qed.

(** ** Sessions *)

(** The string reader is dropped by any call except of itself *)
Lemma dropped_reader E cs s rd rd' ph a : first_not_read cs \/ ph <> Running ->
  option_map (fun x => fst (fst x)) (arun (client_calls E cs (Session s rd ph)) a) =
  option_map (fun x => fst (fst x)) (arun (client_calls E cs (Session s rd' ph)) a).
Proof.
  intros H. destruct ph.
  2:{ rewrite !stopped_calls by discriminate. reflexivity. }
  2:{ rewrite !stopped_calls by discriminate. reflexivity. }
  destruct H as [H|H]; [|congruence]. destruct cs as [|c cs]; [reflexivity|]. cbn [client_calls]. rewrite !arun_bind.
  assert (Hc : arun (client_call E c (Session s rd Running)) a = arun (client_call E c (Session s rd' Running)) a)
    by (destruct c; try reflexivity; contradiction H).
  rewrite Hc. reflexivity.
Qed.

Lemma known_calls E cs st r t k k' : 
  arun (client_calls E cs st) (At r t k) <> None -> arun (client_calls E cs st) (At r t k') <> None ->
  option_map (fun x => fst (fst x)) (arun (client_calls E cs st) (At r t k)) =
  option_map (fun x => fst (fst x)) (arun (client_calls E cs st) (At r t k')).
Proof.
  assert (Hk : forall k, arun (client_calls E cs st) (At r t k) <> None ->
    option_map (fun x => fst (fst x)) (arun (client_calls E cs st) (At r t k)) =
    option_map (fun x => fst (fst x)) (arun (client_calls E cs st) (At r t true))).
  { intros k0 H. destruct (arun (client_calls E cs st) (At r t k0)) as [[x a1]|] eqn:Ex; [|congruence].
    destruct (kle_run (client_calls E cs st) (At r t k0) (At r t true) x a1) as (a1' & Ha & _); [|exact Ex|].
    - unfold kle. cbn. splits; auto.
    - rewrite Ha. reflexivity. }
  intros H1 H2. rewrite (Hk k H1), (Hk k' H2). reflexivity.
Qed.

Lemma reads_without E lens : forall st a, s_reader st = None ->
  exists rs, arun (client_calls E (map CRead lens) st) a = Some ((rs, st), a) /\ length rs = length lens.
Proof.
  induction lens as [|n lens IH]; intros st a H; [exists []; split; reflexivity|].
  cbn [map client_calls]. rewrite arun_bind.
  assert (Hc : exists o, arun (client_call E (CRead n) st) a = Some ((o, st), a)).
  { unfold client_call, call_read. rewrite H. destruct (s_phase st); eexists; reflexivity. }
  destruct Hc as (o & ->). cbn [fst snd]. destruct (IH st a H) as (rs & Hr & Hl). rewrite arun_bind, Hr. cbn.
  exists (o :: rs). split; [reflexivity|]. cbn. lia.
Qed.

Definition string_reader_result (lens : list nat) (cs2 : list rcall) (o : outcome) (os2 : list outcome)
    (o' : outcome) (rs os2' : list outcome) : Prop :=
  (exists v, o = OOk (RStr v) /\ o' = OOk RUnit /\
     rs = map (fun bs => OOk (RBytes bs)) (chunks lens (encode_utf8 v)) /\
     ((length (encode_utf8 v) < list_sum lens)%nat -> first_not_read cs2 -> os2' = os2)) \/
  (exists e, o = OErr e /\ recoverable e = false /\ o' = OOk RUnit /\ Forall2 full_or_error lens rs) \/
  (o' = o /\ (forall v, o <> OOk v) /\ os2' = os2).

Lemma start_inactive E s a p s1 a1 : exec (start_expected_value_type E TString false) s a = Some ((Ok p, s1), a1) ->
  string_reader_active s = false.
Proof.
  unfold start_expected_value_type. rewrite xget, xmisuse. destruct (expects_member_name s); [discriminate|].
  unfold peek_internal, peek_internal_optional. rewrite exec_bind. rewrite exec_bind, xget, xmisuse.
  destruct (string_reader_active s); [discriminate|reflexivity].
Qed.

Lemma session_string_reader s evs cs1 lens cs2 : Forall is_byte (fst (supplied evs)) ->
  exists os1 o os2 o' rs os2',
    read_session s evs (cs1 ++ CNextString :: cs2) = os1 ++ o :: os2 /\
    read_session s evs (cs1 ++ CNextStringReader :: map CRead lens ++ cs2) = os1 ++ o' :: rs ++ os2' /\
    length os1 = length cs1 /\ length rs = length lens /\
    string_reader_result lens cs2 o os2 o' rs os2'.
Proof.
  intros Hb.
  destruct (session_run s evs (cs1 ++ CNextString :: cs2) Hb) as (stA & aA & HA & _).
  destruct (session_run s evs (cs1 ++ CNextStringReader :: map CRead lens ++ cs2) Hb) as (stB & aB & HB & _).
  set (E := fenv s evs) in *. set (inp := fst (supplied evs)) in *. set (t := snd (supplied evs)) in *.
  assert (Hf : (length inp < fuel E)%nat) by (cbn; unfold enough_fuel, inp; lia).
  assert (Hf0 : (0 < fuel E)%nat) by lia.
  destruct (live_calls E inp t cs1 Hf _ _ (live_start s inp t Hb)) as (os1 & st & a & Hr & Hlen & _ & Hl).
  rewrite calls_app, Hr in HA, HB.
  destruct (live_call E inp t CNextString st a Hf Hl) as (o & st4 & a4 & Hr4 & Ho4 & Hl4).
  destruct (live_call E inp t CNextStringReader st a Hf Hl) as (o' & st5 & a5 & Hr5 & _ & Hl5).
  destruct (live_calls E inp t (map CRead lens) Hf _ _ Hl5) as (rs & st6 & a6 & Hr6 & Hlr & _ & Hl6).
  destruct (live_calls E inp t cs2 Hf _ _ Hl4) as (os2 & st7 & a7 & Hr7 & _ & _ & _).
  destruct (live_calls E inp t cs2 Hf _ _ Hl6) as (os2' & st8 & a8 & Hr8 & _ & _ & _).
  cbn [client_calls] in HA, HB. rewrite arun_bind, Hr4 in HA. rewrite arun_bind, Hr5 in HB. cbn [fst snd] in HA, HB.
  rewrite arun_bind, Hr7 in HA. rewrite arun_bind, calls_app, Hr6, Hr8 in HB. cbn in HA, HB.
  injection HA as HA _ _. injection HB as HB _ _.
  exists os1, o, os2, o', rs, os2'. split; [symmetry; exact HA|]. split; [symmetry; exact HB|].
  split; [exact Hlen|]. rewrite map_length in Hlr. split; [exact Hlr|]. clear HA HB Hr.
  (* the same session afterwards *)
  assert (Hsame : o' = o -> (forall v, o <> OOk v) -> st5 = st4 -> a5 = a4 -> s_reader st4 = None ->
    string_reader_result lens cs2 o os2 o' rs os2').
  { intros -> Hno -> -> Hn. right. right. split; [reflexivity|]. split; [exact Hno|].
    destruct (reads_without E lens st4 a4 Hn) as (rs2 & Hw & _). rewrite Hr6 in Hw. injection Hw as _ -> ->. congruence. }
  destruct (s_phase st) eqn:Ep.
  2:{ unfold client_call in Hr4, Hr5. rewrite Ep in Hr4, Hr5. cbn in Hr4, Hr5.
      injection Hr4 as <- <- <-. injection Hr5 as <- <- <-.
      right; right. split; [reflexivity|]. split; [congruence|]. rewrite stopped_calls in Hr6, Hr7 by congruence.
      injection Hr6 as _ <- <-. rewrite stopped_calls in Hr8 by congruence. congruence. }
  2:{ unfold client_call in Hr4, Hr5. rewrite Ep in Hr4, Hr5. cbn in Hr4, Hr5.
      injection Hr4 as <- <- <-. injection Hr5 as <- <- <-.
      right; right. split; [reflexivity|]. split; [congruence|]. rewrite stopped_calls in Hr6, Hr7 by congruence.
      injection Hr6 as _ <- <-. rewrite stopped_calls in Hr8 by congruence. congruence. }
  pose proof Hr4 as Hc4. pose proof Hr5 as Hc5.
  unfold client_call in Hr4, Hr5. rewrite Ep in Hr4, Hr5. unfold call, call_string_reader in Hr4, Hr5.
  rewrite arun_bind in Hr4. rewrite arun_bind in Hr5.
  change (arun (next_string E (s_state st)) a) with (exec (next_string E) (s_state st) a) in Hr4.
  change (arun (next_string_reader E (s_state st)) a) with (exec (next_string_reader E) (s_state st) a) in Hr5.
  unfold next_string, next_string_reader in Hr4, Hr5. rewrite exec_bind in Hr4. rewrite exec_bind in Hr5.
  destruct (exec (start_expected_value_type E TString false) (s_state st) a) as [[[[p|e|k|] s1] a1]|] eqn:Es; try discriminate.
  2:{ cbn in Hr4, Hr5. injection Hr4 as <- <- <-. injection Hr5 as <- <- <-. apply Hsame; (reflexivity || congruence). }
  2:{ cbn in Hr4, Hr5. injection Hr4 as <- <- <-. injection Hr5 as <- <- <-. apply Hsame; (reflexivity || congruence). }
  2:{ cbn in Hr4, Hr5. injection Hr4 as <- <- <-. injection Hr5 as <- <- <-. apply Hsame; (reflexivity || congruence). }
  clear Hr4 Hr5 Hsame.
  destruct Hl as (d & Hsr & Hd). destruct d as [s0 rd r|held| | |]; cbn in Hsr, Hd; try congruence; try contradiction.
  2:{ destruct Hsr as (sx & svx & -> & Hact & _). cbn in Es. rewrite (start_inactive _ _ _ _ _ _ Es) in Hact. discriminate. }
  pose proof Hsr as (-> & (kn & ->) & _). destruct Hd as [Hi Hrd]. cbn [s_state] in Es.
  pose proof (agree_start E t TString false s0 r kn) as Ha. pose proof (start_good E inp t TString false s0 r Hf Hi) as Hg.
  destruct (d_start E t TString false s0 r) as [p1 s1' r1|e1 s1' r1|[n1|]| |] eqn:Ed; cbn [does good] in Ha, Hg; try contradiction.
  2:{ destruct Ha as (_ & kn' & Ha). congruence. }
  2:{ destruct Ha as (? & ? & ? & Ha). congruence. }
  2:{ destruct Ha as (? & ? & ? & Ha & _). congruence. }
  2:{ destruct Ha as (? & ? & Ha). congruence. }
  destruct Ha as (kn1 & Ha). rewrite Es in Ha. injection Ha as -> -> ->.
  destruct Hg as (Hi1 & Hsm & Hn & Hact & Hpk & _).
  assert (Hact1 : string_reader_active s1' = false) by (destruct Hsm as (_ & _ & _ & -> & _); exact Hact).
  assert (Hn1 : expects_member_name s1' = false) by (destruct Hsm as (_ & -> & _); exact Hn).
  (* the reader *)
  assert (Hd5 : d_call E t CNextStringReader (DRun s0 rd r) =
    (DOut (OOk RUnit), DRun (set_active true s1') (Some (SvState [] 0 false false)) r1)).
  { cbn [d_call d_call_run]. unfold d_run_reader, d_next_string_reader, dbind, dupdate, dret. rewrite Ed. reflexivity. }
  pose proof (client_call_agree E t CNextStringReader _ _ (DRun s0 rd r) Hf0 Hsr) as Hag5. unfold call_ok in Hag5. rewrite Hd5 in Hag5.
  destruct (Hag5 ltac:(discriminate)) as (o5 & st5' & a5' & Hag & Hm5 & Hs5). rewrite Hc5 in Hag. injection Hag as <- <- <-.
  cbn [fst snd matches] in Hm5, Hs5. subst o'.
  pose proof (call_good E inp t CNextStringReader (DRun s0 rd r) Hf (conj Hi Hrd)) as Hinv5. rewrite Hd5 in Hinv5.
  cbn [snd dinv] in Hinv5. destruct Hinv5 as [Hinv5 Hrd5].
  (* the string *)
  pose proof (client_call_agree E t CNextString _ _ (DRun s0 rd r) Hf0 Hsr) as Hag4. unfold call_ok in Hag4.
  pose proof (call_good E inp t CNextString (DRun s0 rd r) Hf (conj Hi Hrd)) as Hinv4.
  assert (Hl1 : (length r1 < fuel E)%nat).
  { pose proof (mu_bound _ _ _ _ Hi1) as Hm. unfold mu, ahead in Hm. rewrite app_length in Hm. lia. }
  pose proof (scan_string_ok E r1 (i_bytes _ _ _ _ Hi1) Hl1) as Hok.
  cbn [d_call d_call_run] in Hag4, Hinv4. unfold d_run, d_next_string, dbind in Hag4, Hinv4. rewrite Ed in Hag4, Hinv4.
  unfold d_string in Hag4, Hinv4.
  destruct (scan_string (fuel E) r1) as [[[dd w] r']| |] eqn:Esc; [| |contradiction].
  - destruct Hok as (_ & _ & _ & _ & body & v & _ & _ & Hu). rewrite Hu in Hag4, Hinv4.
    assert (Hve : exists s2, d_on_value_end (move w s1') r' = MOk tt s2 r').
    { pose proof (value_end_pure (move w s1') r') as Hp. unfold pure_agree in Hp.
      destruct (d_on_value_end (move w s1') r') as [[] s2 r2|e2 s2 r2|n2| |] eqn:Ev; try contradiction.
      exists s2. destruct Hp as [-> _]. reflexivity. }
    destruct Hve as (s2 & Hve). rewrite Hve in Hag4. cbn [dret fst snd] in Hag4.
    destruct (Hag4 ltac:(discriminate)) as (o4 & st4' & a4' & Hag & Hm4 & Hs4). rewrite Hc4 in Hag. injection Hag as <- <- <-.
    cbn [matches] in Hm4. subst o. destruct Hs4 as (-> & (kn4 & ->) & _).
    left. exists v. split; [reflexivity|]. split; [reflexivity|].
    assert (Hx : set_active false (move w (set_active true s1')) = move w s1').
    { rewrite set_active_move. f_equal. destruct s1'. cbn in Hact1. subst. reflexivity. }
    destruct (reads_text E inp t lens Hf (set_active true s1') (SvState [] 0 false false) r1 (fuel E) dd w r' s2 Hinv5 Hrd5 eq_refl Esc)
      as (D' & HD & HDb & Hend); [rewrite Hx; exact Hve|].
    cbn [sv_buf app] in HD, Hend.
    destruct (calls_agree E t (map CRead lens) Hf0 _ _ _ Hs5) as (rs' & st6' & a6' & Hag6 & Hm6 & Hs6);
      [rewrite HD; exact HDb|].
    rewrite Hr6 in Hag6. injection Hag6 as <- <- <-. rewrite HD in Hm6, Hs6. cbn [fst snd] in Hm6, Hs6.
    assert (Hdd : dd = encode_utf8 v) by (symmetry; apply (from_utf8_sound dd v Hu)).
    rewrite Hdd in *. split.
    + clear -Hm6. remember (chunks lens (encode_utf8 v)) as l eqn:El. clear El. revert rs Hm6.
      induction l as [|x l IH]; intros rs Hm; inversion Hm as [|? ? ? ? H1 H2]; subst; [reflexivity|].
      cbn in H1. rewrite H1. cbn. f_equal. apply IH. assumption.
    + intros Hsum Hfst. destruct (Hend Hsum) as (sv' & ->). cbn [srel] in Hs6. destruct Hs6 as (-> & (kn6 & ->) & _).
      pose proof (dropped_reader E cs2 s2 (Some sv') None Running (At r' t kn6) (or_introl Hfst)) as Hdr.
      rewrite Hr8 in Hdr. cbn in Hdr. destruct (arun (client_calls E cs2 (Session s2 None Running)) (At r' t kn6)) as [[[os9 st9] a9]|] eqn:E9; [|discriminate].
      cbn in Hdr. injection Hdr as <-.
      pose proof (known_calls E cs2 (Session s2 None Running) r' t kn4 kn6 ltac:(congruence) ltac:(congruence)) as Hk.
      rewrite Hr7, E9 in Hk. cbn in Hk. congruence.
  - cbn [fst snd] in Hag4. destruct (Hag4 ltac:(discriminate)) as (o4 & st4' & a4' & Hag & Hm4 & Hs4). rewrite Hc4 in Hag. injection Hag as <- <- <-.
    cbn [matches] in Hm4. destruct Hm4 as (e & -> & Hab). right. left. exists e. split; [reflexivity|].
    split; [apply recoverable_aborting; exact Hab|]. split; [reflexivity|].
    destruct (reads_fail E inp t lens Hf (set_active true s1') (SvState [] 0 false false) r1 (fuel E) Hinv5 Hrd5 eq_refl Esc) as [HF HB].
    destruct (calls_agree E t (map CRead lens) Hf0 _ _ _ Hs5 HB) as (rs' & st6' & a6' & Hag6 & Hm6 & Hs6).
    rewrite Hr6 in Hag6. injection Hag6 as <- <- <-. revert HF Hm6. clear.
    generalize (fst (d_calls E t (map CRead lens) (DRun (set_active true s1') (Some (SvState [] 0 false false)) r1))).
    intros ds HF. revert rs. induction HF as [|n d ns ds H HF IH]; intros rs Hm; inversion Hm as [|x ? ? ? H1 H2]; subst; constructor.
    + destruct H as [(bs & -> & Hlb)|[-> | ->]]; cbn in H1.
      * left. exists bs. auto.
      * destruct H1 as (e & -> & _). right. eauto.
      * right. eauto.
    + apply IH. assumption.
Qed.
