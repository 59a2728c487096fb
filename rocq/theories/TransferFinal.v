(** * Proofs of the property theorems about [transfer_to] *)

From Verif Require Import Base Utf8Model Utf8Proofs NumberModel SpecNumber NumberProofs SpecJson WriterModel SpecWriter WriterSession WriterRun WriterMore WriterFinal
  SourceModel SourceProofs ReaderModel ReaderScan ReaderLex ReaderLexStr ReaderMid ReaderAgree ReaderSess ReaderGrammar ReaderSafe SpecCursor ReaderRepr ReaderForward ReaderSkip ReaderWalk
  SpecRead GrammarFacts ReaderFinal TransferModel SpecTransfer TransferProofs TransferWriter.


(** ** Sessions *)
Lemma wrep_no_bug E inp w d : wrep E inp w d -> d <> DBug.
Proof. destruct w; cbn; [intros (s & rd & r & -> & _)|intros ->|intros ->]; discriminate. Qed.

Lemma results_match s xs ds : Forall2 (dres s) xs ds -> forall os, Forall2 matches os ds -> Forall2 (is_result s) xs os.
Proof.
  induction 1 as [|x d xs ds H Hs IH]; intros os Hm; inversion Hm; subst; constructor; auto.
Qed.

(** The calls of a client from a state which represents a cursor *)
Lemma calls_walk E inp cs w d st a : (length inp < fuel E)%nat -> wrep E inp w d -> srel TEof st a d ->
  exists os st' a' d', arun (client_calls E cs st) a = Some ((os, st'), a') /\ Forall2 (is_result (cfg E)) (fst (walk_calls (cfg E) cs w)) os /\
    srel TEof st' a' d' /\ wrep E inp (snd (walk_calls (cfg E) cs w)) d'.
Proof.
  intros Hf Hw Hs. destruct (walk_steps E inp cs Hf w d Hw) as [H1 H2].
  destruct (calls_agree E TEof cs ltac:(lia) st a d Hs (wrep_no_bug _ _ _ _ H2)) as (os & st' & a' & Hr & Hm & Hs').
  exists os, st', a', (snd (d_calls E TEof cs d)). splits; auto. exact (results_match _ _ _ H1 _ Hm).
Qed.

Lemma at_value_repr E inp c s1 rd r x : srepr E inp c s1 rd r -> at_value (cfg E) (drop_reader c) = x ->
  (repr E inp (frames c) (top c) (started c) s1 r /\ reading (drop_reader c) = NotReading /\ at_val E (frames c) (top c) (started c) = x) \/
  (x = inl XMisuse /\ string_reader_active s1 = true /\ expects_member_name s1 = false).
Proof.
  unfold srepr, drop_reader. intros H Hx. destruct (reading c) as [|rest held|] eqn:Er.
  - left. splits; [apply H|reflexivity|exact Hx].
  - right. destruct H as (v & (Hin & Hact & _) & _). cbn in Hx. splits; [symmetry; exact Hx|exact Hact|]. destruct Hin; assumption.
  - left. splits; [apply H|reflexivity|exact Hx].
Qed.

Lemma transfer_glue {F W : Type} (h : handler F W) s vs evs before c :
  document_input s vs evs -> snd (walk_calls s before (AtCursor (cursor_start vs))) = AtCursor c ->
  let E := Env s (enough_fuel (fst (supplied evs))) in
  let inp := fst (supplied evs) in
  exists s1 rd r, srepr E inp c s1 rd r /\
  forall after w (res : res (transfer_error F) unit) w' wk,
  (forall kn, exists s2 a2, arun (transfer_to E h s1 w) (At r TEof kn) = Some ((res, s2, w'), a2) /\
    exists d, wrep E inp wk d /\ srel TEof (Session s2 None (match res with Ok _ => Running | _ => Stopped end)) a2 d) ->
  exists os1 os2, transfer_session s evs h w before after = Some (os1, Some res, w', os2) /\
    Forall2 (is_result s) (fst (walk_calls s before (AtCursor (cursor_start vs)))) os1 /\
    Forall2 (is_result s) (fst (walk_calls s after wk)) os2.
Proof.
  intros Hd Hc E inp. destruct (Hd) as (Ht & Hi & Hl).
  assert (Hb : Forall is_byte inp) by (eapply input_bytes; eassumption).
  assert (Hf : (length inp < fuel E)%nat) by (cbn; unfold enough_fuel; fold inp; lia).
  destruct (calls_walk E inp before (AtCursor (cursor_start vs)) (DRun (rstate_new s) None inp) (session_new s) (asrc_new inp TEof) Hf)
    as (os1 & st1 & a1 & d1 & Hr1 & Hres1 & Hs1 & Hw1).
  { exists (rstate_new s), None, inp. split; [reflexivity|]. split; [|reflexivity]. apply repr_start; auto. }
  { cbn [srel]. splits; [reflexivity| |exact I]. exists false. reflexivity. }
  change (cfg E) with s in *. rewrite Hc in Hw1. destruct Hw1 as (s1 & rd & r & -> & Hsr). exists s1, rd, r. split; [exact Hsr|].
  intros after w res w' wk Ht2. cbn [srel] in Hs1. destruct Hs1 as (-> & (kn & ->) & _).
  destruct (Ht2 kn) as (s2 & a2 & Hrun & d2 & Hw2 & Hs2).
  destruct (calls_walk E inp after wk d2 _ _ Hf Hw2 Hs2) as (os2 & st3 & a3 & d3 & Hr3 & Hres3 & _ & _). change (cfg E) with s in *.
  exists os1, os2. splits; auto.
  assert (Hall : arun (client_transfer E h w before after (session_new s)) (asrc_new inp TEof) = Some ((os1, Some res, w', os2), a3)).
  { unfold client_transfer. rewrite arun_bind, Hr1. cbn [fst snd]. unfold call_transfer. cbn [s_phase s_state].
    rewrite arun_bind. rewrite arun_bind, Hrun. cbn [arun]. rewrite arun_bind, Hr3. reflexivity. }
  pose proof (rel_new evs) as Hrel. rewrite Ht in Hrel.
  unfold transfer_session. destruct (refines _ _ _ _ _ Hrel Hall) as (c' & Hcr & _). change (enough_fuel (fst (supplied evs))) with (fuel E). change {| cfg := s; fuel := fuel E |} with E. rewrite Hcr. reflexivity.
Qed.

Lemma wrep_behind E inp c s1 r s' r' : repr E inp (frames c) (top c) (started c) s1 r -> reading (drop_reader c) = NotReading ->
  behind E inp (frames c) (top c) s' r' -> wrep E inp (AtCursor (behind_value (drop_reader c))) (DRun s' None r').
Proof.
  intros Hr Hn Hb. exists s', None, r'. split; [reflexivity|]. unfold srepr. rewrite behind_reading, Hn. split; [|reflexivity].
  assert (Hfr : frames (drop_reader c) = frames c /\ top (drop_reader c) = top c /\ started (drop_reader c) = started c).
  { unfold drop_reader. destruct (reading c); auto. }
  destruct Hfr as (H1 & H2 & H3). eapply behind_repr; rewrite ?H1, ?H2, ?H3; eassumption.
Qed.

Definition after_transfer {F : Type} (r : res F unit) (c : cursor) : walk :=
  match r with Ok _ => AtCursor (behind_value (drop_reader c)) | _ => Halted end.

Lemma repr_sound E inp fs vs st s r v : (length inp < fuel E)%nat -> repr E inp fs vs st s r -> at_val E fs vs st = inr v -> sound v.
Proof.
  intros Hf Hr Hat. pose proof (peek_forward E inp fs vs st s r Hf Hr) as H. rewrite Hat in H. destruct H as (s' & r' & _ & Hr' & Hp).
  destruct Hr'. unfold text_ok in r_text. rewrite Hp in r_text. destruct r_text as (_ & Hb). destruct (nextv_val _ _ _ _ _ Hat) as [Hnv Hio].
  destruct (body_value _ _ _ _ _ Hnv Hio Hb) as (tv & t' & _ & Hv & _). exact (proj1 (text_sound _) _ _ Hv).
Qed.

(** Whichever the writer is *)
Lemma transfer_copies {F W : Type} (h : handler F W) s vs evs before c v :
  document_input s vs evs -> snd (walk_calls s before (AtCursor (cursor_start vs))) = AtCursor c ->
  at_value s (drop_reader c) = inr v -> readable s v ->
  sound v /\ exists ps, copies v ps /\
  forall after w, exists os1 os2, transfer_session s evs h w before after = Some (os1, Some (transferred (fst (feed h ps w))), snd (feed h ps w), os2) /\
    Forall2 (is_result s) (fst (walk_calls s before (AtCursor (cursor_start vs)))) os1 /\
    Forall2 (is_result s) (fst (walk_calls s after (after_transfer (fst (feed h ps w)) c))) os2.
Proof.
  intros Hd Hc Hv Hn. destruct (transfer_glue h s vs evs before c Hd Hc) as (s1 & rd & r & Hs & Hglue).
  set (E := Env s (enough_fuel (fst (supplied evs)))) in *. set (inp := fst (supplied evs)) in *.
  assert (Hf : (length inp < fuel E)%nat) by (cbn; unfold enough_fuel; fold inp; lia).
  destruct (at_value_repr E inp c s1 rd r _ Hs Hv) as [(Hr & Hrd & Hat)|(Hx & _)]; [|discriminate].
  destruct (transfer_forward h E inp _ _ _ s1 r v Hf Hr Hat Hn) as (ps & s' & r' & Hps & Hcopy & Hbehind).
  split; [exact (repr_sound E inp _ _ _ s1 r v Hf Hr Hat)|]. exists ps. split; [exact Hps|]. intros after w. apply Hglue. intros kn. specialize (Hcopy w kn).
  destruct (feed h ps w) as [[[]|e|k|] w']; cbn [fst snd transferred].
  - destruct Hcopy as (kn' & Hrun). exists s', (At r' TEof kn'). split; [exact Hrun|]. exists (DRun s' None r'). split.
    + exact (wrep_behind E inp c s1 r s' r' Hr Hrd Hbehind).
    + cbn [srel]. splits; [reflexivity|eexists; reflexivity|exact I].
  - destruct Hcopy as (s2 & a2 & Hrun). exists s2, a2. split; [exact Hrun|]. exists DStop. split; reflexivity.
  - destruct Hcopy as (s2 & a2 & Hrun). exists s2, a2. split; [exact Hrun|]. exists DStop. split; reflexivity.
  - destruct Hcopy as (s2 & a2 & Hrun). exists s2, a2. split; [exact Hrun|]. exists DStop. split; reflexivity.
Qed.

(** There is no value which could be copied *)
Definition stopped {F A B : Type} (r : res F A) : option (res F B) :=
  match r with Ok _ => None | Err e => Some (Err e) | Panic k => Some (Panic k) | OutOfFuel => Some OutOfFuel end.

Lemma tbind_go {F W A B : Type} (m : T F W A) (f : A -> T F W B) s w a x s2 w2 a2 :
  arun (m s w) a = Some ((Ok x, s2, w2), a2) -> arun (tbind m f s w) a = arun (f x s2 w2) a2.
Proof. intros H. unfold tbind. rewrite arun_bind, H. reflexivity. Qed.
Lemma tbind_stop {F W A B : Type} (m : T F W A) (f : A -> T F W B) s w a r r' s2 w2 a2 :
  arun (m s w) a = Some ((r, s2, w2), a2) -> stopped r = Some r' -> arun (tbind m f s w) a = Some ((r', s2, w2), a2).
Proof. intros H Hr. unfold tbind. rewrite arun_bind, H. destruct r; cbn in Hr; [discriminate|..]; injection Hr as <-; reflexivity. Qed.

Lemma start_refused {F W : Type} (h : handler F W) E s1 w a (r : res (transfer_error F) value_type) r' s2 a2 :
  expects_member_name s1 = false -> (0 < fuel E)%nat ->
  arun (on_reader (peek E) s1 w) a = Some ((r, s2, w), a2) -> stopped r = Some r' ->
  arun (transfer_to E h s1 w) a = Some ((r', s2, w), a2).
Proof.
  intros Hn Hf Hrun Hno. unfold transfer_to.
  rewrite (tbind_go _ _ _ _ _ s1 s1 w a) by reflexivity. rewrite (tbind_go _ _ _ _ _ tt s1 w a) by (rewrite Hn; reflexivity).
  assert (Hr' : stopped r' = Some r') by (destruct r; cbn in Hno; [discriminate|..]; injection Hno as <-; reflexivity).
  assert (Hs : forall B, exists r2, @stopped _ _ B r = Some r2 /\ forall C, @stopped _ _ C r2 = stopped r).
  { intros B. destruct r; cbn in Hno; [discriminate|..]; eexists; split; reflexivity. }
  destruct (fuel E) as [|f]; [lia|]. cbn [transfer_loop].
  rewrite (tbind_go _ _ _ _ _ true s1 w a) by reflexivity. cbn [negb].
  destruct (Hs bool) as (rb & Hrb & Hrb2). destruct (Hs nat) as (rn & Hrn & Hrn2).
  eapply tbind_stop; [|rewrite Hrn2; exact Hno].
  rewrite (tbind_go _ _ _ _ _ tt s1 w a).
  - eapply tbind_stop; [|rewrite Hrb2; exact Hrn]. unfold transfer_start. eapply tbind_stop; [exact Hrun|exact Hrb].
  - unfold transfer_name. rewrite (tbind_go _ _ _ _ _ s1 s1 w a) by reflexivity; rewrite Hn. reflexivity.
Qed.

Definition transfer_refused {F : Type} (s : settings) (x : expected) (r : res (transfer_error F) unit) : Prop :=
  match x with
  | XMisuse => r = Panic Misuse
  | XStructure k path => exists loc, r = Err (inl (EUnexpectedStructure k loc)) /\ at_path s path loc
  | _ => False
  end.

Lemma at_val_refused E fs vs st x : at_val E fs vs st = inl x -> x = XMisuse \/ exists k p, x = XStructure k p.
Proof.
  unfold at_val, at_value. cbn. destruct fs as [|[i [|]|n l|n v l] fs]; try (intros [= <-]; eauto; fail).
  destruct (st && negb (allow_multiple_top_level (cfg E))); [intros [= <-]; auto|]. destruct vs; intros [= <-]; eauto.
Qed.


Lemma C33_transfer_copies_the_value_holds : forall (F W : Type) (h : handler F W) (s : settings) (vs : list json) (evs : list event) (before : list rcall) (c : cursor) (v : json),
  document_input s vs evs -> snd (walk_calls s before (AtCursor (cursor_start vs))) = AtCursor c ->
  at_value s (drop_reader c) = inr v -> readable s v ->
  exists ps, copies v ps /\
  forall (after : list rcall) (w : W), let (r, w') := feed h ps w in
  exists os1 os2, transfer_session s evs h w before after = Some (os1, Some (transferred r), w', os2) /\
    Forall2 (is_result s) (fst (walk_calls s before (AtCursor (cursor_start vs)))) os1 /\
    Forall2 (is_result s) (fst (walk_calls s after match r with Ok _ => AtCursor (behind_value (drop_reader c)) | _ => Halted end)) os2.
Proof.
  intros F W h s vs evs before c v Hd Hc Hv Hn. destruct (transfer_copies h s vs evs before c v Hd Hc Hv Hn) as (_ & ps & Hps & H).
  exists ps. split; [exact Hps|]. intros after w. specialize (H after w). destruct (feed h ps w) as [r w']. exact H.
Qed.

Lemma C33_transfer_to_stream_writer_holds : forall (s : settings) (vs : list json) (evs : list event) (before : list rcall) (c : cursor) (v : json)
    (cfg : wsettings) (out : sink) (wcs1 : list wcall) (d : wdoc),
  document_input s vs evs -> snd (walk_calls s before (AtCursor (cursor_start vs))) = AtCursor c ->
  at_value s (drop_reader c) = inr v -> readable s v ->
  received out = [] -> reliable out -> Forall valid_call wcs1 ->
  describes_all (multi_top_level cfg) empty_doc wcs1 d -> value_allowed (multi_top_level cfg) d ->
  exists w', (forall after, exists os1 os2,
    transfer_session s evs (stream_writer cfg) (snd (wrun cfg wcs1 (new_session out))) before after = Some (os1, Some (Ok tt), w', os2)) /\
  forall wcs2 d2, Forall valid_call wcs2 -> describes_all (multi_top_level cfg) (add_value v d) wcs2 d2 -> complete d2 ->
  exists rs2 w2 out', wrun cfg wcs2 w' = (rs2, w2) /\ Forall2 success wcs2 rs2 /\ wfinish w2 = (RDone, out') /\
    received out' = documents_layout cfg (d_top d2).
Proof.
  intros s vs evs before c v cfg out wcs1 d Hd Hc Hv Hn Ho Hg Hval1 Hdes1 Hallow.
  destruct (transfer_copies (stream_writer cfg) s vs evs before c v Hd Hc Hv Hn) as (Hsound & ps & Hps & H).
  pose proof (copies_good v Hsound ps Hps) as Hgood. pose proof (copies_writing (multi_top_level cfg) v Hsound ps Hps d Hallow) as Hdes.
  assert (Hp0 : string_possible d). { intros acc Ha. destruct Hallow as [Hx _]. rewrite Hx in Ha. discriminate. }
  assert (Hp1 : string_possible (add_value v d)).
  { intros acc Ha. destruct Hallow as [Hx _]. unfold add_value in Ha. destruct (d_open d) as [|[items|ms [n|]] o]; cbn in Ha; try discriminate. rewrite Hx in Ha. discriminate. }
  destruct (run_described cfg wcs1 _ _ d (new_session_ok cfg out Ho) Hval1 Hdes1 Hp0 (reliable_good out Hg)) as (R1 & S1 & G1).
  destruct (wrun cfg wcs1 (new_session out)) as [rs1 w1]. cbn [fst snd] in *.
  destruct (run_described cfg (map put_call ps) d w1 (add_value v d) S1 (good_valid ps Hgood) Hdes Hp1 G1) as (R2 & S2 & G2).
  destruct (wrun cfg (map put_call ps) w1) as [rs2 w2] eqn:E2. cbn [fst snd] in *.
  pose proof (feed_stream cfg ps w1 rs2 w2 Hgood E2 R2) as Hfeed.
  exists w2. split.
  - intros after. destruct (H after w1) as (os1 & os2 & Ht & _). rewrite Hfeed in Ht. exists os1, os2. exact Ht.
  - intros wcs2 d2 Hval2 Hdes2 Hcomp.
    destruct (run_described cfg wcs2 (add_value v d) w2 d2 S2 Hval2 Hdes2 (complete_possible d2 Hcomp) G2) as (R3 & S3 & G3).
    destruct (wrun cfg wcs2 w2) as [rs3 w3]. cbn [fst snd] in *.
    destruct (wfinish_ok cfg _ w3 S3) as [(_ & [(o & E & Hl & Hfl)|(e & o & E & _ & Hb & _)])|(Hx & _)]; [|contradiction|contradiction].
    exists rs3, w3, o. auto.
Qed.

Lemma C33_nothing_to_transfer_holds : forall (F W : Type) (h : handler F W) (s : settings) (vs : list json) (evs : list event) (before after : list rcall) (c : cursor) (x : expected) (w : W),
  document_input s vs evs -> snd (walk_calls s before (AtCursor (cursor_start vs))) = AtCursor c ->
  at_value s (drop_reader c) = inl x ->
  exists os1 r os2, transfer_session s evs h w before after = Some (os1, Some r, w, os2) /\
    match x with
    | XMisuse => r = Panic Misuse
    | XStructure k path => exists loc, r = Err (inl (EUnexpectedStructure k loc)) /\ at_path s path loc
    | _ => False
    end.
Proof.
  intros F W h s vs evs before after c x w Hd Hc Hx. destruct (transfer_glue h s vs evs before c Hd Hc) as (s1 & rd & r & Hs & Hglue).
  set (E := Env s (enough_fuel (fst (supplied evs)))) in *. set (inp := fst (supplied evs)) in *.
  assert (Hf : (length inp < fuel E)%nat) by (cbn; unfold enough_fuel; fold inp; lia).
  assert (Hend : exists res : res (transfer_error F) unit, transfer_refused s x res /\ forall kn, exists s2 a2, arun (transfer_to E h s1 w) (At r TEof kn) = Some ((res, s2, w), a2)).
  { destruct (at_value_repr E inp c s1 rd r _ Hs Hx) as [(Hr & Hrd & Hat)|(Hm & Hact & Hname)].
    - pose proof (repr_names _ _ _ _ _ _ _ Hr) as Hnm.
      destruct (in_object (frames c)) eqn:Eio.
      + assert (x = XMisuse) as ->. { unfold at_val, at_value in Hat. cbn in Hat. destruct (frames c) as [|[] ?]; cbn in Eio; try discriminate. congruence. }
        exists (Panic Misuse). split; [reflexivity|]. intros kn. eexists _, _. unfold transfer_to, tbind, on_reader, get_state. cbn [pbind]. rewrite Hnm. reflexivity.
      + pose proof (peek_forward E inp _ _ _ s1 r Hf Hr) as Hp. rewrite Hat in Hp.
        destruct (at_val_refused _ _ _ _ _ Hat) as [->|(k & p & ->)]; cbn [erep] in Hp.
        * exists (Panic Misuse). split; [reflexivity|]. intros kn. pose proof (agree_peek E TEof s1 r kn) as Ha. rewrite Hp in Ha.
          destruct Ha as (s2 & a2 & Ha). exists s2, a2. apply (start_refused h E s1 w _ (Panic Misuse)); [exact Hnm|lia| |reflexivity].
          unfold on_reader. rewrite arun_bind. unfold exec in Ha. rewrite Ha. reflexivity.
        * destruct Hp as (s' & r' & Hp & Hr' & ->). exists (Err (inl (EUnexpectedStructure k (location s')))).
          split; [exists (location s'); split; [reflexivity|]; exact (location_path E inp _ _ _ _ (r_base _ _ _ _ _ _ _ Hr'))|]. intros kn.
          pose proof (agree_peek E TEof s1 r kn) as Ha. rewrite Hp in Ha. destruct Ha as (_ & kn' & Ha). eexists _, _.
          apply (start_refused h E s1 w _ (Err (inl (EUnexpectedStructure k (location s'))))); [exact Hnm|lia| |reflexivity].
          unfold on_reader. rewrite arun_bind. unfold exec in Ha. rewrite Ha. reflexivity.
    - injection Hm as ->. exists (Panic Misuse). split; [reflexivity|]. intros kn. pose proof (agree_peek E TEof s1 r kn) as Ha.
      rewrite (peek_active E TEof s1 r Hact) in Ha. destruct Ha as (s2 & a2 & Ha). exists s2, a2.
      apply (start_refused h E s1 w _ (Panic Misuse)); [exact Hname|lia| |reflexivity].
      unfold on_reader. rewrite arun_bind. unfold exec in Ha. rewrite Ha. reflexivity. }
  destruct Hend as (res & Href & Hrun).
  destruct (Hglue after w res w Halted) as (os1 & os2 & Ht & _).
  { intros kn. destruct (Hrun kn) as (s2 & a2 & Hr). exists s2, a2. split; [exact Hr|]. exists DStop. split; [reflexivity|].
    destruct res as [[]| | |]; try reflexivity. destruct x; try contradiction; cbn in Href; [destruct Href as (loc & Hl & _)|]; discriminate. }
  exists os1, res, os2. split; [exact Ht|]. exact Href.
Qed.
