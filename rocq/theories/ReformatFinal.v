(** * Proofs of the property theorems about copying from any input *)

From Verif Require Import Base Utf8Model Utf8Proofs NumberModel SpecNumber NumberProofs SpecJson WriterModel SpecWriter WriterSession WriterRun WriterMore WriterFinal
  SourceModel SourceProofs ReaderModel ReaderScan ReaderLex ReaderLexStr ReaderMid ReaderAgree ReaderSess ReaderGrammar ReaderSafe ReaderOut SpecCursor ReaderRepr ReaderForward ReaderSkip ReaderWalk
  SpecRead GrammarFacts ReaderFinal TransferModel SpecTransfer SpecReformat TransferProofs TransferWriter TransferFinal TransferUnread TransferArb.


Lemma sound_wf v : sound v -> wf_json v.
Proof.
  induction v as [|b|t|s|items IH|ms IH] using json_tree_ind; intros Hs; inversion Hs; subst; try exact I; try assumption.
  - apply wf_json_arr. rewrite Forall_forall in *. auto.
  - apply wf_json_obj. rewrite Forall_forall in *. intros m Hm. split; [auto|]. apply IH; [exact Hm|].
    match goal with H : forall x, In x (map snd ms) -> _ |- _ => apply H end. apply in_map. exact Hm.
Qed.

Lemma start_at_value s v : at_value s (drop_reader (cursor_start [v])) = inr v.
Proof. reflexivity. Qed.

Lemma document_sound s v evs : allow_multiple_top_level s = false -> document_input s [v] evs -> sound v.
Proof.
  intros Hms (_ & Hi & _). unfold input_text in Hi. rewrite Hms in Hi. destruct Hi as (v' & E & (w & t & w' & _ & _ & Ht & _)). injection E as <-.
  exact (proj1 (text_sound _) _ _ Ht).
Qed.

Lemma unreadable s v : ~ readable s v -> restrict_number_values s = true /\ exists n, find unsupported_number (numbers v) = Some n.
Proof.
  intros H. destruct (find unsupported_number (numbers v)) as [n|] eqn:E.
  - split; [|eauto]. destruct (restrict_number_values s) eqn:Er; [reflexivity|]. exfalso. apply H. unfold readable. rewrite Er. discriminate.
  - exfalso. apply H. apply none_readable. exact E.
Qed.

Lemma readable_dec s v : readable s v \/ ~ readable s v.
Proof.
  unfold readable. destruct (restrict_number_values s); [|left; discriminate].
  destruct (Forall_dec (fun t => unsupported_number t = false) (fun t => Bool.bool_dec _ _) (numbers v)) as [H|H]; [left; auto|right; auto].
Qed.


Lemma C33_unsupported_number_is_reported_holds : forall (F W : Type) (h : handler F W) (s : settings) (vs : list json) (evs : list event) (before : list rcall) (c : cursor) (v : json) (n : bytes),
  document_input s vs evs -> snd (walk_calls s before (AtCursor (cursor_start vs))) = AtCursor c ->
  at_value s (drop_reader c) = inr v ->
  restrict_number_values s = true -> find unsupported_number (numbers v) = Some n ->
  exists ps qs, copies v (ps ++ PutNumber n :: qs) /\
  forall after w, exists os1 r os2, transfer_session s evs h w before after = Some (os1, Some r, snd (feed h ps w), os2) /\
    match fst (feed h ps w) with
    | Ok _ => exists loc, r = Err (inl (EUnsupportedNumber n loc))
    | other => r = transferred other
    end.
Proof.
  intros F W h s vs evs before c v n Hd Hc Hv Hres Hfind. destruct Hd as (Ht & Hi & Hl).
  set (E := Env s (enough_fuel (fst (supplied evs)))). set (inp := fst (supplied evs)) in *.
  assert (Hb : Forall is_byte inp) by (eapply input_bytes; eassumption).
  assert (Hf : (length inp < fuel E)%nat) by (cbn; unfold enough_fuel; fold inp; lia).
  destruct (calls_walk E inp before (AtCursor (cursor_start vs)) (DRun (rstate_new s) None inp) (session_new s) (asrc_new inp TEof) Hf)
    as (os1 & st1 & a1 & d1 & Hr1 & Hres1 & Hs1 & Hw1).
  { exists (rstate_new s), None, inp. split; [reflexivity|]. split; [|reflexivity]. apply repr_start; auto. }
  { cbn [srel]. splits; [reflexivity| |exact I]. exists false. reflexivity. }
  change (cfg E) with s in *. rewrite Hc in Hw1. destruct Hw1 as (s1 & rd & r & -> & Hsr). cbn [srel] in Hs1. destruct Hs1 as (-> & (kn & ->) & _).
  destruct (at_value_repr E inp c s1 rd r _ Hsr Hv) as [(Hr & Hrd & Hat)|(Hx & _)]; [|discriminate].
  destruct (transfer_halts h E inp _ _ _ s1 r v n Hf Hr Hat Hres Hfind) as (ps & qs & Hps & Hhalt).
  exists ps, qs. split; [exact Hps|]. intros after w. specialize (Hhalt w kn).
  assert (H : exists res s2 a2, arun (transfer_to E h s1 w) (At r TEof kn) = Some ((res, s2, snd (feed h ps w)), a2) /\
    match fst (feed h ps w) with Ok _ => exists loc, res = Err (inl (EUnsupportedNumber n loc)) | other => res = transferred other end /\
    match res with Ok _ => False | _ => True end).
  { destruct (feed h ps w) as [[u|e|k|] w']; cbn [fst snd transferred].
    - destruct Hhalt as (loc & s2 & a2 & Hrun). eexists _, s2, a2. split; [exact Hrun|]. split; [eauto|exact I].
    - destruct Hhalt as (s2 & a2 & Hrun). eexists _, s2, a2. split; [exact Hrun|]. split; [reflexivity|exact I].
    - destruct Hhalt as (s2 & a2 & Hrun). eexists _, s2, a2. split; [exact Hrun|]. split; [reflexivity|exact I].
    - destruct Hhalt as (s2 & a2 & Hrun). eexists _, s2, a2. split; [exact Hrun|]. split; [reflexivity|exact I]. }
  destruct H as (res & s2 & a2 & Hrun & Hshape & Hno).
  destruct (calls_walk E inp after Halted DStop (Session s2 None Stopped) a2 Hf eq_refl eq_refl) as (os2 & st3 & a3 & d3 & Hr3 & _).
  exists os1, res, os2. split; [|exact Hshape].
  assert (Hall : arun (client_transfer E h w before after (session_new s)) (asrc_new inp TEof) = Some ((os1, Some res, snd (feed h ps w), os2), a3)).
  { unfold client_transfer. rewrite arun_bind, Hr1. cbn [fst snd]. unfold call_transfer. cbn [s_phase s_state].
    rewrite arun_bind. rewrite arun_bind, Hrun. cbn [arun].
    replace (match res with Ok _ => Running | _ => Stopped end) with Stopped by (destruct res; [contradiction|reflexivity..]).
    rewrite arun_bind, Hr3. reflexivity. }
  pose proof (rel_new evs) as Hrel. rewrite Ht in Hrel.
  unfold transfer_session. destruct (refines _ _ _ _ _ Hrel Hall) as (c' & Hcr & _). change (enough_fuel (fst (supplied evs))) with (fuel E).
  change {| cfg := s; fuel := fuel E |} with E. rewrite Hcr. reflexivity.
Qed.

Lemma C58_transfer_always_ends_holds : forall (F W : Type) (h : handler F W) (s : settings) (evs : list event) (before after : list rcall) (w : W),
  tame h -> Forall is_byte (fst (supplied evs)) ->
  exists os1 r w' os2, transfer_session s evs h w before after = Some (os1, r, w', os2) /\
    match r with Some r => settled r | None => True end /\ (forall o, In o (os1 ++ os2) -> o <> OPanic Bug /\ o <> OFuel).
Proof.
  intros F W h s evs before after w Hh Hb. destruct (transfer_any h s evs before w Hb) as (os1 & r & w' & d2 & Hall & Hm1 & _ & Hset & _).
  destruct (Hall after) as (os2 & Hrun & Hm2). exists os1, r, w', os2. split; [exact Hrun|]. split; [exact (Hset Hh)|].
  apply Forall_forall. apply Forall_app. split; eapply matches_all_sane; eassumption.
Qed.

Lemma C58_transfer_accepts_only_documents_holds : forall (F W : Type) (h : handler F W) (s : settings) (evs : list event) (before after : list rcall) (w : W)
    (os1 : list outcome) (r : option (res (transfer_error F) unit)) (w' : W) (os2 : list outcome),
  Forall is_byte (fst (supplied evs)) -> allow_multiple_top_level s = false ->
  transfer_session s evs h w before (after ++ [CConsumeTrailingWhitespace]) = Some (os1, r, w', os2 ++ [OOk RUnit]) ->
  exists v, document_input s [v] evs.
Proof.
  intros F W h s evs before after w os1 r w' os2 Hb Hms Hrun. exact (transfer_consumed h s evs w before after os1 r w' os2 Hb Hms Hrun).
Qed.

Lemma C58_reformat_exact_holds : forall (s : settings) (cfg : wsettings) (evs : list event) (out : sink) (t : bytes),
  Forall is_byte (fst (supplied evs)) -> allow_multiple_top_level s = false -> received out = [] -> reliable out ->
  (reformat s cfg evs out = Some t <-> exists v, document_input s [v] evs /\ readable s v /\ t = layout cfg 0 v).
Proof.
  intros s cfg evs out t Hb Hms Ho Hg.
  assert (Hfwd : forall v, document_input s [v] evs -> readable s v -> reformat s cfg evs out = Some (layout cfg 0 v)).
  { intros v Hd Hn.
    destruct (C33_transfer_to_stream_writer_holds s [v] evs [] (cursor_start [v]) v cfg out [] empty_doc Hd eq_refl (start_at_value s v) Hn Ho Hg
      (Forall_nil _) ltac:(constructor) ltac:(split; [reflexivity|left; reflexivity])) as (w' & Hrun & Hfin).
    destruct (Hfin [] (add_value v empty_doc) (Forall_nil _) ltac:(constructor) ltac:(split; [reflexivity|split; [reflexivity|discriminate]])) as (rs2 & w2 & out' & Hw & _ & Hfi & Hrec).
    injection Hw as <- <-.
    destruct (transfer_copies (stream_writer cfg) s [v] evs [] (cursor_start [v]) v Hd eq_refl (start_at_value s v) Hn) as (_ & ps & _ & Hcopy).
    destruct (Hcopy [CConsumeTrailingWhitespace] (new_session out)) as (os1 & os2 & Hrun2 & _ & Hos2).
    destruct (Hrun [CConsumeTrailingWhitespace]) as (os1' & os2' & Hrun1). change (snd (wrun cfg [] (new_session out))) with (new_session out) in Hrun1.
    assert (Heq := Hrun1). rewrite Hrun2 in Heq. injection Heq as _ Hr _ Ho2. subst os2'.
    unfold reformat. rewrite Hrun1.
    destruct (fst (feed (stream_writer cfg) ps (new_session out))) as [[]|?|?|]; try discriminate.
    cbn [after_transfer] in Hos2.
    assert (os2 = [OOk RUnit]) as ->.
    { inversion Hos2 as [|x o xs os Hx Hxs E1 E2]; subst. inversion Hxs; subst. cbn in Hx. f_equal. first [exact Hx|symmetry; exact Hx|idtac]. }
    rewrite Hfi. rewrite Hrec. reflexivity. }
  split.
  - intros H. pose proof H as Hre. unfold reformat in H.
    destruct (transfer_session s evs (stream_writer cfg) (new_session out) [] [CConsumeTrailingWhitespace]) as [[[[os1 [[[]|?|?|]|]] w] os2]|] eqn:Hrun; try discriminate.
    destruct os2 as [|o os2]; [discriminate|]. destruct o as [x| | | | | |]; try discriminate. destruct x; try discriminate. destruct os2; [|discriminate].
    destruct (C58_transfer_accepts_only_documents_holds _ _ _ s evs [] [] _ _ _ _ [] Hb Hms Hrun) as (v & Hd). exists v. split; [exact Hd|].
    destruct (readable_dec s v) as [Hn|Hn].
    + split; [exact Hn|]. rewrite (Hfwd v Hd Hn) in Hre. injection Hre as <-. reflexivity.
    + exfalso. apply unreadable in Hn as (Hres & n & Hfind).
      destruct (C33_unsupported_number_is_reported_holds _ _ (stream_writer cfg) s [v] evs [] (cursor_start [v]) v n Hd eq_refl (start_at_value s v) Hres Hfind) as (ps & qs & _ & Hall).
      destruct (Hall [CConsumeTrailingWhitespace] (new_session out)) as (os1' & r & os2 & Hrun' & Hr). rewrite Hrun in Hrun'. injection Hrun' as _ <- _ _.
      destruct (fst (feed (stream_writer cfg) ps (new_session out))); [destruct Hr as (loc & Hr)|..]; discriminate Hr.
  - intros (v & Hd & Hn & ->). exact (Hfwd v Hd Hn).
Qed.

Lemma C58_reformat_again_holds : forall (s s' : settings) (cfg cfg' : wsettings) (evs evs' : list event) (out out1 out2 : sink) (t : bytes),
  Forall is_byte (fst (supplied evs)) -> allow_multiple_top_level s = false -> allow_multiple_top_level s' = false ->
  max_nesting_depth s' = max_nesting_depth s -> restrict_number_values s' = restrict_number_values s ->
  received out = [] -> reliable out -> received out1 = [] -> reliable out1 -> received out2 = [] -> reliable out2 ->
  reformat s cfg evs out = Some t -> supplied evs' = (t, TEof) ->
  exists t', reformat s' cfg' evs' out1 = Some t' /\ reformat s cfg' evs out2 = Some t'.
Proof.
  intros s s' cfg cfg' evs evs' out out1 out2 t Hb Hms Hms' Hdepth Hres Ho Hg Ho1 Hg1 Ho2 Hg2 Hre Hsup.
  apply (C58_reformat_exact_holds s cfg evs out t Hb Hms Ho Hg) in Hre as (v & Hd & Hn & ->).
  pose proof (sound_wf v (document_sound s v evs Hms Hd)) as Hwf.
  assert (Hd' : document_input s' [v] evs').
  { unfold document_input. rewrite Hsup. cbn [fst snd]. split; [reflexivity|]. split.
    - unfold input_text. rewrite Hms'. exists v. split; [reflexivity|]. exists [], (layout cfg 0 v), [].
      rewrite app_nil_r. split; [reflexivity|]. split; [constructor|]. split; [apply layout_value; exact Hwf|left; constructor].
    - destruct Hd as (_ & _ & Hl). unfold within_limit in *. rewrite Hdepth. exact Hl. }
  assert (Hb' : Forall is_byte (fst (supplied evs'))) by (destruct Hd' as (? & Hi & ?); eapply input_bytes; eassumption).
  exists (layout cfg' 0 v). split.
  - apply (C58_reformat_exact_holds s' cfg' evs' out1 _ Hb' Hms' Ho1 Hg1). exists v. split; [exact Hd'|]. split; [|reflexivity].
    unfold readable in *. rewrite Hres. exact Hn.
  - apply (C58_reformat_exact_holds s cfg' evs out2 _ Hb Hms Ho2 Hg2). exists v. auto.
Qed.
