(** * Proofs of the property theorems about the simple writer API *)

From Verif Require Import Base Utf8Model Utf8Proofs SpecNumber SpecJson WriterModel SpecWriter WriterSession WriterRun WriterMore WriterFinal
  SimpleWriterModel SpecSimpleWriter SimpleWriterErrors SimpleWriterRun.
From Verif Require SerModel SpecSer SerRun.


Lemma key_wf v o : SpecSer.key_means v o -> SpecSer.valid_sval v -> forall n, o = SpecSer.Gives n -> Forall is_char n.
Proof.
  induction 1; intros Hv m E; cbn [SpecSer.valid_sval] in Hv; try discriminate E; try (injection E as <-); auto.
  - destruct b; repeat (apply Forall_cons; [left; reflexivity|]); apply Forall_nil.
  - eapply SerRun.decimal_chars; eauto.
  - apply Hv.
  - destruct H0; try discriminate E; auto.
Qed.

Lemma mapped {A B} (f : A -> B) o b : SpecSer.map_outcome f o = SpecSer.Gives b -> exists a, o = SpecSer.Gives a /\ b = f a.
Proof. destruct o as [a|e|]; cbn; intros E; try discriminate E. injection E as <-. eauto. Qed.

Lemma means_wf :
  (forall v o, SpecSer.value_means v o -> SpecSer.valid_sval v -> forall j, o = SpecSer.Gives j -> wf_json j) /\
  (forall len i b o, SpecSer.elems_mean len i b o -> SpecSer.valid_elems b -> forall js, o = SpecSer.Gives js -> Forall wf_json js) /\
  (forall len i b o, SpecSer.entries_mean len i b o -> SpecSer.valid_entries b -> forall ms, o = SpecSer.Gives ms -> Forall wf_member ms) /\
  (forall len i n b o, SpecSer.entry_means len i n b o -> SpecSer.valid_entries b -> Forall is_char n -> forall ms, o = SpecSer.Gives ms -> Forall wf_member ms) /\
  (forall len i b o, SpecSer.fields_mean len i b o -> SpecSer.valid_fields b -> forall ms, o = SpecSer.Gives ms -> Forall wf_member ms).
Proof.
  apply SerRun.means_ind; cbn [SpecSer.valid_sval SpecSer.valid_elems SpecSer.valid_entries SpecSer.valid_fields]; intros;
    repeat match goal with
    | H : SpecSer.map_outcome _ _ = SpecSer.Gives _ |- _ => apply mapped in H as (? & ? & ->)
    | H : SpecSer.Gives _ = SpecSer.Gives _ |- _ => injection H as <-
    | H : _ = SpecSer.Gives _ |- _ => discriminate H
    | H : _ /\ _ |- _ => destruct H
    end; try exact I; try solve [constructor]; try assumption; eauto.
  - eapply decimal_number; eauto.
  - constructor; [assumption|constructor].
  - apply wf_json_arr. apply Forall_map. clear - H. induction H; constructor; [eapply decimal_number; eauto|assumption].
  - apply wf_json_obj. repeat constructor; cbn; eauto.
  - apply wf_json_arr. eauto.
  - apply wf_json_arr. eauto.
  - apply wf_json_arr. eauto.
  - apply wf_json_obj. repeat constructor; cbn [fst snd]; [assumption|]. apply wf_json_arr. eauto.
  - apply wf_json_obj. eauto.
  - apply wf_json_obj. eauto.
  - apply wf_json_obj. repeat constructor; cbn [fst snd]; [assumption|]. apply wf_json_obj. eauto.
  - match goal with H : SpecSer.own_error _ _ _ |- _ => inversion H; subst end; try discriminate; eauto.
  - match goal with H : _ -> Forall is_char n -> _ |- _ => apply H end; eauto. eapply key_wf; eauto.
  - constructor; [split; eauto|eauto].
  - constructor; [split; eauto|eauto].
Qed.

Lemma described_wf R :
  (forall (o : wop R) v x, value_described o v x -> valid_wop o -> wf_json v) /\
  (forall (b : abody R) vs r e, items_described b vs r e -> valid_abody b -> Forall wf_json vs) /\
  (forall (b : obody R) vs r e, members_described b vs r e -> valid_obody b -> Forall wf_member vs) /\
  (forall (m : member R) n v x e, member_described m n v x e -> valid_member m -> wf_member (n, v)).
Proof.
  apply described_ind; cbn [valid_wop valid_abody valid_obody valid_member valid_mbody].
  - intros _. exact I.
  - intros b _. exact I.
  - intros s H. exact H.
  - intros z t H _. eapply decimal_number; eauto.
  - intros s H _. exact H.
  - intros s H _. exact H.
  - intros f bs s r _ H _. cbn. eapply from_utf8_sound; eauto.
  - intros f vs r _ IH Hv. apply wf_json_arr. auto.
  - intros f ms r _ IH Hv. apply wf_json_obj. auto.
  - intros v j H Hv. exact (proj1 means_wf v _ H Hv j eq_refl).
  - constructor.
  - intros o k v x vs r e _ IHo _ IHk [Ho Hk]. constructor; auto.
  - constructor.
  - intros m k n v x e' ms r e _ IHm _ IHk [Hm Hk]. constructor; auto.
  - intros n o v x _ IHo [Hn Ho]. split; auto.
  - intros n r [Hn _]. split; [exact Hn|exact I].
  - intros n o k v x r e _ IHo _ [Hn Ho]. split; auto.
Qed.

Lemma described_document R (o : wop R) v x cfg : value_described o v x -> valid_wop o -> rfc8259_document v (layout cfg 0 v).
Proof. intros H Hv. apply value_is_document, layout_value. exact (proj1 (described_wf R) o v x H Hv). Qed.

Lemma C40_closures_write_their_data_holds : forall (R : Type) (cfg : wsettings) (out : sink) (o : wop R) (v : json) (x : option R),
  received out = [] -> reliable out -> valid_wop o -> value_described o v x ->
  exists out', simple_write cfg out o = (ERet (x, None), out') /\
    received out' = layout cfg 0 v /\ rfc8259_document v (received out') /\ flushes out' > 0.
Proof.
  intros R cfg out o v x Ho Hr Hv Hd. destruct (simple_write_described cfg out o v x Ho Hr Hv Hd) as (out' & E & Hl & Hf).
  exists out'. cbn [documents_layout] in Hl. splits; auto. rewrite Hl. eapply described_document; eauto.
Qed.

Lemma C40_success_means_complete_holds : forall (R : Type) (cfg : wsettings) (out : sink) (o : wop R) (x : option R) (out' : sink),
  received out = [] -> valid_wop o -> careful_wop o -> simple_write cfg out o = (ERet (x, None), out') ->
  exists v, value_described o v x /\ received out' = layout cfg 0 v /\ rfc8259_document v (received out') /\ flushes out' > 0.
Proof.
  intros R cfg out o x out' Ho Hv Hc E. destruct (simple_write_sound cfg out o x out' Ho Hv Hc E) as (v & Hd & Hl & Hf).
  exists v. cbn [documents_layout] in Hl. splits; auto. rewrite Hl. eapply described_document; eauto.
Qed.

Lemma C40_member_without_value_is_null_holds : forall (cfg : wsettings) (out : sink) (names : list str), received out = [] -> reliable out -> Forall (Forall is_char) names ->
  exists out', simple_write cfg out
      (WObject (fold_right (fun n b => OWrite (MMember n (MDone tt None)) (fun _ _ => b)) (ODone tt None) names)) =
    (ERet (Some tt, None), out') /\
    rfc8259_document (JObj (map (fun n => (n, JNull)) names)) (received out').
Proof.
  intros cfg out names Ho Hr Hn.
  destruct (C40_closures_write_their_data_holds unit cfg out
    (WObject (fold_right (fun n b => OWrite (MMember n (MDone tt None)) (fun _ _ => b)) (ODone tt None) names))
    (JObj (map (fun n => (n, JNull)) names)) (Some tt) Ho Hr) as (out' & E & _ & H & _).
  - cbn [valid_wop]. induction Hn as [|n names Hn Hns IH]; [exact I|]. cbn. splits; auto.
  - apply VD_object. clear. induction names as [|n names IH]; cbn [map fold_right]; [constructor|]. econstructor; [constructor|exact IH].
  - exists out'. auto.
Qed.

Lemma C40_errors_are_sticky_holds : forall (R : Type) (o : wop R) (before after : list (used * wresult)) (c : wcall) (r : wresult) (x : wend (option R * wresulting)),
  careful_wop o -> uses (simple_writer o) (before ++ (UCall c, r) :: after) x -> failed_use c r -> after = [] /\ wfails x.
Proof.
  intros R o before after c r x. apply simple_writer_sticky.
Qed.

Lemma C40_finish_error_is_reported_holds : forall (R : Type) (o : wop R) (before after : list (used * wresult)) (e : werr) (x : wend (option R * wresulting)),
  uses (simple_writer o) (before ++ (UFinish, RError e) :: after) x -> after = [] /\ wfails x.
Proof.
  intros R o before after e x. apply simple_writer_finish_fails.
Qed.

Lemma C40_write_reports_the_count_holds : forall (R : Type) (bs : bytes) (k : swerr + nat -> sbody R) (r : wresult) (log : list (wcall * wresult)) (y : wend (R * wresulting) * option stored_error),
  (forall n, r = RCount n ->
    (calls (run_sbody (SWWrite bs k) None) ((CWrite bs, r) :: log) y <-> calls (run_sbody (k (inr n)) None) log y)) /\
  (forall e, r = RError e ->
    (calls (run_sbody (SWWrite bs k) None) ((CWrite bs, r) :: log) y <->
     calls (run_sbody (k (inl (WeIo e))) (Some (KIoError e))) log y)).
Proof.
  intros R bs k r log y. split; intros v ->; (split; intros H; [inversion H; subst; assumption|apply Calls_call; exact H]).
Qed.

Lemma C40_later_calls_fail_holds : forall (R : Type) (o : wop R) (e : stored_error) (log : list (wcall * wresult)) (x : wend (option R * wresulting)) (err : option stored_error),
  calls (run_wop o (Some e)) log (x, err) -> log = [] /\ wfails x /\ err = Some e.
Proof.
  intros R o e log x err H. destruct (run_wop_quiet o e) as ([a e'] & E & Ha). rewrite E in H.
  apply calls_done in H as [-> H]. injection H as <- <-. unfold reports in Ha. cbn in Ha. destruct e' as [e'|]; [|contradiction].
  splits; auto. exists a, e'. reflexivity.
Qed.

Lemma C40_later_members_fail_holds : forall (R : Type) (m : member R) (e : stored_error) (log : list (wcall * wresult)) (x : wend (option R * wresulting)) (err : option stored_error),
  calls (run_member m (Some e)) log (x, err) -> log = [] /\ wfails x /\ err = Some e.
Proof.
  intros R m e log x err H. destruct (run_member_quiet m e) as ([a e'] & E & Ha). rewrite E in H.
  apply calls_done in H as [-> H]. injection H as <- <-. unfold reports in Ha. cbn in Ha. destruct e' as [e'|]; [|contradiction].
  splits; auto. exists a, e'. reflexivity.
Qed.

Lemma C40_errors_are_kept_holds : forall (R : Type) (o : wop R) (before after : list (wcall * wresult)) (c : wcall) (r : wresult)
    (x : wend (option R * wresulting)) (err : option stored_error),
  careful_wop o -> calls (run_wop o None) (before ++ (c, r) :: after) (x, err) -> failed_use c r -> after = [] /\ wfails x /\ err <> None.
Proof.
  intros R o before after c r x err Hc H Hf.
  destruct (tidy_failed _ _ _ _ _ _ _ _ (proj2 (run_wop_strict o Hc)) H Hf) as (-> & He & [a e'] & -> & Ha).
  unfold reports in Ha. cbn in Ha. destruct e' as [e'|]; [|contradiction]. splits; auto. exists a, e'. reflexivity.
Qed.

Lemma C40_later_calls_fail_refuted_holds : exists (f : abody nat) (o : wop nat) (cfg : wsettings) (out : sink),
    f = ADone O (Some (WeCustom 7)) /\
    o = WArray (AWrite (WArray f) (fun _ e => match e with Some (WeCustom 7) => AWrite (WBool true) (fun _ e' => match e' with None => ADone 1%nat None | Some _ => ADone O None end) | _ => ADone O None end)) /\
    reliable out /\ (exists s, calls (run_wop o None) s (ERet (Some 1%nat, None), None)) /\
    fst (simple_write cfg out o) = EPanic Misuse.
Proof.
  eexists _, _, default_wsettings, (Sink [] [] [] 0). splits; try reflexivity.
  - split; constructor.
  - exists [(CBeginArray, RDone); (CBeginArray, RDone); (CBool true, RDone); (CEndArray, RDone)]. repeat constructor.
Qed.

Lemma C50_write_serialize_gives_the_outcome_holds : forall (R : Type) (cfg : wsettings) (out : sink) (v : SerModel.sval) (o : SpecSer.outcome json),
  received out = [] -> reliable out -> SpecSer.valid_sval v -> SpecSer.value_means v o ->
  match o with
  | SpecSer.Gives j => exists out', @simple_write R cfg out (WSerialize v) = (ERet (None, None), out') /\
      received out' = layout cfg 0 j /\ rfc8259_document j (received out') /\ flushes out' > 0
  | SpecSer.Fails e => exists out' e', @simple_write R cfg out (WSerialize v) = (ERet (None, Some e'), out') /\ reports_error e' e
  | SpecSer.Panics => exists out', @simple_write R cfg out (WSerialize v) = (EPanic Misuse, out')
  end.
Proof.
  intros R cfg out v o Ho Hr Hv Hm. destruct o as [j|e|].
  - apply (C40_closures_write_their_data_holds R cfg out (WSerialize v) j None Ho Hr Hv). constructor. exact Hm.
  - destruct (proj1 (SerRun.run_means cfg) v _ Hm Hv empty_doc (new_session out)) as [(s' & E)|(Hb & _)]; [split; [reflexivity|left; reflexivity]|apply new_session_ok, Ho|right; exact Hr| |contradiction].
    exists (w_sink (ws_writer s')), (ser_error e). split; [|destruct e; constructor; discriminate].
    unfold simple_write, simple_writer. rewrite run_then_finish. cbn [run_wop].
    unfold swbind, delegate_serialize. rewrite prog_run_bind, prog_run_bind, (prog_run_ser cfg (SerModel.ser_value v)), E. reflexivity.
  - destruct (proj1 (SerRun.run_means cfg) v _ Hm Hv empty_doc (new_session out)) as [(s' & E)|(Hb & _)]; [split; [reflexivity|left; reflexivity]|apply new_session_ok, Ho|right; exact Hr| |contradiction].
    exists (w_sink (ws_writer s')).
    unfold simple_write, simple_writer. rewrite run_then_finish. cbn [run_wop].
    unfold swbind, delegate_serialize. rewrite prog_run_bind, prog_run_bind, (prog_run_ser cfg (SerModel.ser_value v)), E. reflexivity.
Qed.

Lemma C50_serialize_error_is_kept_holds : forall (R : Type) (v : SerModel.sval) (log : list (wcall * wresult)) (x : wend (option R * wresulting)) (err : option stored_error),
  calls (run_wop (WSerialize v) None) log (x, err) -> wfails x -> err <> None.
Proof.
  intros R v log x err H (y & e & ->). cbn [run_wop] in H. unfold swbind, delegate_serialize in H.
  apply calls_bind in H as (l1 & [a err1] & l2 & H1 & H2 & ->). apply calls_bind in H1 as (l3 & b & l4 & H3 & H4 & ->).
  destruct b as [[u|e1]| | |]; apply calls_done in H4 as [-> E]; injection E as <- <-; apply calls_done in H2 as [-> E];
    first [discriminate E | injection E as _ _ <-; discriminate | injection E as _ E _; discriminate].
Qed.

Lemma C50_method_with_stored_error_fails_holds : forall (R : Type) (o : wop R) (log : list (wcall * wresult)) (x : wend (option R * wresulting)) (err : option stored_error),
  calls (run_wop o None) log (x, err) -> err <> None -> wfails x.
Proof.
  intros R o log x err H He. destruct (proj1 (run_kept R) o _ _ _ H He) as ([y [e|]] & -> & Ha); [|contradiction Ha; reflexivity].
  exists y, e. reflexivity.
Qed.

Lemma C50_errors_are_sticky_refuted_holds : exists (v : SerModel.sval) (log : list (used * wresult)),
    v = SerModel.SvSeq None (SerModel.ElNext (SerModel.SvFloat None) (fun _ => SerModel.ElEnd)) /\
    log = [(UCall CBeginArray, RDone); (UCall (CFloat None), RInvalidNumber); (UCall CEndArray, RDone); (UFinish, RDone)] /\
    uses (simple_writer (@WSerialize unit v)) log (ERet (None, None)) /\ failed_use (CFloat None) RInvalidNumber.
Proof.
  eexists _, _. splits; [reflexivity|reflexivity| |exact I]. unfold simple_writer. do 3 (apply Uses_call; cbn).
  match goal with |- uses (WFinish ?k) _ _ => exact (Uses_finish k RDone) end.
Qed.
