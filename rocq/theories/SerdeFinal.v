(** * Proofs of the property theorems about serializing and deserializing *)

From Verif Require Import Base Utf8Model Utf8Proofs NumberModel SpecNumber NumberProofs SpecJson WriterModel SpecWriter WriterRun WriterSession WriterFinal WriterMore
  WClientModel SerModel SpecSer SerRun SerFinal.
From Verif Require Import SourceModel ReaderModel SpecCursor SpecRead ReaderCursor GrammarFacts SimpleModel DeModel SpecDe DeRun DeFinal SpecTypes RoundTrip RoundTrip2.

Local Ltac splits := repeat match goal with |- _ /\ _ => split end.


Lemma data_of types t v j : has_type types t v -> representable v = true -> value_means (to_sval v) (SpecSer.Gives j) -> j = json_of v.
Proof.
  intros Ht Hr Hm. pose proof (json_of_means v Hr) as Hm'. pose proof (proj1 means_det _ _ Hm _ Hm') as E. congruence.
Qed.

Lemma wf_members (ms : list (str * json)) : wf_json (JObj ms) <-> Forall (fun m => Forall is_char (fst m) /\ wf_json (snd m)) ms.
Proof.
  rewrite wf_json_obj. split; intros H; eapply Forall_impl; try exact H; intros [n x]; auto.
Qed.

Lemma key_chars types k : is_key k = true -> forall t, has_type types t k -> Forall is_char (key_of k).
Proof.
  induction k; cbn [is_key]; intros Hk ty Ht0; try discriminate; destruct (resolved _ _ _ Ht0) as [Ht Hres]; clear Ht0; inversion Ht; subst;
    try (exfalso; eapply Hres; eauto; fail); cbn [key_of]; eauto.
  - destruct b; repeat (constructor; [left; reflexivity|]); constructor.
  - eapply decimal_chars. apply (proj1 (int_to_string_spec z)).
  - apply number_chars. assumption.
Qed.

Lemma wf_of types : forall v t, has_type types t v -> representable v = true -> wf_json (json_of v).
Proof.
  assert (H2 : forall l, Forall (fun v => forall t, has_type types t v -> representable v = true -> wf_json (json_of v)) l -> forall ts, Forall2 (has_type types) ts l ->
    forallb representable l = true -> wf_json (JArr (map json_of l))).
  { intros l Hl ts Ht Hr. apply wf_json_arr. revert ts Ht Hr. induction Hl as [|v l Hv _ IH]; intros ts Ht Hr; inversion Ht; subst; cbn in *; [constructor|].
    apply andb_prop in Hr as [Hr1 Hr]. constructor; eauto. }
  assert (Hf : forall l, Forall (fun f : str * rval => forall t, has_type types t (snd f) -> representable (snd f) = true -> wf_json (json_of (snd f))) l -> forall fs, fields_type types fs l ->
    forallb (fun f => representable (snd f)) l = true -> wf_json (JObj (map (fun f => (fst f, json_of (snd f))) l))).
  { intros l Hl fs Ht Hr. apply wf_members. inversion Ht as [fs' l' _ Hc Hx]; subst. clear Ht. revert Hl Hc Hr.
    induction Hx as [|[n t] [n' v] fs l [Hn Ht] _ IH]; intros Hl Hc Hr; [constructor|].
    cbn in Hn. subst n'. apply Forall_cons_iff in Hl as [Hv Hl]. apply Forall_cons_iff in Hc as [Hc1 Hc]. cbn in Hr. apply andb_prop in Hr as [Hr1 Hr].
    cbn [map]. constructor; [|auto]. cbn in *. eauto. }
  intros v; induction v using rval_ind'; intros ty Ht0 Hr; destruct (resolved _ _ _ Ht0) as [Ht Hres]; clear Ht0; inversion Ht; subst;
    try (exfalso; eapply Hres; eauto; fail); cbn [json_of representable] in *; try exact I; eauto.
  - apply (proj1 (proj2 (int_to_string_spec z))).
  - match goal with H : number_text _ |- _ => cbn; rewrite (proj2 (number_chars _ H)); exact H end.
  - cbn. auto.
  - apply wf_json_arr, Forall_map, Forall_forall. intros b _. apply (proj1 (proj2 (int_to_string_spec _))).
  - apply andb_prop in Hr as [_ Hr]. eauto.
  - apply wf_json_arr, Forall_map. rewrite forallb_forall in Hr. rewrite Forall_forall in *. eauto.
  - apply wf_members, Forall_map. rewrite forallb_forall in Hr. rewrite Forall_forall in *. intros e He. cbn.
    specialize (Hr e He). apply andb_prop in Hr as [Hk Hr].
    match goal with H1 : forall x, In x es -> has_type _ _ _ /\ _ |- _ => destruct (H1 e He) end.
    match goal with H1 : forall x, In x es -> (forall t, _) /\ _ |- _ => destruct (H1 e He) end. split; [eapply key_chars; eauto|eauto].
  - apply wf_members. repeat constructor; cbn; eauto.
  - apply wf_members. repeat constructor; cbn [fst snd]; eauto.
  - apply wf_members. repeat constructor; cbn [fst snd]; eauto.
Qed.

Lemma serialized_input cfg out sv j : received out = [] -> reliable out -> valid_sval sv -> value_means sv (SpecSer.Gives j) -> wf_json j ->
  exists out', serialize_between cfg out [] sv [] = ([], ERet (SrOk tt), [], RDone, out') /\
    forall s evs, supplied evs = (received out', TEof) -> within_limit s [j] -> document_input s [j] evs.
Proof.
  intros Ho Hrel Hval Hm Hwf.
  assert (Ha : value_allowed (multi_top_level cfg) empty_doc) by (split; [reflexivity|left; reflexivity]).
  assert (Hc : complete (add_value j empty_doc)) by (unfold complete; splits; [reflexivity|reflexivity|discriminate]).
  destruct (C42_serializer_writes_the_data_holds cfg out [] [] empty_doc _ _ _ Ho Hrel (Forall_nil _) (Forall_nil _) Hval Hm (DA_nil _ _) Ha (DA_nil _ _) Hc)
    as (rs1 & rs2 & out' & E & H1 & H2 & Hd).
  inversion H1; subst. inversion H2; subst. exists out'. split; [exact E|]. intros s evs Hev Hl.
  split; [rewrite Hev; reflexivity|]. split; [|exact Hl]. rewrite Hev. unfold input_text. cbn [fst].
  rewrite Hd. change (documents_layout cfg (d_top (add_value j empty_doc))) with (layout cfg 0 j).
  pose proof (layout_value (syntax_of s) cfg j Hwf 0) as Hv. destruct (allow_multiple_top_level s).
  - split; [discriminate|]. rewrite <- (app_nil_r (layout cfg 0 j)). apply (ST_value _ []); [apply WS_nil|exact Hv|apply ST_end; left; apply WS_nil|intros _; exact I].
  - exists j. split; [reflexivity|]. exists [], (layout cfg 0 j), []. rewrite app_nil_r. splits; [reflexivity|apply WS_nil|exact Hv|left; apply WS_nil].
Qed.

Lemma at_document s j : at_value s (drop_reader (cursor_start [j])) = inr j.
Proof. unfold at_value; cbn; destruct (allow_multiple_top_level s); reflexivity. Qed.

Lemma deserialized_document {V S} (C : code V S) s j evs limit fuel seed a : returns_errors C -> document_input s [j] evs ->
  sem_seed C s limit fuel seed j 0 = Gives a ->
  client_session s evs (around [] (deserialize_with_limit C fuel limit seed) [CConsumeTrailingWhitespace]) = Some ([], DRet (inr a), [OOk RUnit]).
Proof.
  intros HC Hin H0.
  destruct (C45_deserializing_visits_the_data_holds _ _ C s [j] evs [] [CConsumeTrailingWhitespace] limit fuel seed _ j
    HC Hin eq_refl (at_document s j) I) as (os1 & r & os2 & X1 & X2 & X3 & X4).
  rewrite H0 in X3, X4. cbn in X3. subst r. inversion X2; subst. rewrite X1. do 2 f_equal.
  cbn in X4. inversion X4 as [|x o xs os Hx Hrest]; subst. inversion Hrest; subst. cbn in Hx. subst. reflexivity.
Qed.

Lemma deserialized_document_fails {V S} (C : code V S) s j evs limit fuel seed y : returns_errors C -> document_input s [j] evs ->
  sem_seed C s limit fuel seed j 0 = Fails y ->
  exists e os, client_session s evs (around [] (deserialize_with_limit C fuel limit seed) []) = Some ([], DRet (inl e), os) /\ is_failure y e.
Proof.
  intros HC Hin H0.
  destruct (C45_deserializing_visits_the_data_holds _ _ C s [j] evs [] [] limit fuel seed _ j
    HC Hin eq_refl (at_document s j) I) as (os1 & r & os2 & X1 & X2 & X3 & X4).
  rewrite H0 in X3, X4. cbn in X3. destruct X3 as (e & -> & He). inversion X2; subst. exists e, os2. auto.
Qed.


Lemma C48_deserializing_the_data_gives_the_value_holds : forall (types : N -> rty) (t : rty) (v : rval) (j : json) (s : settings) (limit : N),
  has_type types t v -> representable v = true -> value_means (to_sval v) (SpecSer.Gives j) ->
  floats_readable s v -> N.of_nat (nesting j) <= limit ->
  exists enough, forall (fuel : nat) (vs : list json) (evs : list event) (before after : list rcall) (c : cursor),
    (enough <= fuel)%nat -> document_input s vs evs ->
    snd (walk_calls s before (AtCursor (cursor_start vs))) = AtCursor c -> at_value s (drop_reader c) = inr j ->
    match after with CRead _ :: _ => False | _ => True end ->
    exists os1 os2,
      client_session s evs (around before (deserialize_with_limit (derived types) fuel limit (Seed t)) after) = Some (os1, DRet (inr v), os2) /\
      Forall2 (is_result s) (fst (walk_calls s before (AtCursor (cursor_start vs)))) os1 /\
      Forall2 (is_result s) (fst (walk_calls s after (snd (walk_calls s (before ++ [CSkipValue]) (AtCursor (cursor_start vs)))))) os2.
Proof.
  intros types t v j s limit Ht Hr Hm Hf Hn. pose proof (data_of types t v j Ht Hr Hm) as ->.
  destruct (reads_all types s limit v t Ht Hr Hf (Seed t) (fun v => v) 0 eq_refl ltac:(lia)) as [n0 H0].
  exists n0. intros fuel vs evs before after c Hfuel Hd Hb Hat Haf.
  destruct (C45_deserializing_visits_the_data_holds _ _ (derived types) s vs evs before after limit fuel (Seed t) c (json_of v) (derived_returns_errors types) Hd Hb Hat Haf)
    as (os1 & r & os2 & H1 & H2 & H3 & H4).
  rewrite (H0 fuel Hfuel) in H3, H4. cbn in H3. subst r. exists os1, os2. auto.
Qed.

Lemma C48_deserialize_next_gives_the_value_holds : forall (types : N -> rty) (t : rty) (v : rval) (j : json) (s : settings),
  has_type types t v -> representable v = true -> value_means (to_sval v) (SpecSer.Gives j) ->
  floats_readable s v -> N.of_nat (nesting j) <= 128 ->
  exists enough, forall (fuel : nat) (vs : list json) (evs : list event) (before after : list rcall) (c : cursor),
    (enough <= fuel)%nat -> document_input s vs evs ->
    snd (walk_calls s before (AtCursor (cursor_start vs))) = AtCursor c -> at_value s (drop_reader c) = inr j ->
    match after with CRead _ :: _ => False | _ => True end ->
    exists os1 os2,
      client_session s evs (around before (deserialize_next (derived types) fuel (Seed t)) after) = Some (os1, DRet (inr v), os2) /\
      Forall2 (is_result s) (fst (walk_calls s before (AtCursor (cursor_start vs)))) os1 /\
      Forall2 (is_result s) (fst (walk_calls s after (snd (walk_calls s (before ++ [CSkipValue]) (AtCursor (cursor_start vs)))))) os2.
Proof.
  intros types t v j s Ht Hr Hm Hf Hn. pose proof (data_of types t v j Ht Hr Hm) as ->.
  destruct (reads_all types s 128 v t Ht Hr Hf (Seed t) (fun v => v) 0 eq_refl ltac:(lia)) as [n0 H0].
  exists n0. intros fuel vs evs before after c Hfuel Hd Hb Hat Haf.
  destruct (C45_deserialize_next_visits_the_data_holds _ _ (derived types) s vs evs before after fuel (Seed t) c (json_of v) (derived_returns_errors types) Hd Hb Hat Haf)
    as (os1 & r & os2 & H1 & H2 & H3 & H4).
  rewrite (H0 fuel Hfuel) in H3, H4. cbn in H3. subst r. exists os1, os2. auto.
Qed.

Lemma C48_serde_round_trip_holds : forall (types : N -> rty) (t : rty) (v : rval) (cfg : wsettings) (out : sink) (s : settings) (limit : N),
  has_type types t v -> representable v = true -> received out = [] -> reliable out ->
  exists j out', value_means (to_sval v) (SpecSer.Gives j) /\
    serialize_between cfg out [] (to_sval v) [] = ([], ERet (SrOk tt), [], RDone, out') /\
    (floats_readable s v -> N.of_nat (nesting j) <= limit -> within_limit s [j] ->
     exists enough, forall (fuel : nat) (evs : list event), (enough <= fuel)%nat -> supplied evs = (received out', TEof) ->
       client_session s evs (around [] (deserialize_with_limit (derived types) fuel limit (Seed t)) [CConsumeTrailingWhitespace]) =
         Some ([], DRet (inr v), [OOk RUnit])).
Proof.
  intros types t v cfg out s limit Ht Hr Ho Hrel. pose proof (json_of_means v Hr) as Hm.
  destruct (serialized_input cfg out _ _ Ho Hrel (typed_valid types v t Ht) Hm (wf_of types v t Ht Hr)) as (out' & E & Hin).
  exists (json_of v), out'. splits; [exact Hm|exact E|].
  intros Hf Hn Hl.
  destruct (reads_all types s limit v t Ht Hr Hf (Seed t) (fun v => v) 0 eq_refl ltac:(lia)) as [n0 H0].
  exists n0. intros fuel evs Hfuel Hev. eapply deserialized_document; [apply derived_returns_errors|apply Hin; assumption|apply H0, Hfuel].
Qed.

Lemma C48_some_of_null_refuted_holds : exists (types : N -> rty) (t : rty) (v v' : rval) (cfg : wsettings) (out out' : sink),
  has_type types t v /\ v' <> v /\ received out = [] /\ reliable out /\
  serialize_between cfg out [] (to_sval v) [] = ([], ERet (SrOk tt), [], RDone, out') /\
  forall s limit fuel evs, (5 <= fuel)%nat -> supplied evs = (received out', TEof) ->
    client_session s evs (around [] (deserialize_with_limit (derived types) fuel limit (Seed t)) [CConsumeTrailingWhitespace]) =
      Some ([], DRet (inr v'), [OOk RUnit]).
Proof.
  set (v := RvSome RvNone).
  assert (Ht : has_type (fun _ => TyUnit) (TyOption (TyOption TyBool)) v) by (constructor; constructor).
  destruct (serialized_input (WSettings false true true None) (Sink [] [] [] 0) (to_sval v) JNull eq_refl (conj (Forall_nil _) (Forall_nil _))
    (typed_valid _ _ _ Ht) (VM_some _ _ VM_none) I) as (out' & E & Hin).
  exists (fun _ => TyUnit), (TyOption (TyOption TyBool)), v, RvNone, (WSettings false true true None), (Sink [] [] [] 0), out'.
  splits; [exact Ht|discriminate|reflexivity|constructor; constructor|exact E|].
  intros s limit fuel evs Hf Hev. replace fuel with (5 + (fuel - 5))%nat by lia.
  apply (deserialized_document _ s JNull); [apply derived_returns_errors| |reflexivity].
  apply Hin; [exact Hev|]. unfold within_limit. destruct (max_nesting_depth s); [|exact I]. constructor; [apply N.le_0_l|constructor].
Qed.

Lemma C48_long_float_refuted_holds : exists (types : N -> rty) (t : rty) (v : rval) (cfg : wsettings) (out out' : sink),
  has_type types t v /\ representable v = true /\ received out = [] /\ reliable out /\
  serialize_between cfg out [] (to_sval v) [] = ([], ERet (SrOk tt), [], RDone, out') /\
  forall limit fuel evs, (5 <= fuel)%nat -> supplied evs = (received out', TEof) ->
    exists text loc os, client_session default_settings evs (around [] (deserialize_with_limit (derived types) fuel limit (Seed t)) []) =
      Some ([], DRet (inl (DeReader (EUnsupportedNumber text loc))), os).
Proof.
  set (text := 0x31 :: repeat 0x30 100).
  assert (Hn : number_text text).
  { exists 0%nat, [], text, [], []. rewrite !app_nil_r. splits; auto; try (left; auto; fail). right. exists 0x31, (repeat 0x30 100).
    splits; [reflexivity|discriminate|discriminate|]. apply Forall_forall. intros b Hb. apply repeat_spec in Hb. subst b. unfold digit. lia. }
  assert (Ht : has_type (fun _ => TyUnit) (TyFloat F64) (RvFloat text)) by (constructor; exact Hn).
  destruct (serialized_input (WSettings false true true None) (Sink [] [] [] 0) (to_sval (RvFloat text)) (json_of (RvFloat text)) eq_refl (conj (Forall_nil _) (Forall_nil _))
    (typed_valid _ _ _ Ht) (json_of_means (RvFloat text) eq_refl) (wf_of _ _ _ Ht eq_refl)) as (out' & E & Hin).
  exists (fun _ => TyUnit), (TyFloat F64), (RvFloat text), (WSettings false true true None), (Sink [] [] [] 0), out'.
  splits; [exact Ht|reflexivity|reflexivity|constructor; constructor|exact E|].
  intros limit fuel evs Hf Hev. replace fuel with (5 + (fuel - 5))%nat by lia.
  assert (Hw : within_limit default_settings [json_of (RvFloat text)]) by (constructor; [discriminate|constructor]).
  destruct (deserialized_document_fails (derived (fun _ => TyUnit)) default_settings (json_of (RvFloat text)) evs limit (5 + (fuel - 5)) (Seed (TyFloat F64)) (FUnsupportedNumber text)
    (derived_returns_errors _) (Hin _ _ Hev Hw) eq_refl) as (e & os & H1 & loc & ->).
  eauto.
Qed.
