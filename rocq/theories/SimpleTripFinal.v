(** * Proofs of the property theorems about writing and reading with the simple API *)

From Verif Require Import Base Utf8Model SpecNumber SpecJson WriterModel SpecWriter WriterRun SimpleWriterModel SpecSimpleWriter SimpleWriterFinal.
From Verif Require Import SourceModel ReaderModel SpecCursor SpecRead GrammarFacts SimpleModel SpecSimple SimpleFinal SpecSimpleTrip SpecTypes RoundTrip RoundTrip2 SerdeFinal.
From Verif Require DeModel SpecDe SerModel SpecSer.


Lemma written_input cfg s v evs : wf_json v -> supplied evs = (layout cfg 0 v, TEof) -> within_limit s [v] -> document_input s [v] evs.
Proof.
  intros Hwf Hev Hl. split; [rewrite Hev; reflexivity|]. split; [|exact Hl]. rewrite Hev. unfold input_text. cbn [fst].
  pose proof (layout_value (syntax_of s) cfg v Hwf 0) as Hv. destruct (allow_multiple_top_level s).
  - split; [discriminate|]. rewrite <- (app_nil_r (layout cfg 0 v)). apply (ST_value _ []); [apply WS_nil|exact Hv|apply ST_end; left; apply WS_nil|intros _; exact I].
  - exists v. split; [reflexivity|]. exists [], (layout cfg 0 v), []. rewrite app_nil_r. split; [reflexivity|]. split; [apply WS_nil|]. split; [exact Hv|left; apply WS_nil].
Qed.

Lemma tree_returns_errors : forall depth t, returns_errors_op (tree_op depth t).
Proof.
  induction depth as [|d IH]; intros []; cbn [tree_op returns_errors_op]; try exact I; intros; cbn [tree_body returns_errors_body];
    intros [e|t]; cbn [returns_errors_body]; try exact I; split; auto; intros [?|?]; exact I.
Qed.


Lemma each_items s depth (items : list json) : 
  Forall (fun v => exists x, sem_op s (tree_op depth (json_type v)) v = Gives x /\ tree_value (json_type v) x = v) items ->
  forall done, sem_each (fun r' u => sem_any (sem_body s (tree_body (tree_op depth) (add_item r')) (AtSingle u))) items (JArr done) = Gives (JArr (done ++ items)).
Proof.
  induction 1 as [|v items (x & Hx & Hv) _ IH]; intros done; cbn [sem_each].
  - rewrite app_nil_r. reflexivity.
  - cbn [tree_body sem_body sem_value sem_named]. rewrite Hx. cbn [sem_body sem_any]. rewrite Hv. cbn [add_item].
    rewrite IH, <- app_assoc. reflexivity.
Qed.

Lemma each_members s depth (ms : list (str * json)) : 
  Forall (fun m => exists x, sem_op s (tree_op depth (json_type (snd m))) (snd m) = Gives x /\ tree_value (json_type (snd m)) x = snd m) ms ->
  forall done, sem_each (fun r' m => sem_any (sem_body s (tree_body (tree_op depth) (add_member (fst m) r')) (AtSingle (snd m)))) ms (JObj done) = Gives (JObj (done ++ ms)).
Proof.
  induction 1 as [|[n v] ms (x & Hx & Hv) _ IH]; intros done; cbn [sem_each].
  - rewrite app_nil_r. reflexivity.
  - cbn [fst snd] in *. cbn [tree_body sem_body sem_value sem_named]. rewrite Hx. cbn [sem_body sem_any]. rewrite Hv. cbn [add_member].
    rewrite IH, <- app_assoc. reflexivity.
Qed.

Lemma tree_is_read s : forall depth v, (nesting v <= depth)%nat -> readable s v ->
  exists x, sem_op s (tree_op depth (json_type v)) v = Gives x /\ tree_value (json_type v) x = v.
Proof.
  induction depth as [|d IH]; intros [| | | |items|ms] Hn Hs; try (eexists; split; reflexivity).
  1, 4: (cbn; destruct (restrict_number_values s) eqn:Er; cbn [andb]; [|eexists; split; reflexivity];
    specialize (Hs Er); cbn in Hs; inversion Hs as [|? ? Hu _]; rewrite Hu; eexists; split; reflexivity).
  1, 2: cbn [nesting] in Hn; lia.
  - exists (VResult (JArr items)). split; [|reflexivity]. cbn [json_type tree_op sem_op].
    rewrite each_items; [reflexivity|]. cbn [nesting] in Hn. apply Forall_forall. intros v Hin. apply IH.
    + assert (H := proj1 (list_max_le (map nesting items) d) ltac:(lia)). rewrite Forall_map, Forall_forall in H. auto.
    + intros Er. specialize (Hs Er). rewrite Forall_forall in Hs |- *. intros t Ht. apply Hs. cbn [numbers]. apply in_flat_map. exists v. auto.
  - exists (VResult (JObj ms)). split; [|reflexivity]. cbn [json_type tree_op sem_op].
    rewrite each_members; [reflexivity|]. cbn [nesting] in Hn. apply Forall_forall. intros m Hin. apply IH.
    + assert (H := proj1 (list_max_le (map (fun m => nesting (snd m)) ms) d) ltac:(lia)). rewrite Forall_map, Forall_forall in H. exact (H m Hin).
    + intros Er. specialize (Hs Er). rewrite Forall_forall in Hs |- *. intros t Ht. apply Hs. cbn [numbers]. apply in_flat_map. exists m. auto.
Qed.

Lemma C64_closures_get_what_closures_wrote_holds : forall (W R : Type) (cfg : wsettings) (out : sink) (o : wop W) (v : json) (x : option W) (s : settings) (u : use R),
  received out = [] -> reliable out -> valid_wop o -> value_described o v x -> within_limit s [v] -> returns_errors_use u ->
  exists out', simple_write cfg out o = (ERet (x, None), out') /\
    forall evs, supplied evs = (received out', TEof) ->
    exists n, forall fl, (n <= fl)%nat -> ends_with (sem_use s u v) (simple_session fl s evs u).
Proof.
  intros W R cfg out o v x s u Ho Hr Hv Hd Hl Hu.
  destruct (C40_closures_write_their_data_holds W cfg out o v x Ho Hr Hv Hd) as (out' & E & Hrec & _).
  exists out'. split; [exact E|]. intros evs Hev. apply C38_closures_get_the_data_holds; [|exact Hu].
  apply (written_input cfg); [exact (proj1 (described_wf W) o v x Hd Hv)|rewrite Hev, Hrec; reflexivity|exact Hl].
Qed.

Lemma C64_trees_are_read_back_holds : forall (W : Type) (cfg : wsettings) (out : sink) (o : wop W) (v : json) (x : option W) (s : settings) (depth : nat),
  received out = [] -> reliable out -> valid_wop o -> value_described o v x ->
  within_limit s [v] -> readable s v -> (nesting v <= depth)%nat ->
  exists out', simple_write cfg out o = (ERet (x, None), out') /\
    forall evs, supplied evs = (received out', TEof) ->
    exists n, forall fl, (n <= fl)%nat -> simple_session fl s evs (read_tree depth) = SOk (VResult v).
Proof.
  intros W cfg out o v x s depth Ho Hr Hv Hd Hl Hs Hn.
  assert (Hu : returns_errors_use (read_tree depth)).
  { cbn. intros [e|t]; cbn [returns_errors_body]; [exact I|]. split; [apply tree_returns_errors|]. intros [?|?]; exact I. }
  destruct (C64_closures_get_what_closures_wrote_holds W json cfg out o v x s (read_tree depth) Ho Hr Hv Hd Hl Hu) as (out' & E & H).
  exists out'. split; [exact E|]. intros evs Hev. destruct (H evs Hev) as [n Hfl]. exists n. intros fl Hle. specialize (Hfl fl Hle).
  replace (sem_use s (read_tree depth) v) with (Gives (VResult v)) in Hfl; [exact Hfl|].
  destruct (tree_is_read s depth v Hn Hs) as (y & Hy & Ey).
  cbn [read_tree sem_use sem_op lookup]. cbn [tree_body sem_body sem_value sem_named]. rewrite Hy. cbn [sem_body sem_any sem_result]. rewrite Ey. reflexivity.
Qed.

Lemma C64_serialized_values_are_deserialized_holds : forall (W : Type) (types : N -> rty) (t : rty) (v : rval) (cfg : wsettings) (out : sink) (s : settings),
  has_type types t v -> representable v = true -> received out = [] -> reliable out ->
  exists j out', SpecSer.value_means (to_sval v) (SpecSer.Gives j) /\
    @simple_write W cfg out (WSerialize (to_sval v)) = (ERet (None, None), out') /\
    (floats_readable s v -> (nesting j <= 128)%nat -> within_limit s [j] ->
     exists enough, forall fuel evs, (enough <= fuel)%nat -> supplied evs = (received out', TEof) ->
     exists n, forall fl, (n <= fl)%nat ->
       simple_session fl s evs (URead (OpDeserialize (derived types) fuel (Seed t))) = SOk (VResult v)).
Proof.
  intros W types t v cfg out s Ht Hr Ho Hrel. pose proof (json_of_means v Hr) as Hm.
  pose proof (typed_valid types v t Ht) as Hval.
  assert (Hd : @value_described W (WSerialize (to_sval v)) (json_of v) None) by (constructor; exact Hm).
  destruct (C40_closures_write_their_data_holds W cfg out (WSerialize (to_sval v)) (json_of v) None Ho Hrel Hval Hd) as (out' & E & Hrec & _).
  exists (json_of v), out'. split; [exact Hm|]. split; [exact E|]. intros Hf Hn Hl.
  destruct (reads_all types s 128 v t Ht Hr Hf (Seed t) (fun v => v) 0 eq_refl ltac:(lia)) as [n0 H0].
  exists n0. intros fuel evs Hfuel Hev.
  destruct (C38_closures_get_the_data_holds rval s (json_of v) evs (URead (OpDeserialize (derived types) fuel (Seed t)))) as [n Hfl].
  - apply (written_input cfg); [exact (proj1 (described_wf W) (WSerialize (to_sval v)) (json_of v) None Hd Hval)|rewrite Hev, Hrec; reflexivity|exact Hl].
  - cbn. apply derived_returns_errors.
  - exists n. intros fl Hle. specialize (Hfl fl Hle). cbn [sem_use sem_op] in Hfl. rewrite (H0 fuel Hfuel) in Hfl. exact Hfl.
Qed.
