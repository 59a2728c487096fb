(** * Proofs of the property theorems about the serde serializer *)

From Verif Require Import Base Utf8Model Utf8Proofs SpecNumber SpecJson WriterModel SpecWriter WriterSession WriterRun WriterMore WriterFinal
  WClientModel SerModel SpecSer SerRun.

Local Ltac splits := repeat match goal with |- _ /\ _ => split end.


Lemma described_run cfg out cs d : received out = [] -> reliable out -> Forall valid_call cs ->
  describes_all (multi_top_level cfg) empty_doc cs d -> d_string d = None ->
  exists rs s, wrun cfg cs (new_session out) = (rs, s) /\ Forall2 success cs rs /\ sess_ok cfg d s /\ sess_good s.
Proof.
  intros Ho Hr Hv Hd Hs. assert (Hp : string_possible d) by (unfold string_possible; rewrite Hs; discriminate).
  destruct (run_described cfg cs _ _ d (new_session_ok cfg out Ho) Hv Hd Hp (reliable_good out Hr)) as (H1 & H2 & H3).
  destruct (wrun cfg cs (new_session out)) as [rs s]. exists rs, s. auto.
Qed.

Lemma outcome_run cfg out before d v o : received out = [] -> reliable out -> Forall valid_call before ->
  describes_all (multi_top_level cfg) empty_doc before d -> value_allowed (multi_top_level cfg) d -> valid_sval v -> value_means v o ->
  exists rs s x s', wrun cfg before (new_session out) = (rs, s) /\ Forall2 success before rs /\ ser_run cfg (ser_value v) s = (x, s') /\ agrees o x /\
  forall j, o = Gives j -> sess_ok cfg (add_value j d) s' /\ sess_good s'.
Proof.
  intros Ho Hr Hb Hd Ha Hv Hm. destruct (described_run cfg out before d Ho Hr Hb Hd (proj1 Ha)) as (rs & s & E & Hs & Hok & Hg).
  destruct (proj1 (run_means cfg) v o Hm Hv d s Ha Hok (or_intror Hg)) as [H|[H _]]; [|contradiction].
  destruct o as [j|e|]; cbn in H.
  - destruct H as (s' & E' & Hok' & Hg'). exists rs, s, (ERet (SrOk tt)), s'. splits; auto. reflexivity.
    intros j' Ej. injection Ej as <-. auto.
  - destruct H as (s' & E'). exists rs, s, (ERet (SrErr e)), s'. splits; auto. reflexivity. discriminate.
  - destruct H as (s' & E'). exists rs, s, (EPanic Misuse), s'. splits; auto. reflexivity. discriminate.
Qed.

Definition counted_from {A} (i n m : N) (a : A) : outcome A :=
  if i + m <? n then Fails (SeCount n (i + m)) else if n <? i + m then Fails (SeCount n (n + 1)) else Gives a.

Lemma counted_next {A B} i n m (f : A -> B) a : counted_from i n (1 + m) (f a) = map_outcome f (counted_from (i + 1) n m a).
Proof. unfold counted_from. rewrite N.add_assoc. destruct (i + 1 + m <? n); [reflexivity|]. destruct (n <? i + 1 + m); reflexivity. Qed.
Lemma counted_many {A} i n m (a : A) : i = n -> counted_from i n (1 + m) a = Fails (SeCount n (i + 1)).
Proof.
  intros ->. unfold counted_from. rewrite (proj2 (N.ltb_ge (n + (1 + m)) n)) by lia. rewrite (proj2 (N.ltb_lt n (n + (1 + m)))) by lia. reflexivity.
Qed.
Lemma len_cons {A} (a : A) l : N.of_nat (length (a :: l)) = 1 + N.of_nat (length l).
Proof. cbn [length]. lia. Qed.

Lemma some_more n i : i < n -> more_allowed (Some n) i.
Proof. intros H m E. injection E as <-. exact H. Qed.
Lemma some_enough n i : n <= i -> enough (Some n) i.
Proof. intros H m E. injection E as <-. exact H. Qed.

Lemma elems_given vs js : Forall2 (fun v j => value_means v (Gives j)) vs js -> forall n i, i <= n ->
  elems_mean (Some n) i (elems_of vs) (counted_from i n (N.of_nat (length vs)) js).
Proof.
  induction 1 as [|v j vs js Hv _ IH]; intros n i Hi.
  - cbn [elems_of length]. unfold counted_from. rewrite N.add_0_r. destruct (i <? n) eqn:E.
    + apply EM_too_few, N.ltb_lt, E.
    + apply N.ltb_ge in E. rewrite (proj2 (N.ltb_ge n i) Hi). apply EM_end, some_enough, E.
  - rewrite len_cons. cbn [elems_of]. destruct (N.lt_ge_cases i n) as [H|H].
    + rewrite (counted_next i n (N.of_nat (length vs)) (cons j) js). eapply EM_next; [apply some_more, H|exact Hv|]. apply IH. lia.
    + rewrite counted_many by lia. apply EM_too_many; [exact H|reflexivity].
Qed.
Lemma elems_given_free vs js : Forall2 (fun v j => value_means v (Gives j)) vs js -> forall i, elems_mean None i (elems_of vs) (Gives js).
Proof.
  induction 1 as [|v j vs js Hv _ IH]; intros i; cbn [elems_of].
  - apply EM_end. discriminate.
  - apply (EM_next None i v _ j (Gives js)); [discriminate|exact Hv|apply IH].
Qed.

Lemma fields_given (fs : list (str * sval)) ms :
  Forall2 (fun f m => fst m = fst f /\ value_means (snd f) (Gives (snd m))) fs ms -> forall n i, i <= n ->
  fields_mean n i (fields_of fs) (counted_from i n (N.of_nat (length fs)) ms).
Proof.
  induction 1 as [|[key v] [key' j] fs ms [Hk Hv] _ IH]; intros n i Hi.
  - cbn [fields_of length]. unfold counted_from. rewrite N.add_0_r. destruct (i <? n) eqn:E.
    + apply FM_too_few, N.ltb_lt, E.
    + apply N.ltb_ge in E. rewrite (proj2 (N.ltb_ge n i) Hi). apply FM_end, E.
  - cbn [fst snd] in *. subst key'. rewrite len_cons. cbn [fields_of]. destruct (N.lt_ge_cases i n) as [H|H].
    + rewrite (counted_next i n (N.of_nat (length fs)) (cons (key, j)) ms). eapply FM_next; [exact H|exact Hv|]. apply IH. lia.
    + rewrite counted_many by lia. apply FM_too_many; [exact H|reflexivity].
Qed.

Lemma entries_given (es : list (sval * sval)) ms :
  Forall2 (fun e m => key_means (fst e) (Gives (fst m)) /\ value_means (snd e) (Gives (snd m))) es ms -> forall n i, i <= n ->
  entries_mean (Some n) i (entries_then es EnEnd) (counted_from i n (N.of_nat (length es)) ms).
Proof.
  induction 1 as [|[key v] [nm j] es ms [Hk Hv] _ IH]; intros n i Hi.
  - cbn [entries_then length]. unfold counted_from. rewrite N.add_0_r. destruct (i <? n) eqn:E.
    + apply NM_too_few, N.ltb_lt, E.
    + apply N.ltb_ge in E. rewrite (proj2 (N.ltb_ge n i) Hi). apply NM_end, some_enough, E.
  - cbn [fst snd] in *. rewrite len_cons. cbn [entries_then]. destruct (N.lt_ge_cases i n) as [H|H].
    + rewrite (counted_next i n (N.of_nat (length es)) (cons (nm, j)) ms). eapply NM_key; [apply some_more, H|exact Hk|].
      apply NV_value; [exact Hv|]. apply IH. lia.
    + rewrite counted_many by lia. apply NM_too_many; [exact H|reflexivity].
Qed.
(** After entries, if their number is not announced or not exceeded *)
Lemma entries_before (es : list (sval * sval)) ms b :
  Forall2 (fun e m => key_means (fst e) (Gives (fst m)) /\ value_means (snd e) (Gives (snd m))) es ms ->
  forall len i o, (forall n, len = Some n -> i + N.of_nat (length es) <= n) -> entries_mean len (i + N.of_nat (length es)) b o ->
  entries_mean len i (entries_then es b) (map_outcome (app ms) o).
Proof.
  induction 1 as [|[key v] [nm j] es ms [Hk Hv] _ IH]; intros len i o Hl Hb.
  - cbn [length entries_then] in *. rewrite N.add_0_r in Hb. destruct o; exact Hb.
  - cbn [fst snd] in *. rewrite len_cons, N.add_assoc in Hb. cbn [entries_then]. rewrite len_cons in Hl.
    assert (E : map_outcome (app ((nm, j) :: ms)) o = map_outcome (cons (nm, j)) (map_outcome (app ms) o)) by (destruct o; reflexivity). rewrite E.
    eapply NM_key; [|exact Hk|].
    + intros n En. specialize (Hl n En). lia.
    + apply NV_value; [exact Hv|]. apply IH; [|exact Hb]. intros n En. specialize (Hl n En). lia.
Qed.

Lemma counted_json n m (j : json) : counted_from 0 n m j = counted_outcome n m j.
Proof. reflexivity. Qed.
Lemma counted_wrap {A} n m (f : A -> json) a : map_outcome f (counted_from 0 n m a) = counted_outcome n m (f a).
Proof. unfold counted_from, counted_outcome. rewrite N.add_0_l. destruct (m <? n); [reflexivity|]. destruct (n <? m); reflexivity. Qed.

(** Data which has been written has the announced number of elements *)
Lemma elems_exact n i b o : elems_mean (Some n) i b o -> forall js, o = Gives js -> i <= n -> i + N.of_nat (length js) = n.
Proof.
  intros H. remember (Some n) as len. revert Heqlen.
  induction H as [len i He|m i Hi|m i v k e Hi Hk|len i e|len i v k j o Hm _ _ IH|len i v k e e' Hm _ _|len i v k Hm _];
    intros El js E Hi'; try discriminate E; subst len.
  - injection E as <-. specialize (He n eq_refl). cbn. lia.
  - destruct o as [js'| |]; try discriminate. injection E as <-. rewrite len_cons. specialize (IH eq_refl js' eq_refl). specialize (Hm n eq_refl). lia.
Qed.
Lemma fields_exact n i b o : fields_mean n i b o -> forall ms, o = Gives ms -> i <= n -> i + N.of_nat (length ms) = n.
Proof.
  induction 1 as [n i He|m i Hi|m i v k e Hi Hk|len i e|len i key v k j o Hm _ _ IH|len i key v k e e' Hm _ _|len i key v k Hm _];
    intros js E Hi'; try discriminate.
  - injection E as <-. cbn. lia.
  - destruct o as [js'| |]; try discriminate. injection E as <-. rewrite len_cons. specialize (IH js' eq_refl). lia.
Qed.
Lemma entries_exact n b : (forall i o, entries_mean (Some n) i b o -> forall ms, o = Gives ms -> i <= n -> i + N.of_nat (length ms) = n) /\
  (forall i nm o, entry_means (Some n) i nm b o -> forall ms, o = Gives ms -> i < n -> i + N.of_nat (length ms) = n).
Proof.
  revert b. apply (entries_ind2 (fun _ => True) (fun _ => True) (fun b => (forall i o, entries_mean (Some n) i b o -> forall ms, o = Gives ms -> i <= n -> i + N.of_nat (length ms) = n) /\
  (forall i nm o, entry_means (Some n) i nm b o -> forall ms, o = Gives ms -> i < n -> i + N.of_nat (length ms) = n)) (fun _ => True)); try exact (fun _ => I); auto.
  - split; intros i.
    + intros o H ms E Hi. subst o. inversion H as [? ? He| | | | | |]; subst; try discriminate. specialize (He n eq_refl). cbn. lia.
    + intros nm o H ms E Hi. subst o. inversion H; subst; discriminate.
  - intros e. split; intros i.
    + intros o H ms E Hi. subst o. inversion H; subst; discriminate.
    + intros nm o H ms E Hi. subst o. inversion H; subst; discriminate.
  - intros v _ k IH. split; intros i.
    + intros o H ms E Hi. subst o. inversion H; subst.
      match goal with Hm : more_allowed _ _, He : entry_means _ _ _ _ _ |- _ => exact (proj2 (IH None) _ _ _ He ms eq_refl (Hm n eq_refl)) end.
    + intros nm o H ms E Hi. subst o. inversion H; subst; discriminate.
  - intros v _ k IH. split; intros i.
    + intros o H ms E Hi. subst o. inversion H; subst; discriminate.
    + intros nm o H ms E Hi. subst o. inversion H; subst.
      match goal with He : entries_mean _ _ _ ?o, Ho : map_outcome _ ?o = _ |- _ => rename He into Hk; rename Ho into Eo; destruct o as [ms'| |] end; try discriminate.
      injection Eo as <-. rewrite len_cons. pose proof (proj1 (IH None) (i + 1) _ Hk ms' eq_refl). lia.
Qed.

Lemma own_error_det {A} f (o o1 o2 : outcome A) : own_error f o o1 -> own_error f o o2 -> o1 = o2.
Proof. intros H1 H2. destruct H1; inversion H2; subst; congruence. Qed.
Lemma key_det v o1 : key_means v o1 -> forall o2, key_means v o2 -> o1 = o2.
Proof.
  induction 1; intros o2 H2; inversion H2; subst; try reflexivity; auto.
  - f_equal. eapply decimal_inj; eauto.
  - match goal with H : key_means v _ |- _ => specialize (IHkey_means _ H); subst end. eapply own_error_det; eauto.
Qed.
Lemma bytes_det bs ts1 ts2 : Forall2 (fun b t => decimal_text (Z.of_N b) t) bs ts1 -> Forall2 (fun b t => decimal_text (Z.of_N b) t) bs ts2 -> ts1 = ts2.
Proof.
  intros H. revert ts2. induction H as [|b t bs ts H _ IH]; intros ts2 H2; inversion H2; subst; [reflexivity|].
  f_equal; [eapply decimal_inj; eauto|apply IH; assumption].
Qed.

Ltac det_step :=
  match goal with
  | IH : forall o2, value_means ?v o2 -> _ = o2, H : value_means ?v _ |- _ => apply IH in H; try discriminate H; try (injection H as H); subst
  | IH : forall o2, elems_mean ?l ?i ?b o2 -> _ = o2, H : elems_mean ?l ?i ?b _ |- _ => apply IH in H; subst
  | IH : forall o2, entries_mean ?l ?i ?b o2 -> _ = o2, H : entries_mean ?l ?i ?b _ |- _ => apply IH in H; subst
  | IH : forall o2, entry_means ?l ?i ?n ?b o2 -> _ = o2, H : entry_means ?l ?i ?n ?b _ |- _ => apply IH in H; subst
  | IH : forall o2, fields_mean ?l ?i ?b o2 -> _ = o2, H : fields_mean ?l ?i ?b _ |- _ => apply IH in H; subst
  | H1 : key_means ?v _, H2 : key_means ?v _ |- _ => pose proof (key_det _ _ H1 _ H2) as Ek; clear H2; try discriminate Ek; injection Ek as Ek; subst
  | H1 : more_allowed (Some ?n) ?i, H2 : ?n <= ?i |- _ => specialize (H1 n eq_refl); lia
  | H1 : enough (Some ?n) ?i, H2 : ?i < ?n |- _ => specialize (H1 n eq_refl); lia
  end.

Lemma means_det :
  (forall v o, value_means v o -> forall o2, value_means v o2 -> o = o2) /\
  (forall len i b o, elems_mean len i b o -> forall o2, elems_mean len i b o2 -> o = o2) /\
  (forall len i b o, entries_mean len i b o -> forall o2, entries_mean len i b o2 -> o = o2) /\
  (forall len i n b o, entry_means len i n b o -> forall o2, entry_means len i n b o2 -> o = o2) /\
  (forall len i b o, fields_mean len i b o -> forall o2, fields_mean len i b o2 -> o = o2).
Proof.
  apply means_ind; intros;
    match goal with
    | H : value_means ?v ?o |- _ = ?o => inversion H; subst
    | H : elems_mean _ _ _ ?o |- _ = ?o => inversion H; subst
    | H : entries_mean _ _ _ ?o |- _ = ?o => inversion H; subst
    | H : entry_means _ _ _ _ ?o |- _ = ?o => inversion H; subst
    | H : fields_mean _ _ _ ?o |- _ = ?o => inversion H; subst
    end; repeat det_step; try reflexivity; try congruence; try lia; auto.
  all: try (eapply own_error_det; eassumption).
  - f_equal. f_equal. eapply decimal_inj; eauto.
  - do 3 f_equal. eapply bytes_det; eauto.
Qed.


Lemma C42_serializer_writes_the_data_holds : forall (cfg : wsettings) (out : sink) (before after : list wcall) (d d' : wdoc) (v : sval) (j : json),
  received out = [] -> reliable out -> Forall valid_call before -> Forall valid_call after -> valid_sval v ->
  value_means v (Gives j) ->
  describes_all (multi_top_level cfg) empty_doc before d -> value_allowed (multi_top_level cfg) d ->
  describes_all (multi_top_level cfg) (add_value j d) after d' -> complete d' ->
  exists rs1 rs2 out', serialize_between cfg out before v after = (rs1, ERet (SrOk tt), rs2, RDone, out') /\
    Forall2 success before rs1 /\ Forall2 success after rs2 /\ received out' = documents_layout cfg (d_top d').
Proof.
  intros cfg out before after d d' v j Ho Hr Hb Haf Hv Hm Hd Ha Hd' Hc.
  destruct (outcome_run cfg out before d v (Gives j) Ho Hr Hb Hd Ha Hv Hm) as (rs & s & x & s1 & E & Hs & E1 & Hx & Hj).
  destruct (Hj j eq_refl) as [Hok Hg]. cbn in Hx. subst x.
  destruct (run_described cfg after _ _ d' Hok Haf Hd' (complete_possible d' Hc) Hg) as (H1 & H2 & H3).
  unfold serialize_between. rewrite E, E1. destruct (wrun cfg after s1) as [rs2 s2]. cbn [fst snd] in *.
  destruct (wfinish_ok cfg _ s2 H2) as [(_ & [(o & E2 & Hl & _)|(e & o & E2 & _ & Hbad & _)])|(Hx & _)].
  - rewrite E2. exists rs, rs2, o. auto.
  - contradiction.
  - contradiction.
Qed.

Lemma C42_result_is_the_meaning_holds : forall (cfg : wsettings) (out : sink) (before : list wcall) (d : wdoc) (v : sval) (o : outcome json),
  received out = [] -> reliable out -> Forall valid_call before -> valid_sval v ->
  describes_all (multi_top_level cfg) empty_doc before d -> value_allowed (multi_top_level cfg) d ->
  value_means v o ->
  exists rs s x s', wrun cfg before (new_session out) = (rs, s) /\ ser_run cfg (ser_value v) s = (x, s') /\ agrees o x.
Proof.
  intros cfg out before d v o Ho Hr Hb Hv Hd Ha Hm.
  destruct (outcome_run cfg out before d v o Ho Hr Hb Hd Ha Hv Hm) as (rs & s & x & s1 & E & Hs & E1 & Hx & _). eauto 8.
Qed.

Lemma C42_success_means_written_holds : forall (cfg : wsettings) (out out' : sink) (before after : list wcall) (v : sval) (rs1 rs2 : list wresult),
  received out = [] -> Forall valid_call before -> Forall valid_call after -> valid_sval v -> careful v ->
  serialize_between cfg out before v after = (rs1, ERet (SrOk tt), rs2, RDone, out') ->
  Forall2 success before rs1 -> Forall2 success after rs2 ->
  exists d j d', describes_all (multi_top_level cfg) empty_doc before d /\ value_means v (Gives j) /\
    describes_all (multi_top_level cfg) (add_value j d) after d' /\ complete d' /\ received out' = documents_layout cfg (d_top d').
Proof.
  intros cfg out out' before after v rs1 rs2 Ho Hb Haf Hv Hcv E H1 H2. unfold serialize_between in E.
  destruct (wrun cfg before (new_session out)) as [r1 s1] eqn:E1. destruct (ser_run cfg (ser_value v) s1) as [x s2] eqn:E2.
  destruct (wrun cfg after s2) as [r2 s3] eqn:E3. destruct (wfinish s3) as [r o] eqn:E4. injection E as -> -> -> -> ->.
  assert (Hnb : ~ blocked cfg s1).
  { intros Hbl. apply (blocked_not_done cfg v Hv s1 Hbl). rewrite E2. reflexivity. }
  destruct (all_success_sess cfg out before rs1 s1 Ho Hb E1 H1) as [Hab|(d & Hd & Hok)].
  { contradiction Hnb. apply abandoned_blocked, Hab. }
  destruct (value_allowed_dec (multi_top_level cfg) d) as [Ha|Ha]; [|contradiction Hnb; eapply not_allowed_blocked; eauto].
  destruct (proj1 means_total v Hcv) as (o & Hm).
  destruct (proj1 (run_means cfg) v o Hm Hv d s1 Ha Hok (or_introl Hcv)) as [H|(_ & e & s' & H)]; [|congruence].
  destruct o as [j|e|]; cbn in H; [|destruct H as (s' & H); congruence|destruct H as (s' & H); congruence].
  destruct H as (s' & E' & Hok' & _). rewrite E2 in E'. injection E' as <-.
  destruct (run_sound cfg after _ _ rs2 s3 Hok' Haf E3 H2) as [Hab|(d' & Hd' & Hok3)].
  { rewrite (wfinish_abandoned s3 Hab) in E4. discriminate. }
  exists d, j, d'. destruct (wfinish_ok cfg d' s3 Hok3) as [(Hc & [(o' & E & Hl & _)|(e & o' & E & _)])|(_ & E)]; rewrite E in E4; try discriminate.
  injection E4 as ->. auto.
Qed.

Lemma C42_result_with_failing_sink_holds : forall (cfg : wsettings) (out : sink) (before : list wcall) (d : wdoc) (v : sval) (rs : list wresult) (s : wsession),
  received out = [] -> Forall valid_call before -> valid_sval v -> careful v ->
  wrun cfg before (new_session out) = (rs, s) -> Forall2 success before rs ->
  describes_all (multi_top_level cfg) empty_doc before d -> value_allowed (multi_top_level cfg) d ->
  exists o, value_means v o /\ (forall o', value_means v o' -> o' = o) /\
    (agrees o (fst (ser_run cfg (ser_value v) s)) \/ (~ reliable out /\ exists e, fst (ser_run cfg (ser_value v) s) = ERet (SrErr e))).
Proof.
  intros cfg out before d v rs s Ho Hb Hv Hc E Hs Hd Ha. destruct (proj1 means_total v Hc) as (o & Hm). exists o. split; [exact Hm|].
  split; [intros o' Hm'; exact (proj1 means_det v o' Hm' o Hm)|].
  assert (Hok : sess_ok cfg d s).
  { destruct (all_success_sess cfg out before rs s Ho Hb E Hs) as [Hab|(d' & Hd' & Hok)].
    - exfalso. pose proof (C13_panics_exactly_for_misuse_holds cfg out before rs s d CNull Ho Hb I E Hs Hd) as (Hx & _).
      destruct (abandoned_step cfg s CNull Hab I) as [E1|[E1|E1]]; rewrite E1 in Hx; cbn in Hx.
      + destruct Hx as [Hx _]. exact (Hx eq_refl Ha).
      + cbn [wstep] in E1. unfold json_call in E1. destruct (null_value cfg (ws_writer s)) as [[| | |] ?]; discriminate E1.
      + cbn [wstep] in E1. unfold json_call in E1. destruct (null_value cfg (ws_writer s)) as [[| | |] ?]; discriminate E1.
    - rewrite (describes_all_det _ _ _ _ _ Hd Hd'). exact Hok. }
  destruct (proj1 (run_means cfg) v o Hm Hv d s Ha Hok (or_introl Hc)) as [H|(Hg & e & s' & H)].
  - left. destruct o as [j|e|]; cbn in H; [destruct H as (s' & -> & _)|destruct H as (s' & ->)|destruct H as (s' & ->)]; reflexivity.
  - right. split; [|rewrite H; exists e; reflexivity]. intros Hr. apply Hg.
    destruct (described_run cfg out before d Ho Hr Hb Hd (proj1 Ha)) as (rs' & s2 & E2 & _ & _ & Hg2). rewrite E in E2. injection E2 as _ <-. exact Hg2.
Qed.

Lemma C43_number_of_elements_holds : forall (cfg : wsettings) (out : sink) (before : list wcall) (d : wdoc) (v : sval) (n : N) (vs : list sval) (wrap : list json -> json) (js : list json),
  received out = [] -> reliable out -> Forall valid_call before -> valid_sval v ->
  describes_all (multi_top_level cfg) empty_doc before d -> value_allowed (multi_top_level cfg) d ->
  announces_elements v n (elems_of vs) wrap ->
  Forall2 (fun v j => value_means v (Gives j)) vs js ->
  value_means v (counted_outcome n (N.of_nat (length vs)) (wrap js)) /\
  exists rs s x s', wrun cfg before (new_session out) = (rs, s) /\ ser_run cfg (ser_value v) s = (x, s') /\
    agrees (counted_outcome n (N.of_nat (length vs)) (wrap js)) x.
Proof.
  intros cfg out before d v n vs wrap js Ho Hr Hb Hv Hd Ha Hn Hj.
  assert (Hm : value_means v (counted_outcome n (N.of_nat (length vs)) (wrap js))).
  { pose proof (elems_given vs js Hj n 0 (N.le_0_l n)) as He. remember (elems_of vs) as b eqn:Eb. rewrite <- counted_wrap. destruct Hn; constructor; exact He. }
  split; [exact Hm|]. exact (C42_result_is_the_meaning_holds cfg out before d v _ Ho Hr Hb Hv Hd Ha Hm).
Qed.

Lemma C43_number_of_fields_holds : forall (cfg : wsettings) (out : sink) (before : list wcall) (d : wdoc) (v : sval) (n : N) (fs : list (str * sval)) (wrap : list (str * json) -> json)
    (ms : list (str * json)),
  received out = [] -> reliable out -> Forall valid_call before -> valid_sval v ->
  describes_all (multi_top_level cfg) empty_doc before d -> value_allowed (multi_top_level cfg) d ->
  announces_fields v n (fields_of fs) wrap ->
  Forall2 (fun f m => fst m = fst f /\ value_means (snd f) (Gives (snd m))) fs ms ->
  value_means v (counted_outcome n (N.of_nat (length fs)) (wrap ms)) /\
  exists rs s x s', wrun cfg before (new_session out) = (rs, s) /\ ser_run cfg (ser_value v) s = (x, s') /\
    agrees (counted_outcome n (N.of_nat (length fs)) (wrap ms)) x.
Proof.
  intros cfg out before d v n fs wrap ms Ho Hr Hb Hv Hd Ha Hn Hj.
  assert (Hm : value_means v (counted_outcome n (N.of_nat (length fs)) (wrap ms))).
  { pose proof (fields_given fs ms Hj n 0 (N.le_0_l n)) as He. remember (fields_of fs) as b eqn:Eb. rewrite <- counted_wrap. destruct Hn; constructor; exact He. }
  split; [exact Hm|]. exact (C42_result_is_the_meaning_holds cfg out before d v _ Ho Hr Hb Hv Hd Ha Hm).
Qed.

Lemma C43_number_of_entries_holds : forall (cfg : wsettings) (out : sink) (before : list wcall) (d : wdoc) (v : sval) (n : N) (es : list (sval * sval)) (wrap : list (str * json) -> json)
    (ms : list (str * json)),
  received out = [] -> reliable out -> Forall valid_call before -> valid_sval v ->
  describes_all (multi_top_level cfg) empty_doc before d -> value_allowed (multi_top_level cfg) d ->
  announces_entries v n (entries_then es EnEnd) wrap ->
  Forall2 (fun e m => key_means (fst e) (Gives (fst m)) /\ value_means (snd e) (Gives (snd m))) es ms ->
  value_means v (counted_outcome n (N.of_nat (length es)) (wrap ms)) /\
  exists rs s x s', wrun cfg before (new_session out) = (rs, s) /\ ser_run cfg (ser_value v) s = (x, s') /\
    agrees (counted_outcome n (N.of_nat (length es)) (wrap ms)) x.
Proof.
  intros cfg out before d v n es wrap ms Ho Hr Hb Hv Hd Ha Hn Hj.
  assert (Hm : value_means v (counted_outcome n (N.of_nat (length es)) (wrap ms))).
  { pose proof (entries_given es ms Hj n 0 (N.le_0_l n)) as He. remember (entries_then es EnEnd) as b eqn:Eb. rewrite <- counted_wrap. destruct Hn; constructor; exact He. }
  split; [exact Hm|]. exact (C42_result_is_the_meaning_holds cfg out before d v _ Ho Hr Hb Hv Hd Ha Hm).
Qed.

Lemma C43_success_means_announced_number_holds : forall (cfg : wsettings) (out out' : sink) (before after : list wcall) (v : sval) (n : N) (rs1 rs2 : list wresult),
  received out = [] -> Forall valid_call before -> Forall valid_call after -> valid_sval v -> careful v ->
  serialize_between cfg out before v after = (rs1, ERet (SrOk tt), rs2, RDone, out') ->
  Forall2 success before rs1 -> Forall2 success after rs2 ->
  (forall b wrap, announces_elements v n b wrap -> exists js, value_means v (Gives (wrap js)) /\ N.of_nat (length js) = n) /\
  (forall b wrap, announces_entries v n b wrap -> exists ms, value_means v (Gives (wrap ms)) /\ N.of_nat (length ms) = n) /\
  (forall b wrap, announces_fields v n b wrap -> exists ms, value_means v (Gives (wrap ms)) /\ N.of_nat (length ms) = n).
Proof.
  intros cfg out out' before after v n rs1 rs2 Ho Hb Haf Hv Hcv E H1 H2.
  destruct (C42_success_means_written_holds cfg out out' before after v rs1 rs2 Ho Hb Haf Hv Hcv E H1 H2) as (d & j & d' & _ & Hm & _). clear -Hm.
  splits; intros b wrap Hn; destruct Hn; inversion Hm as [| | | | | | | | | | | | | | | | | | | | | |]; subst;
    match goal with Ho : map_outcome _ ?o = _ |- _ => destruct o as [js| |]; try discriminate Ho; cbn [map_outcome] in Ho; injection Ho as <- end;
    exists js; (split; [exact Hm|]).
  all: match goal with
    | He : elems_mean _ _ _ _ |- _ => apply (elems_exact n 0 b _ He js eq_refl (N.le_0_l n))
    | He : entries_mean _ _ _ _ |- _ => apply (proj1 (entries_exact n b) 0 _ He js eq_refl (N.le_0_l n))
    | He : fields_mean _ _ _ _ |- _ => apply (fields_exact n 0 b _ He js eq_refl (N.le_0_l n))
    end.
Qed.

Lemma C44_map_is_written_as_object_holds : forall (cfg : wsettings) (out : sink) (es : list (sval * sval)) (ms : list (str * json)) (len : option N),
  received out = [] -> reliable out -> valid_sval (SvMap len (entries_then es EnEnd)) ->
  len = None \/ len = Some (N.of_nat (length es)) ->
  Forall2 (fun e m => key_means (fst e) (Gives (fst m)) /\ value_means (snd e) (Gives (snd m))) es ms ->
  exists out', serialize_between cfg out [] (SvMap len (entries_then es EnEnd)) [] = ([], ERet (SrOk tt), [], RDone, out') /\
    received out' = layout cfg 0 (JObj ms).
Proof.
  intros cfg out es ms len Ho Hr Hv Hl Hj.
  assert (Hm : value_means (SvMap len (entries_then es EnEnd)) (Gives (JObj ms))).
  { apply (VM_map len _ (Gives ms)). rewrite <- (app_nil_r ms). apply (entries_before es ms EnEnd Hj len 0 (Gives [])).
    - intros n E. destruct Hl as [Hl|Hl]; [congruence|]. rewrite Hl in E. injection E as <-. lia.
    - apply NM_end. intros n E. destruct Hl as [Hl|Hl]; [congruence|]. rewrite Hl in E. injection E as <-. lia. }
  assert (Ha : value_allowed (multi_top_level cfg) empty_doc) by (split; [reflexivity|left; reflexivity]).
  assert (Hc : complete (add_value (JObj ms) empty_doc)) by (unfold complete; splits; [reflexivity|reflexivity|discriminate]).
  destruct (C42_serializer_writes_the_data_holds cfg out [] [] empty_doc _ _ _ Ho Hr (Forall_nil _) (Forall_nil _) Hv Hm (DA_nil _ _) Ha (DA_nil _ _) Hc)
    as (rs1 & rs2 & out' & E & H1 & H2 & Hd).
  inversion H1; subst. inversion H2; subst. exists out'. split; [exact E|]. exact Hd.
Qed.

Lemma C44_unsuitable_key_is_an_error_holds : forall (cfg : wsettings) (out : sink) (before : list wcall) (d : wdoc) (len : option N) (es : list (sval * sval)) (ms : list (str * json))
    (key v : sval) (rest : list (sval * sval)) (e : serr),
  received out = [] -> reliable out -> Forall valid_call before -> valid_sval (SvMap len (entries_then (es ++ (key, v) :: rest) EnEnd)) ->
  describes_all (multi_top_level cfg) empty_doc before d -> value_allowed (multi_top_level cfg) d ->
  len = None \/ len = Some (N.of_nat (length (es ++ (key, v) :: rest))) ->
  Forall2 (fun e m => key_means (fst e) (Gives (fst m)) /\ value_means (snd e) (Gives (snd m))) es ms ->
  key_means key (Fails e) ->
  exists rs s s', wrun cfg before (new_session out) = (rs, s) /\
    ser_run cfg (ser_value (SvMap len (entries_then (es ++ (key, v) :: rest) EnEnd))) s = (ERet (SrErr e), s').
Proof.
  intros cfg out before d len es ms key v rest e Ho Hr Hb Hv Hd Ha Hl Hj Hk.
  assert (Hm : value_means (SvMap len (entries_then (es ++ (key, v) :: rest) EnEnd)) (Fails e)).
  { apply (VM_map len _ (Fails e)).
    assert (Ee : forall b, entries_then (es ++ (key, v) :: rest) b = entries_then es (entries_then ((key, v) :: rest) b) /\ True).
    { clear. intros b. split; [|exact I]. induction es as [|[k w] es IH]; [reflexivity|].
      change (entries_then (((k, w) :: es) ++ (key, v) :: rest) b) with
        (EnKey k (fun r => match r with None => EnValue w (fun r => match r with None => entries_then (es ++ (key, v) :: rest) b | Some e => EnAbort e end)
                                        | Some e => EnAbort e end)).
      rewrite IH. reflexivity. }
    rewrite (proj1 (Ee EnEnd)). apply (entries_before es ms _ Hj len 0 (Fails e)).
    - intros n E. destruct Hl as [Hl|Hl]; [congruence|]. rewrite Hl, app_length in E. injection E as <-. cbn [length]. lia.
    - cbn [entries_then]. eapply NM_key_fails; [|exact Hk|reflexivity].
      intros n E. destruct Hl as [Hl|Hl]; [congruence|]. rewrite Hl, app_length in E. injection E as <-. cbn [length]. lia. }
  destruct (C42_result_is_the_meaning_holds cfg out before d _ _ Ho Hr Hb Hv Hd Ha Hm) as (rs & s & x & s' & E & E1 & Hx).
  cbn in Hx. subst x. eauto.
Qed.

Lemma C44_key_and_value_alternate_holds : forall (cfg : wsettings) (out : sink) (before : list wcall) (d : wdoc) (len : option N) (es : list (sval * sval)) (ms : list (str * json)) (b : entries),
  received out = [] -> reliable out -> Forall valid_call before -> valid_sval (SvMap len (entries_then es b)) ->
  describes_all (multi_top_level cfg) empty_doc before d -> value_allowed (multi_top_level cfg) d ->
  (forall n, len = Some n -> N.of_nat (length es) < n) ->
  Forall2 (fun e m => key_means (fst e) (Gives (fst m)) /\ value_means (snd e) (Gives (snd m))) es ms ->
  (exists v k, b = EnValue v k) \/
  (exists v k name, b = EnKey v k /\ key_means v (Gives name) /\ (k None = EnEnd \/ exists v' k', k None = EnKey v' k')) ->
  exists rs s s', wrun cfg before (new_session out) = (rs, s) /\
    ser_run cfg (ser_value (SvMap len (entries_then es b))) s = (EPanic Misuse, s').
Proof.
  intros cfg out before d len es ms b Ho Hr Hb Hv Hd Ha Hl Hj Hk.
  assert (Hm : value_means (SvMap len (entries_then es b)) Panics).
  { apply (VM_map len _ Panics). apply (entries_before es ms b Hj len 0 Panics).
    - intros n E. specialize (Hl n E). lia.
    - destruct Hk as [(v & k & ->)|(v & k & name & -> & Hk & Hn)]; [constructor|]. eapply NM_key; [intros n E; specialize (Hl n E); lia|exact Hk|].
      destruct Hn as [->|(v' & k' & ->)]; constructor. }
  destruct (C42_result_is_the_meaning_holds cfg out before d _ _ Ho Hr Hb Hv Hd Ha Hm) as (rs & s & x & s' & E & E1 & Hx).
  cbn in Hx. subst x. eauto.
Qed.
