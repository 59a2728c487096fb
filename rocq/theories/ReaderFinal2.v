(** * Proofs of the property theorems about accepting input and about errors *)

From Verif Require Import Base Utf8Model Utf8Proofs NumberModel SpecNumber SpecJson
  SourceModel SourceProofs ReaderModel ReaderLex ReaderMid ReaderSess ReaderSafe SpecCursor ReaderWalk ReaderBack
  SpecText ReaderErrs SpecRead ReaderCursor GrammarFacts ReaderFinal.


(** From a result to the call at the level of [ReaderMid] *)
Lemma session_at s evs cs1 c cs2 o : Forall is_byte (fst (supplied evs)) ->
  nth_error (read_session s evs (cs1 ++ c :: cs2)) (length cs1) = Some o ->
  let E := Env s (enough_fuel (fst (supplied evs))) in
  exists d, d = snd (d_calls E (snd (supplied evs)) cs1 (DRun (rstate_new s) None (fst (supplied evs)))) /\
  dinv E (fst (supplied evs)) d /\ matches o (fst (d_call E (snd (supplied evs)) c d)).
Proof.
  intros Hb Hn E. eexists. split; [reflexivity|].
  destruct (session_split s evs cs1 (c :: cs2) _ Hb eq_refl) as (Hd & Hm & Hl). fold E in Hd, Hm.
  split; [exact Hd|]. set (d := snd (d_calls _ _ cs1 _)) in *.
  assert (Hh : hd_error (skipn (length cs1) (read_session s evs (cs1 ++ c :: cs2))) = Some o).
  { rewrite <- Hn. clear. generalize (length cs1). induction (read_session s evs (cs1 ++ c :: cs2)) as [|x l IH]; intros [|n]; cbn; auto. }
  destruct (skipn _ _) as [|o' l]; [discriminate|]. injection Hh as ->.
  cbn [d_calls] in Hm. destruct (d_call E (snd (supplied evs)) c d) as [x d1].
  destruct (d_calls E (snd (supplied evs)) cs2 d1). inversion Hm; subst. assumption.
Qed.

Lemma fuel_enough s evs : (length (fst (supplied evs)) < fuel (Env s (enough_fuel (fst (supplied evs)))))%nat.
Proof. cbn. unfold enough_fuel. lia. Qed.

(** Number of results *)
Lemma session_length s evs cs : Forall is_byte (fst (supplied evs)) -> length (read_session s evs cs) = length cs.
Proof.
  intros Hb. destruct (session_split s evs cs [] _ Hb eq_refl) as (_ & _ & H). rewrite app_nil_r in H. exact H.
Qed.

Lemma last_result {A B} (R : A -> B -> Prop) xs x l o : Forall2 R (xs ++ [x]) l -> nth_error l (length xs) = Some o -> R x o.
Proof.
  intros H. apply Forall2_app_inv_l in H as (l1 & l2 & H1 & H2 & ->). apply forall2_length in H1. rewrite H1.
  rewrite nth_error_app2, Nat.sub_diag by lia. inversion H2; subst. cbn. intros [= <-]. assumption.
Qed.

Lemma walk_length s cs : forall w, length (fst (walk_calls s cs w)) = length cs.
Proof.
  induction cs as [|c cs IH]; intros w; cbn [walk_calls]; [reflexivity|]. destruct (walk_call s c w) as [x w1].
  specialize (IH w1). destruct (walk_calls s cs w1). cbn in *. congruence.
Qed.

Lemma walk_st s cs : forall w, st_walk w -> st_walk (snd (walk_calls s cs w)).
Proof.
  induction cs as [|call cs IH]; intros w Hw; cbn [walk_calls]; [exact Hw|].
  assert (H : st_walk (snd (walk_call s call w))).
  { destruct w as [c| |]; cbn [walk_call]; [|exact I|exact I]. apply call_at_st. destruct call; try apply st_drop; exact Hw. }
  destruct (walk_call s call w) as [x w1]. cbn [snd] in H. specialize (IH w1 H). destruct (walk_calls s cs w1). exact IH.
Qed.

Lemma start_single v : single_top (cursor_start [v]).
Proof. unfold single_top. cbn. split; [lia|discriminate]. Qed.

Lemma single_values s vs evs : allow_multiple_top_level s = false -> document_input s vs evs -> exists v, vs = [v].
Proof. intros Hs (_ & H & _). unfold input_text in H. rewrite Hs in H. destruct H as (v & -> & _). eauto. Qed.

(** [consume_trailing_whitespace] at a cursor *)
Lemma consume_at s c : single_top c -> fst (call_at s CConsumeTrailingWhitespace c) = XOk RUnit <->
  frames c = [] /\ started c = true /\ is_reading c = false.
Proof.
  intros [H1 H2]. cbn [call_at]. destruct (is_reading c), (frames c), (started c), (top c); cbn; split; intros H; try discriminate; try tauto;
  try (destruct H as (? & ? & ?); discriminate). specialize (H2 eq_refl). discriminate.
Qed.


Lemma C19_accepted_input_is_a_document_holds : forall (s : settings) (evs : list event) (cs : list rcall), Forall is_byte (fst (supplied evs)) ->
  allow_multiple_top_level s = false ->
  nth_error (read_session s evs (cs ++ [CConsumeTrailingWhitespace])) (length cs) = Some (OOk RUnit) ->
  exists v, document_input s [v] evs /\
    Forall2 (is_result s) (fst (walk_calls s (cs ++ [CConsumeTrailingWhitespace]) (AtCursor (cursor_start [v]))))
      (read_session s evs (cs ++ [CConsumeTrailingWhitespace])).
Proof.
  intros s evs cs Hb Hs Hn. destruct (consumed_document s evs cs Hb (or_introl Hs) Hn) as (vs & H).
  destruct (single_values s vs evs Hs H) as (v & ->). exists v. split; [exact H|]. apply doc_session. exact H.
Qed.

Lemma C19_accepted_input_is_a_sequence_holds : forall (s : settings) (evs : list event) (cs : list rcall), Forall is_byte (fst (supplied evs)) ->
  allow_multiple_top_level s = true ->
  let calls := cs ++ [CHasNext; CConsumeTrailingWhitespace] in
  nth_error (read_session s evs calls) (length cs) = Some (OOk (RBool false)) ->
  nth_error (read_session s evs calls) (S (length cs)) = Some (OOk RUnit) ->
  exists vs, document_input s vs evs /\
    Forall2 (is_result s) (fst (walk_calls s calls (AtCursor (cursor_start vs)))) (read_session s evs calls).
Proof.
  intros s evs cs Hb Hs calls Hn1 Hn2.
  assert (Hc : calls = (cs ++ [CHasNext]) ++ [CConsumeTrailingWhitespace]) by (unfold calls; rewrite <- app_assoc; reflexivity).
  destruct (consumed_document s evs (cs ++ [CHasNext]) Hb) as (vs & H).
  - right. exists cs. split; [reflexivity|]. rewrite <- Hc. exact Hn1.
  - rewrite <- Hc, app_length, Nat.add_1_r. exact Hn2.
  - exists vs. split; [exact H|]. apply doc_session. exact H.
Qed.

Lemma C19_default_settings_accept_only_rfc8259_holds : forall (evs : list event) (cs : list rcall), Forall is_byte (fst (supplied evs)) ->
  nth_error (read_session default_settings evs (cs ++ [CConsumeTrailingWhitespace])) (length cs) = Some (OOk RUnit) ->
  exists v, rfc8259_document v (fst (supplied evs)) /\ snd (supplied evs) = TEof /\ N.of_nat (nesting v) <= 128.
Proof.
  intros evs cs Hb Hn. destruct (consumed_document default_settings evs cs Hb (or_introl eq_refl) Hn) as (vs & H1 & H2 & H3).
  unfold input_text in H2. cbn in H2. destruct H2 as (v & -> & H2). exists v. splits; auto.
  unfold within_limit in H3. cbn in H3. inversion H3; subst. assumption.
Qed.

Lemma C19_skipping_accepts_exactly_the_documents_holds : forall (s : settings) (evs : list event), Forall is_byte (fst (supplied evs)) -> allow_multiple_top_level s = false ->
  read_session s evs [CSkipValue; CConsumeTrailingWhitespace] = [OOk RUnit; OOk RUnit] <->
  exists v, document_input s [v] evs.
Proof.
  intros s evs Hb Hs. split.
  - intros H. destruct (consumed_document s evs [CSkipValue] Hb (or_introl Hs)) as (vs & Hd).
    + cbn [app]. rewrite H. reflexivity.
    + destruct (single_values s vs evs Hs Hd) as (v & ->). exists v. exact Hd.
  - intros (v & Hd). pose proof (doc_session s [v] evs [CSkipValue; CConsumeTrailingWhitespace] Hd) as H. cbn in H.
    apply (results_ok s [RUnit; RUnit]). exact H.
Qed.

Lemma C32_exactly_at_the_end_partial_holds : forall (s : settings) (evs : list event) (cs : list rcall), Forall is_byte (fst (supplied evs)) ->
  allow_multiple_top_level s = false ->
  nth_error (read_session s evs (cs ++ [CConsumeTrailingWhitespace])) (length cs) = Some (OOk RUnit) <->
  exists v c, document_input s [v] evs /\
    snd (walk_calls s cs (AtCursor (cursor_start [v]))) = AtCursor c /\
    frames c = [] /\ started c = true /\ is_reading c = false.
Proof.
  intros s evs cs Hb Hs.
  assert (Hst : forall v c, snd (walk_calls s cs (AtCursor (cursor_start [v]))) = AtCursor c -> single_top (drop_reader c)).
  { intros v c Hc. apply st_drop. pose proof (walk_st s cs (AtCursor (cursor_start [v])) (start_single v)) as H. rewrite Hc in H. exact H. }
  assert (Hdrop : forall c, frames (drop_reader c) = frames c /\ started (drop_reader c) = started c /\ is_reading (drop_reader c) = is_reading c).
  { intros [? ? ? []]; cbn; auto. }
  split.
  - intros Hn. destruct (consumed_document s evs cs Hb (or_introl Hs) Hn) as (vs & Hd).
    destruct (single_values s vs evs Hs Hd) as (v & ->).
    pose proof (doc_session s [v] evs (cs ++ [CConsumeTrailingWhitespace]) Hd) as H. rewrite walk_calls_app in H.
    pose proof (walk_length s cs (AtCursor (cursor_start [v]))) as Hl.
    destruct (walk_calls s cs (AtCursor (cursor_start [v]))) as [xs w] eqn:Ew. cbn [fst] in Hl.
    cbn [walk_calls] in H. destruct (walk_call s CConsumeTrailingWhitespace w) as [x w1] eqn:Ex. cbn [fst] in H.
    rewrite <- Hl in Hn. pose proof (last_result _ _ _ _ _ H Hn) as Hr.
    destruct w as [c| |]; cbn [walk_call] in Ex; [|injection Ex as <- _; discriminate Hr|injection Ex as <- _; discriminate Hr].
    exists v, c. split; [exact Hd|]. rewrite Ew. split; [reflexivity|].
    assert (Hx : x = XOk RUnit).
    { pose proof (call_at_st s CConsumeTrailingWhitespace (drop_reader c) (Hst v c ltac:(rewrite Ew; reflexivity))) as [Hx _].
      cbn [before_call] in Ex. rewrite Ex in Hx. cbn [fst] in Hx.
      destruct x; cbn in Hr; try discriminate Hr; try (destruct Hr as (? & Hr & ?); discriminate Hr); try (destruct Hr as (? & Hr); discriminate Hr).
      - congruence.
      - tauto. }
    assert (Hc : fst (call_at s CConsumeTrailingWhitespace (drop_reader c)) = XOk RUnit) by (cbn [before_call] in Ex; rewrite Ex; exact Hx).
    apply consume_at in Hc; [|apply (Hst v c); rewrite Ew; reflexivity]. destruct (Hdrop c) as (<- & <- & <-). exact Hc.
  - intros (v & c & Hd & Hw & Hc). pose proof (doc_session s [v] evs (cs ++ [CConsumeTrailingWhitespace]) Hd) as H.
    rewrite walk_calls_app in H. pose proof (walk_length s cs (AtCursor (cursor_start [v]))) as Hl. pose proof (Hst v c Hw) as Hsg.
    destruct (walk_calls s cs (AtCursor (cursor_start [v]))) as [xs w]. cbn [fst snd] in *. subst w.
    cbn [walk_calls walk_call before_call] in H. destruct (call_at s CConsumeTrailingWhitespace (drop_reader c)) as [x w1] eqn:Ex.
    assert (Hx : x = XOk RUnit).
    { change x with (fst (x, w1)). rewrite <- Ex. apply consume_at; [exact Hsg|]. destruct (Hdrop c) as (-> & -> & ->). exact Hc. }
    subst x. cbn [fst] in H. rewrite <- Hl.
    apply Forall2_app_inv_l in H as (l1 & l2 & H1 & H2 & ->). apply forall2_length in H1. rewrite H1.
    rewrite nth_error_app2, Nat.sub_diag by lia. inversion H2 as [|? ? ? ? H3 _]; subst. cbn in H3. subst. reflexivity.
Qed.

Lemma C32_otherwise_an_error_partial_holds : forall (s : settings) (evs : list event) (cs : list rcall) (o : outcome), Forall is_byte (fst (supplied evs)) ->
  nth_error (read_session s evs (cs ++ [CConsumeTrailingWhitespace])) (length cs) = Some o ->
  match o with
  | OOk v => v = RUnit
  | OErr (ESyntax _ _) | OErr (EIo _ _) | OPanic Misuse | OStopped | ONotPossible => True
  | _ => False
  end.
Proof.
  intros s evs cs o Hb Hn. destruct (session_at s evs cs _ [] o Hb Hn) as (d & _ & Hd & Hm).
  destruct d as [st rd r|held| | |]; cbn [d_call d_call_run d_call_dead fst] in Hm; try (cbn in Hm; subst o; exact I).
  - unfold d_run_consume in Hm. pose proof (consume_errors (Env s (enough_fuel (fst (supplied evs)))) (snd (supplied evs)) st r) as Hq.
    destruct (d_consume_trailing _ _ st r) as [x s' r'|e s' r'|n| |]; cbn in Hm.
    + subst o. reflexivity.
    + contradiction.
    + subst n. destruct Hm as (e & -> & He). destruct e; cbn in He; try discriminate; exact I.
    + subst o. exact I.
    + contradiction.
  - contradiction.
Qed.

Lemma C32_refuted_after_has_next_holds : exists (s : settings) (evs : list event) (cs : list rcall),
  allow_multiple_top_level s = true /\
  fst (supplied evs) = [0x31; 0x20; 0x5B] /\
  cs = [CNextNumberStr; CHasNext; CConsumeTrailingWhitespace] /\
  read_session s evs cs = [OOk (RStr [0x31]); OOk (RBool true); OOk RUnit].
Proof.
  exists (Settings false false true true (Some 128) true), [EvData [0x31; 0x20; 0x5B]], [CNextNumberStr; CHasNext; CConsumeTrailingWhitespace].
  vm_compute. auto.
Qed.

Lemma C31_errors_of_skip_to_top_level_partial_holds : forall (s : settings) (evs : list event) (cs1 cs2 : list rcall) (o : outcome), Forall is_byte (fst (supplied evs)) ->
  nth_error (read_session s evs (cs1 ++ CSkipToTopLevel :: cs2)) (length cs1) = Some o ->
  match o with
  | OErr (ESyntax _ _) | OErr (EIo _ _) => True
  | OErr (EMaxNestingDepth m _) => max_nesting_depth s = Some m
  | OErr _ => False
  | _ => True
  end.
Proof.
  intros s evs cs1 cs2 o Hb Hn. destruct (session_at s evs cs1 _ cs2 o Hb Hn) as (d & _ & Hd & Hm).
  set (E := Env s (enough_fuel (fst (supplied evs)))) in *.
  destruct d as [st rd r|held| | |]; cbn [d_call d_call_run d_call_dead fst] in Hm; try (cbn in Hm; subst o; exact I); [|contradiction].
  destruct Hd as [Hi Hrd]. destruct (calm_skip_to_top_level E (fst (supplied evs)) (snd (supplied evs)) st r (fuel_enough s evs) Hi) as [Hq _].
  pose proof (errs_skip_to_top_level E (snd (supplied evs)) st r) as He.
  unfold d_run in Hm. destruct (d_skip_to_top_level E (snd (supplied evs)) st r) as [x s' r'|e s' r'|n| |]; cbn in Hm.
  - subst o. exact I.
  - subst o. cbn in Hq. destruct e as [? ?|? ? ?|? ?|k p|? ?|? ?]; try contradiction. cbn in He. destruct He as [_ He]. unfold depth_exceeded in He. cbn [cfg E] in He.
    destruct (max_nesting_depth s) as [m|]; [|discriminate]. destruct (_ <=? _); [|discriminate]. congruence.
  - cbn in Hq. subst n. destruct Hm as (e & -> & He2). destruct e; try discriminate; exact I.
  - subst o. exact I.
  - contradiction.
Qed.

Lemma C31_only_syntax_and_io_errors_without_limit_partial_holds : forall (s : settings) (evs : list event) (cs1 cs2 : list rcall) (e : reader_error), Forall is_byte (fst (supplied evs)) ->
  max_nesting_depth s = None ->
  nth_error (read_session s evs (cs1 ++ CSkipToTopLevel :: cs2)) (length cs1) = Some (OErr e) ->
  (exists k l, e = ESyntax k l) \/ (exists k l, e = EIo k l).
Proof.
  intros s evs cs1 cs2 e Hb Hm Hn. pose proof (C31_errors_of_skip_to_top_level_partial_holds s evs cs1 cs2 _ Hb Hn) as H. cbn in H.
  destruct e; try contradiction; eauto. congruence.
Qed.

Lemma C31_refuted_holds : exists (s : settings) (evs : list event) (m : N) (l : position),
  fst (supplied evs) = [0x5B; 0x5B; 0x31; 0x5D; 0x5D] /\
  read_session s evs [CBeginArray; CSkipToTopLevel] = [OOk RUnit; OErr (EMaxNestingDepth m l)].
Proof.
  eexists (Settings false false false true (Some 1) true), [EvData [0x5B; 0x5B; 0x31; 0x5D; 0x5D]], _, _. vm_compute. split; reflexivity.
Qed.

(** Recoverable errors carry the location of the reader *)
Lemma call_errs E inp t c d e : (length inp < fuel E)%nat -> dinv E inp d ->
  fst (d_call E t c d) = DOut (OErr e) -> exists s' r', inv E inp s' r' /\ err_ok E e s'.
Proof.
  intros Hf Hd He. pose proof (call_good E inp t c d Hf Hd) as Hg.
  assert (H : exists s' rd' r', snd (d_call E t c d) = DRun s' rd' r' /\ err_ok E e s').
  { clear Hg. destruct d as [s rd r|held| | |]; cbn [d_call] in *; try discriminate He.
    2: { destruct c; cbn in He; try discriminate He; destruct held; cbn in He; try discriminate He; destruct path; discriminate He. }
    assert (Hrun : forall A (m : D A) val, errs E (m s r) -> fst (d_run m val s r) = DOut (OErr e) ->
      exists s' rd' r', snd (d_run m val s r) = DRun s' rd' r' /\ err_ok E e s').
    { intros A m val Hm. unfold d_run. destruct (m s r); cbn in *; try discriminate. intros [= <-]. eauto. }
    destruct c; cbn [d_call_run] in *; try (apply Hrun; [|exact He];
      first [ apply errs_peek | apply errs_has_next | apply errs_begin_array | apply errs_end_array | apply errs_begin_object | apply errs_end_object
            | apply errs_next_name | apply errs_skip_name | apply errs_next_string | apply errs_number | apply errs_next_bool | apply errs_next_null
            | apply errs_skip_value | apply errs_seek_to | apply errs_seek_back_pieces | apply errs_skip_to_top_level ]; fail).
    - unfold d_run_reader in *. pose proof (errs_next_string_reader E t s r) as H.
      destruct (d_next_string_reader E t s r); cbn in *; try discriminate He. injection He as ->. eauto.
    - unfold d_run_read in *. destruct rd as [sv|]; [|discriminate]. destruct (d_sv_read E len sv s r) as [[]| |[]| |]; discriminate.
    - discriminate.
    - unfold d_run_consume in *. pose proof (consume_errors E t s r) as H. destruct (d_consume_trailing E t s r); try discriminate. contradiction. }
  destruct H as (s' & rd' & r' & H & Hk). rewrite H in Hg. destruct Hg as [Hi _]. eauto.
Qed.

(** The string reader has failed only if a call has reported it *)
Lemma dead_reported E t cs : forall d h, snd (d_calls E t cs d) = DDead h -> (exists h', d = DDead h') \/ In DReadErr (fst (d_calls E t cs d)).
Proof.
  induction cs as [|c cs IH]; intros d h; cbn [d_calls]; [cbn; intros ->; eauto|].
  destruct (d_call E t c d) as [o d1] eqn:Ec. specialize (IH d1 h). destruct (d_calls E t cs d1) as [os d2]. cbn [fst snd] in *.
  intros H. specialize (IH H). destruct IH as [(h' & ->)|IH]; [|right; right; exact IH].
  destruct d as [s rd r|h2| | |]; [|eauto|discriminate Ec|discriminate Ec|discriminate Ec].
  right. left. cbn [d_call] in Ec. assert (Hr : forall A (m : D A) val, d_run m val s r <> (o, DDead h')).
  { intros A m val. unfold d_run. destruct (m s r); discriminate. }
  destruct c; cbn [d_call_run] in Ec; try (exfalso; eapply Hr; exact Ec).
  - unfold d_run_reader in Ec. destruct (d_next_string_reader E t s r); discriminate.
  - unfold d_run_read in Ec. destruct rd as [sv|]; [|discriminate]. destruct (d_sv_read E len sv s r) as [[]| |[]| |]; try discriminate. congruence.
  - discriminate.
  - unfold d_run_consume in Ec. destruct (d_consume_trailing E t s r); discriminate.
Qed.

Lemma path_depth E inp s r : inv E inp s r -> track_path (cfg E) = true ->
  exists l, json_path s = Some l /\ length l = length (stack s).
Proof.
  intros Hi Ht. pose proof (i_path _ _ _ _ Hi) as H. unfold path_ok in H. destruct (json_path s) as [l|]; [|congruence].
  exists l. split; [reflexivity|]. destruct H as [_ H]. symmetry. eapply forall2_length. exact H.
Qed.

(** Observable facts about [d_peek] followed by another call *)
Lemma begin_start E inp t s r v : (length inp < fuel E)%nat -> inv E inp s r ->
  (exists p, peeked s = Some p /\ type_of p = Some v) -> expects_member_name s = false ->
  d_start E t v true s r = match depth_exceeded E s with
    | Some m => MErr (EMaxNestingDepth m (location s)) s r
    | None => d_start E t v false s r
    end /\ match d_start E t v false s r with MOk _ _ _ => True | _ => False end.
Proof.
  intros Hf Hi (p & Hpk & Hty) Hn.
  assert (Ha : string_reader_active s = false).
  { pose proof (i_peek _ _ _ _ Hi) as H. unfold peek_ok in H. rewrite Hpk in H. apply H. }
  assert (Hm : d_map_peeked p s r = MOk v s r) by (destruct p; cbn in *; try discriminate; injection Hty as <-; reflexivity).
  assert (He : value_type_eqb v v = true) by (destruct v; reflexivity).
  assert (Hs : forall chk, d_start E t v chk s r = match (if chk then depth_exceeded E s else None) with
    | Some m => MErr (EMaxNestingDepth m (location s)) s r
    | None => (d_consume_peeked ;; dret p)%dm s r end).
  { intros chk. unfold d_start, dbind at 1, dget at 1. unfold dbind at 1. rewrite Hn. cbn [dmisuse_if dret].
    unfold dbind at 1, d_peek_internal, dbind at 1. rewrite (peeked_again E t s r p Hpk Ha). cbn [dret].
    unfold dbind at 1. rewrite Hm, He. unfold dbind at 1, dget. destruct (if chk then _ else _); reflexivity. }
  rewrite !Hs. cbn [negb]. split; [destruct (depth_exceeded E s); reflexivity|].
  unfold dbind, d_consume_peeked, dbind, dget. rewrite Hpk. exact I.
Qed.

Lemma d_calls_cons E t c cs d : fst (d_calls E t (c :: cs) d) = fst (d_call E t c d) :: fst (d_calls E t cs (snd (d_call E t c d))).
Proof. cbn [d_calls]. destruct (d_call E t c d) as [o d1]. cbn [fst snd]. destruct (d_calls E t cs d1). reflexivity. Qed.

Lemma depth_within E inp s r m path : inv E inp s r -> max_nesting_depth (cfg E) = Some m ->
  option_map (@rev piece) (json_path s) = Some path -> N.of_nat (length path) <= m.
Proof.
  intros Hi Hm Hp. pose proof (i_path _ _ _ _ Hi) as H. unfold path_ok in H. destruct (json_path s) as [l|]; [|discriminate].
  cbn in Hp. injection Hp as <-. rewrite rev_length. destruct H as [_ H]. apply forall2_length in H.
  pose proof (i_depth _ _ _ _ Hi) as Hd. unfold depth_ok in Hd. rewrite Hm in Hd. lia.
Qed.

(** [begin_array] and [begin_object] after a successful [peek] *)
Lemma begin_after_peek E inp t s r v (c : rcall) sv : (length inp < fuel E)%nat -> inv E inp s r ->
  (exists p, peeked s = Some p /\ type_of p = Some v) -> expects_member_name s = false ->
  (c = CBeginArray /\ v = TArray /\ sv = SArray \/ c = CBeginObject /\ v = TObject /\ sv = SObject) ->
  fst (d_call_run E t c s None r) = match depth_exceeded E s with
    | Some m => DOut (OErr (EMaxNestingDepth m (location s)))
    | None => DOut (OOk RUnit)
    end.
Proof.
  intros Hf Hi Hp Hn Hc. destruct (begin_start E inp t s r v Hf Hi Hp Hn) as [H1 H2].
  destruct Hc as [(-> & -> & ->)|(-> & -> & ->)]; cbn [d_call_run]; unfold d_run;
    [unfold d_begin_array|unfold d_begin_object]; unfold d_on_container_start, dbind; rewrite H1;
    (destruct (depth_exceeded E s); [reflexivity|]); destruct (d_start _ _ _ false s r); try contradiction; reflexivity.
Qed.


Lemma C24_limit_is_never_exceeded_holds : forall (s : settings) (evs : list event) (cs1 cs2 : list rcall) (c : rcall) (o : outcome) (m : N), Forall is_byte (fst (supplied evs)) ->
  max_nesting_depth s = Some m ->
  nth_error (read_session s evs (cs1 ++ c :: cs2)) (length cs1) = Some o ->
  (forall e, ~ In (OReadErr e) (firstn (length cs1) (read_session s evs (cs1 ++ c :: cs2)))) ->
  match o with
  | OOk (RPos p) | OErr (EUnexpectedType _ _ p) | OErr (EUnexpectedStructure _ p) | OErr (EMaxNestingDepth _ p) =>
    forall path, p_path p = Some path -> N.of_nat (length path) <= m
  | _ => True
  end.
Proof.
  intros s evs cs1 cs2 c o m Hb Hm Hn Hno. destruct (session_at s evs cs1 c cs2 o Hb Hn) as (d & Hdd & Hd & Hmt).
  set (E := Env s (enough_fuel (fst (supplied evs)))) in *. set (inp := fst (supplied evs)) in *. set (t := snd (supplied evs)) in *.
  assert (Hf : (length inp < fuel E)%nat) by apply fuel_enough.
  assert (Herr : forall e path, recoverable e = true -> o = OErr e -> p_path (error_position e) = Some path -> N.of_nat (length path) <= m).
  { intros e path Hr -> Hp. assert (Hx : fst (d_call E t c d) = DOut (OErr e)).
    { destruct (fst (d_call E t c d)) as [o'|[n|]| | |]; cbn in Hmt; try congruence.
      - destruct Hmt as (l & [= ->]). discriminate.
      - destruct Hmt as (e' & [= <-] & Ha). apply recoverable_aborting in Ha. congruence.
      - destruct Hmt as (e' & [=] & _).
      - destruct Hmt as (p & [=]).
      - contradiction. }
    destruct (call_errs E inp t c d e Hf Hd Hx) as (s' & r' & Hi & He & _). rewrite He in Hp. exact (depth_within E inp s' r' m path Hi Hm Hp). }
  destruct o as [[| | | | |p]|e| | | | |]; try exact I; try (destruct e; try exact I; intros path Hp; (eapply Herr; [|reflexivity|exact Hp]); reflexivity).
  intros path Hp.
  assert (Hc : fst (d_call E t c d) = DOut (OOk (RPos p))).
  { destruct (fst (d_call E t c d)) as [o'|[n|]| | |] eqn:Ex; cbn in Hmt; try congruence.
    - destruct Hmt as (l & [=]).
    - destruct Hmt as (l & [=] & _).
    - destruct Hmt as (l & [=] & _).
    - exfalso. destruct d as [s1 rd r|h| | |]; cbn [d_call] in Ex; try discriminate Ex.
      + assert (Hr : forall A (x : D A) val, fst (d_run x val s1 r) <> DPos) by (intros A x val; unfold d_run; destruct (x s1 r); discriminate).
        destruct c; cbn [d_call_run] in Ex; try (eapply Hr; exact Ex).
        * unfold d_run_reader in Ex. destruct (d_next_string_reader E t s1 r); discriminate.
        * unfold d_run_read in Ex. destruct rd as [sv|]; [|discriminate]. destruct (d_sv_read E len sv s1 r) as [[]| |[]| |]; discriminate.
        * discriminate.
        * unfold d_run_consume in Ex. destruct (d_consume_trailing E t s1 r); discriminate.
      + symmetry in Hdd. destruct (dead_reported _ _ _ _ _ Hdd) as [(h' & H)|H]; [discriminate|].
        destruct (session_agree s evs (cs1 ++ c :: cs2) (session_no_bug s evs _ Hb)) as (os & st' & a' & _ & Hos & Hall).
        rewrite Hos in Hno. assert (Hds : d_session s evs (cs1 ++ c :: cs2) = d_calls E t (cs1 ++ c :: cs2) (DRun (rstate_new s) None inp)) by reflexivity.
        rewrite Hds, d_calls_app in Hall. cbn [fst] in Hall. apply Forall2_app_inv_r in Hall as (l1 & l2 & H1 & H2 & ->).
        pose proof (forall2_length _ _ _ H1) as Hl. rewrite d_session_length in Hl. rewrite firstn_app, <- Hl, Nat.sub_diag, firstn_all in Hno.
        cbn [firstn] in Hno. rewrite app_nil_r in Hno.
        clear - H H1 Hno. revert H Hno. induction H1 as [|x y l l' Hxy _ IH]; cbn [In]; [tauto|].
        intros [->|H] Hno; [|apply IH; [exact H|]; intros e He; apply (Hno e); right; exact He].
        destruct Hxy as (e & -> & _). apply (Hno (SvError e)). left. reflexivity.
    - contradiction. }
  destruct d as [s1 rd r|h| | |]; cbn [d_call] in Hc; try discriminate Hc.
  2: { destruct c; cbn in Hc; try discriminate Hc; destruct h; cbn in Hc; try discriminate Hc; destruct path0; discriminate Hc. }
  assert (Hr : forall A (x : D A) val, (forall y, val y <> RPos p) -> fst (d_run x val s1 r) <> DOut (OOk (RPos p))).
  { intros A x val Hval. unfold d_run. destruct (x s1 r); cbn; try discriminate. intros [= H]. exact (Hval _ H). }
  destruct c; cbn [d_call_run] in Hc; try (exfalso; eapply Hr; [|exact Hc]; discriminate).
  - unfold d_run_reader in Hc. destruct (d_next_string_reader E t s1 r); discriminate.
  - unfold d_run_read in Hc. destruct rd as [sv|]; [|discriminate]. destruct (d_sv_read E len sv s1 r) as [[]| |[]| |]; discriminate.
  - cbn in Hc. injection Hc as <-. destruct Hd as [Hi _]. destruct include_path; [|discriminate Hp].
    exact (depth_within E inp s1 r m path Hi Hm Hp).
  - unfold d_run_consume in Hc. destruct (d_consume_trailing E t s1 r); discriminate.
Qed.

Lemma C24_reported_only_at_the_limit_holds : forall (s : settings) (evs : list event) (cs1 cs2 : list rcall) (c : rcall) (k : N) (p : position), Forall is_byte (fst (supplied evs)) ->
  nth_error (read_session s evs (cs1 ++ c :: cs2)) (length cs1) = Some (OErr (EMaxNestingDepth k p)) ->
  max_nesting_depth s = Some k /\
  if track_path s then exists path, p_path p = Some path /\ N.of_nat (length path) = k else p_path p = None.
Proof.
  intros s evs cs1 cs2 c k p Hb Hn. destruct (session_at s evs cs1 c cs2 _ Hb Hn) as (d & Hdd & Hd & Hmt).
  set (E := Env s (enough_fuel (fst (supplied evs)))) in *. set (inp := fst (supplied evs)) in *. set (t := snd (supplied evs)) in *.
  assert (Hf : (length inp < fuel E)%nat) by apply fuel_enough.
  assert (Hx : fst (d_call E t c d) = DOut (OErr (EMaxNestingDepth k p))).
  { destruct (fst (d_call E t c d)) as [o'|[n|]| | |]; cbn in Hmt; try congruence.
    - destruct Hmt as (l & [=]).
    - destruct Hmt as (e' & [= <-] & Ha). discriminate Ha.
    - destruct Hmt as (e' & [=] & _).
    - destruct Hmt as (q & [=]).
    - contradiction. }
  destruct (call_errs E inp t c d _ Hf Hd Hx) as (s' & r' & Hi & He & Hk). cbn in He.
  pose proof (i_depth _ _ _ _ Hi) as Hdep. pose proof (i_path _ _ _ _ Hi) as Hpath. unfold depth_ok in Hdep. unfold path_ok in Hpath.
  unfold depth_exceeded in Hk. cbn [cfg E] in *. destruct (max_nesting_depth s) as [m|]; [|discriminate].
  destruct (N.leb_spec m (N.of_nat (length (stack s')))) as [Hle|]; [|discriminate]. injection Hk as ->. split; [reflexivity|].
  subst p. cbn [p_path location current_position]. destruct (json_path s') as [l|]; cbn [option_map].
  - destruct Hpath as [-> Hl]. exists (rev l). split; [reflexivity|]. rewrite rev_length. apply forall2_length in Hl. lia.
  - rewrite Hpath. reflexivity.
Qed.

Lemma C24_limit_is_exact_holds : forall (s : settings) (evs : list event) (cs1 cs2 : list rcall) (os os2 : list outcome) (p : position) (path : list piece) (o : outcome)
    (t : value_type) (c : rcall), Forall is_byte (fst (supplied evs)) ->
  t = TArray /\ c = CBeginArray \/ t = TObject /\ c = CBeginObject ->
  length os = length cs1 -> p_path p = Some path ->
  read_session s evs (cs1 ++ [CPosition true; CPeek; c] ++ cs2) = os ++ [OOk (RPos p); OOk (RType t); o] ++ os2 ->
  match max_nesting_depth s with
  | None => o = OOk RUnit
  | Some m =>
    N.of_nat (length path) < m /\ o = OOk RUnit \/
    N.of_nat (length path) = m /\ exists loc, o = OErr (EMaxNestingDepth m loc) /\ p_path loc = Some path
  end.
Proof.
  intros s evs cs1 cs2 os os2 p path o ty c Hb Hc Hl Hp Hs.
  destruct (session_split s evs cs1 ([CPosition true; CPeek; c] ++ cs2) _ Hb Hs) as (Hd & Hm & _).
  cbv zeta in Hd, Hm. set (E := Env s (enough_fuel (fst (supplied evs)))) in *. set (inp := fst (supplied evs)) in *. set (t := snd (supplied evs)) in *.
  assert (Hf : (length inp < fuel E)%nat) by apply fuel_enough.
  rewrite <- Hl, skipn_app, skipn_all, Nat.sub_diag in Hm. cbn [app skipn] in Hm.
  set (d := snd (d_calls E t cs1 _)) in *. rewrite !d_calls_cons in Hm.
  inversion Hm as [|? ? ? ? M1 Hm2]; subst. inversion Hm2 as [|? ? ? ? M2 Hm3]; subst. inversion Hm3 as [|? ? ? ? M3 _]; subst. clear Hm Hm2 Hm3.
  destruct d as [s1 rd r1|h| | |]; [|cbn in M2; discriminate M2|cbn in M1; discriminate M1|cbn in M1; discriminate M1|contradiction].
  destruct Hd as [Hi _]. pose proof (peek_good E inp t s1 r1 Hf Hi) as Hg. cbn [d_call d_call_run fst snd] in M1, M2, M3. unfold d_run in M2, M3 at 1.
  destruct (d_peek E t s1 r1) as [ty' s2 r2|e s2 r2|n| |]; cbn [fst snd] in M2, M3;
    [|discriminate M2|destruct n; cbn in M2; [destruct M2 as (? & M2)|destruct M2 as (? & M2 & _)]; discriminate M2|discriminate M2|contradiction].
  destruct Hg as (Hi2 & Hs2 & Hn & _ & _ & q & Hq & Hqt).
  destruct Hs2 as (_ & Hn2 & Hst2 & _ & Hjp2). rewrite Hn in Hn2.
  cbn in M1, M2. injection M1 as ->. injection M2 as ->. cbn [p_path current_position] in Hp. cbn [d_call] in M3.
  destruct (d_call_run E t c s2 None r2) as [x d1] eqn:Ecall. cbn [fst] in M3.
  assert (Hpath : exists l, json_path s1 = Some l /\ path = rev l) by (destruct (json_path s1) as [l|]; [|discriminate]; injection Hp as <-; eauto).
  destruct Hpath as (l & Hjl & ->).
  assert (Hlen : length l = length (stack s2)).
  { pose proof (i_path _ _ _ _ Hi) as H. unfold path_ok in H. rewrite Hjl in H. destruct H as [_ H]. apply forall2_length in H. rewrite Hst2. congruence. }
  assert (Hx : x = match depth_exceeded E s2 with Some m => DOut (OErr (EMaxNestingDepth m (location s2))) | None => DOut (OOk RUnit) end).
  { change x with (fst (x, d1)). rewrite <- Ecall. destruct Hc as [(-> & ->)|(-> & ->)].
    - apply (begin_after_peek E inp t s2 r2 TArray CBeginArray SArray Hf Hi2); eauto.
    - apply (begin_after_peek E inp t s2 r2 TObject CBeginObject SObject Hf Hi2); eauto. }
  pose proof (i_depth _ _ _ _ Hi2) as Hdep. unfold depth_ok in Hdep. unfold depth_exceeded in Hx. cbn [cfg E] in *.
  destruct (max_nesting_depth s) as [m|]; [|subst x; exact M3]. rewrite rev_length, Hlen.
  destruct (N.leb_spec m (N.of_nat (length (stack s2)))) as [Hle|Hlt]; subst x; cbn in M3; subst o.
  - right. split; [lia|]. eexists. split; [reflexivity|]. cbn. rewrite Hjp2, Hjl. reflexivity.
  - left. auto.
Qed.
