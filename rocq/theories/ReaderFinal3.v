(** * Proofs of the property theorems which compare sessions *)

From Verif Require Import Base Utf8Model Utf8Proofs NumberModel SpecNumber SpecJson
  SourceModel SourceProofs ReaderModel ReaderLex ReaderMid ReaderSess ReaderSafe SpecCursor ReaderWalk ReaderOut
  SpecRead SpecSessions ReaderRelax ReaderPeek ReaderWays ReaderWays2 ReaderFinal ReaderFinal2.


Lemma session_prefix s evs cs1 cs2 : Forall is_byte (fst (supplied evs)) ->
  exists os2, read_session s evs (cs1 ++ cs2) = read_session s evs cs1 ++ os2.
Proof.
  intros Hb. destruct (session_run s evs (cs1 ++ cs2) Hb) as (st & a & H & _). destruct (session_run s evs cs1 Hb) as (st1 & a1 & H1 & _).
  rewrite calls_app, H1 in H. destruct (arun (client_calls (fenv s evs) cs2 st1) a1) as [[[os2 st2] a2]|]; [|discriminate].
  injection H as H _ _. exists os2. symmetry. exact H.
Qed.

Lemma app_same_length {A} (l1 l2 r1 r2 : list A) : l1 ++ r1 = l2 ++ r2 -> length l1 = length l2 -> l1 = l2 /\ r1 = r2.
Proof.
  revert l2. induction l1 as [|x l1 IH]; intros [|y l2] H Hl; try discriminate; [auto|]. injection H as -> H.
  destruct (IH l2 H) as [-> ->]; [cbn in Hl; lia|]. auto.
Qed.

Lemma same_result_ok v o : (forall p, v <> RPos p) -> same_result (OOk v) o -> o = OOk v.
Proof. intros Hv [H|(p & p' & H & _)]; [congruence|]. injection H as ->. exfalso. apply (Hv p). reflexivity. Qed.

(** [peek] returns a type, [has_next] a truth value *)
Lemma look_value s evs cs1 q cs2 v : Forall is_byte (fst (supplied evs)) -> q = CPeek \/ q = CHasNext ->
  nth_error (read_session s evs (cs1 ++ q :: cs2)) (length cs1) = Some (OOk v) -> forall p, v <> RPos p.
Proof.
  intros Hb Hq Hn p. destruct (session_at s evs cs1 q cs2 _ Hb Hn) as (d & _ & _ & Hm).
  assert (H : forall A (m : D A) val st r, (forall x, val x <> RPos p) -> matches (OOk v) (fst (d_run m val st r)) -> v <> RPos p).
  { intros A m val st r Hv. unfold d_run. destruct (m st r); cbn; intros Hx.
    - injection Hx as ->. apply Hv.
    - discriminate Hx.
    - match type of Hx with context [match ?w with Some _ => _ | None => _ end] => destruct w end; destruct Hx as (? & Hx); try destruct Hx as (Hx & _); discriminate Hx.
    - discriminate Hx.
    - contradiction. }
  destruct d as [st rd r|held| | |]; destruct Hq as [-> | ->]; cbn [d_call d_call_run d_call_dead fst] in Hm;
    try (eapply H; [|exact Hm]; discriminate); try discriminate Hm; contradiction.
Qed.


Lemma C22_looking_has_no_effect_partial_holds : forall (s : settings) (evs : list event) (cs1 cs2 : list rcall) (q : rcall), Forall is_byte (fst (supplied evs)) ->
  q = CPeek \/ q = CHasNext ->
  first_not_read cs2 ->
  allow_multiple_top_level s = false \/ ~ In CConsumeTrailingWhitespace cs2 ->
  exists os1 o os2 os2',
    read_session s evs (cs1 ++ q :: cs2) = os1 ++ o :: os2 /\
    read_session s evs (cs1 ++ cs2) = os1 ++ os2' /\
    length os1 = length cs1 /\ length os2 = length cs2 /\ length os2' = length cs2 /\
    ((exists v, o = OOk v) -> Forall2 same_result os2' os2).
Proof.
  intros s evs cs1 cs2 q Hb Hq Hf Hc. destruct (session_insert s evs cs1 q cs2 Hb Hf Hc) as (os1 & o & os2 & os2' & H1 & H2 & H3 & H4).
  exists os1, o, os2, os2'. pose proof (session_length s evs (cs1 ++ q :: cs2) Hb) as Hl1.
  pose proof (session_length s evs (cs1 ++ cs2) Hb) as Hl2. rewrite H1 in Hl1. rewrite H3 in Hl2.
  rewrite !app_length in Hl1, Hl2. cbn in Hl1. splits; auto; try lia. intros Ho. apply H4. left. auto.
Qed.

Lemma C22_repeated_calls_agree_holds : forall (s : settings) (evs : list event) (cs : list rcall) (q : rcall) (os : list outcome) (v : rvalue) (n : nat),
  Forall is_byte (fst (supplied evs)) ->
  q = CPeek \/ q = CHasNext ->
  read_session s evs (cs ++ [q]) = os ++ [OOk v] ->
  read_session s evs (cs ++ repeat q n) = os ++ repeat (OOk v) n.
Proof.
  intros s evs cs q os v n Hb Hq H.
  assert (Hlen : length os = length cs).
  { pose proof (session_length s evs (cs ++ [q]) Hb) as Hl. rewrite H, !app_length in Hl. cbn in Hl. lia. }
  assert (Hv : forall p, v <> RPos p).
  { apply (look_value s evs cs q [] v Hb Hq). rewrite H, <- Hlen, nth_error_app2, Nat.sub_diag by lia. reflexivity. }
  assert (Hfst : forall cs2, exists os2, read_session s evs (cs ++ q :: cs2) = os ++ OOk v :: os2).
  { intros cs2. destruct (session_prefix s evs (cs ++ [q]) cs2 Hb) as (os2 & H2). rewrite H, <- !app_assoc in H2. cbn in H2. eauto. }
  induction n as [|n IH].
  - cbn. rewrite !app_nil_r. destruct (session_prefix s evs cs [q] Hb) as (os2 & H2). rewrite H in H2.
    apply app_same_length in H2 as [H2 _]; [auto|]. rewrite (session_length s evs cs Hb). exact Hlen.
  - cbn [repeat]. destruct (C22_looking_has_no_effect_partial_holds s evs cs (repeat q n) q Hb Hq) as (os1 & o & os2 & os2' & H1 & H2 & H3 & H4 & H5 & H6).
    + destruct n; [exact I|]. destruct Hq as [-> | ->]; exact I.
    + right. intros Hin. apply repeat_spec in Hin. destruct Hq; congruence.
    + destruct (Hfst (repeat q n)) as (os3 & H7). rewrite H7 in H1 |- *. apply app_same_length in H1 as [<- H1]; [|congruence].
      injection H1 as <- <-. rewrite IH in H2. apply app_inv_head in H2. subst os2'.
      specialize (H6 (ex_intro _ v eq_refl)). f_equal. f_equal. clear -H6 Hv.
      remember (repeat (OOk v) n) as l eqn:El. revert n El. induction H6 as [|a b l1 l2 Ho HF IH]; intros n El; [reflexivity|].
      destruct n as [|n]; [discriminate|]. injection El as -> El. f_equal; [apply (same_result_ok v b Hv Ho)|]. exact (IH n El).
Qed.

Lemma C22_refuted_before_consume_trailing_whitespace_holds : exists (s : settings) (evs : list event) (l : position),
  allow_multiple_top_level s = true /\
  read_session s evs [CNextNumberStr; CConsumeTrailingWhitespace] = [OOk (RStr [0x31]); OErr (ESyntax TrailingData l)] /\
  read_session s evs [CNextNumberStr; CHasNext; CConsumeTrailingWhitespace] = [OOk (RStr [0x31]); OOk (RBool true); OOk RUnit].
Proof.
  eexists (Settings false false true true (Some 128) true), [EvData [0x31; 0x20; 0x5B]], _. vm_compute. auto.
Qed.

Lemma C23_failed_call_has_no_effect_partial_holds : forall (s : settings) (evs : list event) (cs1 cs2 : list rcall) (c : rcall), Forall is_byte (fst (supplied evs)) ->
  ~ composite c ->
  first_not_read cs2 ->
  allow_multiple_top_level s = false \/ ~ In CConsumeTrailingWhitespace cs2 ->
  exists os1 o os2 os2',
    read_session s evs (cs1 ++ c :: cs2) = os1 ++ o :: os2 /\
    read_session s evs (cs1 ++ cs2) = os1 ++ os2' /\
    length os1 = length cs1 /\ length os2 = length cs2 /\ length os2' = length cs2 /\
    ((exists x y p, o = OErr (EUnexpectedType x y p)) \/ (exists k p, o = OErr (EUnexpectedStructure k p)) \/
     (exists m p, o = OErr (EMaxNestingDepth m p)) -> Forall2 same_result os2' os2).
Proof.
  intros s evs cs1 cs2 q Hb Hq Hf Hc. destruct (session_insert s evs cs1 q cs2 Hb Hf Hc) as (os1 & o & os2 & os2' & H1 & H2 & H3 & H4).
  exists os1, o, os2, os2'. pose proof (session_length s evs (cs1 ++ q :: cs2) Hb) as Hl1.
  pose proof (session_length s evs (cs1 ++ cs2) Hb) as Hl2. rewrite H1 in Hl1. rewrite H3 in Hl2.
  rewrite !app_length in Hl1, Hl2. cbn in Hl1. splits; auto; try lia. intros Ho. apply H4. right. split; [exact Hq|].
  destruct Ho as [(x & y & p & ->)|[(k & p & ->)|(m & p & ->)]]; eexists; split; reflexivity.
Qed.

Lemma C23_refuted_for_seek_to_holds : exists (s : settings) (evs : list event) (l l' : position),
  read_session s evs [CPeek] = [OOk (RType TArray)] /\
  read_session s evs [CSeekTo [PIndex 5]; CPeek] = [OErr (EUnexpectedStructure (TooShortArray 5) l); OErr (EUnexpectedStructure FewerElementsThanExpected l')].
Proof.
  eexists default_settings, [EvData [0x5B; 0x31; 0x5D]], _, _. vm_compute. auto.
Qed.

Lemma C23_refuted_for_skip_value_holds : exists (s : settings) (evs : list event) (l : position),
  read_session s evs [CEndArray] = [OPanic Misuse] /\
  read_session s evs [CSkipValue; CHasNext; CEndArray] =
    [OErr (EMaxNestingDepth 1 l); OOk (RBool true); OErr (EUnexpectedStructure MoreElementsThanExpected l)].
Proof.
  eexists (Settings false false false true (Some 1) true), [EvData [0x5B; 0x5B; 0x31; 0x5D; 0x5D]], _. vm_compute. auto.
Qed.

Lemma C06_ways_to_read_agree_holds : forall (s : settings) (evs : list event) (cs : list rcall), Forall is_byte (fst (supplied evs)) ->
  read_session s evs cs = results_as cs (read_session s evs (map canonical cs)).
Proof.
  exact session_ways.
Qed.

Lemma C06_string_reader_agrees_holds : forall (s : settings) (evs : list event) (cs1 : list rcall) (lens : list nat) (cs2 : list rcall), Forall is_byte (fst (supplied evs)) ->
  exists os1 o os2 o' rs os2',
    read_session s evs (cs1 ++ CNextString :: cs2) = os1 ++ o :: os2 /\
    read_session s evs (cs1 ++ CNextStringReader :: map CRead lens ++ cs2) = os1 ++ o' :: rs ++ os2' /\
    length os1 = length cs1 /\ length rs = length lens /\
    match o with
    | OOk (RStr v) => o' = OOk RUnit /\ rs = map (fun bs => OOk (RBytes bs)) (chunks lens (encode_utf8 v)) /\
        ((length (encode_utf8 v) < list_sum lens)%nat -> first_not_read cs2 -> os2' = os2)
    | OOk _ => False
    | _ => (o' = o /\ os2' = os2) \/
        (exists e, o = OErr e /\ recoverable e = false /\ o' = OOk RUnit /\ Forall2 full_or_error lens rs)
    end.
Proof.
  intros s evs cs1 lens cs2 Hb. destruct (session_string_reader s evs cs1 lens cs2 Hb) as (os1 & o & os2 & o' & rs & os2' & H1 & H2 & H3 & H4 & H5).
  exists os1, o, os2, o', rs, os2'. splits; auto. destruct H5 as [(v & -> & H)|[(e & -> & Hr & H)|(-> & Hno & ->)]]; [exact H| |].
  - right. exists e. auto.
  - destruct o; auto. exfalso. eapply Hno. reflexivity.
Qed.

Lemma until_sane P os1 os2 : same_until (fun o => P o \/ insane o) os1 os2 -> Forall sane os1 -> same_until P os1 os2.
Proof.
  induction 1 as [|o os1 os2 H IH|o1 o2 os1 os2 H]; intros Hs; inversion Hs as [|? ? Ho Hs']; subst; constructor; auto.
  destruct H as [H|[-> | ->]]; [exact H| |]; exfalso; unfold sane in Ho; intuition congruence.
Qed.

Lemma compare_sessions hit s1 s2 evs1 evs2 cs : Forall is_byte (fst (supplied evs1)) -> Forall is_byte (fst (supplied evs2)) ->
  session_new s1 = session_new s2 -> relaxes hit (fenv s1 evs1) (fenv s2 evs2) ->
  cut hit (asrc_new (fst (supplied evs1)) (snd (supplied evs1))) (asrc_new (fst (supplied evs2)) (snd (supplied evs2))) ->
  same_until (hit_outcome hit) (read_session s1 evs1 cs) (read_session s2 evs2 cs).
Proof.
  intros Hb1 Hb2 Hn Hr Hc. destruct (session_run s1 evs1 cs Hb1) as (st1 & a1 & H1 & _). destruct (session_run s2 evs2 cs Hb2) as (st2 & a2 & H2 & _).
  apply until_sane; [|apply session_sane; exact Hb1]. rewrite Hn in H1. exact (oext_calls hit _ _ Hr cs _ _ _ _ _ _ _ _ _ Hc H1 H2).
Qed.


Lemma C18_io_error_reported_or_same_result_holds : forall (s : settings) (evs evs' : list event) (e : N) (more : bytes) (cs : list rcall),
  snd (supplied evs) = TErr e ->
  fst (supplied evs') = fst (supplied evs) ++ more ->
  Forall is_byte (fst (supplied evs')) ->
  same_until (hit_outcome (fun err => exists p, err = EIo (IoSource e) p)) (read_session s evs cs) (read_session s evs' cs).
Proof.
  intros s evs evs' e more cs Ht Hm Hb.
  assert (Hb1 : Forall is_byte (fst (supplied evs))) by (rewrite Hm in Hb; apply Forall_app in Hb; tauto).
  apply compare_sessions; auto.
  - constructor; auto. cbn. unfold enough_fuel. rewrite Hm, app_length. lia.
  - right. unfold cutoff, asrc_new. cbn. splits; auto; try discriminate. exists more, e. splits; eauto.
Qed.

Lemma C35_comments_not_enabled_holds : forall (s : settings) (evs : list event) (cs : list rcall), Forall is_byte (fst (supplied evs)) ->
  same_until (hit_outcome (fun e => exists p, e = ESyntax CommentsNotEnabled p))
    (read_session (set_comments false s) evs cs) (read_session (set_comments true s) evs cs).
Proof.
  intros s evs cs Hb. apply compare_sessions; auto; [|left; reflexivity]. constructor; cbn; auto. right. split; [reflexivity|]. eauto.
Qed.

Lemma C35_trailing_comma_not_enabled_holds : forall (s : settings) (evs : list event) (cs : list rcall), Forall is_byte (fst (supplied evs)) ->
  same_until (hit_outcome (fun e => exists p, e = ESyntax TrailingCommaNotEnabled p))
    (read_session (set_trailing_comma false s) evs cs) (read_session (set_trailing_comma true s) evs cs).
Proof.
  intros s evs cs Hb. apply compare_sessions; auto; [|left; reflexivity]. constructor; cbn; auto. right. split; [reflexivity|]. eauto.
Qed.

Lemma hit_in (hit : position -> reader_error) os1 os2 :
  same_until (hit_outcome (fun e => exists p, e = hit p)) os1 os2 -> os1 <> os2 -> (forall e, ~ In (OReadErr e) os1) ->
  exists p, In (OErr (hit p)) os1.
Proof.
  induction 1 as [|o os1 os2 H IH|o1 o2 os1 os2 H]; intros Hne Hno.
  - congruence.
  - destruct IH as (p & Hp); [congruence|intros e He; apply (Hno e); right; exact He|]. exists p. right. exact Hp.
  - destruct o1 as [|e|[e|]| | | |]; try contradiction H; destruct H as (p & ->).
    + exists p. left. reflexivity.
    + exfalso. eapply Hno. left. reflexivity.
Qed.

(** Only [read] of a string reader fails in this way *)
Lemma no_reads s evs cs : Forall is_byte (fst (supplied evs)) -> (forall n, ~ In (CRead n) cs) ->
  forall e, ~ In (OReadErr e) (read_session s evs cs).
Proof.
  intros Hb Hc e Hin. destruct (session_run s evs cs Hb) as (st & a & H & _). revert Hc Hin H.
  generalize (read_session s evs cs), (session_new s), (asrc_new (fst (supplied evs)) (snd (supplied evs))).
  clear. induction cs as [|c cs IH]; intros os st0 a0 Hc Hin H; cbn [client_calls] in H.
  - injection H as <- _ _. contradiction.
  - rewrite arun_bind in H. destruct (arun (client_call (fenv s evs) c st0) a0) as [[[o st1] a1]|] eqn:Ec; [|discriminate].
    cbn [fst snd] in H. rewrite arun_bind in H.
    destruct (arun (client_calls (fenv s evs) cs st1) a1) as [[[os1 st2] a2]|] eqn:Ecs; [|discriminate]. cbn in H. injection H as <- <- <-.
    destruct Hin as [-> |Hin]; [|eapply IH; [|exact Hin|exact Ecs]; intros n Hn; apply (Hc n); right; exact Hn].
    unfold client_call in Ec. destruct (s_phase st0); try discriminate Ec.
    assert (Hcall : forall A (m : M A) val st' a', arun (call m val st0) a0 <> Some ((OReadErr e, st'), a')).
    { intros A m val st' a'. unfold call. rewrite arun_bind. destruct (arun (m (s_state st0)) a0) as [[[[x|er|k|] s'] a3]|]; cbn; discriminate. }
    destruct c; try (eapply Hcall; exact Ec).
    + unfold call_string_reader in Ec. rewrite arun_bind in Ec.
      destruct (arun (next_string_reader (fenv s evs) (s_state st0)) a0) as [[[[x|er|k|] s'] a3]|]; cbn in Ec; discriminate Ec.
    + apply (Hc len). left. reflexivity.
    + unfold call_consume in Ec. rewrite arun_bind in Ec.
      destruct (arun (call (consume_trailing_whitespace (fenv s evs)) to_unit st0) a0) as [[[o3 st3] a3]|] eqn:E3; [|discriminate]. cbn in Ec.
      injection Ec as -> <- <-. eapply Hcall. exact E3.
Qed.


Lemma C35_document_with_comments_rejected_holds : forall (s : settings) (evs : list event) (v : json), Forall is_byte (fst (supplied evs)) ->
  allow_multiple_top_level s = false ->
  document_input (set_comments true s) [v] evs ->
  ~ (exists v', document_input (set_comments false s) [v'] evs) ->
  exists p, In (OErr (ESyntax CommentsNotEnabled p)) (read_session (set_comments false s) evs [CSkipValue; CConsumeTrailingWhitespace]).
Proof.
  intros s evs v Hb Hs Hd Hno. pose proof (C35_comments_not_enabled_holds s evs [CSkipValue; CConsumeTrailingWhitespace] Hb) as H.
  pose proof (proj2 (C19_skipping_accepts_exactly_the_documents_holds (set_comments true s) evs Hb Hs) (ex_intro _ v Hd)) as H2. rewrite H2 in H.
  apply (hit_in _ _ _ H).
  - intros H3. apply Hno. apply (proj1 (C19_skipping_accepts_exactly_the_documents_holds (set_comments false s) evs Hb Hs)). exact H3.
  - exact (no_reads (set_comments false s) evs [CSkipValue; CConsumeTrailingWhitespace] Hb ltac:(intros n [Hn|[Hn|[]]]; discriminate)).
Qed.

Lemma C35_document_with_trailing_comma_rejected_holds : forall (s : settings) (evs : list event) (v : json), Forall is_byte (fst (supplied evs)) ->
  allow_multiple_top_level s = false ->
  document_input (set_trailing_comma true s) [v] evs ->
  ~ (exists v', document_input (set_trailing_comma false s) [v'] evs) ->
  exists p, In (OErr (ESyntax TrailingCommaNotEnabled p)) (read_session (set_trailing_comma false s) evs [CSkipValue; CConsumeTrailingWhitespace]).
Proof.
  intros s evs v Hb Hs Hd Hno. pose proof (C35_trailing_comma_not_enabled_holds s evs [CSkipValue; CConsumeTrailingWhitespace] Hb) as H.
  pose proof (proj2 (C19_skipping_accepts_exactly_the_documents_holds (set_trailing_comma true s) evs Hb Hs) (ex_intro _ v Hd)) as H2. rewrite H2 in H.
  apply (hit_in _ _ _ H).
  - intros H3. apply Hno. apply (proj1 (C19_skipping_accepts_exactly_the_documents_holds (set_trailing_comma false s) evs Hb Hs)). exact H3.
  - exact (no_reads (set_trailing_comma false s) evs [CSkipValue; CConsumeTrailingWhitespace] Hb ltac:(intros n [Hn|[Hn|[]]]; discriminate)).
Qed.

Lemma C41_larger_nesting_limit_holds : forall (s : settings) (evs : list event) (cs : list rcall) (m : N) (d : option N), Forall is_byte (fst (supplied evs)) ->
  (forall m', d = Some m' -> m <= m') ->
  same_until (hit_outcome (fun e => exists p, e = EMaxNestingDepth m p))
    (read_session (set_max_nesting_depth (Some m) s) evs cs) (read_session (set_max_nesting_depth d s) evs cs).
Proof.
  intros s evs cs m d Hb Hd. apply compare_sessions; auto; [|left; reflexivity]. constructor; cbn; auto. right. exists m. splits; eauto.
Qed.

Lemma C41_unrestricted_numbers_holds : forall (s : settings) (evs : list event) (cs : list rcall), Forall is_byte (fst (supplied evs)) ->
  same_until (hit_outcome (fun e => exists n p, e = EUnsupportedNumber n p))
    (read_session (set_restrict_numbers true s) evs cs) (read_session (set_restrict_numbers false s) evs cs).
Proof.
  intros s evs cs Hb. apply compare_sessions; auto; [|left; reflexivity]. constructor; cbn; auto. right. split; [reflexivity|]. eauto.
Qed.
