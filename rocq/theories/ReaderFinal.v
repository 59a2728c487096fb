(** * Proofs of the property theorems about reading documents *)

From Verif Require Import Base Utf8Model Utf8Proofs NumberModel SpecNumber SpecJson
  WriterModel SpecWriter WriterFinal SourceModel ReaderModel ReaderLex
  ReaderSess ReaderSafe SpecCursor ReaderWalk ReaderErase ReaderOut SpecRead ReaderCursor GrammarFacts.


Lemma doc_session s vs evs cs : document_input s vs evs ->
  Forall2 (is_result s) (fst (walk_calls s cs (AtCursor (cursor_start vs)))) (read_session s evs cs).
Proof.
  intros (Ht & Hi & Hl). apply walk_session; auto. eapply input_bytes; eassumption.
Qed.

Lemma doc_session_at s vs evs cs1 cs2 xs c : document_input s vs evs ->
  walk_calls s cs1 (AtCursor (cursor_start vs)) = (xs, AtCursor c) ->
  Forall2 (is_result s) (xs ++ fst (walk_calls s cs2 (AtCursor c))) (read_session s evs (cs1 ++ cs2)).
Proof.
  intros Hd Hw. pose proof (doc_session s vs evs (cs1 ++ cs2) Hd) as H. rewrite walk_calls_app, Hw in H.
  destruct (walk_calls s cs2 (AtCursor c)). exact H.
Qed.

Lemma forall2_length {A B} (R : A -> B -> Prop) l l' : Forall2 R l l' -> length l = length l'.
Proof. induction 1; cbn; congruence. Qed.

Lemma results_ok s l : forall os, Forall2 (is_result s) (oks l) os -> os = map OOk l.
Proof.
  induction l as [|v l IH]; intros os H; inversion H as [|? ? ? ? H1 H2]; subst; [reflexivity|].
  cbn in H1. subst. cbn. f_equal. apply IH, H2.
Qed.

(** At most one value in single mode *)
Definition single_top (c : cursor) : Prop := (length (top c) <= 1)%nat /\ (started c = true -> top c = []).
Lemma st_enter c : single_top c -> single_top (enter_value c).
Proof.
  unfold single_top, enter_value. intros [H1 H2]. destruct (frames c) as [|[] ?]; cbn; auto.
  destruct (top c) as [|v [|? ?]]; cbn in *; auto. lia.
Qed.
Lemma st_done c : single_top c -> single_top (value_done c).
Proof. unfold single_top, value_done. destruct (frames c) as [|[] ?]; cbn; auto. Qed.
Lemma st_open f c : single_top c -> single_top (open_frame f c).
Proof. auto. Qed.
Lemma st_close c : single_top c -> single_top (close_frame c).
Proof. intros H. apply st_done. exact H. Qed.
Lemma st_seek p : forall c, single_top c -> single_top (snd (seek p c)).
Proof.
  induction p as [|[i|n] p IH]; intros c H; cbn [seek]; auto.
  - destruct (next_value c) as [[]|]; auto. destruct (_ <? _); auto using st_open, st_enter. cbn. apply st_open, st_enter, H.
  - destruct (next_value c) as [[]|]; auto. destruct (find_member n members) as [[]|]; auto using st_open, st_enter. cbn. apply st_open, st_enter, H.
Qed.
Lemma st_seek_up p : forall c, single_top c -> single_top (snd (seek_up p c)).
Proof.
  induction p as [|q p IH]; intros c H; cbn [seek_up]; auto. destruct (is_reading c); auto.
  destruct q, (frames c) as [|[] ?]; auto using st_close.
Qed.
Definition st_walk (w : walk) : Prop := match w with AtCursor c => single_top c | _ => True end.
Lemma st_continue x c : single_top c -> st_walk (snd (continue x c)) .
Proof. destruct x; cbn; auto. Qed.
Lemma continue_fst x c : fst (continue x c) = x.
Proof. destruct x; reflexivity. Qed.
Lemma at_value_trailing s c x : at_value s c = inl x -> x <> XTrailing.
Proof.
  unfold at_value. destruct (is_reading c); [intros [= <-]; discriminate|].
  destruct (frames c) as [|[i [|u l]|n ms|n u ms] fs]; try (intros [= <-]; discriminate); try discriminate.
  destruct (_ && _); [intros [= <-]; discriminate|]. destruct (top c); [intros [= <-]; discriminate|discriminate].
Qed.
Lemma seek_trailing p : forall c, fst (seek p c) <> XTrailing.
Proof.
  induction p as [|[i|n] p IH]; intros c; cbn [seek]; [discriminate| |].
  - destruct (next_value c) as [[]|]; try discriminate. destruct (_ <? _); [apply IH|discriminate].
  - destruct (next_value c) as [[]|]; try discriminate. destruct (find_member n members) as [[]|]; [apply IH|discriminate].
Qed.
Lemma seek_up_trailing p : forall c, fst (seek_up p c) <> XTrailing.
Proof.
  induction p as [|q p IH]; intros c; cbn [seek_up]; [discriminate|]. destruct (is_reading c); [discriminate|].
  destruct q, (frames c) as [|[] ?]; try discriminate; apply IH.
Qed.
Lemma on_value_st s t c f : single_top c ->
  (forall v, fst (f v) <> XTrailing /\ st_walk (snd (f v))) ->
  fst (on_value s t c f) <> XTrailing /\ st_walk (snd (on_value s t c f)).
Proof.
  intros Hc Hf. unfold on_value. destruct (at_value s c) as [x|v] eqn:E.
  - rewrite continue_fst. split; [eapply at_value_trailing; eassumption|apply st_continue, Hc].
  - destruct (value_type_dec (json_type v) t); [apply Hf|]. cbn. split; [discriminate|exact Hc].
Qed.
Lemma on_name_st c r : single_top c -> fst (on_name c r) <> XTrailing /\ st_walk (snd (on_name c r)).
Proof.
  intros Hc. unfold on_name, at_name. destruct (is_reading c); [split; [discriminate|exact I]|].
  destruct (frames c) as [|[i l|n [|[m v] ms]|n u ms] fs]; cbn; try (split; [discriminate|exact Hc || exact I]).
Qed.
Lemma call_at_st s call c : single_top c ->
  (fst (call_at s call c) = XTrailing -> False) /\ st_walk (snd (call_at s call c)).
Proof.
  intros Hc.
  destruct call; cbn [call_at]; try (apply on_value_st; [exact Hc|]; intros []; cbn;
    try destruct (_ && _); cbn; split; try discriminate; try exact I;
    repeat first [apply st_open | apply st_enter | apply st_done]; exact Hc);
    try (apply on_name_st; exact Hc).
  - destruct (at_value s c) as [x|v] eqn:E; [rewrite continue_fst|cbn].
    + split; [eapply at_value_trailing; eassumption|apply st_continue, Hc].
    + split; [discriminate|exact Hc].
  - unfold more. destruct (is_reading c); [split; [discriminate|exact I]|].
    destruct (frames c) as [|[] ?]; cbn; try (split; [discriminate|exact Hc]); try (split; [discriminate|exact I]).
    destruct (_ || _); cbn; split; try discriminate; auto.
  - destruct (is_reading c), (frames c) as [|[i [|u l]|n ms|n u ms] fs]; cbn; split; try discriminate; auto. apply st_close, Hc.
  - destruct (is_reading c), (frames c) as [|[i l|n [|m ms]|n u ms] fs]; cbn; split; try discriminate; auto. apply st_close, Hc.
  - unfold read_string. destruct (reading c) as [|rest []|]; try (split; [discriminate|exact Hc]).
    destruct (Nat.leb len (length rest)); (split; [discriminate|]); [exact Hc|]. apply st_done. exact Hc.
  - destruct (at_value s c) as [x|v] eqn:E; [rewrite continue_fst|cbn].
    + split; [eapply at_value_trailing; eassumption|apply st_continue, Hc].
    + split; [discriminate|apply st_done, st_enter, Hc].
  - destruct (at_value s c) as [x|v] eqn:E; [rewrite continue_fst|].
    + split; [eapply at_value_trailing; eassumption|apply st_continue, Hc].
    + pose proof (seek_trailing path c) as H1. pose proof (st_seek path c Hc) as H2. destruct (seek path c) as [x c'].
      rewrite continue_fst. split; [exact H1|apply st_continue, H2].
  - pose proof (seek_up_trailing (rev path) c) as H1. pose proof (st_seek_up (rev path) c Hc) as H2.
    destruct (seek_up (rev path) c) as [x c']. rewrite continue_fst. split; [exact H1|apply st_continue, H2].
  - destruct (is_reading c); (split; [discriminate|]); [exact I|exact Hc].
  - split; [discriminate|exact Hc].
  - destruct Hc as [H1 H2]. destruct (is_reading c), (frames c), (started c), (top c); cbn; split; try discriminate; auto.
    specialize (H2 eq_refl). discriminate.
Qed.
Lemma st_drop c : single_top c -> single_top (drop_reader c).
Proof. unfold drop_reader. destruct (reading c); auto. Qed.
Lemma walk_no_trailing s cs : forall w, st_walk w -> Forall (fun x => x <> XTrailing) (fst (walk_calls s cs w)).
Proof.
  induction cs as [|call cs IH]; intros w Hw; cbn [walk_calls]; [constructor|].
  assert (H : fst (walk_call s call w) <> XTrailing /\ st_walk (snd (walk_call s call w))).
  { destruct w as [c| |]; cbn [walk_call]; [|split; [discriminate|exact I]|split; [discriminate|exact I]].
    apply call_at_st. destruct call; try apply st_drop; exact Hw. }
  destruct (walk_call s call w) as [x w1]. cbn [fst snd] in H. specialize (IH w1 (proj2 H)).
  destruct (walk_calls s cs w1). constructor; [apply H|exact IH].
Qed.
Lemma walk_no_trailing' s cs : ~ In CConsumeTrailingWhitespace cs ->
  forall w, Forall (fun x => x <> XTrailing) (fst (walk_calls s cs w)).
Proof.
  induction cs as [|call cs IH]; intros Hn w; cbn [walk_calls]; [constructor|].
  assert (H : fst (walk_call s call w) <> XTrailing).
  { destruct w as [c| |]; cbn [walk_call]; [|discriminate|discriminate].
    set (c' := before_call call c).
    destruct call; cbn [call_at];
      try (unfold on_value; destruct (at_value s c') as [x|v] eqn:E;
           [rewrite continue_fst; eapply at_value_trailing; eassumption|];
           try destruct (value_type_dec _ _); try discriminate; destruct v; try discriminate;
           try destruct (_ && _); discriminate).
    - unfold more. destruct (is_reading c'); [discriminate|]. destruct (frames c') as [|[] ?]; try discriminate.
      destruct (_ || _); discriminate.
    - destruct (is_reading c'), (frames c') as [|[i [|u l]|n ms|n u ms] fs]; discriminate.
    - destruct (is_reading c'), (frames c') as [|[i l|n [|m ms]|n u ms] fs]; discriminate.
    - unfold on_name. destruct (at_name c') as [x|[[[n v] ms] fs]] eqn:E; [rewrite continue_fst|discriminate].
      revert E. unfold at_name. destruct (is_reading c'); [intros [= <-]; discriminate|].
      destruct (frames c') as [|[i l|n [|[m u] ms]|n u ms] fs]; intros [= <-]; discriminate.
    - unfold on_name. destruct (at_name c') as [x|[[[n v] ms] fs]] eqn:E; [rewrite continue_fst|discriminate].
      revert E. unfold at_name. destruct (is_reading c'); [intros [= <-]; discriminate|].
      destruct (frames c') as [|[i l|n [|[m u] ms]|n u ms] fs]; intros [= <-]; discriminate.
    - unfold on_name. destruct (at_name c') as [x|[[[n v] ms] fs]] eqn:E; [rewrite continue_fst|discriminate].
      revert E. unfold at_name. destruct (is_reading c'); [intros [= <-]; discriminate|].
      destruct (frames c') as [|[i l|n [|[m u] ms]|n u ms] fs]; intros [= <-]; discriminate.
    - unfold read_string. destruct (reading c') as [|rest []|]; try discriminate. destruct (Nat.leb _ _); discriminate.
    - destruct (at_value s c') as [x|v] eqn:E; [rewrite continue_fst; eapply at_value_trailing; eassumption|].
      pose proof (seek_trailing path c') as H1. destruct (seek path c'). rewrite continue_fst. exact H1.
    - pose proof (seek_up_trailing (rev path) c') as H1. destruct (seek_up (rev path) c'). rewrite continue_fst. exact H1.
    - destruct (is_reading c'); discriminate.
    - discriminate.
    - exfalso. apply Hn. left. reflexivity. }
  destruct (walk_call s call w) as [x w1]. cbn [fst] in H. specialize (IH (fun Hi => Hn (or_intror Hi)) w1).
  destruct (walk_calls s cs w1). constructor; [exact H|exact IH].
Qed.

Lemma is_result_forget s1 s2 x o1 o2 : track_path s1 = track_path s2 -> x <> XTrailing ->
  is_result s1 x o1 -> is_result s2 x o2 -> forget o1 = forget o2.
Proof.
  intros Ht Hx. destruct x; cbn; unfold at_path, forget_location; try congruence.
  - intros (p1 & -> & E1) (p2 & -> & E2). cbn. unfold forget_location. rewrite E1, E2. reflexivity.
  - intros (p1 & -> & E1) (p2 & -> & E2). cbn. unfold forget_location. rewrite E1, E2, Ht. reflexivity.
  - intros (p1 & -> & E1) (p2 & -> & E2). cbn. unfold forget_location. rewrite E1, E2, Ht. reflexivity.
  - intros (p1 & ->) (p2 & ->). reflexivity.
Qed.

(** The walk depends only on some of the settings *)
Definition alike (s1 s2 : settings) : Prop :=
  allow_multiple_top_level s1 = allow_multiple_top_level s2 /\ track_path s1 = track_path s2 /\
  restrict_number_values s1 = restrict_number_values s2.
Lemma walk_alike s1 s2 cs : alike s1 s2 -> forall w, walk_calls s1 cs w = walk_calls s2 cs w.
Proof.
  intros (H1 & H2 & H3). induction cs as [|call cs IH]; intros w; cbn [walk_calls]; [reflexivity|].
  assert (H : walk_call s1 call w = walk_call s2 call w).
  { destruct w as [c| |]; cbn [walk_call]; auto. set (c' := before_call call c).
    assert (Ha : at_value s1 c' = at_value s2 c') by (unfold at_value; rewrite H1; reflexivity).
    destruct call; cbn [call_at]; unfold on_value, more; rewrite ?Ha, ?H1, ?H2, ?H3; reflexivity. }
  rewrite H. destruct (walk_call s2 call w). rewrite IH. reflexivity.
Qed.

Lemma start_read s vs v : vs = [v] -> at_value s (drop_reader (cursor_start vs)) = inr v.
Proof. intros ->. cbn. reflexivity. Qed.

Lemma read_document s v evs : document_input s [v] evs -> readable s v ->
  read_session s evs (read_calls v ++ [CConsumeTrailingWhitespace]) = map OOk (read_values v ++ [RUnit]).
Proof.
  intros Hd Hr. apply (results_ok s). unfold oks. rewrite map_app.
  pose proof (doc_session s [v] evs (read_calls v ++ [CConsumeTrailingWhitespace]) Hd) as H.
  rewrite walk_calls_app, (walk_read s v _ Hr (start_read s [v] v eq_refl)) in H. exact H.
Qed.


Lemma C20_reader_walks_the_document_holds : forall (s : settings) (vs : list json) (evs : list event) (cs : list rcall), document_input s vs evs ->
  Forall2 (is_result s) (fst (walk_calls s cs (AtCursor (cursor_start vs)))) (read_session s evs cs).
Proof.
  exact doc_session.
Qed.

Lemma C20_layout_is_invisible_holds : forall (s1 s2 : settings) (vs : list json) (evs1 evs2 : list event) (cs : list rcall),
  document_input s1 vs evs1 -> document_input s2 vs evs2 ->
  allow_multiple_top_level s1 = allow_multiple_top_level s2 -> track_path s1 = track_path s2 ->
  restrict_number_values s1 = restrict_number_values s2 ->
  allow_multiple_top_level s1 = false \/ ~ In CConsumeTrailingWhitespace cs ->
  map forget (read_session s1 evs1 cs) = map forget (read_session s2 evs2 cs).
Proof.
  intros s1 s2 vs evs1 evs2 cs H1 H2 Hm Ht Hn Hc.
  pose proof (doc_session s1 vs evs1 cs H1) as R1. pose proof (doc_session s2 vs evs2 cs H2) as R2.
  rewrite <- (walk_alike s1 s2) in R2 by (unfold alike; auto).
  assert (Hx : Forall (fun x => x <> XTrailing) (fst (walk_calls s1 cs (AtCursor (cursor_start vs))))).
  { destruct Hc as [Hs|Hc]; [|apply walk_no_trailing', Hc]. apply walk_no_trailing. cbn.
    destruct H1 as (_ & Hi & _). unfold input_text in Hi. rewrite Hs in Hi. destruct Hi as (v & -> & _).
    split; cbn; [lia|discriminate]. }
  revert R1 R2 Hx. generalize (read_session s1 evs1 cs) (read_session s2 evs2 cs) (fst (walk_calls s1 cs (AtCursor (cursor_start vs)))).
  intros l1 l2 xs R1. revert l2. induction R1 as [|x o1 xs os1 Ho1 R1 IH]; intros l2 R2 Hx; inversion R2 as [|? o2 ? os2 Ho2 R2']; subst; [reflexivity|].
  inversion Hx; subst. cbn. f_equal; [eapply is_result_forget; eauto|]. apply IH; assumption.
Qed.

Lemma C20_complete_reading_holds : forall (s : settings) (v : json) (evs : list event), document_input s [v] evs -> readable s v ->
  read_session s evs (read_calls v ++ [CConsumeTrailingWhitespace]) = map OOk (read_values v ++ [RUnit]).
Proof.
  exact read_document.
Qed.

Lemma C17_independent_of_delivery_holds : forall (s : settings) (evs1 evs2 : list event) (cs : list rcall), Forall is_byte (fst (supplied evs1)) ->
  supplied evs1 = supplied evs2 -> read_session s evs1 cs = read_session s evs2 cs.
Proof.
  intros s evs1 evs2 cs Hb H. apply session_schedule; [exact H|]. apply session_no_bug, Hb.
Qed.

Lemma C21_only_misuse_panics_holds : forall (s : settings) (evs : list event) (cs : list rcall) (o : outcome), Forall is_byte (fst (supplied evs)) ->
  In o (read_session s evs cs) -> o <> OPanic Bug.
Proof.
  intros s evs cs o Hb Hi. pose proof (session_sane s evs cs Hb) as H. rewrite Forall_forall in H. apply (H o Hi).
Qed.

Lemma C27_path_tracking_has_no_influence_holds : forall (s : settings) (evs : list event) (cs : list rcall), Forall is_byte (fst (supplied evs)) ->
  read_session (without_path s) evs cs = map no_path_outcome (read_session s evs cs).
Proof.
  intros s evs cs Hb. change (without_path s) with (untracked s). rewrite (session_untracked s evs cs Hb).
  apply map_ext. intros [[]|[]|[[]|]| | | |]; reflexivity.
Qed.

Lemma C26_reported_path_holds : forall (s : settings) (vs : list json) (evs : list event) (cs : list rcall) (xs : list expected) (c : cursor),
  document_input s vs evs -> track_path s = true ->
  walk_calls s cs (AtCursor (cursor_start vs)) = (xs, AtCursor c) ->
  exists os p, read_session s evs (cs ++ [CPosition true]) = os ++ [OOk (RPos p)] /\ length os = length cs /\
    p_path p = Some (cursor_path c).
Proof.
  intros s vs evs cs xs c Hd Ht Hw. pose proof (doc_session_at s vs evs cs [CPosition true] xs c Hd Hw) as H.
  cbn in H. rewrite Ht in H. apply Forall2_app_inv_l in H. destruct H as (os & l & H1 & H2 & ->).
  inversion H2 as [|? o ? l' Ho Hl]; subst. inversion Hl; subst. destruct Ho as (p & -> & Hp).
  exists os, p. split; [reflexivity|]. split.
  - rewrite <- (forall2_length _ _ _ H1). clear -Hw. revert Hw. generalize (AtCursor (cursor_start vs)). intros w. revert xs w.
    induction cs as [|call cs IH]; intros xs w Hw; cbn [walk_calls] in Hw; [injection Hw as <- _; reflexivity|].
    destruct (walk_call s call w) as [x w1]. specialize (IH (fst (walk_calls s cs w1)) w1).
    destruct (walk_calls s cs w1) as [ys w2]. injection Hw as <- ->. cbn in IH |- *. f_equal. apply IH. reflexivity.
  - rewrite Hp. f_equal. unfold cursor_path. f_equal. unfold drop_reader. destruct (reading c); reflexivity.
Qed.

Lemma C28_skipping_is_reading_holds : forall (s : settings) (vs : list json) (evs : list event) (cs1 cs2 : list rcall) (xs : list expected) (c : cursor) (v : json),
  document_input s vs evs -> walk_calls s cs1 (AtCursor (cursor_start vs)) = (xs, AtCursor c) ->
  at_value s (drop_reader c) = inr v ->
  exists ys,
    Forall2 (is_result s) (xs ++ [XOk RUnit] ++ ys) (read_session s evs (cs1 ++ [CSkipValue] ++ cs2)) /\
    (readable s v ->
     Forall2 (is_result s) (xs ++ map XOk (read_values v) ++ ys) (read_session s evs (cs1 ++ read_calls v ++ cs2))).
Proof.
  intros s vs evs cs1 cs2 xs c v Hd Hw Hv.
  exists (fst (walk_calls s cs2 (AtCursor (behind_value (drop_reader c))))). split.
  - pose proof (doc_session_at s vs evs cs1 ([CSkipValue] ++ cs2) xs c Hd Hw) as H.
    rewrite walk_calls_app, (walk_skip s v c Hv) in H. destruct (walk_calls s cs2 _). exact H.
  - intros Hr. pose proof (doc_session_at s vs evs cs1 (read_calls v ++ cs2) xs c Hd Hw) as H.
    rewrite walk_calls_app, (walk_read s v c Hr Hv) in H. destruct (walk_calls s cs2 _). exact H.
Qed.

Lemma C29_seek_finds_the_value_holds : forall (s : settings) (vs : list json) (evs : list event) (cs1 cs2 : list rcall) (xs : list expected) (c : cursor) (v u : json)
    (path : list piece),
  document_input s vs evs -> walk_calls s cs1 (AtCursor (cursor_start vs)) = (xs, AtCursor c) ->
  at_value s (drop_reader c) = inr v -> lookup path v = Some u -> readable s u ->
  exists ys,
    Forall2 (is_result s) (xs ++ [XOk RUnit] ++ map XOk (read_values u) ++ [XOk RUnit] ++ ys)
      (read_session s evs (cs1 ++ [CSeekTo path] ++ read_calls u ++ [CSeekBack path] ++ cs2)) /\
    Forall2 (is_result s) (xs ++ [XOk RUnit] ++ ys) (read_session s evs (cs1 ++ [CSkipValue] ++ cs2)).
Proof.
  intros s vs evs cs1 cs2 xs c v u path Hd Hw Hv Hu Hr.
  destruct (at_value_next _ _ _ Hv) as [Hn Hrd]. pose proof (drop_reading c Hrd) as Hnr.
  exists (fst (walk_calls s cs2 (AtCursor (behind_value (drop_reader c))))). split.
  - pose proof (doc_session_at s vs evs cs1 ([CSeekTo path] ++ read_calls u ++ [CSeekBack path] ++ cs2) xs c Hd Hw) as H.
    rewrite walk_calls_app in H.
    assert (Hs : exists c', walk_calls s [CSeekTo path] (AtCursor c) = ([XOk RUnit], AtCursor c') /\
        seek path (drop_reader c) = (XOk RUnit, c') /\ at_value s c' = inr u /\ reading c' = NotReading).
    { pose proof (seek_lookup path (drop_reader c) v Hn Hnr) as Hl. rewrite Hu in Hl. cbn [walk_calls walk_call before_call call_at]. rewrite Hv.
      destruct Hl as (c' & [(H1 & H2 & H3 & H4)|(-> & H1 & ->)]).
      - exists c'. rewrite H1. cbn [continue]. splits; auto. unfold at_value, is_reading. rewrite H3.
        unfold next_value in H2. destruct (frames c') as [|[i [|w l]|n ms|n w ms] fs]; [congruence| | | |]; cbn in H2; congruence.
      - exists (drop_reader c). rewrite H1. splits; auto. }
    destruct Hs as (c' & Hs & Hseek & Hv' & Hr'). rewrite Hs in H. rewrite walk_calls_app in H.
    rewrite (walk_read s u c' Hr) in H by (rewrite (drop_none c' Hr'); exact Hv').
    rewrite (drop_none c' Hr') in H. rewrite walk_calls_app in H.
    assert (Hb : walk_calls s [CSeekBack path] (AtCursor (behind_value c')) = ([XOk RUnit], AtCursor (behind_value (drop_reader c)))).
    { cbn [walk_calls walk_call before_call call_at]. rewrite drop_none.
      - rewrite (seek_back_returns path _ _ Hnr Hseek). reflexivity.
      - unfold behind_value. rewrite done_reading, enter_reading. exact Hr'. }
    rewrite Hb in H. destruct (walk_calls s cs2 _). exact H.
  - pose proof (doc_session_at s vs evs cs1 ([CSkipValue] ++ cs2) xs c Hd Hw) as H.
    rewrite walk_calls_app, (walk_skip s v c Hv) in H. destruct (walk_calls s cs2 _). exact H.
Qed.

Lemma C29_seek_fails_otherwise_holds : forall (s : settings) (vs : list json) (evs : list event) (cs : list rcall) (xs : list expected) (c : cursor) (v : json)
    (path : list piece),
  document_input s vs evs -> walk_calls s cs (AtCursor (cursor_start vs)) = (xs, AtCursor c) ->
  at_value s (drop_reader c) = inr v -> lookup path v = None ->
  exists os o, read_session s evs (cs ++ [CSeekTo path]) = os ++ [o] /\
    ((exists k loc, o = OErr (EUnexpectedStructure k loc)) \/ (exists e a loc, o = OErr (EUnexpectedType e a loc))).
Proof.
  intros s vs evs cs xs c v path Hd Hw Hv Hu.
  destruct (at_value_next _ _ _ Hv) as [Hn Hrd]. pose proof (drop_reading c Hrd) as Hnr.
  pose proof (doc_session_at s vs evs cs [CSeekTo path] xs c Hd Hw) as H.
  pose proof (seek_lookup path (drop_reader c) v Hn Hnr) as Hl. rewrite Hu in Hl.
  cbn [walk_calls walk_call before_call call_at] in H. rewrite Hv in H.
  apply Forall2_app_inv_l in H. destruct H as (os & l & H1 & H2 & ->).
  destruct Hl as (c' & [(e & a & p & Hl)|(k & p & Hl)]); rewrite Hl in H2; cbn [continue fst] in H2;
    inversion H2 as [|? o ? l' Ho Hl']; subst; inversion Hl'; subst; exists os, o; (split; [reflexivity|]).
  - right. destruct Ho as (loc & -> & _). eauto.
  - left. destruct Ho as (loc & -> & _). eauto.
Qed.

Lemma C30_skip_to_top_level_closes_everything_holds : forall (s : settings) (vs : list json) (evs : list event) (cs1 cs2 : list rcall) (xs : list expected) (c : cursor),
  document_input s vs evs -> walk_calls s cs1 (AtCursor (cursor_start vs)) = (xs, AtCursor c) ->
  is_reading c = false ->
  Forall2 (is_result s)
    (xs ++ [XOk RUnit] ++ fst (walk_calls s cs2 (AtCursor (Cursor [] (top c) (started c) NotReading))))
    (read_session s evs (cs1 ++ [CSkipToTopLevel] ++ cs2)).
Proof.
  intros s vs evs cs1 cs2 xs c Hd Hw Hr.
  pose proof (doc_session_at s vs evs cs1 ([CSkipToTopLevel] ++ cs2) xs c Hd Hw) as H. rewrite walk_calls_app in H.
  assert (Hb : walk_calls s [CSkipToTopLevel] (AtCursor c) = ([XOk RUnit], AtCursor (Cursor [] (top c) (started c) NotReading))).
  { cbn [walk_calls walk_call before_call call_at]. unfold is_reading in Hr. unfold drop_reader. destruct (reading c); try discriminate; reflexivity. }
  rewrite Hb in H. destruct (walk_calls s cs2 _). exact H.
Qed.

Lemma C34_all_top_level_values_holds : forall (s : settings) (vs : list json) (evs : list event), document_input s vs evs ->
  allow_multiple_top_level s = true -> Forall (readable s) vs ->
  exists o, read_session s evs (read_all_calls vs ++ [CPeek]) = map OOk (read_all_values vs) ++ [o] /\
    exists loc, o = OErr (EUnexpectedStructure FewerElementsThanExpected loc).
Proof.
  intros s vs evs Hd Hm Hr. pose proof (doc_session s vs evs (read_all_calls vs ++ [CPeek]) Hd) as H.
  rewrite walk_calls_app, (walk_read_all s vs Hm Hr (cursor_start vs)) in H by reflexivity.
  assert (Hv : vs <> []). { destruct Hd as (_ & Hi & _). unfold input_text in Hi. rewrite Hm in Hi. apply Hi. }
  destruct vs as [|v vs]; [congruence|].
  cbn [walk_calls walk_call before_call drop_reader reading set_reading call_at] in H.
  unfold at_value in H. cbn [is_reading reading frames started top] in H. rewrite Hm in H. cbn [andb negb continue fst] in H.
  apply Forall2_app_inv_l in H. destruct H as (os & l & H1 & H2 & ->). apply results_ok in H1. subst os.
  inversion H2 as [|? o ? l' Ho Hl']; subst; inversion Hl'; subst. exists o. split; [reflexivity|].
  destruct Ho as (loc & -> & _). eauto.
Qed.

Lemma C34_end_of_all_values_holds : forall (s : settings) (vs : list json) (evs : list event), document_input s vs evs ->
  allow_multiple_top_level s = true -> Forall (readable s) vs ->
  read_session s evs (read_all_calls vs ++ [CConsumeTrailingWhitespace]) = map OOk (read_all_values vs ++ [RUnit]).
Proof.
  intros s vs evs Hd Hm Hr. apply (results_ok s).
  pose proof (doc_session s vs evs (read_all_calls vs ++ [CConsumeTrailingWhitespace]) Hd) as H.
  rewrite walk_calls_app, (walk_read_all s vs Hm Hr (cursor_start vs)) in H by reflexivity.
  assert (Hv : vs <> []). { destruct Hd as (_ & Hi & _). unfold input_text in Hi. rewrite Hm in Hi. apply Hi. }
  destruct vs as [|v vs]; [congruence|]. unfold oks. rewrite map_app. exact H.
Qed.

Lemma C34_single_value_only_holds : forall (s : settings) (v : json) (evs : list event) (c : rcall), document_input s [v] evs ->
  allow_multiple_top_level s = false -> readable s v ->
  In c [CPeek; CHasNext; CBeginArray; CBeginObject; CNextString; CNextStr; CNextStringReader; CNextNumberStr;
        CNextNumberString; CNextBool; CNextNull; CSkipValue] ->
  read_session s evs (read_calls v ++ [c]) = map OOk (read_values v) ++ [OPanic Misuse].
Proof.
  intros s v evs c Hd Hm Hr Hc. pose proof (doc_session s [v] evs (read_calls v ++ [c]) Hd) as H.
  rewrite walk_calls_app, (walk_read s v _ Hr (start_read s [v] v eq_refl)) in H.
  change (behind_value (drop_reader (cursor_start [v]))) with (Cursor [] [] true NotReading) in H.
  assert (Hb : walk_calls s [c] (AtCursor (Cursor [] [] true NotReading)) = ([XMisuse], Halted)).
  { cbn [In] in Hc. repeat (destruct Hc as [<-|Hc]; [cbn; unfold on_value, at_value, more; cbn; rewrite Hm; reflexivity|]). contradiction. }
  rewrite Hb in H. apply Forall2_app_inv_l in H. destruct H as (os & l & H1 & H2 & ->). apply results_ok in H1. subst os.
  inversion H2 as [|? o ? l' Ho Hl']; subst; inversion Hl'; subst. cbn in Ho. subst. reflexivity.
Qed.

Lemma C07_buffer_sizes_do_not_matter_holds : forall (s : settings) (vs : list json) (evs : list event) (cs1 cs2 : list rcall) (xs : list expected) (c : cursor) (t : str)
    (lens : list nat),
  document_input s vs evs -> walk_calls s cs1 (AtCursor (cursor_start vs)) = (xs, AtCursor c) ->
  at_value s (drop_reader c) = inr (JStr t) ->
  match cs2 with CRead _ :: _ => False | _ => True end ->
  exists ys,
    Forall2 (is_result s) (xs ++ [XOk RUnit] ++ map (fun d => XOk (RBytes d)) (chunks lens (encode_utf8 t)) ++ ys)
      (read_session s evs (cs1 ++ [CNextStringReader] ++ map CRead lens ++ cs2)) /\
    ((length (encode_utf8 t) < fold_right Nat.add 0 lens)%nat ->
     Forall2 (is_result s) (xs ++ [XOk (RStr t)] ++ ys) (read_session s evs (cs1 ++ [CNextString] ++ cs2))).
Proof.
  intros s vs evs cs1 cs2 xs c t lens Hd Hw Hv Hcs.
  destruct (at_value_next _ _ _ Hv) as [Hn Hrd]. pose proof (drop_reading c Hrd) as Hnr.
  pose proof (doc_session_at s vs evs cs1 ([CNextStringReader] ++ map CRead lens ++ cs2) xs c Hd Hw) as H.
  rewrite walk_calls_app in H.
  assert (Hb : walk_calls s [CNextStringReader] (AtCursor c) =
    ([XOk RUnit], AtCursor (set_reading (Reading (encode_utf8 t) true) (enter_value (drop_reader c))))).
  { cbn [walk_calls walk_call before_call call_at]. unfold on_value. rewrite Hv. reflexivity. }
  rewrite Hb, walk_calls_app in H. rewrite (walk_reads s lens _ (encode_utf8 t)) in H by reflexivity.
  set (c1 := set_reading (Reading (encode_utf8 t) true) (enter_value (drop_reader c))) in *.
  eexists. split.
  - match type of H with context [walk_calls s cs2 ?w] => instantiate (1 := fst (walk_calls s cs2 w)) end.
    unfold oks in H. rewrite map_map in H. destruct (walk_calls s cs2 _). exact H.
  - intros Hl. apply Nat.leb_gt in Hl. change (fold_right Nat.add 0%nat lens) with (total lens) in Hl. rewrite Hl.
    pose proof (doc_session_at s vs evs cs1 ([CNextString] ++ cs2) xs c Hd Hw) as H'. rewrite walk_calls_app in H'.
    assert (Hb' : walk_calls s [CNextString] (AtCursor c) = ([XOk (RStr t)], AtCursor (behind_value (drop_reader c)))).
    { cbn [walk_calls walk_call before_call call_at]. unfold on_value. rewrite Hv. reflexivity. }
    rewrite Hb' in H'. 
    assert (He : walk_calls s cs2 (AtCursor (value_done (set_reading ReadAll c1))) = walk_calls s cs2 (AtCursor (behind_value (drop_reader c))) \/ cs2 = []).
    { destruct cs2 as [|c2 cs2]; [auto|]. left.
      rewrite (walk_calls_drop s (c2 :: cs2) _ _ eq_refl) by (destruct c2; tauto).
      f_equal. f_equal. unfold c1, behind_value. set (c3 := enter_value (drop_reader c)).
      assert (Hc3 : reading c3 = NotReading) by (unfold c3; rewrite enter_reading; exact Hnr).
      destruct c3 as [fs tp st rd]. cbn in Hc3. subst rd. destruct fs as [|[] fs]; reflexivity. }
    clear H. destruct He as [He| ->]; [rewrite He; destruct (walk_calls s cs2 _); exact H'|exact H'].
Qed.

Lemma C07_pieces_holds : forall (lens : list nat) (data : bytes),
  concat (chunks lens data) = firstn (fold_right Nat.add 0%nat lens) data /\
  forall i n, nth_error lens i = Some n -> nth_error (chunks lens data) i = Some [] ->
    n = 0%nat \/ (length data <= fold_right Nat.add 0 (firstn i lens))%nat.
Proof.
  intros lens data. split; [apply chunks_concat|]. revert data.
  induction lens as [|m lens IH]; intros data i n Hi Hc; [destruct i; discriminate|].
  destruct i as [|i]; cbn in Hi, Hc.
  - injection Hi as ->. injection Hc as Hc. destruct n; [auto|]. destruct data; [right; cbn; lia|discriminate].
  - destruct (IH _ _ _ Hi Hc) as [H|H]; [auto|]. right. rewrite skipn_length in H. cbn. lia.
Qed.

Lemma written_input s v cfg out out' cs rs ws : received out = [] -> Forall valid_call cs ->
  wrun cfg cs (new_session out) = (rs, ws) -> Forall2 success cs rs -> wfinish ws = (RDone, out') ->
  describes_all false empty_doc cs (Wdoc [v] [] None) -> multi_top_level cfg = false ->
  forall evs, supplied evs = (received out', TEof) -> allow_multiple_top_level s = false -> within_limit s [v] ->
  document_input s [v] evs.
Proof.
  intros Ho Hv Hr Hs Hf Hd Hm evs He Hms Hl.
  destruct (C12_finished_document_valid_holds cfg out out' cs rs ws Ho Hv Hr Hs Hf) as (d & Hd' & _ & _ & Hsingle & _).
  rewrite Hm in Hd'. pose proof (C12_described_data_unique_holds false cs _ _ Hd Hd') as E. subst d.
  destruct (Hsingle Hm) as (v' & E & Hdoc). cbn in E. injection E as <-.
  split; [rewrite He; reflexivity|]. split; [|exact Hl]. unfold input_text. rewrite Hms, He. exists v. split; [reflexivity|].
  apply document_ext. exact Hdoc.
Qed.


Lemma C15_written_document_reads_back_holds : forall (cfg : wsettings) (out out' : sink) (cs : list wcall) (rs : list wresult) (ws : wsession) (v : json)
    (s : settings) (evs : list event),
  received out = [] -> Forall valid_call cs -> multi_top_level cfg = false ->
  describes_all false empty_doc cs (Wdoc [v] [] None) ->
  wrun cfg cs (new_session out) = (rs, ws) -> Forall2 success cs rs -> wfinish ws = (RDone, out') ->
  supplied evs = (received out', TEof) -> allow_multiple_top_level s = false -> within_limit s [v] ->
  (forall rcs, Forall2 (is_result s) (fst (walk_calls s rcs (AtCursor (cursor_start [v])))) (read_session s evs rcs)) /\
  (readable s v -> read_session s evs (read_calls v ++ [CConsumeTrailingWhitespace]) = map OOk (read_values v ++ [RUnit])).
Proof.
  intros cfg out out' cs rs ws v s evs Ho Hv Hm Hd Hr Hs Hf He Hms Hl.
  pose proof (written_input s v cfg out out' cs rs ws Ho Hv Hr Hs Hf Hd Hm evs He Hms Hl) as H.
  split; [intros rcs; apply doc_session, H|apply read_document, H].
Qed.

Lemma C15_written_values_read_back_holds : forall (cfg : wsettings) (out out' : sink) (cs : list wcall) (rs : list wresult) (ws : wsession) (d : wdoc)
    (s : settings) (evs : list event),
  received out = [] -> Forall valid_call cs -> multi_top_level cfg = true ->
  separator cfg <> [] -> Forall ws_byte (separator cfg) ->
  describes_all true empty_doc cs d ->
  wrun cfg cs (new_session out) = (rs, ws) -> Forall2 success cs rs -> wfinish ws = (RDone, out') ->
  supplied evs = (received out', TEof) -> allow_multiple_top_level s = true -> within_limit s (d_top d) ->
  (forall rcs, Forall2 (is_result s) (fst (walk_calls s rcs (AtCursor (cursor_start (d_top d))))) (read_session s evs rcs)) /\
  (Forall (readable s) (d_top d) ->
   read_session s evs (read_all_calls (d_top d) ++ [CConsumeTrailingWhitespace]) = map OOk (read_all_values (d_top d) ++ [RUnit])).
Proof.
  intros cfg out out' cs rs ws d s evs Ho Hv Hm Hsep Hws Hd Hr Hs Hf He Hms Hl.
  destruct (C12_finished_document_valid_holds cfg out out' cs rs ws Ho Hv Hr Hs Hf) as (d' & Hd' & Hc & (texts & Ht & Htexts) & _).
  rewrite Hm in Hd'. pose proof (C12_described_data_unique_holds true cs _ _ Hd Hd') as E. subst d'.
  assert (H : document_input s (d_top d) evs).
  { split; [rewrite He; reflexivity|]. split; [|exact Hl]. unfold input_text. rewrite Hms, He. cbn [fst].
    destruct Hc as (_ & _ & Hne). split; [exact Hne|]. rewrite Ht. apply joined_stream; assumption. }
  split; [intros rcs; apply doc_session, H|]. intros Hrd.
  apply C34_end_of_all_values_holds; assumption.
Qed.

Lemma C09_written_string_reads_back_holds : forall (cfg : wsettings) (out : sink) (v : str) (s : settings) (evs : list event),
  Forall is_char v -> received out = [] -> reliable out ->
  exists ws out', wrun cfg [CString v] (new_session out) = ([RDone], ws) /\ wfinish ws = (RDone, out') /\
    (supplied evs = (received out', TEof) ->
     read_session s evs [CNextString; CConsumeTrailingWhitespace] = [OOk (RStr v); OOk RUnit]).
Proof.
  intros cfg out v s evs Hv Ho Hr.
  destruct (C09_written_string_denotes_string_holds cfg out v Hv Ho Hr) as (ws & out' & H1 & H2 & H3).
  exists ws, out'. split; [exact H1|]. split; [exact H2|]. intros He.
  assert (Hd : document_input s [JStr v] evs).
  { split; [rewrite He; reflexivity|]. split.
    - unfold input_text. rewrite He. cbn [fst]. destruct (allow_multiple_top_level s).
      + split; [discriminate|]. rewrite <- (app_nil_r (received out')).
        apply (ST_value _ []); [constructor|apply value_ext, H3|apply ST_end; left; constructor|intros []].
      + exists (JStr v). split; [reflexivity|]. exists [], (received out'), [].
        rewrite app_nil_r. splits; [reflexivity|constructor|apply value_ext, H3|left; constructor].
    - unfold within_limit. destruct (max_nesting_depth s); [|exact I]. constructor; [cbn; lia|constructor]. }
  apply (read_document s (JStr v) evs Hd). intros _. constructor.
Qed.
