(** * Facts about the walk of SpecCursor: reading, skipping and seeking *)

From Verif Require Import Base Utf8Model SpecNumber SpecJson ReaderModel ReaderLex SpecCursor SpecRead.

Lemma json_nested_ind (P : json -> Prop) :
  P JNull -> (forall b, P (JBool b)) -> (forall t, P (JNum t)) -> (forall t, P (JStr t)) ->
  (forall items, Forall P items -> P (JArr items)) ->
  (forall ms, Forall (fun m => P (snd m)) ms -> P (JObj ms)) -> forall v, P v.
Proof.
  intros H1 H2 H3 H4 H5 H6. fix IH 1. intros [|b|t|t|items|ms];
    [exact H1|exact (H2 b)|exact (H3 t)|exact (H4 t)| |].
  - apply H5. induction items as [|v items IHi]; constructor; [apply IH|exact IHi].
  - apply H6. induction ms as [|[n v] ms IHm]; constructor; [apply IH|exact IHm].
Qed.

Lemma walk_calls_app s : forall cs1 cs2 w,
  walk_calls s (cs1 ++ cs2) w =
  let (xs, w1) := walk_calls s cs1 w in
  let (ys, w2) := walk_calls s cs2 w1 in (xs ++ ys, w2).
Proof.
  induction cs1 as [|c cs1 IH]; intros cs2 w; cbn [app walk_calls].
  - destruct (walk_calls s cs2 w). reflexivity.
  - destruct (walk_call s c w) as [x w1]. rewrite IH. destruct (walk_calls s cs1 w1) as [xs w2].
    destruct (walk_calls s cs2 w2). reflexivity.
Qed.

Lemma at_value_next s c v : at_value s c = inr v -> next_value c = Some v /\ is_reading c = false.
Proof.
  unfold at_value, next_value. destruct (is_reading c); [discriminate|].
  destruct (frames c) as [|[i [|u items]|n ms|n u ms] fs].
  - destruct (started c && _); [discriminate|]. destruct (top c); [discriminate|]. intros [= <-]. auto.
  - discriminate.
  - intros [= <-]. auto.
  - discriminate.
  - intros [= <-]. auto.
Qed.

Lemma drop_none c : reading c = NotReading -> drop_reader c = c.
Proof. intros H. unfold drop_reader. rewrite H. destruct c. cbn in *. subst. reflexivity. Qed.

Lemma drop_reading c : is_reading (drop_reader c) = false -> reading (drop_reader c) = NotReading.
Proof. unfold drop_reader, is_reading. destruct (reading c); cbn; auto. discriminate. Qed.

Lemma enter_reading c : reading (enter_value c) = reading c.
Proof. unfold enter_value. destruct (frames c) as [|[] ?]; reflexivity. Qed.
Lemma done_reading c : reading (value_done c) = reading c.
Proof. unfold value_done. destruct (frames c) as [|[] ?]; reflexivity. Qed.

Lemma walk_call_not_read s call c : match call with CRead _ => False | _ => True end ->
  reading c = NotReading -> walk_call s call (AtCursor c) = call_at s call c.
Proof.
  intros Hc Hr. unfold walk_call, before_call. rewrite (drop_none c Hr). destruct call; tauto || reflexivity.
Qed.

Definition oks (l : list rvalue) : list expected := map XOk l.

Lemma close_open c f : close_frame (open_frame f c) = value_done c.
Proof. unfold close_frame, open_frame. destruct c. reflexivity. Qed.

Lemma walk_read_value s v : readable s v -> forall c, reading c = NotReading -> at_value s c = inr v ->
  walk_calls s (read_calls v) (AtCursor c) = (oks (read_values v), AtCursor (behind_value c)).
Proof.
  induction v as [| b|t|t|items IH|ms IH] using json_nested_ind; intros Hn c Hr Hv;
    cbn [read_calls read_values].
  - cbn [walk_calls]. rewrite walk_call_not_read by auto. cbn [call_at]. unfold on_value. rewrite Hv. reflexivity.
  - cbn [walk_calls]. rewrite walk_call_not_read by auto. cbn [call_at]. unfold on_value. rewrite Hv. reflexivity.
  - cbn [walk_calls]. rewrite walk_call_not_read by auto. cbn [call_at]. unfold on_value. rewrite Hv. cbn [json_type].
    destruct (value_type_dec TNumber TNumber); [|congruence].
    assert (Hu : restrict_number_values s && unsupported_number t = false).
    { destruct (restrict_number_values s) eqn:E; [|reflexivity]. specialize (Hn E). inversion Hn. assumption. }
    rewrite Hu. reflexivity.
  - cbn [walk_calls]. rewrite walk_call_not_read by auto. cbn [call_at]. unfold on_value. rewrite Hv. reflexivity.
  - rewrite !walk_calls_app. cbn [walk_calls]. rewrite walk_call_not_read by auto. cbn [call_at]. unfold on_value. rewrite Hv.
    cbn [json_type]. destruct (value_type_dec TArray TArray); [|congruence]. cbn [walk_calls].
    set (c0 := enter_value c).
    assert (Hc0 : reading c0 = NotReading) by (unfold c0; rewrite enter_reading; exact Hr).
    assert (Hit : forall i, walk_calls s (flat_map read_calls items) (AtCursor (open_frame (InArray i items) c0)) =
       (oks (flat_map read_values items), AtCursor (open_frame (InArray (i + N.of_nat (length items)) []) c0))).
    { assert (Hn' : readable s (JArr items)) by exact Hn. clear Hn Hv. revert Hn'.
      induction IH as [|v items Hv Hi IHi]; intros Hn i.
      - cbn. rewrite N.add_0_r. reflexivity.
      - cbn [flat_map]. rewrite walk_calls_app. rewrite Hv.
        + assert (Hb : behind_value (open_frame (InArray i (v :: items)) c0) = open_frame (InArray (i + 1) items) c0) by reflexivity.
          rewrite Hb, IHi.
          * unfold oks. rewrite map_app. cbn [length].
            replace (i + 1 + N.of_nat (length items))%N with (i + N.of_nat (S (length items)))%N by lia. reflexivity.
          * intros E. specialize (Hn E). cbn [numbers flat_map] in Hn. apply Forall_app in Hn. apply Hn.
        + intros E. specialize (Hn E). cbn [numbers flat_map] in Hn. apply Forall_app in Hn. apply Hn.
        + exact Hc0.
        + unfold at_value, is_reading. cbn [open_frame reading frames]. rewrite Hc0. reflexivity. }
    rewrite walk_calls_app, Hit. cbn [walk_calls]. rewrite walk_call_not_read by auto.
    cbn [call_at]. unfold is_reading. cbn [open_frame reading frames]. rewrite Hc0. rewrite close_open.
    unfold oks. cbn [app map]. rewrite map_app. reflexivity.
  - rewrite !walk_calls_app. cbn [walk_calls]. rewrite walk_call_not_read by auto. cbn [call_at]. unfold on_value. rewrite Hv.
    cbn [json_type]. destruct (value_type_dec TObject TObject); [|congruence]. cbn [walk_calls].
    set (c0 := enter_value c).
    assert (Hc0 : reading c0 = NotReading) by (unfold c0; rewrite enter_reading; exact Hr).
    assert (Hit : forall o, exists o', walk_calls s (flat_map (fun m => CNextName :: read_calls (snd m)) ms) (AtCursor (open_frame (InObject o ms) c0)) =
       (oks (flat_map (fun m => RStr (fst m) :: read_values (snd m)) ms), AtCursor (open_frame (InObject o' []) c0))).
    { assert (Hn' : readable s (JObj ms)) by exact Hn. clear Hn Hv. revert Hn'.
      induction IH as [|[n v] ms Hv Hi IHi]; intros Hn o.
      - cbn. eauto.
      - cbn [flat_map fst snd] in *. cbn [app walk_calls]. rewrite walk_call_not_read by auto.
        assert (Hcall : call_at s CNextName (open_frame (InObject o ((n, v) :: ms)) c0) =
                 (XOk (RStr n), AtCursor (open_frame (AtValue n v ms) c0))).
        { cbn [call_at]. unfold on_name, at_name, is_reading. cbn [open_frame reading frames]. rewrite Hc0. reflexivity. }
        rewrite Hcall. rewrite walk_calls_app. rewrite Hv.
        + assert (Hb : behind_value (open_frame (AtValue n v ms) c0) = open_frame (InObject (Some n) ms) c0) by reflexivity.
          rewrite Hb. destruct (IHi) with (o := Some n) as (o' & ->).
          * intros E. specialize (Hn E). cbn [numbers flat_map] in Hn. apply Forall_app in Hn. apply Hn.
          * exists o'. unfold oks. cbn [map]. rewrite map_app. reflexivity.
        + intros E. specialize (Hn E). cbn [numbers flat_map] in Hn. apply Forall_app in Hn. apply Hn.
        + exact Hc0.
        + unfold at_value, is_reading. cbn [open_frame reading frames]. rewrite Hc0. reflexivity. }
    destruct (Hit None) as (o' & Ho). rewrite walk_calls_app, Ho. cbn [walk_calls]. rewrite walk_call_not_read by auto.
    cbn [call_at]. unfold is_reading. cbn [open_frame reading frames]. rewrite Hc0. rewrite close_open.
    unfold oks. cbn [app map]. rewrite map_app. reflexivity.
Qed.

(** The first call drops the string reader *)
Lemma walk_calls_drop s cs w c : w = AtCursor c -> match cs with [] | CRead _ :: _ => False | _ => True end ->
  walk_calls s cs w = walk_calls s cs (AtCursor (drop_reader c)).
Proof.
  intros -> Hc. destruct cs as [|call cs]; [tauto|]. cbn [walk_calls].
  assert (H : walk_call s call (AtCursor c) = walk_call s call (AtCursor (drop_reader c))).
  { unfold walk_call, before_call. assert (Hd : drop_reader (drop_reader c) = drop_reader c).
    { unfold drop_reader. destruct (reading c); reflexivity. }
    destruct call; try rewrite Hd; tauto || reflexivity. }
  rewrite H. reflexivity.
Qed.

Lemma read_calls_cons v : match read_calls v with [] | CRead _ :: _ => False | _ => True end.
Proof. destruct v; exact I. Qed.

Lemma walk_read s v c : readable s v -> at_value s (drop_reader c) = inr v ->
  walk_calls s (read_calls v) (AtCursor c) = (oks (read_values v), AtCursor (behind_value (drop_reader c))).
Proof.
  intros Hn Hv. rewrite (walk_calls_drop s _ _ c eq_refl (read_calls_cons v)).
  apply walk_read_value; auto. apply drop_reading. apply (at_value_next _ _ _ Hv).
Qed.

Lemma walk_skip s v c : at_value s (drop_reader c) = inr v ->
  walk_calls s [CSkipValue] (AtCursor c) = ([XOk RUnit], AtCursor (behind_value (drop_reader c))).
Proof. intros Hv. cbn. rewrite Hv. reflexivity. Qed.

(** ** Seeking *)

Lemma find_member_find n ms : match find_member n ms with
  | Some (v, ms') => exists m, find (fun m => if list_eq_dec N.eq_dec (fst m) n then true else false) ms = Some m /\ snd m = v
  | None => find (fun m => if list_eq_dec N.eq_dec (fst m) n then true else false) ms = None
  end.
Proof.
  induction ms as [|[m v] ms IH]; cbn [find_member find fst]; [reflexivity|]. destruct (list_eq_dec N.eq_dec m n); [|exact IH].
  eexists. split; reflexivity.
Qed.

Lemma nth_error_skipn {A} i : forall (l : list A), nth_error l i = hd_error (skipn i l).
Proof. induction i as [|i IH]; intros [|x l]; cbn; auto. Qed.

Lemma next_open c f : next_value (open_frame f c) =
  match f with InArray _ items => hd_error items | InObject _ _ => None | AtValue _ v _ => Some v end.
Proof. reflexivity. Qed.

Lemma behind_open c f : behind_value (open_frame f c) = open_frame
  match f with InArray i items => InArray (i + 1) (tl items) | InObject n ms => InObject n ms | AtValue n _ ms => InObject (Some n) ms end c.
Proof. destruct f; reflexivity. Qed.

(** [seek] finds exactly the values of [lookup], and [seek_up] returns behind
    the value at which it started *)
Lemma seek_lookup path : forall c v, next_value c = Some v -> reading c = NotReading ->
  match lookup path v with
  | Some u => exists c', seek path c = (XOk RUnit, c') /\ next_value c' = Some u /\ reading c' = NotReading /\
      frames c' <> [] \/ path = [] /\ seek path c = (XOk RUnit, c) /\ u = v
  | None => exists c', (exists e a p, seek path c = (XType e a p, c')) \/ (exists k p, seek path c = (XStructure k p, c'))
  end.
Proof.
  induction path as [|[i|n] path IH]; intros c v Hv Hr.
  - cbn. exists c. right. auto.
  - cbn [lookup seek]. rewrite Hv.
    destruct v as [| | | |items|]; try (eexists; left; eexists _, _, _; reflexivity).
    destruct (i <? N.of_nat (length items)) eqn:Ei.
    + apply N.ltb_lt in Ei. destruct (nth_error items (N.to_nat i)) as [u|] eqn:Eu.
      2:{ apply nth_error_None in Eu. lia. }
      specialize (IH (open_frame (InArray i (skipn (N.to_nat i) items)) (enter_value c)) u).
      rewrite next_open, <- nth_error_skipn in IH. specialize (IH Eu).
      assert (Hr' : reading (open_frame (InArray i (skipn (N.to_nat i) items)) (enter_value c)) = NotReading)
        by (cbn; rewrite enter_reading; exact Hr).
      specialize (IH Hr'). destruct (lookup path u) as [u'|].
      * destruct IH as (c' & [(H1 & H2 & H3 & H4)|(-> & H & ->)]).
        -- exists c'. left. auto.
        -- eexists. left. split; [exact H|]. rewrite next_open, <- nth_error_skipn. splits; auto. cbn. discriminate.
      * destruct IH as (c' & IH). exists c'. exact IH.
    + apply N.ltb_ge in Ei. assert (Eu : nth_error items (N.to_nat i) = None) by (apply nth_error_None; lia).
      rewrite Eu. eexists. right. eexists _, _. reflexivity.
  - cbn [lookup seek]. rewrite Hv.
    destruct v as [| | | | |ms]; try (eexists; left; eexists _, _, _; reflexivity).
    pose proof (find_member_find n ms) as Hf. destruct (find_member n ms) as [[u ms']|].
    + destruct Hf as ([m u0] & -> & E). cbn in E. subst u0. cbn [snd].
      specialize (IH (open_frame (AtValue n u ms') (enter_value c)) u eq_refl).
      assert (Hr' : reading (open_frame (AtValue n u ms') (enter_value c)) = NotReading)
        by (cbn; rewrite enter_reading; exact Hr).
      specialize (IH Hr'). destruct (lookup path u) as [u'|].
      * destruct IH as (c' & [(H1 & H2 & H3 & H4)|(-> & H & ->)]).
        -- exists c'. left. auto.
        -- eexists. left. split; [exact H|]. splits; auto. cbn. discriminate.
      * destruct IH as (c' & IH). exists c'. exact IH.
    + rewrite Hf. eexists. right. eexists _, _. reflexivity.
Qed.

Lemma seek_up_app p1 : forall p2 c, seek_up (p1 ++ p2) c =
  let (x, c') := seek_up p1 c in match x with XOk _ => seek_up p2 c' | _ => (x, c') end.
Proof.
  induction p1 as [|p p1 IH]; intros p2 c; cbn [app seek_up]; [reflexivity|].
  destruct (is_reading c); [reflexivity|]. destruct p, (frames c) as [|[] ?]; try reflexivity; apply IH.
Qed.

Lemma seek_back_returns path : forall c c', reading c = NotReading ->
  seek path c = (XOk RUnit, c') -> seek_up (rev path) (behind_value c') = (XOk RUnit, behind_value c).
Proof.
  induction path as [|[i|n] path IH]; intros c c' Hr H.
  - cbn in *. congruence.
  - cbn [seek rev] in *. destruct (next_value c) as [[| | | |items|]|]; try discriminate.
    destruct (i <? N.of_nat (length items)); [|discriminate].
    specialize (IH (open_frame (InArray i (skipn (N.to_nat i) items)) (enter_value c)) c'
      (eq_trans (enter_reading c) Hr) H).
    rewrite seek_up_app, IH. rewrite behind_open. cbn [seek_up]. unfold is_reading. cbn [open_frame reading frames].
    rewrite enter_reading, Hr. change (Cursor (?f :: frames ?x) (top ?x) (started ?x) (reading ?x)) with (open_frame f x).
    rewrite close_open. reflexivity.
  - cbn [seek rev] in *. destruct (next_value c) as [[| | | | |ms]|]; try discriminate.
    destruct (find_member n ms) as [[u ms']|]; [|discriminate].
    specialize (IH (open_frame (AtValue n u ms') (enter_value c)) c' (eq_trans (enter_reading c) Hr) H).
    rewrite seek_up_app, IH. rewrite behind_open. cbn [seek_up]. unfold is_reading. cbn [open_frame reading frames].
    rewrite enter_reading, Hr. change (Cursor (?f :: frames ?x) (top ?x) (started ?x) (reading ?x)) with (open_frame f x).
    rewrite close_open. reflexivity.
Qed.

(** ** String readers *)

Definition total (lens : list nat) : nat := fold_right Nat.add 0%nat lens.

Lemma chunks_concat lens : forall data, concat (chunks lens data) = firstn (total lens) data.
Proof.
  induction lens as [|n lens IH]; intros data; cbn; [reflexivity|]. rewrite IH.
  change (fold_right Nat.add 0%nat lens) with (total lens).
  rewrite <- (firstn_skipn n (firstn (n + total lens) data)) at 1.
  rewrite firstn_firstn, Nat.min_l by lia. f_equal.
  rewrite firstn_skipn_comm. reflexivity.
Qed.

Lemma chunks_nil lens : chunks lens [] = map (fun _ => []) lens.
Proof. induction lens as [|n lens IH]; cbn; [reflexivity|]. rewrite firstn_nil, skipn_nil, IH. reflexivity. Qed.

Lemma walk_reads_end s lens : forall c, reading c = ReadAll ->
  walk_calls s (map CRead lens) (AtCursor c) = (oks (map (fun _ => RBytes []) lens), AtCursor c).
Proof.
  induction lens as [|n lens IH]; intros c H; cbn [map walk_calls]; [reflexivity|].
  cbn [walk_call before_call call_at]. unfold read_string. rewrite H. cbn [walk_calls]. rewrite IH by exact H. reflexivity.
Qed.

Lemma walk_reads s lens : forall c data, reading c = Reading data true ->
  walk_calls s (map CRead lens) (AtCursor c) =
  (oks (map RBytes (chunks lens data)),
   AtCursor (if Nat.leb (total lens) (length data) then set_reading (Reading (skipn (total lens) data) true) c
             else value_done (set_reading ReadAll c))).
Proof.
  induction lens as [|n lens IH]; intros c data H; cbn [map walk_calls].
  - cbn. destruct c. cbn in *. subst. reflexivity.
  - cbn [walk_call before_call call_at chunks]. unfold read_string. rewrite H.
    destruct (Nat.leb n (length data)) eqn:En.
    + cbn [walk_calls]. rewrite (IH _ (skipn n data)) by reflexivity. unfold oks. cbn [map].
      apply Nat.leb_le in En. rewrite skipn_length.
      assert (El : Nat.leb (total lens) (length data - n) = Nat.leb (total (n :: lens)) (length data)).
      { cbn [total fold_right]. change (fold_right Nat.add 0%nat lens) with (total lens).
        destruct (Nat.leb_spec (total lens) (length data - n)), (Nat.leb_spec (n + total lens) (length data)); try reflexivity; lia. }
      rewrite El. f_equal. f_equal. destruct (Nat.leb (total (n :: lens)) (length data)); [|reflexivity].
      unfold set_reading. cbn. f_equal. f_equal. change (fold_right Nat.add 0%nat lens) with (total lens).
      clear. revert data. induction n as [|n IH]; intros [|x data]; cbn; rewrite ?skipn_nil; auto.
    + cbn [walk_calls]. rewrite walk_reads_end by (rewrite done_reading; reflexivity).
      apply Nat.leb_gt in En. rewrite firstn_all2, skipn_all2 by lia.
      rewrite chunks_nil.
      assert (El : Nat.leb (total (n :: lens)) (length data) = false).
      { apply Nat.leb_gt. cbn [total fold_right]. lia. }
      rewrite El. unfold oks. cbn [map]. rewrite !map_map. reflexivity.
Qed.

(** ** Several top-level values *)

Lemma walk_read_all s vs : allow_multiple_top_level s = true -> Forall (readable s) vs ->
  forall c, frames c = [] -> reading c = NotReading -> top c = vs ->
  walk_calls s (read_all_calls vs) (AtCursor c) =
  (oks (read_all_values vs), AtCursor match vs with [] => c | _ => Cursor [] [] true NotReading end).
Proof.
  intros Hm. induction vs as [|v vs IH]; intros Hn c Hf Hr Ht; [reflexivity|].
  inversion Hn as [|? ? Hn1 Hn2]; subst. cbn [read_all_calls read_all_values].
  assert (Hv : at_value s c = inr v).
  { unfold at_value, is_reading. rewrite Hr, Hf, Hm, andb_false_r, Ht. reflexivity. }
  rewrite walk_calls_app, (walk_read_value s v Hn1 c Hr Hv).
  assert (Hb : behind_value c = Cursor [] vs true NotReading).
  { unfold behind_value, enter_value. rewrite Hf. unfold value_done. cbn. rewrite Ht, Hr. reflexivity. }
  rewrite Hb. rewrite walk_calls_app.
  assert (Hc : walk_calls s [CHasNext] (AtCursor (Cursor [] vs true NotReading)) =
    ([XOk (RBool match vs with [] => false | _ => true end)], AtCursor (Cursor [] vs true NotReading))).
  { cbn. unfold more. cbn. rewrite Hm. reflexivity. }
  rewrite Hc, (IH Hn2) by reflexivity. unfold oks. rewrite !map_app. cbn [map app].
  destruct vs; reflexivity.
Qed.
