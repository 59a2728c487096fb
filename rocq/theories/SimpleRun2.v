(** * Proofs: strings, arrays and seeking of the simple reader API on known data *)

From Verif Require Import Base Utf8Model SpecNumber SpecJson ReaderModel SpecCursor SpecRead ReaderCursor
  SimpleModel SpecSimple SimpleErrors SimpleWp SimpleRun.
Open Scope smonad_scope.

(** ** Calls which fail *)

Definition errs {A : Type} (re : sres A * option kept_error) (w : walk) : Prop :=
  exists e e', re = (SErr e, Some e').

Lemma errs_bind A B s (m : simple A) (f : A -> simple B) w : wp s (m None) w errs -> wp s (sbind m f None) w errs.
Proof.
  intros H. apply wp_bind. eapply wp_weaken; [|exact H]. intros re w' (e & e' & ->). exists e, e'. reflexivity.
Qed.

Lemma errs_fails A B s (m : client (sres B * option kept_error)) w (P : A -> B -> walk -> Prop) :
  wp s m w errs -> wp s m w (follows Fails P).
Proof.
  intros H. eapply wp_weaken; [|exact H]. intros re w' (e & e' & ->). split; [discriminate|exact I].
Qed.

Lemma delegate_errs s call c w : at_ c w -> calm call -> call_verdict (fst (call_at s call c)) = Fails ->
  wp s (delegate call None) w errs.
Proof.
  intros Hat Hc Hx. destruct (call_at s call c) as [x w1] eqn:E. cbn in Hx.
  apply wp_delegate. intros o Ho. rewrite (at_call s call c w Hat) in * by (destruct call; tauto).
  rewrite E in *. cbn [fst snd] in *. destruct x; try discriminate; destruct Ho as (loc & Ho).
  - destruct Ho as [-> _]. eexists (SError _), _. reflexivity.
  - destruct Ho as [-> _]. eexists (SError _), _. reflexivity.
  - subst o. eexists (SError _), _. reflexivity.
Qed.

Lemma unit_errs s call c w : at_ c w -> calm call -> call_verdict (fst (call_at s call c)) = Fails ->
  wp s (d_unit call None) w errs.
Proof. intros. apply errs_bind. eapply delegate_errs; eassumption. Qed.

Lemma on_value_type s ty c f v : at_value s c = inr v -> json_type v <> ty ->
  call_verdict (fst (on_value s ty c f)) = Fails.
Proof.
  intros Hv Ht. unfold on_value. rewrite Hv. destruct (value_type_dec (json_type v) ty); [contradiction|]. reflexivity.
Qed.

(** ** Associativity *)

Lemma cbind_assoc A B C (m : client A) (f : A -> client B) (g : B -> client C) s w Q :
  wp s (cbind m (fun a => cbind (f a) g)) w Q -> wp s (cbind (cbind m f) g) w Q.
Proof.
  revert w. induction m as [a|c k IH]; intros w H; cbn in *; auto.
Qed.

Lemma wp_assoc A B C s (m : simple A) (f : A -> simple B) (g : B -> simple C) err w Q :
  wp s (sbind m (fun a => sbind (f a) g) err) w Q -> wp s (sbind (sbind m f) g err) w Q.
Proof.
  intros H. unfold sbind in *. apply cbind_assoc.
  revert w H. generalize (m err) as cm. induction cm as [re|c k IH]; intros w H; cbn in *; auto.
  destruct re as [[a|e|k| |] err']; cbn in *; auto.
Qed.

(** ** Strings *)

(** A string reader with the given data left; [ce] is the cursor behind the
    string *)
Definition in_string (data : bytes) (ce : cursor) (w : walk) : Prop :=
  reading ce = NotReading /\ exists c, w = AtCursor c /\
  ((reading c = Reading data true /\ value_done (set_reading NotReading c) = ce) \/
   (data = [] /\ reading c = ReadAll /\ set_reading NotReading c = ce)).

Lemma set_reading_done r c : value_done (set_reading r c) = set_reading r (value_done c).
Proof. unfold value_done, set_reading. destruct (frames c) as [|[] ?] eqn:E; cbn; rewrite ?E; reflexivity. Qed.

Lemma string_read_follows s len data ce w : in_string data ce w ->
  wp s (string_read len None) w (fun re w' => re = (SOk (firstn len data), None) /\ in_string (skipn len data) ce w' /\
    (firstn len data = [] -> (0 < len)%nat -> at_ ce w')).
Proof.
  intros (Hr & c & -> & H). cbn [string_read wp]. intros o Ho. cbn [walk_call before_call call_at] in *.
  unfold read_string in *. destruct H as [[Hc He]|(-> & Hc & He)]; rewrite Hc in *.
  - destruct (Nat.leb len (length data)) eqn:El; cbn [fst snd is_result] in *; subst o.
    + split; [reflexivity|]. split.
      * split; [exact Hr|]. eexists. split; [reflexivity|]. left. split; [reflexivity|]. exact He.
      * intros Hn Hl. apply Nat.leb_le in El. destruct len; [lia|]. destruct data; [cbn in El; lia|discriminate].
    + apply Nat.leb_gt in El. rewrite firstn_all2, skipn_all2 by lia. split; [reflexivity|]. split.
      * split; [exact Hr|]. eexists. split; [reflexivity|]. right. splits; auto.
        -- rewrite set_reading_done. reflexivity.
        -- rewrite <- He, !set_reading_done. reflexivity.
      * intros _ _. split; [exact Hr|]. eexists. split; [reflexivity|].
        rewrite <- He, !set_reading_done. unfold drop_reader. cbn. reflexivity.
  - cbn [fst snd is_result] in *. subst o. rewrite firstn_nil, skipn_nil. split; [reflexivity|]. split.
    + split; [exact Hr|]. exists c. split; [reflexivity|]. right. auto.
    + intros _ _. split; [exact Hr|]. exists c. split; [reflexivity|]. unfold drop_reader. rewrite Hc. exact He.
Qed.

Lemma drain_follows s : forall fuel data ce w, (length data < fuel)%nat -> in_string data ce w ->
  wp s (drain fuel None) w (fun re w' => re = (SOk tt, None) /\ at_ ce w').
Proof.
  induction fuel as [|fuel IH]; intros data ce w Hl Hi; [lia|]. cbn [drain]. apply wp_bind.
  eapply wp_weaken; [|exact (string_read_follows s 512 data ce w Hi)].
  intros re w' (-> & Hi' & Hend). destruct (firstn 512 data) as [|x l] eqn:E.
  - cbn. split; [reflexivity|]. apply Hend; [reflexivity|lia].
  - apply (IH (skipn 512 data)); [|exact Hi']. rewrite skipn_length.
    destruct data; [discriminate|]. cbn [length] in *. lia.
Qed.

Lemma run_string_follows R s (f : string_body R) : forall data ce w, in_string data ce w ->
  wp s (run_string f None) w (fun re w' =>
    match sem_string f data with
    | Gives (VResult r) => exists rest, re = (SOk (inr r), None) /\ in_string rest ce w' /\ (length rest <= length data)%nat
    | Aborts e _ => re = (SOk (inl e), None)
    | _ => False
    end).
Proof.
  induction f as [[e|r]|len k IH]; intros data ce w Hi; cbn [run_string sem_string].
  - reflexivity.
  - exists data. splits; auto.
  - apply wp_bind. unfold capture. apply wp_cbind.
    eapply wp_weaken; [|exact (string_read_follows s len data ce w Hi)].
    intros re w' (-> & Hi' & _). cbn [wp].
    eapply wp_weaken; [|exact (IH (inr (firstn len data)) (skipn len data) ce w' Hi')].
    intros re w2. destruct (sem_string (k (inr (firstn len data))) (skipn len data)) as [[| | |r]| | |]; auto.
    intros (rest & -> & H & Hl). exists rest. splits; auto. rewrite skipn_length in Hl. lia.
Qed.

Lemma sem_string_shape R (f : string_body R) : forall data,
  (exists r, sem_string f data = Gives (VResult r)) \/ exists e, sem_string f data = Aborts e false.
Proof. induction f as [[e|r]|len k IH]; intros data; cbn; eauto. Qed.

Lemma read_string_with_reader_follows R s fl (f : string_body R) c w t :
  at_ c w -> at_value s c = inr (JStr t) -> (weight (JStr t) < fl)%nat ->
  wp s (as_result (read_string_with_reader fl f) None) w
    (follows (sem_string f (encode_utf8 t)) (fun x y w' => x = y /\ at_ (behind_value c) w')).
Proof.
  intros Hat Hv Hw. unfold as_result, read_string_with_reader. apply wp_assoc.
  apply wp_bind. unfold d_unit. apply wp_bind.
  assert (Hx : call_at s CNextStringReader c = (XOk RUnit, AtCursor (set_reading (Reading (encode_utf8 t) true) (enter_value c)))).
  { cbn [call_at]. unfold on_value. rewrite Hv. reflexivity. }
  eapply wp_weaken; [|exact (call_follows s CNextStringReader c w _ _ Hat I Hx)].
  intros [r err] w' (v & [= -> ->] & <- & ->). cbn [unit_of sret wp].
  assert (Hi : in_string (encode_utf8 t) (behind_value c) (AtCursor (set_reading (Reading (encode_utf8 t) true) (enter_value c)))).
  { split; [apply behind_reading_none, Hat|]. eexists. split; [reflexivity|]. left. split; [reflexivity|].
    unfold behind_value. f_equal. unfold set_reading. cbn. assert (Hr := proj1 Hat). rewrite <- (enter_reading c) in Hr.
    destruct (enter_value c). cbn in *. subst. reflexivity. }
  apply wp_assoc. apply wp_bind. eapply wp_weaken; [|exact (run_string_follows R s f _ _ _ Hi)].
  intros re w1 H. destruct (sem_string_shape R f (encode_utf8 t)) as [[r E]|[e E]]; rewrite E in *.
  - destruct H as (rest & -> & Hi' & Hl). cbn [of_result]. apply wp_assoc. apply wp_bind. cbn [wp sret].
    apply wp_assoc. apply wp_bind. cbn [wp check_string_error].
    apply wp_assoc. apply wp_bind. eapply wp_weaken; [|exact (string_read_follows s 4 rest _ w1 Hi')].
    intros re w2 (-> & Hi2 & Hend). apply wp_assoc. apply wp_bind.
    assert (Hd : wp s (match firstn 4 rest with [] => sret tt | _ :: _ => drain fl end None) w2
       (fun re w' => re = (SOk tt, None) /\ at_ (behind_value c) w')).
    { destruct (firstn 4 rest) as [|x l] eqn:E4.
      - cbn. split; [reflexivity|]. apply Hend; [reflexivity|lia].
      - apply (drain_follows s fl (skipn 4 rest)); [|exact Hi2]. rewrite skipn_length. cbn [weight] in Hw. lia. }
    eapply wp_weaken; [|exact Hd]. intros re w3 [-> Hat3]. cbn. exists (VResult r). auto.
  - subst re. cbn. reflexivity.
Qed.

(** ** Arrays and objects *)

Lemma begin_array_gives s c w items : at_ c w -> at_value s c = inr (JArr items) ->
  wp s (d_unit CBeginArray None) w
    (follows (Gives tt) (fun _ _ w' => at_ (open_frame (InArray 0 items) (enter_value c)) w')).
Proof.
  intros Hat Hv. apply (unit_gives s CBeginArray c w RUnit); auto; [exact I| |].
  - cbn [call_at]. unfold on_value. rewrite Hv. reflexivity.
  - cbn. rewrite enter_reading. apply Hat.
Qed.
Lemma begin_object_gives s c w ms : at_ c w -> at_value s c = inr (JObj ms) ->
  wp s (d_unit CBeginObject None) w
    (follows (Gives tt) (fun _ _ w' => at_ (open_frame (InObject None ms) (enter_value c)) w')).
Proof.
  intros Hat Hv. apply (unit_gives s CBeginObject c w RUnit); auto; [exact I| |].
  - cbn [call_at]. unfold on_value. rewrite Hv. reflexivity.
  - cbn. rewrite enter_reading. apply Hat.
Qed.

Lemma close_reading c : reading (close_frame c) = reading c.
Proof. unfold close_frame. rewrite done_reading. reflexivity. Qed.

Lemma end_array_gives s c w i fs : at_ c w -> frames c = InArray i [] :: fs ->
  wp s (d_unit CEndArray None) w (follows (Gives tt) (fun _ _ w' => at_ (close_frame c) w')).
Proof.
  intros Hat Hf. apply (unit_gives s CEndArray c w RUnit); auto; [exact I| |].
  - cbn [call_at]. rewrite (not_reading c (proj1 Hat)), Hf. reflexivity.
  - rewrite close_reading. apply Hat.
Qed.
Lemma end_object_gives s c w nm fs : at_ c w -> frames c = InObject nm [] :: fs ->
  wp s (d_unit CEndObject None) w (follows (Gives tt) (fun _ _ w' => at_ (close_frame c) w')).
Proof.
  intros Hat Hf. apply (unit_gives s CEndObject c w RUnit); auto; [exact I| |].
  - cbn [call_at]. rewrite (not_reading c (proj1 Hat)), Hf. reflexivity.
  - rewrite close_reading. apply Hat.
Qed.
Lemma end_array_errs s c w i v items fs : at_ c w -> frames c = InArray i (v :: items) :: fs ->
  wp s (d_unit CEndArray None) w errs.
Proof.
  intros Hat Hf. apply unit_errs with (c := c); auto; [exact I|]. cbn [call_at].
  rewrite (not_reading c (proj1 Hat)), Hf. reflexivity.
Qed.

(** [m] followed by the end of the program when [m] has a verdict *)
Lemma wp_gives A B C s (m : simple A) (f : A -> simple B) w (a : C) (P : C -> A -> walk -> Prop) (Q : _ -> walk -> Prop) :
  wp s (m None) w (follows (Gives a) P) ->
  (forall b w', P a b w' -> wp s (f b None) w' Q) -> wp s (sbind m f None) w Q.
Proof.
  intros Hm Hf. apply wp_bind. eapply wp_weaken; [|exact Hm]. intros re w' (b & -> & HP). auto.
Qed.

Lemma weight_item items v fl : (weight (JArr items) < fl)%nat -> In v items -> (weight v < fl)%nat.
Proof.
  intros H Hin. assert (Hle : (weight v <= fold_right (fun u n => 1 + weight u + n) 0 items)%nat).
  { clear H. induction items as [|u items IH]; [destruct Hin|]. cbn [fold_right]. destruct Hin as [->|Hin]; [lia|].
    specialize (IH Hin). lia. }
  cbn [weight] in H. lia.
Qed.
Lemma weight_member ms m fl : (weight (JObj ms) < fl)%nat -> In m ms -> (weight (snd m) < fl)%nat.
Proof.
  intros H Hin. assert (Hle : (weight (snd m) <= fold_right (fun m n => 1 + weight (snd m) + n) 0 ms)%nat).
  { clear H. induction ms as [|u ms IH]; [destruct Hin|]. cbn [fold_right]. destruct Hin as [->|Hin]; [lia|].
    specialize (IH Hin). lia. }
  cbn [weight] in H. lia.
Qed.
Lemma weight_items items fl : (weight (JArr items) < fl)%nat ->
  Forall (fun v => (weight v < fl)%nat) items /\ (length items < fl)%nat.
Proof.
  intros H. split; [apply Forall_forall; intros v Hv; exact (weight_item items v fl H Hv)|].
  assert (Hle : (length items <= fold_right (fun u n => 1 + weight u + n) 0 items)%nat).
  { clear H. induction items as [|u items IH]; cbn [fold_right length]; lia. }
  cbn [weight] in H. lia.
Qed.
Lemma weight_members ms fl : (weight (JObj ms) < fl)%nat ->
  Forall (fun m => (weight (snd m) < fl)%nat) ms /\ (length ms < fl)%nat.
Proof.
  intros H. split; [apply Forall_forall; intros v Hv; exact (weight_member ms v fl H Hv)|].
  assert (Hle : (length ms <= fold_right (fun m n => 1 + weight (snd m) + n) 0 ms)%nat).
  { clear H. induction ms as [|u ms IH]; cbn [fold_right length]; lia. }
  cbn [weight] in H. lia.
Qed.

Lemma find_in n (ms : list (str * json)) m : find (fun m => if list_eq_dec N.eq_dec (fst m) n then true else false) ms = Some m -> In m ms /\ fst m = n.
Proof.
  induction ms as [|u ms IH]; cbn; [discriminate|]. destruct (list_eq_dec N.eq_dec (fst u) n).
  - intros [= ->]. auto.
  - intros H. destruct (IH H). auto.
Qed.

Lemma lookup_weight path : forall v u, lookup path v = Some u -> (weight u <= weight v)%nat.
Proof.
  induction path as [|p path IH]; intros v u H.
  - cbn in H. assert (v = u) as -> by (destruct v; congruence). lia.
  - destruct p as [i|n]; cbn in H; destruct v as [| | | |items|ms]; try discriminate.
    + destruct (nth_error items (N.to_nat i)) as [x|] eqn:E; [|discriminate].
      pose proof (weight_item items x (S (weight (JArr items))) ltac:(lia) (nth_error_In _ _ E)). specialize (IH _ _ H). lia.
    + destruct (find _ ms) as [m|] eqn:E; [|discriminate]. destruct (find_in _ _ _ E) as [Hin _].
      pose proof (weight_member ms m (S (weight (JObj ms))) ltac:(lia) Hin). specialize (IH _ _ H). lia.
Qed.

(** ** Seeking *)

Lemma at_value_found s c u : next_value c = Some u -> reading c = NotReading -> frames c <> [] -> at_value s c = inr u.
Proof.
  intros Hn Hr Hf. unfold at_value, next_value in *. rewrite (not_reading c Hr).
  destruct (frames c) as [|[i [|x items]|nm ms|nm x ms] fs]; cbn in *; congruence.
Qed.

Lemma seek_gives s path c w v u : at_ c w -> at_value s c = inr v -> lookup path v = Some u ->
  exists c', seek path c = (XOk RUnit, c') /\ at_value s c' = inr u /\ reading c' = NotReading /\
  wp s (d_unit (CSeekTo path) None) w (follows (Gives tt) (fun _ _ w' => at_ c' w')).
Proof.
  intros Hat Hv Hl. destruct (at_value_next s c v Hv) as [Hn _].
  pose proof (seek_lookup path c v Hn (proj1 Hat)) as H. rewrite Hl in H. destruct H as (c' & H).
  assert (Hx : exists c', seek path c = (XOk RUnit, c') /\ at_value s c' = inr u /\ reading c' = NotReading).
  { destruct H as [(H1 & H2 & H3 & H4)|(-> & H1 & ->)].
    - exists c'. splits; auto. apply at_value_found; auto.
    - exists c. splits; auto. apply Hat. }
  clear H c'. destruct Hx as (c' & Hs & Ha & Hr). exists c'. splits; auto.
  apply (unit_gives s (CSeekTo path) c w RUnit); auto; [exact I|]. cbn [call_at]. rewrite Hv, Hs. reflexivity.
Qed.

Lemma seek_errs s path c w v : at_ c w -> at_value s c = inr v -> lookup path v = None ->
  wp s (d_unit (CSeekTo path) None) w errs.
Proof.
  intros Hat Hv Hl. destruct (at_value_next s c v Hv) as [Hn _].
  pose proof (seek_lookup path c v Hn (proj1 Hat)) as H. rewrite Hl in H. destruct H as (c' & H).
  apply unit_errs with (c := c); auto; [exact I|]. cbn [call_at]. rewrite Hv.
  destruct H as [(e & a & p & ->)|(k & p & ->)]; reflexivity.
Qed.

Lemma seek_back_gives s path c c' w : reading c = NotReading -> seek path c = (XOk RUnit, c') -> at_ (behind_value c') w ->
  wp s (d_unit (CSeekBack path) None) w (follows (Gives tt) (fun _ _ w' => at_ (behind_value c) w')).
Proof.
  intros Hr Hs Hat. apply (unit_gives s (CSeekBack path) (behind_value c') w RUnit); auto; [exact I| |].
  - cbn [call_at]. rewrite (seek_back_returns path c c' Hr Hs). reflexivity.
  - apply behind_reading_none. exact Hr.
Qed.

Lemma read_seeked_follows R s fl path (f : closure R) (b : body R) c w v :
  closure_ok s fl f b -> at_ c w -> at_value s c = inr v -> (weight v < fl)%nat ->
  wp s (read_seeked path f None) w
    (follows match lookup path v with Some u => sem_any (sem_body s b (AtSingle u)) | None => Fails end
       (fun r r' w' => r = r' /\ at_ (behind_value c) w')).
Proof.
  intros Hok Hat Hv Hw. unfold read_seeked. destruct (lookup path v) as [u|] eqn:El.
  - destruct (seek_gives s path c w v u Hat Hv El) as (c' & Hs & Hv' & Hr' & Hseek).
    eapply wp_gives; [exact Hseek|]. intros [] w1 Hat1.
    pose proof (lookup_weight path v u El) as Hwu.
    assert (E : sem_any (sem_body s b (AtSingle u)) = vbind (sem_any (sem_body s b (AtSingle u))) Gives).
    { destruct (sem_body s b (AtSingle u)) as [[r vw]| | |]; reflexivity. }
    rewrite E. eapply wp_follow.
    + exact (read_value_follows R s fl f b c' w1 u Hok Hat1 Hv' ltac:(lia) ltac:(lia)).
    + intros r. apply tame_bind; [apply mute_tame, mute_unit|]. intros _. apply tame_ret.
    + intros r r' w2 _ (<- & Hat2). eapply wp_gives; [exact (seek_back_gives s path c c' w2 (proj1 Hat) Hs Hat2)|].
      intros [] w3 Hat3. cbn. exists r. auto.
  - apply errs_fails, errs_bind. exact (seek_errs s path c w v Hat Hv El).
Qed.
