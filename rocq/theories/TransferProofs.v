(** * Copying the values of a known document

    Auxiliary: on a known document [transfer_to] makes exactly the calls which
    write the next value. *)

From Verif Require Import Base Utf8Model Utf8Proofs NumberModel SpecNumber NumberProofs SpecJson WriterModel SourceModel SourceProofs ReaderModel
  ReaderScan ReaderLex ReaderLexStr ReaderMid ReaderAgree ReaderSess ReaderGrammar ReaderSafe SpecCursor ReaderRepr ReaderForward
  ReaderSkip ReaderSeek ReaderWalk SpecRead TransferModel SpecTransfer.

(** ** Runs *)

(** [m] makes the calls [ps] on the writer, and if all of them succeed it ends
    with [x] and leaves the reader in the state [s'] before the rest [r'] *)
Definition copying {F W A : Type} (h : handler F W) (m : T F W A) (s : rstate) (r : bytes) (ps : list put)
  (x : A) (s' : rstate) (r' : bytes) : Prop :=
  forall w kn,
  match feed h ps w with
  | (Ok _, w') => exists kn', arun (m s w) (At r TEof kn) = Some ((Ok x, s', w'), At r' TEof kn')
  | (Err e, w') => exists s2 a2, arun (m s w) (At r TEof kn) = Some ((Err (inr e), s2, w'), a2)
  | (Panic k, w') => exists s2 a2, arun (m s w) (At r TEof kn) = Some ((Panic k, s2, w'), a2)
  | (OutOfFuel, w') => exists s2 a2, arun (m s w) (At r TEof kn) = Some ((OutOfFuel, s2, w'), a2)
  end.

Lemma feed_app {F W : Type} (h : handler F W) ps qs w :
  feed h (ps ++ qs) w = match feed h ps w with (Ok _, w') => feed h qs w' | (r, w') => (r, w') end.
Proof. revert w. induction ps as [|p ps IH]; intros w; [reflexivity|]. cbn [feed app]. destruct (h p w) as [[] w']; auto. Qed.

Lemma tbind_run {F W A B : Type} (m : T F W A) (f : A -> T F W B) s w a o :
  arun (m s w) a = Some o ->
  arun (tbind m f s w) a = match o with
    | ((Ok x, s', w'), a') => arun (f x s' w') a'
    | ((Err e, s', w'), a') => Some ((Err e, s', w'), a')
    | ((Panic k, s', w'), a') => Some ((Panic k, s', w'), a')
    | ((OutOfFuel, s', w'), a') => Some ((OutOfFuel, s', w'), a')
    end.
Proof. intros H. unfold tbind. rewrite arun_bind, H. destruct o as [[[[x|e|k|] s'] w'] a']; reflexivity. Qed.

Lemma copying_bind {F W A B : Type} (h : handler F W) (m : T F W A) (f : A -> T F W B) s r ps x s1 r1 qs y s2 r2 :
  copying h m s r ps x s1 r1 -> copying h (f x) s1 r1 qs y s2 r2 -> copying h (tbind m f) s r (ps ++ qs) y s2 r2.
Proof.
  intros H1 H2 w kn. specialize (H1 w kn). rewrite feed_app. destruct (feed h ps w) as [[u|e|k|] w1].
  - destruct H1 as (kn1 & H1). specialize (H2 w1 kn1). rewrite (tbind_run _ _ _ _ _ _ H1). exact H2.
  - destruct H1 as (s' & a' & H1). exists s', a'. rewrite (tbind_run _ _ _ _ _ _ H1). reflexivity.
  - destruct H1 as (s' & a' & H1). exists s', a'. rewrite (tbind_run _ _ _ _ _ _ H1). reflexivity.
  - destruct H1 as (s' & a' & H1). exists s', a'. rewrite (tbind_run _ _ _ _ _ _ H1). reflexivity.
Qed.

(** The same if the first part makes no call *)
Lemma copying_bind0 {F W A B : Type} (h : handler F W) (m : T F W A) (f : A -> T F W B) s r x s1 r1 qs y s2 r2 :
  copying h m s r [] x s1 r1 -> copying h (f x) s1 r1 qs y s2 r2 -> copying h (tbind m f) s r qs y s2 r2.
Proof. exact (copying_bind h m f s r [] x s1 r1 qs y s2 r2). Qed.

Lemma copying_ret {F W A : Type} (h : handler F W) (x : A) s r : copying h (tret x) s r [] x s r.
Proof. intros w kn. exists kn. reflexivity. Qed.

Lemma copying_writer {F W : Type} (h : handler F W) p s r : copying h (on_writer h p) s r [p] tt s r.
Proof.
  intros w kn. cbn [feed]. unfold on_writer. destruct (h p w) as [[[]|e|k|] w']; [exists kn|eexists _, _..]; reflexivity.
Qed.

Lemma copying_exec {F W A : Type} (h : handler F W) (m : M A) x s r s' r' :
  (forall kn, exists kn', exec m s (At r TEof kn) = Some ((Ok x, s'), At r' TEof kn')) ->
  copying h (on_reader m) s r [] x s' r'.
Proof.
  intros H w kn. destruct (H kn) as (kn' & He). exists kn'. unfold on_reader, exec in *. rewrite arun_bind, He. reflexivity.
Qed.

Lemma copying_reader {F W A : Type} (h : handler F W) (m : M A) d x s r s' r' :
  agree TEof m d -> d s r = MOk x s' r' -> copying h (on_reader m) s r [] x s' r'.
Proof. intros Ha Hd. apply copying_exec. intros kn. specialize (Ha s r kn). rewrite Hd in Ha. exact Ha. Qed.

Lemma copying_state {F W A : Type} (h : handler F W) (f : rstate -> T F W A) s r ps x s' r' :
  copying h (f s) s r ps x s' r' -> copying h (tbind (on_reader get_state) f) s r ps x s' r'.
Proof. apply copying_bind0. apply copying_exec. intros kn. exists kn. reflexivity. Qed.

(** ** Strings *)

(** Inside a string value with the rest [v] *)
Definition in_string (E : env) (inp : bytes) (fs : list frame) (vs : list json) (v : str) (s : rstate) (r : bytes) : Prop :=
  inside E inp fs vs s r /\ string_reader_active s = false /\ reading_text E fs vs v r.

(** Behind a string value *)
Definition past_string (E : env) (inp : bytes) (fs : list frame) (vs : list json) (s : rstate) (r : bytes) : Prop :=
  inside E inp fs vs s r /\ string_reader_active s = false /\ outer (reader_syntax (cfg E)) fs vs r.

Lemma in_string_char E inp fs vs c v s r : in_string E inp fs vs (c :: v) s r ->
  is_char c /\ exists s' r', in_string E inp fs vs v s' r' /\ (length r' < length r)%nat /\
    forall kn, exec read_string_bytes s (At r TEof kn) = Some ((Ok (false, encode_char c), s'), At r' TEof false).
Proof.
  intros (Hin & Ha & Hrt). destruct (reading_cons _ _ _ _ _ _ Hrt) as (w & r' & -> & Hu & Hrt').
  split; [exact (unit_text_char _ _ Hu)|]. exists (move w s), r'. splits.
  - destruct (unit_text_valid _ _ Hu) as [Hv Hg]. destruct Hin as [Hb Hp Hn Ht].
    pose proof (inv_moved E inp s _ w r' (b_inv _ _ _ _ _ _ Hb) Hp eq_refl Hv Hg) as Hi'.
    unfold in_string; splits; [|rewrite active_move; exact Ha|exact Hrt'].
    apply (inside_same E inp fs vs s (w ++ r')); [split; auto|apply same_move|rewrite peeked_move; exact Hp|exact Hi'].
  - pose proof (unit_text_nonempty _ _ Hu). rewrite app_length. destruct w; [contradiction|cbn; lia].
  - intros kn. pose proof (read_string_bytes_ex s (w ++ r') TEof kn) as H. rewrite (scan_unit_complete _ _ _ Hu) in H. exact H.
Qed.

Lemma in_string_end E inp fs vs s r : in_string E inp fs vs [] s r ->
  exists s' r', past_string E inp fs vs s' r' /\ (length r' < length r)%nat /\
    forall kn, exec read_string_bytes s (At r TEof kn) = Some ((Ok (true, []), s'), At r' TEof false).
Proof.
  intros (Hin & Ha & Hrt). destruct (reading_nil _ _ _ _ Hrt) as (t' & -> & Ho).
  exists (move [B_QUOTE] s), t'. splits; [|cbn; lia|].
  - unfold past_string. splits; [|rewrite active_move; exact Ha|exact Ho].
    destruct Hin as [[Hi H1 H2 H3] Hp Hn Ht].
    pose proof (inv_moved E inp s _ [B_QUOTE] t' Hi Hp eq_refl (tok_valid PkStringStart) ltac:(repeat constructor; lia)) as Hi'.
    apply (inside_same E inp fs vs s (B_QUOTE :: t')); [split; auto; split; auto|apply same_move|rewrite peeked_move; exact Hp|exact Hi'].
  - intros kn. exact (read_string_bytes_ex s (B_QUOTE :: t') TEof kn).
Qed.

Lemma fill_forward E inp fs vs f : forall v p s r, in_string E inp fs vs v s r -> (length (encode_utf8 p) + f >= 64)%nat ->
  (length (encode_utf8 p) <= 64)%nat -> Forall is_char p ->
  exists q v' e s' r', v = q ++ v' /\ Forall is_char q /\
    (forall kn, exists kn', exec (fill_buffer f (encode_utf8 p)) s (At r TEof kn) = Some ((Ok (e, encode_utf8 (p ++ q)), s'), At r' TEof kn')) /\
    (if e : bool then v' = [] /\ past_string E inp fs vs s' r' /\ (length r' < length r)%nat
     else in_string E inp fs vs v' s' r' /\ (length r' <= length r)%nat /\ ((length (encode_utf8 p) <= 60)%nat -> (length r' < length r)%nat)).
Proof.
  induction f as [|f IH]; intros v p s r Hin Hf Hp Hc.
  - cbn [fill_buffer]. unfold MAX_BYTES_PER_CHAR, TRANSFER_BUF_SIZE in *.
    destruct (Nat.leb_spec 4 (64 - length (encode_utf8 p))) as [Hx|Hx]; [lia|].
    exists [], v, false, s, r. rewrite app_nil_r. splits; auto; [|lia..]. intros kn. exists kn. reflexivity.
  - cbn [fill_buffer]. unfold MAX_BYTES_PER_CHAR, TRANSFER_BUF_SIZE.
    destruct (Nat.leb_spec 4 (64 - length (encode_utf8 p))) as [Hx|Hx].
    2:{ exists [], v, false, s, r. rewrite app_nil_r. splits; auto; [|lia..]. intros kn. exists kn. reflexivity. }
    destruct v as [|c v].
    + destruct (in_string_end _ _ _ _ _ _ Hin) as (s' & r' & Hp' & Hl & He).
      exists [], [], true, s', r'. splits; auto. intros kn. exists false. rewrite (exec_bind_ok _ _ _ _ _ _ _ (He kn)).
      cbn [fst snd]. rewrite !app_nil_r. destruct (Nat.ltb_spec 64 (length (encode_utf8 p))) as [Hy|_]; [lia|]. reflexivity.
    + destruct (in_string_char _ _ _ _ _ _ _ _ Hin) as (Hcc & s' & r' & Hin' & Hl & He).
      pose proof (encode_char_max c) as Hmax.
      assert (Hmin : (1 <= length (encode_char c))%nat).
      { unfold encode_char. repeat match goal with |- context [if ?b then _ else _] => destruct b end; cbn; lia. }
      assert (Happ : encode_utf8 (p ++ [c]) = encode_utf8 p ++ encode_char c).
      { unfold encode_utf8. rewrite flat_map_app. cbn. rewrite app_nil_r. reflexivity. }
      destruct (IH v (p ++ [c]) s' r' Hin') as (q & v' & e & s2 & r2 & -> & Hq & Hrun & Hres).
      { rewrite Happ, app_length. lia. }
      { rewrite Happ, app_length. lia. }
      { apply Forall_app. auto. }
      exists (c :: q), v', e, s2, r2. splits; [reflexivity|constructor; auto| |].
      * intros kn. destruct (Hrun false) as (kn' & Hrun'). exists kn'. rewrite (exec_bind_ok _ _ _ _ _ _ _ (He kn)). cbn [fst snd].
        rewrite <- app_assoc in Hrun'. cbn [app] in Hrun'. rewrite Happ in Hrun'.
        destruct (Nat.ltb_spec 64 (length (encode_utf8 p ++ encode_char c))) as [Hy|_]; [rewrite app_length in Hy; lia|]. exact Hrun'.
      * destruct e; [destruct Hres as (H1 & H2 & H3)|destruct Hres as (H1 & H2 & H3)]; splits; auto; lia.
Qed.

Lemma copying_to_str {F W : Type} (h : handler F W) p s r : Forall is_char p -> copying h (to_str_unchecked (encode_utf8 p)) s r [] p s r.
Proof. intros Hp w kn. exists kn. unfold to_str_unchecked. rewrite from_utf8_encode by exact Hp. reflexivity. Qed.

Lemma transfer_string_forward {F W : Type} (h : handler F W) E inp fs vs f : forall v s r, in_string E inp fs vs v s r -> (length r < f)%nat ->
  exists parts s' r', concat parts = v /\ past_string E inp fs vs s' r' /\ (length r' < length r)%nat /\
    copying h (transfer_string h f) s r (map PutWriteStr parts) tt s' r'.
Proof.
  induction f as [|f IH]; intros v s r Hin Hf; [lia|]. cbn [transfer_string].
  destruct (fill_forward E inp fs vs 64 v [] s r Hin ltac:(cbn; lia) ltac:(cbn; lia) ltac:(constructor)) as (q & v' & e & s1 & r1 & -> & Hq & Hrun & Hres).
  cbn [app encode_utf8 flat_map] in Hrun. pose proof (copying_exec h _ _ _ _ _ _ Hrun) as H1. destruct e.
  - destruct Hres as (-> & Hp & Hl). exists [q], s1, r1. splits; auto.
    eapply copying_bind0; [exact H1|]. cbn [fst snd]. eapply copying_bind0; [apply copying_to_str; exact Hq|].
    cbn [map]. apply (copying_bind h (on_writer h (PutWriteStr q)) _ _ _ [PutWriteStr q] tt s1 r1 []); [apply copying_writer|apply copying_ret].
  - destruct Hres as (Hin' & _ & Hl). specialize (Hl ltac:(cbn; lia)).
    destruct (IH v' s1 r1 Hin' ltac:(lia)) as (parts & s2 & r2 & Hc & Hp & Hl2 & Hcopy).
    exists (q :: parts), s2, r2. splits; auto; [cbn; rewrite Hc; reflexivity|lia|].
    eapply copying_bind0; [exact H1|]. cbn [fst snd]. eapply copying_bind0; [apply copying_to_str; exact Hq|].
    cbn [map]. apply (copying_bind h (on_writer h (PutWriteStr q)) _ _ _ [PutWriteStr q] tt s1 r1 _ _ _ _ (copying_writer _ _ _ _) Hcopy).
Qed.

(** ** One value *)

Lemma readable_num c t : readable c (JNum t) -> restrict_number_values c && unsupported_number t = false.
Proof.
  unfold readable. destruct (restrict_number_values c); [|reflexivity]. intros H. specialize (H eq_refl). inversion H; subst. assumption.
Qed.

Lemma good_ok {A : Type} E inp (m : mres A) Q x s r : good E inp m Q -> m = MOk x s r -> Q x s r.
Proof. intros H ->. apply H. Qed.

(** What has been written, and where the reader is, behind the start of [v] *)
Definition started_with (E : env) (inp : bytes) (fs : list frame) (vs : list json) (v : json) (ps : list put) (s' : rstate) (r' : bytes) : Prop :=
  match v with
  | JArr _ => ps = [PutBeginArray] /\ open_behind E inp fs vs v s' r'
  | JObj _ => ps = [PutBeginObject] /\ open_behind E inp fs vs v s' r'
  | _ => copies v ps /\ behind E inp fs vs s' r'
  end.

Lemma transfer_start_forward {F W : Type} (h : handler F W) E inp fs vs st s r v : (length inp < fuel E)%nat -> repr E inp fs vs st s r ->
  at_val E fs vs st = inr v -> (is_container (json_type v) = false -> readable (cfg E) v) ->
  exists ps s' r', copying h (transfer_start E h) s r ps (is_container (json_type v)) s' r' /\ (mu s' r' < mu s r)%nat /\
    started_with E inp fs vs v ps s' r'.
Proof.
  intros Hf Hr Ev Hnum. pose proof (peek_forward E inp fs vs st s r Hf Hr) as H. rewrite Ev in H.
  destruct H as (s1 & r1 & He & Hr1 & _).
  pose proof (good_ok _ _ _ _ _ _ _ (peek_good E inp TEof s r Hf (repr_inv _ _ _ _ _ _ _ Hr)) He) as (_ & _ & _ & Hmu & _).
  pose proof (copying_reader h _ _ _ _ _ _ _ (agree_peek E TEof) He) as Hpk.
  pose proof (repr_inv _ _ _ _ _ _ _ Hr1) as Hi1. unfold transfer_start.
  destruct v as [|b|t|x|l|l]; cbn [json_type is_container started_with] in *.
  - destruct (vrep_ok _ _ _ _ _ _ _ _ _ (next_null_forward E inp fs vs st s1 r1 Hf Hr1) Ev eq_refl) as (x & s2 & r2 & He2 & H2).
    pose proof (good_ok _ _ _ _ _ _ _ (next_null_good E inp TEof s1 r1 Hf Hi1) He2) as [_ Hm2].
    exists [PutNull], s2, r2. splits; [|lia|constructor|exact H2].
    eapply copying_bind0; [exact Hpk|]. eapply copying_bind0; [exact (copying_reader h _ _ _ _ _ _ _ (agree_next_null E TEof) He2)|].
    apply (copying_bind h _ _ _ _ [PutNull] tt s2 r2 []); [apply copying_writer|apply copying_ret].
  - destruct (vrep_ok _ _ _ _ _ _ _ _ _ (next_bool_forward E inp fs vs st s1 r1 Hf Hr1) Ev eq_refl) as (x & s2 & r2 & He2 & [= <-] & H2).
    pose proof (good_ok _ _ _ _ _ _ _ (next_bool_good E inp TEof s1 r1 Hf Hi1) He2) as [_ Hm2].
    exists [PutBool b], s2, r2. splits; [|lia|constructor|exact H2].
    eapply copying_bind0; [exact Hpk|]. eapply copying_bind0; [exact (copying_reader h _ _ _ _ _ _ _ (agree_next_bool E TEof) He2)|].
    apply (copying_bind h _ _ _ _ [PutBool b] tt s2 r2 []); [apply copying_writer|apply copying_ret].
  - pose proof (number_forward E inp fs vs st s1 r1 (restrict_number_values (cfg E)) Hf Hr1) as Hn.
    rewrite Ev, (readable_num _ _ (Hnum eq_refl)) in Hn. destruct Hn as (s2 & r2 & He2 & H2).
    pose proof (good_ok _ _ _ _ _ _ _ (number_good E inp TEof _ s1 r1 Hf Hi1) He2) as [_ Hm2].
    exists [PutNumber t], s2, r2. splits; [|lia|constructor|exact H2].
    eapply copying_bind0; [exact Hpk|]. eapply copying_bind0; [exact (copying_reader h _ _ _ _ _ _ _ (agree_next_number_str E TEof) He2)|].
    apply (copying_bind h _ _ _ _ [PutNumber t] tt s2 r2 []); [apply copying_writer|apply copying_ret].
  - pose proof (start_forward E inp fs vs st s1 r1 TString false Hf Hr1 ltac:(discriminate)) as Hs. rewrite Ev in Hs.
    cbn [json_type value_type_eqb] in Hs. destruct Hs as (s2 & r2 & tv & t' & He2 & Hin & Ha & Htok & Hv & Ho & _).
    pose proof (good_ok _ _ _ _ _ _ _ (start_good E inp TEof TString false s1 r1 Hf Hi1) He2) as (_ & _ & _ & Hpk2 & _ & Hm2 & _).
    destruct (string_start _ _ _ _ _ Hv Htok) as (body & Hbody & Hst).
    assert (Hins : in_string E inp (ent_f fs) (ent_v fs vs) x s2 r2).
    { unfold in_string. splits; auto. exists body, t'. auto. }
    pose proof (inside_length _ _ _ _ _ _ Hin) as Hl2.
    destruct (transfer_string_forward h E inp _ _ (fuel E) x s2 r2 Hins ltac:(lia)) as (parts & s3 & r3 & Hc & (Hin3 & Ha3 & Ho3) & Hl3 & Hcopy).
    destruct (value_end_behind _ _ _ _ _ _ Hin3 Ha3 Ho3) as (s4 & He4 & H4).
    pose proof (good_ok _ _ _ _ _ _ _ (value_end_good E inp s3 r3 (b_inv _ _ _ _ _ _ (n_base _ _ _ _ _ _ Hin3)) (n_peeked _ _ _ _ _ _ Hin3)
      (n_expects _ _ _ _ _ _ Hin3) Ha3) He4) as (_ & _ & _ & _ & _ & Hm4).
    exists ([PutStringWriter] ++ map PutWriteStr parts ++ [PutFinishValue]), s4, r3. splits; [| |constructor; exact Hc|exact H4].
    + eapply copying_bind0; [exact Hpk|]. eapply copying_bind0; [exact (copying_reader h _ _ _ _ _ _ _ (agree_start E TEof TString false) He2)|].
      eapply copying_bind; [apply copying_writer|]. eapply copying_bind; [exact Hcopy|].
      apply (copying_bind h _ _ _ _ [PutFinishValue] tt s3 r3 []); [apply copying_writer|].
      eapply copying_bind0; [exact (copying_reader h _ _ _ _ _ _ _ (agree_value_end TEof) He4)|]. apply copying_ret.
    + rewrite Hm4. unfold mu, ahead, held in *. rewrite (n_peeked _ _ _ _ _ _ Hin3). rewrite Hpk2 in Hm2. cbn [app] in *. lia.
  - destruct (vrep_ok _ _ _ _ _ _ _ _ _ (begin_array_forward E inp fs vs st s1 r1 Hf Hr1) Ev eq_refl) as (x & s2 & r2 & He2 & H2).
    pose proof (good_ok _ _ _ _ _ _ _ (begin_array_good E inp TEof s1 r1 Hf Hi1) He2) as [_ Hm2].
    exists [PutBeginArray], s2, r2. splits; [|lia|reflexivity|exact H2].
    eapply copying_bind0; [exact Hpk|]. eapply copying_bind0; [exact (copying_reader h _ _ _ _ _ _ _ (agree_begin_array E TEof) He2)|].
    apply (copying_bind h _ _ _ _ [PutBeginArray] tt s2 r2 []); [apply copying_writer|apply copying_ret].
  - destruct (vrep_ok _ _ _ _ _ _ _ _ _ (begin_object_forward E inp fs vs st s1 r1 Hf Hr1) Ev eq_refl) as (x & s2 & r2 & He2 & H2).
    pose proof (good_ok _ _ _ _ _ _ _ (begin_object_good E inp TEof s1 r1 Hf Hi1) He2) as [_ Hm2].
    exists [PutBeginObject], s2, r2. splits; [|lia|reflexivity|exact H2].
    eapply copying_bind0; [exact Hpk|]. eapply copying_bind0; [exact (copying_reader h _ _ _ _ _ _ _ (agree_begin_object E TEof) He2)|].
    apply (copying_bind h _ _ _ _ [PutBeginObject] tt s2 r2 []); [apply copying_writer|apply copying_ret].
Qed.

(** ** The loop *)

(** The calls which are left when the containers [gs] are open *)
Inductive copies_rest : list frame -> list put -> Prop :=
| RestNone : copies_rest [] []
| RestArray i l gs ps qs : copies_items l ps -> copies_rest gs qs -> copies_rest (InArray i l :: gs) (ps ++ [PutEndArray] ++ qs)
| RestObject n l gs ps qs : copies_members l ps -> copies_rest gs qs -> copies_rest (InObject n l :: gs) (ps ++ [PutEndObject] ++ qs).

Definition frame_readable (c : settings) (g : frame) : Prop := Forall (readable c) (frame_values g).

Lemma readable_items c l : readable c (JArr l) <-> Forall (readable c) l.
Proof.
  unfold readable. cbn [numbers]. destruct (restrict_number_values c).
  - split.
    + intros H. specialize (H eq_refl). induction l as [|v l IH]; [constructor|]. cbn [flat_map] in H. apply Forall_app in H as [H1 H2].
      constructor; auto.
    + intros H _. induction H as [|v l Hv Hl IH]; [constructor|]. cbn [flat_map]. apply Forall_app. auto.
  - split; [intros _|discriminate]. apply Forall_forall. intros v _. discriminate.
Qed.
Lemma readable_members c l : readable c (JObj l) <-> Forall (readable c) (map snd l).
Proof.
  rewrite <- readable_items. unfold readable. cbn [numbers].
  replace (flat_map (fun m : str * json => numbers (snd m)) l) with (flat_map numbers (map snd l)); [reflexivity|].
  induction l as [|m l IH]; [reflexivity|]. cbn. rewrite IH. reflexivity.
Qed.

Lemma opened_readable c v : is_container (json_type v) = true -> readable c v -> frame_readable c (opened v).
Proof.
  destruct v as [| | | |l|l]; try discriminate; intros _ H; unfold frame_readable; cbn [opened frame_values].
  - apply readable_items. exact H.
  - apply readable_members. exact H.
Qed.

(** A value has been started, [qs] will follow: either it is done, or it is the
    innermost open container *)
Lemma step_after {F W : Type} (h : handler F W) E inp fs vs st s r v d : (length inp < fuel E)%nat -> repr E inp fs vs st s r ->
  at_val E fs vs st = inr v -> (is_container (json_type v) = false -> readable (cfg E) v) ->
  exists ps s' r', copying h (started <- transfer_start E h ;; tret (if started : bool then S d else d))%tm s r ps
      (if is_container (json_type v) then S d else d) s' r' /\ (mu s' r' < mu s r)%nat /\
    if is_container (json_type v)
    then repr E inp (opened v :: ent_f fs) (ent_v fs vs) true s' r' /\
      forall gs qs, copies_rest (opened v :: gs) qs -> exists q1 q2, qs = q1 ++ q2 /\ copies v (ps ++ q1) /\ copies_rest gs q2
    else behind E inp fs vs s' r' /\ copies v ps.
Proof.
  intros Hf Hr Ev Hn. destruct (transfer_start_forward h E inp fs vs st s r v Hf Hr Ev Hn) as (ps & s' & r' & Hc & Hm & Hs).
  exists ps, s', r'. splits; auto.
  - pose proof (copying_bind h _ (fun started : bool => tret (if started then S d else d)) _ _ ps _ s' r' [] _ _ _ Hc (copying_ret _ _ _ _)) as H.
    rewrite app_nil_r in H. exact H.
  - destruct v as [| | | |l|l]; cbn [json_type is_container started_with] in *; try (destruct Hs; auto; fail).
    + destruct Hs as [-> Hs]. split; [exact Hs|]. intros gs qs H. inversion H; subst.
      exists (ps ++ [PutEndArray]), qs0. rewrite <- app_assoc. splits; auto. constructor. assumption.
    + destruct Hs as [-> Hs]. split; [exact Hs|]. intros gs qs H. inversion H; subst.
      exists (ps ++ [PutEndObject]), qs0. rewrite <- app_assoc. splits; auto. constructor. assumption.
Qed.

Lemma rest_item v p i j l gs q : copies v p -> copies_rest (InArray i l :: gs) q -> copies_rest (InArray j (v :: l) :: gs) (p ++ q).
Proof. intros Hv H. inversion H; subst. rewrite app_assoc. constructor; [constructor|]; assumption. Qed.
Lemma rest_member n v p m k l gs q : copies v p -> copies_rest (InObject m l :: gs) q ->
  copies_rest (InObject k ((n, v) :: l) :: gs) ([PutName n] ++ p ++ q).
Proof.
  intros Hv H. inversion H; subst. replace ([PutName n] ++ p ++ ps ++ [PutEndObject] ++ qs) with (([PutName n] ++ p ++ ps) ++ [PutEndObject] ++ qs).
  - constructor; [constructor|]; assumption.
  - rewrite <- !app_assoc. reflexivity.
Qed.

Lemma rest_done g g' gs fs q : frames_done (g :: gs ++ fs) = g' :: gs ++ fs -> at_member_value (g' :: gs) = false ->
  copies_rest (g' :: gs) q -> copies_rest (g :: gs) q.
Proof. destruct g; cbn; intros [= <-]; cbn; try discriminate; intros _ H; inversion H; subst; constructor; assumption. Qed.

Lemma has_next_copying {F W : Type} (h : handler F W) E inp g fs vs s r d b : (length inp < fuel E)%nat -> repr E inp (g :: fs) vs true s r ->
  at_member_value (g :: fs) = false -> b = match frame_values g with [] => false | _ => true end ->
  exists s' r', copying h match S d with O => tret true | _ => on_reader (has_next E) end s r [] b s' r' /\
    repr E inp (g :: fs) vs true s' r' /\ (mu s' r' <= mu s r)%nat.
Proof.
  intros Hf Hr Ha ->. pose proof (has_next_forward E inp (g :: fs) vs true s r Hf Hr) as Hh. unfold more_at, more in Hh. cbn [is_reading reading frames] in Hh.
  assert (H : exists s' r', d_has_next E TEof s r = MOk match frame_values g with [] => false | _ => true end s' r' /\ repr E inp (g :: fs) vs true s' r').
  { destruct g as [i l|n l|n v l]; [| |discriminate]; destruct Hh as (s1 & r1 & He & Hr1 & _); exists s1, r1; split; auto;
      rewrite He; destruct l as [|x l]; reflexivity. }
  destruct H as (s1 & r1 & He & Hr1). exists s1, r1. splits; auto.
  - exact (copying_reader h _ _ _ _ _ _ _ (agree_has_next E TEof) He).
  - exact (proj1 (proj2 (proj2 (proj2 (good_ok _ _ _ _ _ _ _ (has_next_good E inp TEof s r Hf (repr_inv _ _ _ _ _ _ _ Hr)) He))))).
Qed.

Definition end_call (g : frame) : put := match g with InArray _ _ => PutEndArray | _ => PutEndObject end.

Lemma transfer_end_forward {F W : Type} (h : handler F W) E inp g fs vs s r : (length inp < fuel E)%nat -> repr E inp (g :: fs) vs true s r ->
  at_member_value (g :: fs) = false -> frame_values g = [] ->
  exists s' r', copying h (transfer_end E h) s r [end_call g] tt s' r' /\ repr E inp (frames_done fs) vs true s' r' /\
    at_member_value (frames_done fs) = false /\ (mu s' r' < mu s r)%nat.
Proof.
  intros Hf Hr Ha Hv. pose proof (repr_inv _ _ _ _ _ _ _ Hr) as Hi.
  destruct g as [i [|v l]|n [|m l]|n v l]; try discriminate.
  - pose proof (end_array_forward E inp _ vs true s r Hf Hr) as (x & s2 & r2 & He2 & Hr2 & Ha2).
    pose proof (good_ok _ _ _ _ _ _ _ (end_array_good E inp TEof s r Hf Hi) He2) as [_ Hm].
    exists s2, r2. splits; auto. apply copying_state. rewrite (kind_in_array _ _ _ _ _ _ (r_base _ _ _ _ _ _ _ Hr)). cbn [in_array end_call].
    eapply copying_bind0; [exact (copying_reader h _ _ _ _ _ _ _ (agree_end_array E TEof) He2)|]. apply copying_writer.
  - pose proof (end_object_forward E inp _ vs true s r Hf Hr) as (x & s2 & r2 & He2 & Hr2 & Ha2).
    pose proof (good_ok _ _ _ _ _ _ _ (end_object_good E inp TEof s r Hf Hi) He2) as [_ Hm].
    exists s2, r2. splits; auto. apply copying_state. rewrite (kind_in_array _ _ _ _ _ _ (r_base _ _ _ _ _ _ _ Hr)). cbn [in_array end_call].
    eapply copying_bind0; [exact (copying_reader h _ _ _ _ _ _ _ (agree_end_object E TEof) He2)|]. apply copying_writer.
Qed.

Lemma transfer_no_name {F W : Type} (h : handler F W) E inp fs vs st s r : repr E inp fs vs st s r -> in_object fs = false ->
  copying h (transfer_name E h) s r [] tt s r.
Proof. intros Hr Hio. apply copying_state. rewrite (repr_names _ _ _ _ _ _ _ Hr), Hio. apply copying_ret. Qed.

Lemma transfer_name_forward {F W : Type} (h : handler F W) E inp k n v l fs vs s r : (length inp < fuel E)%nat ->
  repr E inp (InObject k ((n, v) :: l) :: fs) vs true s r ->
  exists s' r', copying h (transfer_name E h) s r [PutName n] tt s' r' /\ repr E inp (AtValue n v l :: fs) vs true s' r' /\ (mu s' r' < mu s r)%nat.
Proof.
  intros Hf Hr. pose proof (next_name_forward E inp _ vs true s r Hf Hr) as (s2 & r2 & He2 & Hr2).
  exists s2, r2. splits; auto.
  - apply copying_state. rewrite (repr_names _ _ _ _ _ _ _ Hr). cbn [in_object].
    eapply copying_bind0; [exact (copying_reader h _ _ _ _ _ _ _ (agree_next_name E TEof) He2)|]. apply copying_writer.
  - pose proof (good_ok _ _ _ _ _ _ _ (next_name_good E inp TEof s r Hf (repr_inv _ _ _ _ _ _ _ Hr)) He2) as H. unfold name_read in H. tauto.
Qed.

Lemma transfer_loop_forward {F W : Type} (h : handler F W) E inp fs vs f : forall gs s r, (length inp < fuel E)%nat -> repr E inp (gs ++ fs) vs true s r ->
  gs <> [] -> at_member_value gs = false -> Forall (frame_readable (cfg E)) gs -> (mu s r < f)%nat ->
  exists qs s' r', copies_rest gs qs /\ copying h (transfer_loop E h f (length gs)) s r qs tt s' r' /\ repr E inp (frames_done fs) vs true s' r'.
Proof.
  induction f as [|f IH]; intros gs s r Hf Hr Hne Hav Hrd Hmu; [lia|]. destruct gs as [|g gs]; [contradiction|].
  cbn [transfer_loop length app] in *. inversion Hrd as [|g0 gs0 Hg Hgs]; subst.
  assert (Hav' : at_member_value (g :: gs ++ fs) = false) by (destruct g; auto).
  destruct (has_next_copying h E inp g (gs ++ fs) vs s r (length gs) _ Hf Hr Hav' eq_refl) as (s1 & r1 & Hh & Hr1 & Hm1).
  destruct (frame_values g) as [|v l] eqn:Efv.
  - destruct (transfer_end_forward h E inp g (gs ++ fs) vs s1 r1 Hf Hr1 Hav' Efv) as (s2 & r2 & Hc2 & Hr2 & Ha2 & Hm2).
    pose proof (copying_bind h _ (fun _ => tret (pred (S (length gs)))) _ _ _ _ _ _ _ _ _ _ Hc2 (copying_ret h _ _ _)) as Hc3. rewrite app_nil_r in Hc3.
    assert (Hend : forall q, copies_rest gs q -> copies_rest (g :: gs) ([end_call g] ++ q)).
    { intros q Hq. destruct g as [i [|x y]|n [|x y]|n x y]; try discriminate; cbn [end_call].
      - exact (RestArray i [] gs [] q CopyNoItem Hq).
      - exact (RestObject n [] gs [] q CopyNoMember Hq). }
    destruct gs as [|g2 gs].
    + exists [end_call g], s2, r2. splits; [exact (Hend [] RestNone)| |exact Hr2].
      eapply copying_bind0; [exact Hh|]. cbn [negb].
      exact (copying_bind h _ _ _ _ [end_call g] _ _ _ [] tt s2 r2 Hc3 (copying_ret _ _ _ _)).
    + assert (Hx : exists g3, frames_done (g2 :: gs ++ fs) = g3 :: gs ++ fs) by (destruct g2; cbn; eauto).
      destruct Hx as (g3 & Hx). cbn [app] in Hr2, Ha2. rewrite Hx in Hr2, Ha2.
      assert (Hg3 : frame_readable (cfg E) g3).
      { inversion Hgs; subst. unfold frame_readable in *. destruct g2; cbn in Hx; injection Hx as <-; assumption. }
      destruct (IH (g3 :: gs) s2 r2 Hf Hr2 ltac:(discriminate) Ha2 ltac:(inversion Hgs; subst; constructor; auto) ltac:(lia)) as (qs & s' & r' & Hq & Hc & Hr').
      exists ([end_call g] ++ qs), s', r'. splits; auto.
      * apply Hend. exact (rest_done g2 g3 gs fs qs Hx Ha2 Hq).
      * eapply copying_bind0; [exact Hh|]. cbn [negb]. eapply copying_bind; [exact Hc3|]. exact Hc.
  - assert (Hstep : exists nm s2 r2 g2 x, copying h (transfer_name E h) s1 r1 nm tt s2 r2 /\ repr E inp (g2 :: gs ++ fs) vs true s2 r2 /\ (mu s2 r2 <= mu s1 r1)%nat /\
       at_val E (g2 :: gs ++ fs) vs true = inr x /\ readable (cfg E) x /\ exists g', ent_f (g2 :: gs ++ fs) = g' :: gs ++ fs /\
       (exists g4, frames_done (g' :: gs ++ fs) = g4 :: gs ++ fs /\ at_member_value (g4 :: gs) = false /\ frame_readable (cfg E) g4 /\
         (forall p q, copies x p -> copies_rest (g4 :: gs) q -> copies_rest (g :: gs) (nm ++ p ++ q))) /\
       at_member_value (g' :: gs) = false /\ frame_readable (cfg E) g' /\
       (forall p q, copies x p -> copies_rest (g' :: gs) q -> copies_rest (g :: gs) (nm ++ p ++ q))).
    { unfold frame_readable in Hg. rewrite Efv in Hg. inversion Hg as [|v0 l0 Hv Hl]; subst.
      destruct g as [i [|x y]|n [|[m x] y]|n x y]; try discriminate; cbn [frame_values map] in Efv; injection Efv as -> <-.
      - exists [], s1, r1, (InArray i (v :: y)), v. splits; auto.
        + apply (transfer_no_name h E inp _ _ _ _ _ Hr1). reflexivity.
        + exists (InArray i y). cbn [ent_f tl frames_done]. splits; auto.
          * exists (InArray (i + 1) y). splits; auto. intros p q Hp Hq. exact (rest_item _ _ _ _ _ _ _ Hp Hq).
          * intros p q Hp Hq. exact (rest_item _ _ _ _ _ _ _ Hp Hq).
      - destruct (transfer_name_forward h E inp n m v y (gs ++ fs) vs s1 r1 Hf Hr1) as (s2 & r2 & Hc & Hr2 & Hm).
        exists [PutName m], s2, r2, (AtValue m v y), v. splits; auto; [lia|].
        exists (InObject (Some m) y). cbn [ent_f frames_done]. splits; auto.
        + exists (InObject (Some m) y). splits; auto. intros p q Hp Hq. exact (rest_member _ _ _ _ _ _ _ _ Hp Hq).
        + intros p q Hp Hq. exact (rest_member _ _ _ _ _ _ _ _ Hp Hq). }
    destruct Hstep as (nm & s2 & r2 & g2 & x & Hcn & Hr2 & Hm2 & Ev & Hxr & g' & Hent & (g4 & Hd4 & Ha4 & Hr4 & Hcp4) & Ha' & Hr' & Hcp').
    destruct (step_after h E inp _ vs true s2 r2 x (S (length gs)) Hf Hr2 Ev (fun _ => Hxr)) as (ps & s3 & r3 & Hc3 & Hm3 & Hres).
    pose proof (copying_bind h _ (fun _ => (started <- transfer_start E h ;; tret (if started : bool then S (S (length gs)) else S (length gs)))%tm)
      _ _ _ _ _ _ _ _ _ _ Hcn Hc3) as Hc4.
    destruct (is_container (json_type x)) eqn:Ec.
    + destruct Hres as (Hr3 & Hsplit). rewrite Hent in Hr3. pose proof (opened_readable (cfg E) x Ec Hxr) as Hro.
      destruct (IH (opened x :: g' :: gs) s3 r3 Hf Hr3 ltac:(discriminate)) as (qs & s' & r' & Hq & Hc & Hrr).
      { destruct x; reflexivity. }
      { constructor; [exact Hro|]. constructor; assumption. }
      { lia. }
      destruct (Hsplit _ _ Hq) as (q1 & q2 & -> & Hcx & Hq2).
      exists ((nm ++ ps) ++ q1 ++ q2), s', r'. splits; auto.
      * replace ((nm ++ ps) ++ q1 ++ q2) with (nm ++ (ps ++ q1) ++ q2) by (rewrite <- !app_assoc; reflexivity). apply Hcp'; assumption.
      * eapply copying_bind0; [exact Hh|]. cbn [negb]. eapply copying_bind; [exact Hc4|]. exact Hc.
    + destruct Hres as (Hr3 & Hcx). unfold behind in Hr3. rewrite Hent, Hd4 in Hr3.
      destruct (IH (g4 :: gs) s3 r3 Hf Hr3 ltac:(discriminate) Ha4) as (qs & s' & r' & Hq & Hc & Hrr).
      { constructor; assumption. }
      { lia. }
      exists ((nm ++ ps) ++ qs), s', r'. splits; auto.
      * rewrite <- app_assoc. apply Hcp4; assumption.
      * eapply copying_bind0; [exact Hh|]. cbn [negb]. eapply copying_bind; [exact Hc4|]. exact Hc.
Qed.

Lemma transfer_forward {F W : Type} (h : handler F W) E inp fs vs st s r v : (length inp < fuel E)%nat -> repr E inp fs vs st s r ->
  at_val E fs vs st = inr v -> readable (cfg E) v ->
  exists ps s' r', copies v ps /\ copying h (transfer_to E h) s r ps tt s' r' /\ behind E inp fs vs s' r'.
Proof.
  intros Hf Hr Ev Hn. destruct (nextv_val _ _ _ _ _ Ev) as [_ Hio].
  pose proof (repr_names _ _ _ _ _ _ _ Hr) as Hnames. rewrite Hio in Hnames.
  destruct (step_after h E inp fs vs st s r v 0 Hf Hr Ev (fun _ => Hn)) as (ps & s1 & r1 & Hc & Hm & Hres).
  pose proof (mu_bound _ _ _ _ (repr_inv _ _ _ _ _ _ _ Hr)) as Hmb.
  assert (Hstart : forall (k : nat -> T F W unit) qs s' r', copying h (k (if is_container (json_type v) then 1%nat else 0%nat)) s1 r1 qs tt s' r' ->
    copying h (tbind (tbind (transfer_name E h) (fun _ => (started <- transfer_start E h ;; tret (if started : bool then 1%nat else 0%nat))%tm)) k) s r (ps ++ qs) tt s' r').
  { intros k qs s' r' Hk. eapply copying_bind; [|exact Hk]. eapply copying_bind0; [apply (transfer_no_name h E inp _ _ _ _ _ Hr Hio)|]. exact Hc. }
  assert (Hto : forall qs s' r', copying h (transfer_loop E h (fuel E) 0) s r qs tt s' r' -> copying h (transfer_to E h) s r qs tt s' r').
  { intros qs s' r' H. apply copying_state. rewrite Hnames. eapply copying_bind0; [|exact H]. apply copying_exec. intros kn. exists kn. reflexivity. }
  destruct (fuel E) as [|f] eqn:Ef; [lia|].
  destruct (is_container (json_type v)) eqn:Ec.
  - destruct Hres as (Hr1 & Hsplit). rewrite <- Ef in Hf. pose proof (opened_readable (cfg E) v Ec Hn) as Hro.
    destruct (transfer_loop_forward h E inp (ent_f fs) (ent_v fs vs) f [opened v] s1 r1 Hf Hr1 ltac:(discriminate)) as (qs & s' & r' & Hq & Hcl & Hrr).
    { destruct v; reflexivity. }
    { constructor; [exact Hro|constructor]. }
    { lia. }
    destruct (Hsplit _ _ Hq) as (q1 & q2 & -> & Hcx & Hq2). inversion Hq2; subst. rewrite app_nil_r in *.
    exists (ps ++ q1), s', r'. splits; auto. apply Hto. cbn [transfer_loop].
    eapply copying_bind0; [apply copying_ret|]. cbn [negb]. apply Hstart. exact Hcl.
  - destruct Hres as (Hr1 & Hcx). exists ps, s1, r1. splits; auto. apply Hto. cbn [transfer_loop].
    eapply copying_bind0; [apply copying_ret|]. cbn [negb].
    pose proof (Hstart (fun depth' => match depth' with O => tret tt | _ => transfer_loop E h f depth' end) [] s1 r1 (copying_ret _ _ _ _)) as H.
    rewrite app_nil_r in H. exact H.
Qed.
