(** * Reading a known document

    Auxiliary: if the remaining text is the text of a cursor, the functions of
    [ReaderMid] return what is found at the cursor, and the text which then
    remains is that of the moved cursor. *)

From Verif Require Import Base Utf8Model Utf8Proofs NumberModel SpecNumber NumberProofs SpecJson SourceModel ReaderModel
  ReaderScan ReaderLex ReaderLexStr ReaderMid ReaderAgree ReaderSess ReaderGrammar ReaderSafe SpecCursor ReaderRepr.

(** ** Functions on frames *)

Definition nextv (fs : list frame) (vs : list json) : option json := next_value (Cursor fs vs true NotReading).
Definition ent_f (fs : list frame) : list frame :=
  match fs with
  | InArray i l :: fs' => InArray i (tl l) :: fs'
  | AtValue n _ l :: fs' => InObject (Some n) l :: fs'
  | _ => fs
  end.
Definition ent_v (fs : list frame) (vs : list json) : list json := match fs with [] => tl vs | _ => vs end.

Definition path_of (fs : list frame) : list piece := rev (map frame_piece fs).
Definition at_val (E : env) (fs : list frame) (vs : list json) (st : bool) : expected + json :=
  at_value (cfg E) (Cursor fs vs st NotReading).

Lemma location_path E inp fs vs s r : base E inp fs vs s r -> at_path (cfg E) (path_of fs) (location s).
Proof.
  intros []. unfold at_path, location, current_position. cbn. rewrite b_path. unfold tracked, path_of.
  destruct (track_path (cfg E)); reflexivity.
Qed.

(** An expected error *)
Definition erep {A : Type} (E : env) (inp : bytes) (fs : list frame) (vs : list json) (st : bool) (x : expected) (m : mres A) : Prop :=
  match x with
  | XMisuse => m = MMisuse
  | XType e a path => exists s' r', m = MErr (EUnexpectedType e a (location s')) s' r' /\ repr E inp fs vs st s' r' /\ path = path_of fs
  | XStructure k path => exists s' r', m = MErr (EUnexpectedStructure k (location s')) s' r' /\ repr E inp fs vs st s' r' /\ path = path_of fs
  | XUnsupportedNumber t => m = MFail (Some t)
  | _ => False
  end.

Lemma erep_bind {A B : Type} E inp fs vs st x (m : D A) (f : A -> D B) s r :
  erep E inp fs vs st x (m s r) -> erep E inp fs vs st x (dbind m f s r).
Proof.
  unfold dbind. destruct x; cbn; try contradiction.
  - intros (s' & r' & -> & H). exists s', r'. auto.
  - intros (s' & r' & -> & H). exists s', r'. auto.
  - intros ->. reflexivity.
  - intros ->. reflexivity.
Qed.

Lemma dbind_ok {A B : Type} (m : D A) (f : A -> D B) s r x s' r' : m s r = MOk x s' r' -> dbind m f s r = f x s' r'.
Proof. unfold dbind. intros ->. reflexivity. Qed.

Lemma dbind_assoc {A B C : Type} (m : D A) (f : A -> D B) (g : B -> D C) s r :
  dbind (dbind m f) g s r = dbind m (fun x => dbind (f x) g) s r.
Proof. unfold dbind. destruct (m s r); reflexivity. Qed.

Lemma dbind_ret {A : Type} (m : D A) s r : dbind m dret s r = m s r.
Proof. unfold dbind, dret. destruct (m s r); reflexivity. Qed.

(** ** Peeking *)

Lemma cur_token_none fs vs : cur_token fs vs = None -> fs = [] /\ vs = [].
Proof.
  destruct fs as [|[i [|v l]|n [|[m v] l]|n v l] fs]; cbn; try discriminate. destruct vs; [auto|discriminate].
Qed.

Lemma behind_same s s' : same s s' -> is_behind_top_level s' = is_behind_top_level s.
Proof. unfold same, is_behind_top_level. intros (-> & _ & -> & _). reflexivity. Qed.

Lemma peek_internal_forward E inp fs vs st s r : (length inp < fuel E)%nat -> repr E inp fs vs st s r -> may_peek E fs st ->
  match cur_token fs vs with
  | Some p => exists s' r', d_peek_internal E TEof s r = MOk p s' r' /\ repr E inp fs vs st s' r' /\ peeked s' = Some p
  | None => erep E inp fs vs st (XStructure FewerElementsThanExpected []) (d_peek_internal E TEof s r)
  end.
Proof.
  intros Hf Hr Hm. destruct (peek_optional_forward E inp fs vs st s r Hf Hr Hm) as (s' & r' & He & Hr' & Hp).
  unfold d_peek_internal. rewrite (dbind_ok _ _ _ _ _ _ _ He).
  destruct (cur_token fs vs) as [p|] eqn:Et; [exists s', r'; auto|].
  apply cur_token_none in Et as [-> ->]. unfold dbind, dget.
  pose proof (r_top _ _ _ _ _ _ _ Hr) as Ht. destruct st; [|destruct Ht as (_ & Ht & _); congruence].
  rewrite (behind_top _ _ _ _ _ _ _ Hr'). specialize (Hm eq_refl). cbn in Hm. apply negb_false_iff in Hm. rewrite Hm. cbn.
  exists s', r'. splits; auto.
Qed.

Lemma not_may_peek E inp fs vs st s r A (f : unit -> D A) : repr E inp fs vs st s r -> fs = [] -> st && negb (allow_multiple_top_level (cfg E)) = true ->
  d_peek_optional E TEof s r = MMisuse.
Proof.
  intros Hr -> Hm. unfold d_peek_optional, dbind at 1, dget. rewrite (r_active _ _ _ _ _ _ _ Hr). unfold dmisuse_if at 1, dbind at 1, dret at 1.
  apply andb_true_iff in Hm as [-> Hm]. apply negb_true_iff in Hm. pose proof (r_top _ _ _ _ _ _ _ Hr Hm) as ->.
  pose proof (r_text _ _ _ _ _ _ _ Hr) as Ht. unfold text_ok in Ht. destruct (peeked s) as [p|]; [destruct Ht; discriminate|].
  rewrite (behind_top _ _ _ _ _ _ _ Hr), Hm. reflexivity.
Qed.

Lemma value_token_type v : type_of (value_token v) = Some (json_type v).
Proof. destruct v as [|[]| | | |]; reflexivity. Qed.

Lemma map_peeked_value v s r : d_map_peeked (value_token v) s r = MOk (json_type v) s r.
Proof. destruct v as [|[]| | | |]; reflexivity. Qed.

(** The common start of all functions which read a value *)
Definition d_value {A : Type} (E : env) (k : peeked_value -> value_type -> D A) : D A :=
  s <- dget ;; dmisuse_if (expects_member_name s) ;; p <- d_peek_internal E TEof ;; a <- d_map_peeked p ;; k p a.

Lemma value_forward {A : Type} E inp fs vs st s r (k : peeked_value -> value_type -> D A) : (length inp < fuel E)%nat ->
  repr E inp fs vs st s r ->
  match at_val E fs vs st with
  | inl x => erep E inp fs vs st x (d_value E k s r)
  | inr v => exists s' r', d_value E k s r = k (value_token v) (json_type v) s' r' /\ repr E inp fs vs st s' r' /\
      peeked s' = Some (value_token v)
  end.
Proof.
  intros Hf Hr.
  assert (Heq : d_value E k s r = (dmisuse_if (in_object fs) ;; p <- d_peek_internal E TEof ;; a <- d_map_peeked p ;; k p a)%dm s r).
  { unfold d_value, dbind at 1, dget. destruct (r_names _ _ _ _ _ _ _ Hr) as [-> _]. reflexivity. }
  rewrite Heq. clear Heq.
  assert (Hval : forall v, cur_token fs vs = Some (value_token v) -> may_peek E fs st -> in_object fs = false ->
    exists s' r', (dmisuse_if (in_object fs) ;; p <- d_peek_internal E TEof ;; a <- d_map_peeked p ;; k p a)%dm s r =
      k (value_token v) (json_type v) s' r' /\ repr E inp fs vs st s' r' /\ peeked s' = Some (value_token v)).
  { intros v Hv Hm ->. unfold dmisuse_if, dbind at 1, dret at 1.
    pose proof (peek_internal_forward E inp fs vs st s r Hf Hr Hm) as Hp. rewrite Hv in Hp.
    destruct Hp as (s' & r' & He & Hr' & Hpk). rewrite (dbind_ok _ _ _ _ _ _ _ He).
    rewrite (dbind_ok _ _ _ _ _ _ _ (map_peeked_value v s' r')). exists s', r'. auto. }
  unfold at_val, at_value. cbn [is_reading reading frames started top].
  assert (Hne : forall f fs', fs = f :: fs' -> may_peek E fs st) by (intros f fs' ->; intros H; discriminate).
  destruct fs as [|[i [|v l]|n l|n v l] fs].
  - destruct (st && negb (allow_multiple_top_level (cfg E))) eqn:Em.
    + cbn. unfold dmisuse_if, dbind, dret, d_peek_internal, dbind. rewrite (not_may_peek E inp [] vs st s r unit dret Hr eq_refl Em). reflexivity.
    + destruct vs as [|v vs]; [|apply Hval; auto; intros _; exact Em].
      cbn [in_object]. unfold dmisuse_if, dbind at 1, dret at 1. apply erep_bind.
      exact (peek_internal_forward E inp [] [] st s r Hf Hr (fun _ => Em)).
  - pose proof (peek_internal_forward E inp _ vs st s r Hf Hr (Hne _ _ eq_refl)) as Hp. cbn [cur_token] in Hp.
    destruct Hp as (s' & r' & He & Hr' & _). cbn [in_object]. unfold dmisuse_if, dbind at 1, dret at 1.
    rewrite (dbind_ok _ _ _ _ _ _ _ He). apply erep_bind. exists s', r'. splits; auto.
  - apply Hval; eauto.
  - reflexivity.
  - apply Hval; eauto.
Qed.

Lemma peek_forward E inp fs vs st s r : (length inp < fuel E)%nat -> repr E inp fs vs st s r ->
  match at_val E fs vs st with
  | inl x => erep E inp fs vs st x (d_peek E TEof s r)
  | inr v => exists s' r', d_peek E TEof s r = MOk (json_type v) s' r' /\ repr E inp fs vs st s' r' /\ peeked s' = Some (value_token v)
  end.
Proof.
  intros Hf Hr. assert (He : d_peek E TEof s r = d_value E (fun _ a => dret a) s r).
  { unfold d_peek, d_value, dbind, dget, dmisuse_if, dret, dmisuse. destruct (expects_member_name s); [reflexivity|].
    destruct (d_peek_internal E TEof s r) as [p s' r'| | | |]; auto. destruct (d_map_peeked p s' r'); reflexivity. }
  rewrite He. exact (value_forward E inp fs vs st s r _ Hf Hr).
Qed.

(** ** Values *)

Lemma nextv_val E fs vs st v : at_val E fs vs st = inr v -> nextv fs vs = Some v /\ in_object fs = false.
Proof.
  unfold at_val, at_value, nextv, next_value. cbn [is_reading reading frames started top].
  destruct fs as [|[i [|x l]|n l|n x l] fs]; cbn; try (intros [= ->]; auto; fail); try discriminate.
  destruct (_ && _); [discriminate|]. destruct vs; [discriminate|]. intros [= ->]. auto.
Qed.

Lemma body_value sx fs vs v t : nextv fs vs = Some v -> in_object fs = false -> body_text sx fs vs t ->
  value_then sx v (ent_f fs) (ent_v fs vs) t.
Proof.
  unfold nextv, next_value. cbn. destruct fs as [|[i [|x l]|n l|n x l] fs]; cbn; try discriminate.
  - destruct vs; cbn; [discriminate|]. intros [= ->] _. auto.
  - intros [= ->]. auto.
  - intros [= ->]. auto.
Qed.

Lemma fits_value E fs vs v : nextv fs vs = Some v -> fits E fs vs ->
  match max_nesting_depth (cfg E) with None => True | Some m => N.of_nat (length fs + nesting v) <= m end.
Proof.
  unfold nextv, next_value, fits. cbn. destruct (max_nesting_depth (cfg E)) as [m|]; [|trivial]. intros Hv [H1 H2].
  destruct fs as [|[i [|x l]|n l|n x l] fs]; cbn in *; try discriminate.
  - destruct vs; [discriminate|]. injection Hv as ->. inversion H2; subst. assumption.
  - injection Hv as ->. destruct H1 as [H1 _]. inversion H1; subst. assumption.
  - injection Hv as ->. destruct H1 as [H1 _]. inversion H1; subst. assumption.
Qed.

Lemma fits_ent E fs vs : fits E fs vs -> fits E (ent_f fs) (ent_v fs vs).
Proof.
  unfold fits. destruct (max_nesting_depth (cfg E)) as [m|]; [|trivial]. intros [H1 H2].
  destruct fs as [|[i [|x l]|n l|n x l] fs]; cbn in *; auto.
  - split; [trivial|]. destruct vs; [constructor|]. inversion H2; assumption.
  - destruct H1 as [H1 H3]. inversion H1; subst. auto.
  - destruct H1 as [H1 H3]. inversion H1; subst. auto.
Qed.

Lemma ent_kinds fs : map frame_kind (ent_f fs) = map frame_kind fs.
Proof. destruct fs as [|[]]; reflexivity. Qed.
Lemma ent_pieces fs : map frame_piece (ent_f fs) = map frame_piece fs.
Proof. destruct fs as [|[]]; reflexivity. Qed.

Lemma base_ent E inp fs vs s r : base E inp fs vs s r -> base E inp (ent_f fs) (ent_v fs vs) s r.
Proof.
  intros []. split; auto.
  - rewrite ent_kinds. exact b_stack.
  - unfold tracked in *. rewrite ent_pieces. exact b_path.
  - exact (fits_ent _ _ _ b_fits).
Qed.

Lemma top_ent E fs vs st : top_ok E fs vs st -> allow_multiple_top_level (cfg E) = false -> ent_v fs vs = [].
Proof.
  unfold top_ok. destruct st; [intros H Hm; specialize (H Hm); subst; destruct fs; reflexivity|].
  intros (-> & _ & H) Hm. exact (H Hm).
Qed.

Definition is_container (t : value_type) : bool := match t with TArray | TObject => true | _ => false end.

Lemma nesting_container v : is_container (json_type v) = true -> (1 <= nesting v)%nat.
Proof. destruct v; cbn; try discriminate; lia. Qed.

(** Starting a value of the expected type *)
Lemma start_forward E inp fs vs st s r ty chk : (length inp < fuel E)%nat -> repr E inp fs vs st s r ->
  (chk = true -> is_container ty = true) ->
  match at_val E fs vs st with
  | inl x => erep E inp fs vs st x (d_start E TEof ty chk s r)
  | inr v =>
    if value_type_eqb (json_type v) ty then
      exists s' r' tv t', d_start E TEof ty chk s r = MOk (value_token v) s' r' /\
        inside E inp (ent_f fs) (ent_v fs vs) s' r' /\ string_reader_active s' = false /\
        tok (value_token v) ++ r' = tv ++ t' /\ value_text (reader_syntax (cfg E)) v tv /\
        outer (reader_syntax (cfg E)) (ent_f fs) (ent_v fs vs) t' /\ (is_word v -> sep_text t')
    else erep E inp fs vs st (XType ty (json_type v) (path_of fs)) (d_start E TEof ty chk s r)
  end.
Proof.
  intros Hf Hr Hchk.
  pose proof (value_forward E inp fs vs st s r (fun p actual =>
     if value_type_eqb actual ty then
       s <- dget ;;
       match (if chk then depth_exceeded E s else None) with
       | Some m => derr (EMaxNestingDepth m)
       | None => d_consume_peeked ;; dret p
       end
     else derr (EUnexpectedType ty actual)) Hf Hr) as H.
  change (d_value E _ s r) with (d_start E TEof ty chk s r) in H.
  destruct (at_val E fs vs st) as [x|v] eqn:Ev; [exact H|].
  destruct H as (s1 & r1 & He & Hr1 & Hpk). rewrite He.
  destruct (nextv_val _ _ _ _ _ Ev) as [Hn Hio].
  destruct (value_type_eqb (json_type v) ty) eqn:Ety; [|exists s1, r1; auto].
  apply value_type_eqb_eq in Ety. subst ty.
  pose proof (r_base _ _ _ _ _ _ _ Hr1) as Hb1.
  assert (Hd : (if chk then depth_exceeded E s1 else None) = None).
  { destruct chk; [|reflexivity]. unfold depth_exceeded. pose proof (fits_value E fs vs v Hn (b_fits _ _ _ _ _ _ Hb1)) as Hx.
    destruct (max_nesting_depth (cfg E)) as [m|]; [|reflexivity]. rewrite (b_stack _ _ _ _ _ _ Hb1), map_length.
    pose proof (nesting_container v (Hchk eq_refl)). destruct (N.leb_spec m (N.of_nat (length fs))); [lia|reflexivity]. }
  unfold dbind at 1, dget. rewrite Hd.
  destruct (consume_peeked_good E inp s1 r1 _ (b_inv _ _ _ _ _ _ Hb1) Hpk) as (Hc & Hi2 & Hs2 & Hpk2 & _).
  rewrite (dbind_ok _ _ _ _ _ _ _ Hc). unfold dret.
  pose proof (r_text _ _ _ _ _ _ _ Hr1) as Ht. unfold text_ok in Ht. rewrite Hpk in Ht. destruct Ht as [_ Ht].
  destruct (body_value _ _ _ _ _ Hn Hio Ht) as (tv & t' & H1 & H2 & H3 & H4).
  eexists _, r1, tv, t'. split; [reflexivity|].
  pose proof (base_ent _ _ _ _ _ _ (base_same _ _ _ _ _ _ _ _ Hb1 Hs2 Hi2)) as Hb2. destruct Hs2 as (S1 & S2 & S3 & S4 & S5).
  splits; auto.
  - split; auto.
    + rewrite S2. destruct (r_names _ _ _ _ _ _ _ Hr1) as [-> _]. exact Hio.
    + exact (top_ent _ _ _ _ (r_top _ _ _ _ _ _ _ Hr1)).
  - rewrite S4. exact (r_active _ _ _ _ _ _ _ Hr1).
Qed.

Lemma in_array_kinds fs s : stack s = map frame_kind fs -> is_in_array s = in_array fs.
Proof. intros H. unfold is_in_array. rewrite H. destruct fs as [|[]]; reflexivity. Qed.

(** Behind a value *)
Lemma value_end_forward E inp fs vs s r : inside E inp fs vs s r -> string_reader_active s = false ->
  outer (reader_syntax (cfg E)) fs vs r ->
  exists s', d_on_value_end s r = MOk tt s' r /\ repr E inp (frames_done fs) vs true s' r.
Proof.
  intros [Hb Hpk Hn Htop] Ha Ho. pose proof (value_end_good E inp s r (b_inv _ _ _ _ _ _ Hb) Hpk Hn Ha) as Hg.
  assert (He : exists s', d_on_value_end s r = MOk tt s' r /\ json_path s' = tracked E (frames_done fs)).
  { unfold d_on_value_end, dbind at 1, dget. rewrite (in_array_kinds fs s (b_stack _ _ _ _ _ _ Hb)), (b_path _ _ _ _ _ _ Hb).
    unfold tracked. destruct fs as [|[i l|n l|n v l] fs]; cbn [in_array frames_done].
    - eexists. split; [reflexivity|]. cbn. destruct (is_in_object s); exact (b_path _ _ _ _ _ _ Hb).
    - destruct (track_path (cfg E)) eqn:Et; (eexists; split; [reflexivity|]).
      + cbn. destruct (is_in_object _); reflexivity.
      + cbn. pose proof (b_path _ _ _ _ _ _ Hb) as Hp. unfold tracked in Hp. rewrite Et in Hp. destruct (is_in_object s); exact Hp.
    - eexists. split; [reflexivity|]. cbn. destruct (is_in_object s); exact (b_path _ _ _ _ _ _ Hb).
    - eexists. split; [reflexivity|]. cbn. destruct (is_in_object s); exact (b_path _ _ _ _ _ _ Hb). }
  destruct He as (s' & He & Hp). exists s'. split; [exact He|]. rewrite He in Hg. destruct Hg as (Hi & H1 & H2 & H3 & H4 & H5 & _).
  split.
  - split; [exact Hi| |exact Hp|].
    + rewrite H1, (b_stack _ _ _ _ _ _ Hb). destruct fs as [|[]]; reflexivity.
    + pose proof (b_fits _ _ _ _ _ _ Hb) as Hx. unfold fits in *. destruct (max_nesting_depth (cfg E)); [|trivial].
      destruct fs as [|[]]; exact Hx.
  - exact H3.
  - unfold names_ok. rewrite H4, H5. unfold is_in_object. rewrite (b_stack _ _ _ _ _ _ Hb).
    destruct Ho; cbn; auto. split; [reflexivity|]. symmetry. apply N.eqb_neq. lia.
  - exact Htop.
  - unfold text_ok. rewrite H2. exact (outer_cur _ _ _ _ Ho).
Qed.

(** ** Methods which read a value *)

Definition behind (E : env) (inp : bytes) (fs : list frame) (vs : list json) (s' : rstate) (r' : bytes) : Prop :=
  repr E inp (frames_done (ent_f fs)) (ent_v fs vs) true s' r'.

Definition vrep {A : Type} (E : env) (inp : bytes) (fs : list frame) (vs : list json) (st : bool) (ty : value_type)
  (P : json -> A -> rstate -> bytes -> Prop) (m : mres A) : Prop :=
  match at_val E fs vs st with
  | inl x => erep E inp fs vs st x m
  | inr v =>
    if value_type_eqb (json_type v) ty
    then exists x s' r', m = MOk x s' r' /\ P v x s' r'
    else erep E inp fs vs st (XType ty (json_type v) (path_of fs)) m
  end.

Lemma vrep_start {A : Type} E inp fs vs st ty chk (P : json -> A -> rstate -> bytes -> Prop) (k : peeked_value -> D A) s r :
  (length inp < fuel E)%nat -> repr E inp fs vs st s r -> (chk = true -> is_container ty = true) ->
  (forall v s' r' tv t', nextv fs vs = Some v -> json_type v = ty -> inside E inp (ent_f fs) (ent_v fs vs) s' r' -> string_reader_active s' = false ->
     tok (value_token v) ++ r' = tv ++ t' -> value_text (reader_syntax (cfg E)) v tv ->
     outer (reader_syntax (cfg E)) (ent_f fs) (ent_v fs vs) t' -> (is_word v -> sep_text t') ->
     exists x s2 r2, k (value_token v) s' r' = MOk x s2 r2 /\ P v x s2 r2) ->
  vrep E inp fs vs st ty P (dbind (d_start E TEof ty chk) k s r).
Proof.
  intros Hf Hr Hc Hk. pose proof (start_forward E inp fs vs st s r ty chk Hf Hr Hc) as H. unfold vrep.
  destruct (at_val E fs vs st) as [x|v] eqn:Ev; [apply erep_bind; exact H|].
  destruct (value_type_eqb (json_type v) ty) eqn:Ety; [|apply erep_bind; exact H].
  destruct H as (s' & r' & tv & t' & He & H1 & H2 & H3 & H4 & H5 & H6). rewrite (dbind_ok _ _ _ _ _ _ _ He).
  apply (Hk v s' r' tv t'); auto using value_type_eqb_eq. exact (proj1 (nextv_val _ _ _ _ _ Ev)).
Qed.

Lemma inside_same E inp fs vs s r s' r' : inside E inp fs vs s r -> same s s' -> peeked s' = None -> inv E inp s' r' ->
  inside E inp fs vs s' r'.
Proof.
  intros [Hb Hp Hn Ht] Hs Hp' Hi. pose proof (base_same _ _ _ _ _ _ _ _ Hb Hs Hi) as Hb'. destruct Hs as (_ & S2 & _).
  split; auto. congruence.
Qed.

Lemma inside_length E inp fs vs s r : inside E inp fs vs s r -> (length r <= length inp)%nat.
Proof.
  intros [Hb _ _ _]. pose proof (mu_bound _ _ _ _ (b_inv _ _ _ _ _ _ Hb)) as H. unfold mu, ahead in H. rewrite app_length in H. lia.
Qed.

Lemma string_forward E inp fs vs s r body v t' : (length inp < fuel E)%nat -> inside E inp fs vs s r -> string_reader_active s = false ->
  r = body ++ B_QUOTE :: t' -> str_text body v ->
  exists s', d_string E s r = MOk v s' t' /\ d_skip_string E s r = MOk tt s' t' /\ inside E inp fs vs s' t' /\ string_reader_active s' = false.
Proof.
  intros Hf Hin Ha -> Hb. pose proof (inside_length _ _ _ _ _ _ Hin) as Hl.
  pose proof (scan_string_complete body v Hb (fuel E) t' ltac:(lia)) as Hs.
  pose proof (string_good E inp s _ Hf (b_inv _ _ _ _ _ _ (n_base _ _ _ _ _ _ Hin)) (n_peeked _ _ _ _ _ _ Hin)) as Hg.
  exists (move (body ++ [B_QUOTE]) s).
  assert (He : d_string E s (body ++ B_QUOTE :: t') = MOk v (move (body ++ [B_QUOTE]) s) t').
  { unfold d_string. rewrite Hs, from_utf8_encode by exact (str_text_chars _ _ Hb). reflexivity. }
  rewrite He in Hg. destruct Hg as (Hi & Hsame & Hp & _). splits; auto.
  - unfold d_skip_string. rewrite Hs. reflexivity.
  - exact (inside_same _ _ _ _ _ _ _ _ Hin Hsame Hp Hi).
  - destruct Hsame as (_ & _ & _ & -> & _). exact Ha.
Qed.

Lemma string_start sx x r tv t' : value_text sx (JStr x) tv -> tok PkStringStart ++ r = tv ++ t' ->
  exists body, r = body ++ B_QUOTE :: t' /\ str_text body x.
Proof.
  intros H He. inversion H as [ | | | |t s (body & -> & Hb)| | ]; subst. exists body. cbn in He. injection He as ->.
  rewrite <- app_assoc. auto.
Qed.

Lemma value_end_behind E inp fs vs s r : inside E inp (ent_f fs) (ent_v fs vs) s r -> string_reader_active s = false ->
  outer (reader_syntax (cfg E)) (ent_f fs) (ent_v fs vs) r ->
  exists s', d_on_value_end s r = MOk tt s' r /\ behind E inp fs vs s' r.
Proof. apply value_end_forward. Qed.

Lemma next_null_forward E inp fs vs st s r : (length inp < fuel E)%nat -> repr E inp fs vs st s r ->
  vrep E inp fs vs st TNull (fun _ _ => behind E inp fs vs) (d_next_null E TEof s r).
Proof.
  intros Hf Hr. apply vrep_start; auto; try discriminate. intros v s' r' tv t' _ Hty Hin Ha Htok Hv Ho Hw.
  destruct v; try discriminate. inversion Hv; subst. cbn in Htok. injection Htok as ->.
  destruct (value_end_behind _ _ _ _ _ _ Hin Ha Ho) as (s2 & He & H2). exists tt, s2, t'. auto.
Qed.

Lemma next_bool_forward E inp fs vs st s r : (length inp < fuel E)%nat -> repr E inp fs vs st s r ->
  vrep E inp fs vs st TBoolean (fun v x s' r' => v = JBool x /\ behind E inp fs vs s' r') (d_next_bool E TEof s r).
Proof.
  intros Hf Hr. apply vrep_start; auto; try discriminate. intros v s' r' tv t' _ Hty Hin Ha Htok Hv Ho Hw.
  destruct v as [|b| | | |]; try discriminate. inversion Hv; subst; cbn in Htok; injection Htok as ->;
  destruct (value_end_behind _ _ _ _ _ _ Hin Ha Ho) as (s2 & He & H2); eexists _, s2, t'; cbn [value_token];
  unfold dbind at 1, dret at 1; rewrite (dbind_ok _ _ _ _ _ _ _ He); auto.
Qed.

Lemma next_string_forward E inp fs vs st s r : (length inp < fuel E)%nat -> repr E inp fs vs st s r ->
  vrep E inp fs vs st TString (fun v x s' r' => v = JStr x /\ behind E inp fs vs s' r') (d_next_string E TEof s r).
Proof.
  intros Hf Hr. apply vrep_start; auto; try discriminate. intros v s' r' tv t' _ Hty Hin Ha Htok Hv Ho Hw.
  destruct v as [| | |x| |]; try discriminate. destruct (string_start _ _ _ _ _ Hv Htok) as (body & Hr' & Hb).
  destruct (string_forward E inp _ _ s' r' body x t' Hf Hin Ha Hr' Hb) as (s2 & He & _ & Hin2 & Ha2).
  rewrite (dbind_ok _ _ _ _ _ _ _ He). destruct (value_end_behind _ _ _ _ _ _ Hin2 Ha2 Ho) as (s3 & He3 & H3).
  rewrite (dbind_ok _ _ _ _ _ _ _ He3). exists x, s3, t'. auto.
Qed.

Lemma skip_string_forward E inp fs vs st s r : (length inp < fuel E)%nat -> repr E inp fs vs st s r ->
  vrep E inp fs vs st TString (fun _ x s' r' => x = false /\ behind E inp fs vs s' r')
    ((d_start E TEof TString false ;; d_skip_string E ;; d_on_value_end ;; dret false)%dm s r).
Proof.
  intros Hf Hr. apply vrep_start; auto; try discriminate. intros v s' r' tv t' _ Hty Hin Ha Htok Hv Ho Hw.
  destruct v as [| | |x| |]; try discriminate. destruct (string_start _ _ _ _ _ Hv Htok) as (body & Hr' & Hb).
  destruct (string_forward E inp _ _ s' r' body x t' Hf Hin Ha Hr' Hb) as (s2 & _ & He & Hin2 & Ha2).
  rewrite (dbind_ok _ _ _ _ _ _ _ He). destruct (value_end_behind _ _ _ _ _ _ Hin2 Ha2 Ho) as (s3 & He3 & H3).
  rewrite (dbind_ok _ _ _ _ _ _ _ He3). exists false, s3, t'. auto.
Qed.

(** A string reader *)
Definition reading_text (E : env) (fs : list frame) (vs : list json) (v : str) (r : bytes) : Prop :=
  exists body t', r = body ++ B_QUOTE :: t' /\ str_text body v /\ outer (reader_syntax (cfg E)) fs vs t'.

Lemma string_reader_forward E inp fs vs st s r : (length inp < fuel E)%nat -> repr E inp fs vs st s r ->
  vrep E inp fs vs st TString (fun v sv s' r' => sv = SvState [] 0 false false /\ inside E inp (ent_f fs) (ent_v fs vs) s' r' /\
      string_reader_active s' = true /\ exists x, v = JStr x /\ reading_text E (ent_f fs) (ent_v fs vs) x r')
    (d_next_string_reader E TEof s r).
Proof.
  intros Hf Hr. apply vrep_start; auto; try discriminate. intros v s' r' tv t' _ Hty Hin Ha Htok Hv Ho Hw.
  destruct v as [| | |x| |]; try discriminate. destruct (string_start _ _ _ _ _ Hv Htok) as (body & Hr' & Hb).
  eexists _, _, _. split; [reflexivity|]. splits; auto.
  - destruct Hin as [[Hi H1 H2 H3] Hp Hn Ht]. split; auto. split; auto.
    destruct Hi. split; auto. unfold peek_ok in *. cbn. rewrite Hp. exact I.
  - exists x. split; [reflexivity|]. exists body, t'. auto.
Qed.

(** *** Numbers *)

Lemma digits_app_run ds t : Forall digit ds -> exponent_part (ds ++ t) = exponent_part t.
Proof.
  induction 1 as [|d ds Hd Hds IH]; [reflexivity|]. cbn. unfold digit in Hd.
  destruct (N.eqb_spec d 0x65); [lia|]. destruct (N.eqb_spec d 0x45); [lia|]. exact IH.
Qed.

Lemma int_digits t : int_text t -> Forall digit t.
Proof.
  intros [->|(d & ds & -> & Hd & Hds)]; [constructor; [unfold digit; lia|constructor]|]. constructor; [unfold digit; lia|exact Hds].
Qed.

Lemma number_exponent t m : number_text_exp t m -> exponent_digits t = m.
Proof.
  intros (minus & int & frac & ex & -> & Hm & Hi & Hfr & He). unfold exponent_digits.
  assert (Hx : exponent_part (minus ++ int ++ frac ++ ex) = exponent_part ex).
  { assert (H1 : exponent_part (int ++ frac ++ ex) = exponent_part ex).
    { rewrite digits_app_run by exact (int_digits _ Hi). destruct Hfr as [->|(ds & -> & _ & Hds)]; [reflexivity|].
      cbn. apply digits_app_run. exact Hds. }
    destruct Hm as [->| ->]; exact H1. }
  rewrite Hx. destruct He as [[-> ->]|(e & sign & ds & -> & He & Hs & [Hne Hds] & ->)]; [reflexivity|].
  assert (Hy : exponent_part (e :: sign ++ ds) = sign ++ ds) by (destruct He as [->| ->]; reflexivity).
  rewrite Hy. destruct Hs as [->|[->| ->]]; [|reflexivity|reflexivity].
  destruct ds as [|d ds]; [reflexivity|]. cbn [app without_sign]. inversion Hds as [|? ? Hd _]; subst. unfold digit in Hd.
  destruct (N.eqb_spec d 0x2D); [lia|]. destruct (N.eqb_spec d 0x2B); [lia|]. reflexivity.
Qed.

Lemma sep_ends t : sep_text t -> ends_number t.
Proof.
  destruct t as [|b t]; [trivial|]. cbn. unfold is_value_separator, number_char, digit. intros H Hc.
  rewrite !orb_true_iff, !N.eqb_eq in H. lia.
Qed.

Lemma number_body_forward E inp fs vs s r t t' restrict : (length inp < fuel E)%nat -> inside E inp fs vs s r -> string_reader_active s = false ->
  r = t ++ t' -> number_text t -> sep_text t' ->
  if restrict && unsupported_number t then d_number_body E TEof restrict s r = MFail (Some t)
  else exists s', d_number_body E TEof restrict s r = MOk t s' t' /\ inside E inp fs vs s' t' /\ string_reader_active s' = false.
Proof.
  intros Hf Hin Ha -> (m & Hm) Hs. pose proof (inside_length _ _ _ _ _ _ Hin) as Hl. rewrite app_length in Hl.
  destruct (number_first _ _ Hm) as (b & l & Ht & Hb).
  pose proof (number_scan_complete E t m t' Hm (sep_ends _ Hs) ltac:(lia)) as Hsc.
  assert (Hns : number_start (t ++ t')) by (rewrite Ht; exact Hb).
  pose proof (number_body_good E inp TEof restrict s (t ++ t') Hf (b_inv _ _ _ _ _ _ (n_base _ _ _ _ _ _ Hin)) (n_peeked _ _ _ _ _ _ Hin) Hns) as Hg.
  assert (He : d_number_body E TEof restrict s (t ++ t') =
    if restrict && unsupported_number t then MFail (Some t) else MOk t (advance (len64 t) (len64 t) s) t').
  { unfold d_number_body. change (is_eof TEof) with true. rewrite Hsc, (number_utf8 _ _ Hm), (sep_text_ok _ Hs).
    unfold unsupported_number. rewrite (number_exponent _ _ Hm).
    assert (Hlt : (2 <? N.of_nat m) = Nat.ltb 2 m). { apply eq_true_iff_eq. rewrite N.ltb_lt, Nat.ltb_lt. lia. }
    rewrite Hlt. unfold len64. rewrite Ht. cbn [app hits_error]. destruct t'; reflexivity. }
  rewrite He in *. destruct (restrict && unsupported_number t); [reflexivity|].
  destruct Hg as (Hi & Hsame & Hp & _). eexists. split; [reflexivity|]. split.
  - exact (inside_same _ _ _ _ _ _ _ _ Hin Hsame Hp Hi).
  - destruct Hsame as (_ & _ & _ & -> & _). exact Ha.
Qed.

Lemma number_forward E inp fs vs st s r restrict : (length inp < fuel E)%nat -> repr E inp fs vs st s r ->
  match at_val E fs vs st with
  | inl x => erep E inp fs vs st x (d_number E TEof restrict s r)
  | inr (JNum t) =>
    if restrict && unsupported_number t then d_number E TEof restrict s r = MFail (Some t)
    else exists s' r', d_number E TEof restrict s r = MOk t s' r' /\ behind E inp fs vs s' r'
  | inr v => erep E inp fs vs st (XType TNumber (json_type v) (path_of fs)) (d_number E TEof restrict s r)
  end.
Proof.
  intros Hf Hr. pose proof (start_forward E inp fs vs st s r TNumber false Hf Hr ltac:(discriminate)) as H. unfold d_number.
  destruct (at_val E fs vs st) as [x|v] eqn:Ev; [apply erep_bind; exact H|].
  destruct v as [|b|t|x|l|l]; cbn [json_type value_type_eqb] in H; try (apply erep_bind; exact H).
  destruct H as (s' & r' & tv & t' & He & Hin & Ha & Htok & Hv & Ho & Hw). cbn in Htok.
  inversion Hv; subst. pose proof (number_body_forward E inp _ _ s' _ tv t' restrict Hf Hin Ha eq_refl ltac:(assumption) (Hw I)) as Hb.
  rewrite (dbind_ok _ _ _ _ _ _ _ He).
  destruct (restrict && unsupported_number tv); [unfold dbind; rewrite Hb; reflexivity|].
  destruct Hb as (s2 & He2 & Hin2 & Ha2). rewrite (dbind_ok _ _ _ _ _ _ _ He2).
  destruct (value_end_behind _ _ _ _ _ _ Hin2 Ha2 Ho) as (s3 & He3 & H3). rewrite (dbind_ok _ _ _ _ _ _ _ He3). exists s3, t'. auto.
Qed.

(** ** Containers *)

Lemma ent_length fs : length (ent_f fs) = length fs.
Proof. destruct fs as [|[]]; reflexivity. Qed.

Lemma nesting_items items v : In v items -> (nesting v < nesting (JArr items))%nat.
Proof.
  intros H. cbn [nesting]. pose proof (proj1 (list_max_le (map nesting items) _) (le_n _)) as Hf. rewrite Forall_forall in Hf.
  pose proof (Hf (nesting v) (in_map _ _ _ H)). lia.
Qed.
Lemma nesting_members ms n v : In (n, v) ms -> (nesting v < nesting (JObj ms))%nat.
Proof.
  intros H. cbn [nesting]. pose proof (proj1 (list_max_le (map (fun m => nesting (snd m)) ms) _) (le_n _)) as Hf. rewrite Forall_forall in Hf.
  pose proof (Hf (nesting v) (in_map (fun m => nesting (snd m)) _ _ H)). lia.
Qed.

Lemma fits_open E fs vs v f : nextv fs vs = Some v -> fits E fs vs ->
  (forall x, In x (frame_values f) -> (nesting x < nesting v)%nat) -> fits E (f :: ent_f fs) (ent_v fs vs).
Proof.
  intros Hn Hfit Hlt. pose proof (fits_value E fs vs v Hn Hfit) as Hv. pose proof (fits_ent E fs vs Hfit) as He.
  unfold fits in *. destruct (max_nesting_depth (cfg E)) as [m|]; [|trivial]. destruct He as [He1 He2]. split; [|exact He2].
  cbn [frames_fit]. split; [|exact He1]. apply Forall_forall. intros x Hx. specialize (Hlt x Hx). cbn [length]. rewrite ent_length. lia.
Qed.

(** A container has been opened *)
Definition opened (v : json) : frame :=
  match v with JArr l => InArray 0 l | JObj l => InObject None l | _ => InArray 0 [] end.
Definition open_behind (E : env) (inp : bytes) (fs : list frame) (vs : list json) (v : json) (s' : rstate) (r' : bytes) : Prop :=
  repr E inp (opened v :: ent_f fs) (ent_v fs vs) true s' r'.

Lemma open_values v x : is_container (json_type v) = true -> In x (frame_values (opened v)) -> (nesting x < nesting v)%nat.
Proof.
  destruct v as [| | | |l|l]; try discriminate; intros _.
  - apply nesting_items.
  - cbn [frame_values opened]. intros Hx. apply in_map_iff in Hx as ([n y] & <- & Hx). exact (nesting_members _ _ _ Hx).
Qed.

Lemma begin_array_forward E inp fs vs st s r : (length inp < fuel E)%nat -> repr E inp fs vs st s r ->
  vrep E inp fs vs st TArray (fun v _ => open_behind E inp fs vs v) (d_begin_array E TEof s r).
Proof.
  intros Hf Hr. pose proof (b_fits _ _ _ _ _ _ (r_base _ _ _ _ _ _ _ Hr)) as Hfit.
  pose proof (begin_array_good E inp TEof s r Hf (b_inv _ _ _ _ _ _ (r_base _ _ _ _ _ _ _ Hr))) as Hg.
  unfold d_begin_array, d_on_container_start in *.
  rewrite dbind_assoc in *.
  assert (Hv : vrep E inp fs vs st TArray (fun v (_ : unit) s' r' => inv E inp s' r' -> open_behind E inp fs vs v s' r')
    (dbind (d_start E TEof TArray true) (fun _ => dbind (dupdate (fun s => set_empty true (set_stack (SArray :: stack s) s)))
       (fun _ => dupdate (fun s => set_expects_name false (set_path (option_map (cons (PIndex 0)) (json_path s)) s)))) s r)).
  { apply vrep_start; auto. intros v s' r' tv t' Hn Hty Hin Ha Htok Hv Ho Hw.
    destruct v as [| | | |l|l]; try discriminate. inversion Hv as [ | | | | |items x Hit| ]; subst. cbn in Htok. injection Htok as ->.
    unfold dbind, dupdate. eexists _, _, _. split; [reflexivity|]. intros Hi.
    destruct Hin as [[_ H1 H2 H3] Hp Hx Ht]. split.
    - split; [exact Hi| | |].
      + cbn. rewrite H1. reflexivity.
      + cbn. rewrite H2. unfold tracked. destruct (track_path (cfg E)); reflexivity.
      + apply (fits_open E fs vs (JArr l)); auto. intros y Hy. exact (open_values (JArr l) y eq_refl Hy).
    - exact Ha.
    - split; reflexivity.
    - exact Ht.
    - unfold text_ok. cbn [peeked set_expects_name set_path set_empty set_stack]. rewrite Hp.
      apply (items_cur _ true); auto. }
  unfold vrep in *. destruct (at_val E fs vs st) as [x|v]; [exact Hv|]. destruct (value_type_eqb _ _); [|exact Hv].
  destruct Hv as (x & s' & r' & He & Hv). exists x, s', r'. split; [exact He|]. rewrite He in Hg. apply Hv. apply Hg.
Qed.

Lemma begin_object_forward E inp fs vs st s r : (length inp < fuel E)%nat -> repr E inp fs vs st s r ->
  vrep E inp fs vs st TObject (fun v _ => open_behind E inp fs vs v) (d_begin_object E TEof s r).
Proof.
  intros Hf Hr. pose proof (b_fits _ _ _ _ _ _ (r_base _ _ _ _ _ _ _ Hr)) as Hfit.
  pose proof (begin_object_good E inp TEof s r Hf (b_inv _ _ _ _ _ _ (r_base _ _ _ _ _ _ _ Hr))) as Hg.
  unfold d_begin_object, d_on_container_start in *.
  rewrite dbind_assoc in *.
  assert (Hv : vrep E inp fs vs st TObject (fun v (_ : unit) s' r' => inv E inp s' r' -> open_behind E inp fs vs v s' r')
    (dbind (d_start E TEof TObject true) (fun _ => dbind (dupdate (fun s => set_empty true (set_stack (SObject :: stack s) s)))
       (fun _ => dupdate (fun s => set_expects_name true (set_path (option_map (cons (PName name_placeholder)) (json_path s)) s)))) s r)).
  { apply vrep_start; auto. intros v s' r' tv t' Hn Hty Hin Ha Htok Hv Ho Hw.
    destruct v as [| | | |l|l]; try discriminate. inversion Hv as [ | | | | | |items x Hit]; subst. cbn in Htok. injection Htok as ->.
    unfold dbind, dupdate. eexists _, _, _. split; [reflexivity|]. intros Hi.
    destruct Hin as [[_ H1 H2 H3] Hp Hx Ht]. split.
    - split; [exact Hi| | |].
      + cbn. rewrite H1. reflexivity.
      + cbn. rewrite H2. unfold tracked. destruct (track_path (cfg E)); reflexivity.
      + apply (fits_open E fs vs (JObj l)); auto. intros y Hy. exact (open_values (JObj l) y eq_refl Hy).
    - exact Ha.
    - split; reflexivity.
    - exact Ht.
    - unfold text_ok. cbn [peeked set_expects_name set_path set_empty set_stack]. rewrite Hp.
      apply members_cur; auto. }
  unfold vrep in *. destruct (at_val E fs vs st) as [x|v]; [exact Hv|]. destruct (value_type_eqb _ _); [|exact Hv].
  destruct Hv as (x & s' & r' & He & Hv). exists x, s', r'. split; [exact He|]. rewrite He in Hg. apply Hv. apply Hg.
Qed.

(** After the closing bracket *)
Lemma repr_started E inp f fs vs st s r : repr E inp (f :: fs) vs st s r -> st = true.
Proof. intros H. pose proof (r_top _ _ _ _ _ _ _ H) as Ht. destruct st; [reflexivity|]. destruct Ht; discriminate. Qed.

Lemma container_end_forward E inp f fs vs s r : base E inp (f :: fs) vs s r -> peeked s = None -> expects_member_name s = false ->
  string_reader_active s = false -> (allow_multiple_top_level (cfg E) = false -> vs = []) ->
  outer (reader_syntax (cfg E)) fs vs r ->
  exists s', d_on_container_end s r = MOk tt s' r /\ repr E inp (frames_done fs) vs true s' r.
Proof.
  intros Hb Hpk Hn Ha Ht Ho. unfold d_on_container_end, dbind at 1, dupdate at 1.
  apply value_end_forward; auto. destruct Hb as [Hi H1 H2 H3]. split; auto. split.
  - destruct Hi as [A1 A2 A3 A4 A5 A6 A7]. split; auto.
    + unfold path_ok in *. cbn. rewrite H1 in *. destruct (json_path s) as [l|]; cbn; [|exact A2].
      destruct A2 as [Htr Hp]. split; [exact Htr|]. inversion Hp; subst. cbn. assumption.
    + cbn. congruence.
    + unfold peek_ok. cbn. rewrite Hpk. exact I.
    + unfold depth_ok in *. cbn. rewrite H1 in *. cbn in *. destruct (max_nesting_depth (cfg E)); [lia|exact I].
  - cbn. rewrite H1. reflexivity.
  - cbn. rewrite H2. unfold tracked. destruct (track_path (cfg E)); reflexivity.
  - unfold fits in *. destruct (max_nesting_depth (cfg E)); [|trivial]. cbn in H3. tauto.
Qed.

Lemma outer_not_at sx fs vs t : outer sx fs vs t -> at_member_value (frames_done fs) = false.
Proof. destruct 1; reflexivity. Qed.

Lemma in_array_peek E fs st : fs <> [] -> may_peek E fs st.
Proof. intros H H2. contradiction. Qed.

Lemma peek_in E f fs st : may_peek E (f :: fs) st.
Proof. apply in_array_peek. discriminate. Qed.

Definition end_rep {A : Type} (E : env) (inp : bytes) (fs : list frame) (vs : list json) (st : bool) (closes : bool) (m : mres A) : Prop :=
  if closes then exists x s' r', m = MOk x s' r' /\ repr E inp (frames_done (tl fs)) vs true s' r' /\
    at_member_value (frames_done (tl fs)) = false
  else erep E inp fs vs st (XStructure MoreElementsThanExpected (path_of fs)) m.

Lemma end_array_forward E inp fs vs st s r : (length inp < fuel E)%nat -> repr E inp fs vs st s r ->
  match fs with
  | InArray _ l :: _ => end_rep E inp fs vs st (is_nil l) (d_end_array E TEof s r)
  | _ => d_end_array E TEof s r = MMisuse
  end.
Proof.
  intros Hf Hr. pose proof (kind_in_array _ _ _ _ _ _ (r_base _ _ _ _ _ _ _ Hr)) as Hk.
  assert (Heq : d_end_array E TEof s r = (dmisuse_if (negb (in_array fs)) ;; p <- d_peek_internal E TEof ;;
     match p with PkArrayEnd => d_consume_peeked ;; d_on_container_end | _ => dstructure MoreElementsThanExpected end)%dm s r).
  { unfold d_end_array, dbind at 1, dget. rewrite Hk. reflexivity. }
  rewrite Heq. clear Heq. destruct fs as [|[i l|n l|n v l] fs]; try reflexivity.
  cbn [in_array negb]. unfold dmisuse_if, dbind at 1, dret at 1.
  pose proof (peek_internal_forward E inp _ vs st s r Hf Hr (peek_in E _ _ st)) as Hp.
  destruct l as [|v l]; cbn [cur_token is_nil end_rep] in *.
  - destruct Hp as (s1 & r1 & He & Hr1 & Hpk). rewrite (dbind_ok _ _ _ _ _ _ _ He).
    pose proof (r_base _ _ _ _ _ _ _ Hr1) as Hb1.
    destruct (consume_peeked_good E inp s1 r1 _ (b_inv _ _ _ _ _ _ Hb1) Hpk) as (Hc & Hi2 & Hs2 & Hpk2 & _).
    rewrite (dbind_ok _ _ _ _ _ _ _ Hc).
    pose proof (r_text _ _ _ _ _ _ _ Hr1) as Ht. unfold text_ok in Ht. rewrite Hpk in Ht. destruct Ht as [_ (t' & Ht & Ho)].
    cbn in Ht. injection Ht as ->. pose proof (repr_started _ _ _ _ _ _ _ _ Hr) as ->.
    destruct (container_end_forward E inp (InArray i []) fs vs _ _ (base_same _ _ _ _ _ _ _ _ Hb1 Hs2 Hi2) Hpk2) as (s3 & He3 & Hr3); auto.
    + destruct Hs2 as (_ & -> & _). destruct (r_names _ _ _ _ _ _ _ Hr1) as [-> _]. reflexivity.
    + destruct Hs2 as (_ & _ & _ & -> & _). exact (r_active _ _ _ _ _ _ _ Hr1).
    + exact (r_top _ _ _ _ _ _ _ Hr).
    + rewrite He3. exists tt, s3, t'. splits; auto. exact (outer_not_at _ _ _ _ Ho).
  - destruct Hp as (s1 & r1 & He & Hr1 & Hpk). rewrite (dbind_ok _ _ _ _ _ _ _ He).
    exists s1, r1. splits; auto. destruct v as [|[]| | | |]; reflexivity.
Qed.

Lemma end_object_forward E inp fs vs st s r : (length inp < fuel E)%nat -> repr E inp fs vs st s r ->
  match fs with
  | InObject _ l :: _ => end_rep E inp fs vs st (is_nil l) (d_end_object E TEof s r)
  | _ => d_end_object E TEof s r = MMisuse
  end.
Proof.
  intros Hf Hr. pose proof (kind_in_object _ _ _ _ _ _ (r_base _ _ _ _ _ _ _ Hr)) as Hk.
  pose proof (repr_expects_value _ _ _ _ _ _ _ Hr) as Hv.
  assert (Heq : d_end_object E TEof s r = (dmisuse_if (negb (match fs with InObject _ _ :: _ | AtValue _ _ _ :: _ => true | _ => false end)) ;;
     dmisuse_if (at_member_value fs) ;; p <- d_peek_internal E TEof ;;
     match p with PkObjectEnd => d_consume_peeked ;; dupdate (set_expects_name false) ;; d_on_container_end | _ => dstructure MoreElementsThanExpected end)%dm s r).
  { unfold d_end_object, dbind at 1, dget. rewrite Hk, Hv. reflexivity. }
  rewrite Heq. clear Heq. destruct fs as [|[i l|n l|n v l] fs]; try reflexivity.
  cbn [at_member_value negb]. unfold dmisuse_if, dbind at 1, dret at 1, dbind at 1, dret at 1.
  pose proof (peek_internal_forward E inp _ vs st s r Hf Hr (peek_in E _ _ st)) as Hp.
  destruct l as [|[m v] l]; cbn [cur_token is_nil end_rep] in *.
  - destruct Hp as (s1 & r1 & He & Hr1 & Hpk). rewrite (dbind_ok _ _ _ _ _ _ _ He).
    pose proof (r_base _ _ _ _ _ _ _ Hr1) as Hb1.
    destruct (consume_peeked_good E inp s1 r1 _ (b_inv _ _ _ _ _ _ Hb1) Hpk) as (Hc & Hi2 & Hs2 & Hpk2 & _).
    rewrite (dbind_ok _ _ _ _ _ _ _ Hc). unfold dbind, dupdate.
    pose proof (r_text _ _ _ _ _ _ _ Hr1) as Ht. unfold text_ok in Ht. rewrite Hpk in Ht. destruct Ht as [_ (t' & Ht & Ho)].
    cbn in Ht. injection Ht as ->. pose proof (repr_started _ _ _ _ _ _ _ _ Hr) as ->.
    pose proof (base_same _ _ _ _ _ _ _ _ Hb1 Hs2 Hi2) as Hb2. set (s2 := move _ _) in *.
    destruct (container_end_forward E inp (InObject n []) fs vs (set_expects_name false s2) t') as (s3 & He3 & Hr3); auto.
    + destruct Hb2 as [X1 X2 X3 X4]. split; auto. exact (inv_expects_false _ _ _ _ Hi2 Hpk2).
    + destruct Hs2 as (_ & _ & _ & X & _). cbn. rewrite X. exact (r_active _ _ _ _ _ _ _ Hr1).
    + exact (r_top _ _ _ _ _ _ _ Hr).
    + rewrite He3. exists tt, s3, t'. splits; auto. exact (outer_not_at _ _ _ _ Ho).
  - destruct Hp as (s1 & r1 & He & Hr1 & Hpk). rewrite (dbind_ok _ _ _ _ _ _ _ He).
    exists s1, r1. splits; auto.
Qed.

(** ** Whether there is more *)

Definition more_at (E : env) (fs : list frame) (vs : list json) (st : bool) : expected + bool :=
  more (cfg E) (Cursor fs vs st NotReading).

Lemma has_next_forward E inp fs vs st s r : (length inp < fuel E)%nat -> repr E inp fs vs st s r ->
  match more_at E fs vs st with
  | inl x => x = XMisuse /\ d_has_next E TEof s r = MMisuse
  | inr b => exists s' r', d_has_next E TEof s r = MOk b s' r' /\ repr E inp fs vs st s' r' /\ peeked s' = cur_token fs vs
  end.
Proof.
  intros Hf Hr. pose proof (r_base _ _ _ _ _ _ _ Hr) as Hb. pose proof (repr_expects_value _ _ _ _ _ _ _ Hr) as Hv.
  destruct (r_names _ _ _ _ _ _ _ Hr) as [Hn Hem].
  set (fin := fun op : option peeked_value => match op with
     | None => dret false
     | Some p => dbind dget (fun s => if negb (expects_member_name s) || match p with PkNameStart | PkObjectEnd => true | _ => false end
                   then dret (negb (is_end_token p)) else dbug) end).
  assert (Heq : d_has_next E TEof s r = (dmisuse_if (at_member_value fs) ;;
     op <- match map frame_kind fs with
           | [] => dmisuse_if (is_empty s) ;; dmisuse_if (negb (allow_multiple_top_level (cfg E))) ;; d_peek_optional E TEof
           | _ => p <- d_peek_internal E TEof ;; dret (Some p) end ;; fin op)%dm s r).
  { unfold d_has_next, dbind at 1, dget at 1. rewrite Hv, (b_stack _ _ _ _ _ _ Hb). reflexivity. }
  rewrite Heq. clear Heq.
  assert (Hfin : forall p s' r', repr E inp fs vs st s' r' -> cur_token fs vs = Some p -> fin (Some p) s' r' = MOk (negb (is_end_token p)) s' r').
  { intros p s' r' Hr' Hp. unfold fin, dbind, dget. destruct (r_names _ _ _ _ _ _ _ Hr') as [-> _].
    destruct fs as [|[i [|v l]|n [|[m v] l]|n v l] fs]; cbn in Hp |- *; try reflexivity; injection Hp as <-; reflexivity. }
  assert (Hnoend : forall v, negb (is_end_token (value_token v)) = true) by (destruct v as [|[]| | | |]; reflexivity).
  unfold more_at, more. cbn [is_reading reading frames started top].
  assert (Hin : forall f fs' p, fs = f :: fs' -> at_member_value fs = false -> cur_token fs vs = Some p ->
    exists s' r', (dmisuse_if (at_member_value fs) ;;
     op <- match map frame_kind fs with
           | [] => dmisuse_if (is_empty s) ;; dmisuse_if (negb (allow_multiple_top_level (cfg E))) ;; d_peek_optional E TEof
           | _ => p <- d_peek_internal E TEof ;; dret (Some p) end ;; fin op)%dm s r = MOk (negb (is_end_token p)) s' r' /\ repr E inp fs vs st s' r' /\ peeked s' = cur_token fs vs).
  { intros f fs' p Hfs Hav Hp. pose proof (peek_internal_forward E inp fs vs st s r Hf Hr (in_array_peek E fs st ltac:(congruence))) as Hpi.
    rewrite Hp in Hpi. destruct Hpi as (s1 & r1 & He & Hr1 & Hpk). rewrite Hav. unfold dmisuse_if at 1, dbind at 1, dret at 1.
    subst fs. cbn [map]. rewrite dbind_assoc, (dbind_ok _ _ _ _ _ _ _ He). unfold dbind, dret.
    rewrite (Hfin p s1 r1 Hr1 Hp). exists s1, r1. splits; auto. congruence. }
  destruct fs as [|[i l|n l|n v l] fs].
  - cbn in Hem. cbn [at_member_value map]. unfold dmisuse_if at 1, dbind at 1, dret at 1. rewrite Hem.
    destruct st; cbn [negb orb]; [|split; reflexivity].
    destruct (allow_multiple_top_level (cfg E)) eqn:Em; cbn [negb]; [|split; reflexivity].
    assert (Hm : may_peek E [] true) by (intros _; rewrite Em; reflexivity).
    destruct (peek_optional_forward E inp [] vs true s r Hf Hr Hm) as (s1 & r1 & He & Hr1 & Hpk).
    unfold dmisuse_if, dbind, dret. rewrite He. destruct vs as [|v vs]; cbn [cur_token hd_error option_map].
    + exists s1, r1. splits; auto.
    + rewrite (Hfin (value_token v) s1 r1 Hr1 eq_refl), Hnoend. exists s1, r1. splits; auto.
  - destruct l as [|v l]; [eapply (Hin _ _ PkArrayEnd); reflexivity|].
    rewrite <- (Hnoend v). eapply Hin; reflexivity.
  - destruct l as [|[m v] l]; [eapply (Hin _ _ PkObjectEnd); reflexivity|eapply (Hin _ _ PkNameStart); reflexivity].
  - split; reflexivity.
Qed.

(** ** Member names *)

Definition name_at (fs : list frame) (vs : list json) (st : bool) := at_name (Cursor fs vs st NotReading).

Lemma body_name sx n m v l fs vs t : body_text sx (InObject n ((m, v) :: l) :: fs) vs t ->
  exists body t', t = B_QUOTE :: body ++ B_QUOTE :: t' /\ str_text body m /\ cur_text sx (AtValue m v l :: fs) vs t'.
Proof.
  intros (tn & w & t' & -> & (body & -> & Hb) & Hw & Hv). exists body, (w ++ t'). split; [|split; [exact Hb|]].
  - cbn. rewrite <- app_assoc. reflexivity.
  - left. exists w, t'. auto.
Qed.

Lemma before_name_forward E inp fs vs st s r : (length inp < fuel E)%nat -> repr E inp fs vs st s r ->
  match name_at fs vs st with
  | inl x => erep E inp fs vs st x (d_before_name E TEof s r)
  | inr (m, v, l, fs') => exists n s' r' body t', fs = InObject n ((m, v) :: l) :: fs' /\ d_before_name E TEof s r = MOk tt s' r' /\
      base E inp fs vs s' r' /\ peeked s' = None /\ expects_member_name s' = false /\ string_reader_active s' = false /\
      r' = body ++ B_QUOTE :: t' /\ str_text body m /\ cur_text (reader_syntax (cfg E)) (AtValue m v l :: fs') vs t' /\
      (allow_multiple_top_level (cfg E) = false -> vs = [])
  end.
Proof.
  intros Hf Hr. destruct (r_names _ _ _ _ _ _ _ Hr) as [Hn _].
  assert (Heq : d_before_name E TEof s r = (dmisuse_if (negb (in_object fs)) ;; h <- d_has_next E TEof ;;
     if negb h then dstructure FewerElementsThanExpected else dupdate (set_expects_name false) ;; d_consume_peeked)%dm s r).
  { unfold d_before_name, dbind at 1, dget. rewrite Hn, (r_active _ _ _ _ _ _ _ Hr). unfold dmisuse_if at 2, dbind at 2, dret at 1. reflexivity. }
  unfold name_at, at_name. cbn [is_reading reading frames].
  destruct fs as [|[i l|n l|n v l] fs]; try (rewrite Heq; reflexivity).
  cbn [in_object negb] in Heq. unfold dmisuse_if, dbind at 1, dret at 1 in Heq.
  pose proof (has_next_forward E inp _ vs st s r Hf Hr) as Hh. unfold more_at, more in Hh. cbn [is_reading reading frames] in Hh.
  destruct Hh as (s1 & r1 & He & Hr1 & Hpk). rewrite (dbind_ok _ _ _ _ _ _ _ He) in Heq.
  destruct l as [|[m v] l].
  - rewrite Heq. exists s1, r1. splits; auto.
  - cbn [cur_token negb] in *. pose proof (r_base _ _ _ _ _ _ _ Hr1) as Hb1.
    destruct (consume_peeked_good E inp s1 r1 _ (b_inv _ _ _ _ _ _ Hb1) Hpk) as (Hc & Hi2 & Hs2 & Hpk2 & _).
    pose proof (r_text _ _ _ _ _ _ _ Hr1) as Ht. unfold text_ok in Ht. rewrite Hpk in Ht. destruct Ht as [_ Ht].
    apply body_name in Ht as (body & t' & Ht & Hbody & Hcur). cbn in Ht. injection Ht as ->.
    unfold d_consume_peeked, dbind, dupdate, dget in Heq. cbn [peeked set_expects_name] in Heq. rewrite Hpk, tok_move in Heq.
    change (set_peeked None (set_expects_name false s1)) with (set_expects_name false (set_peeked None s1)) in Heq.
    rewrite <- set_expects_move in Heq. pose proof (base_same _ _ _ _ _ _ _ _ Hb1 Hs2 Hi2) as Hb2. set (s2 := move _ _) in *.
    exists n, (set_expects_name false s2), (body ++ B_QUOTE :: t'), body, t'. splits; auto.
    + destruct Hb2 as [X1 X2 X3 X4]. split; auto. exact (inv_expects_false _ _ _ _ Hi2 Hpk2).
    + destruct Hs2 as (_ & _ & _ & X & _). cbn. rewrite X. exact (r_active _ _ _ _ _ _ _ Hr1).
    + pose proof (r_top _ _ _ _ _ _ _ Hr) as Htop. rewrite (repr_started _ _ _ _ _ _ _ _ Hr) in Htop. exact Htop.
Qed.

Lemma string_base E inp fs vs s r body v t' : (length inp < fuel E)%nat -> base E inp fs vs s r -> peeked s = None ->
  r = body ++ B_QUOTE :: t' -> str_text body v ->
  exists s', d_string E s r = MOk v s' t' /\ d_skip_string E s r = MOk tt s' t' /\ base E inp fs vs s' t' /\ same s s' /\ peeked s' = None.
Proof.
  intros Hf Hb0 Hpk -> Hb. pose proof (mu_bound _ _ _ _ (b_inv _ _ _ _ _ _ Hb0)) as Hl. unfold mu, ahead in Hl. rewrite app_length in Hl.
  pose proof (scan_string_complete body v Hb (fuel E) t' ltac:(lia)) as Hs.
  pose proof (string_good E inp s _ Hf (b_inv _ _ _ _ _ _ Hb0) Hpk) as Hg.
  exists (move (body ++ [B_QUOTE]) s).
  assert (He : d_string E s (body ++ B_QUOTE :: t') = MOk v (move (body ++ [B_QUOTE]) s) t').
  { unfold d_string. rewrite Hs, from_utf8_encode by exact (str_text_chars _ _ Hb). reflexivity. }
  rewrite He in Hg. destruct Hg as (Hi & Hsame & Hp & _). splits; auto.
  - unfold d_skip_string. rewrite Hs. reflexivity.
  - exact (base_same _ _ _ _ _ _ _ _ Hb0 Hsame Hi).
Qed.

Lemma name_done E inp n m v l fs vs s s' r : base E inp (InObject n ((m, v) :: l) :: fs) vs s r ->
  inv E inp s' r -> stack s' = stack s -> json_path s' = tracked E (AtValue m v l :: fs) ->
  expects_member_name s' = false -> peeked s' = None -> string_reader_active s' = false ->
  (allow_multiple_top_level (cfg E) = false -> vs = []) -> cur_text (reader_syntax (cfg E)) (AtValue m v l :: fs) vs r ->
  repr E inp (AtValue m v l :: fs) vs true s' r.
Proof.
  intros [H1 H2 H3 H4] Hi Hst Hp Hn Hpk Ha Ht Hc. split; auto.
  - split; auto. rewrite Hst, H2. reflexivity.
  - split; auto.
  - unfold text_ok. rewrite Hpk. exact Hc.
Qed.

Lemma set_path_name_forward E inp n m v l fs vs s r : base E inp (InObject n ((m, v) :: l) :: fs) vs s r ->
  expects_member_name s = false -> peeked s = None -> string_reader_active s = false ->
  (allow_multiple_top_level (cfg E) = false -> vs = []) -> cur_text (reader_syntax (cfg E)) (AtValue m v l :: fs) vs r ->
  exists s', d_set_path_name m s r = MOk tt s' r /\ repr E inp (AtValue m v l :: fs) vs true s' r.
Proof.
  intros Hb Hn Hpk Ha Ht Hc.
  assert (Hobj : is_in_object s = true) by (rewrite (kind_in_object _ _ _ _ _ _ Hb); reflexivity).
  pose proof (set_path_name_good E inp m s r (b_inv _ _ _ _ _ _ Hb) Hobj Hpk) as Hg.
  assert (He : exists s', d_set_path_name m s r = MOk tt s' r /\ json_path s' = tracked E (AtValue m v l :: fs)).
  { unfold d_set_path_name, dbind, dget. rewrite (b_path _ _ _ _ _ _ Hb). unfold tracked. destruct (track_path (cfg E)) eqn:Etr.
    - cbn [map]. destruct n; (eexists; split; [reflexivity|reflexivity]).
    - eexists. split; [reflexivity|]. pose proof (b_path _ _ _ _ _ _ Hb) as Hp. unfold tracked in Hp. rewrite Etr in Hp. exact Hp. }
  destruct He as (s' & He & Hp). exists s'. split; [exact He|]. rewrite He in Hg. destruct Hg as (Hi & G1 & G2 & G3 & G4 & _).
  apply (name_done E inp n m v l fs vs s); auto; congruence.
Qed.

Lemma next_name_forward E inp fs vs st s r : (length inp < fuel E)%nat -> repr E inp fs vs st s r ->
  match name_at fs vs st with
  | inl x => erep E inp fs vs st x (d_next_name E TEof s r)
  | inr (m, v, l, fs') => exists s' r', d_next_name E TEof s r = MOk m s' r' /\ repr E inp (AtValue m v l :: fs') vs true s' r'
  end.
Proof.
  intros Hf Hr. pose proof (before_name_forward E inp fs vs st s r Hf Hr) as H. unfold d_next_name.
  destruct (name_at fs vs st) as [x|[[[m v] l] fs']]; [apply erep_bind; exact H|].
  destruct H as (n & s1 & r1 & body & t' & -> & He & Hb & Hpk & Hn & Ha & Hr1 & Hbody & Hc & Ht).
  rewrite (dbind_ok _ _ _ _ _ _ _ He).
  destruct (string_base E inp _ _ s1 r1 body m t' Hf Hb Hpk Hr1 Hbody) as (s2 & He2 & _ & Hb2 & (_ & S2 & _ & S4 & _) & Hpk2).
  rewrite (dbind_ok _ _ _ _ _ _ _ He2).
  destruct (set_path_name_forward E inp n m v l fs' vs s2 t' Hb2) as (s3 & He3 & Hr3); auto; try congruence.
  rewrite (dbind_ok _ _ _ _ _ _ _ He3). exists s3, t'. auto.
Qed.

Lemma skip_name_forward E inp fs vs st s r : (length inp < fuel E)%nat -> repr E inp fs vs st s r ->
  match name_at fs vs st with
  | inl x => erep E inp fs vs st x (d_skip_name E TEof s r)
  | inr (m, v, l, fs') => exists s' r', d_skip_name E TEof s r = MOk tt s' r' /\ repr E inp (AtValue m v l :: fs') vs true s' r'
  end.
Proof.
  intros Hf Hr. pose proof (before_name_forward E inp fs vs st s r Hf Hr) as H. unfold d_skip_name.
  destruct (name_at fs vs st) as [x|[[[m v] l] fs']]; [apply erep_bind; exact H|].
  destruct H as (n & s1 & r1 & body & t' & -> & He & Hb & Hpk & Hn & Ha & Hr1 & Hbody & Hc & Ht).
  rewrite (dbind_ok _ _ _ _ _ _ _ He).
  destruct (string_base E inp _ _ s1 r1 body m t' Hf Hb Hpk Hr1 Hbody) as (s2 & He2 & He2' & Hb2 & (_ & S2 & _ & S4 & S5) & Hpk2).
  unfold dbind at 1, dget. destruct (json_path s1) eqn:Ep.
  - rewrite (dbind_ok _ _ _ _ _ _ _ He2).
    destruct (set_path_name_forward E inp n m v l fs' vs s2 t' Hb2) as (s3 & He3 & Hr3); auto; try congruence.
    exists s3, t'. auto.
  - exists s2, t'. split; [exact He2'|]. apply (name_done E inp n m v l fs' vs s2); auto; try congruence.
    + exact (b_inv _ _ _ _ _ _ Hb2).
    + rewrite S5. pose proof (b_path _ _ _ _ _ _ Hb) as Hp. unfold tracked in *. destruct (track_path (cfg E)); [|reflexivity]. congruence.
Qed.
