(** * Where a reader is

    Auxiliary: the open arrays and objects and what has to follow, behind each call. *)

From Verif Require Import Base Utf8Model NumberModel SourceModel ReaderModel
  ReaderScan ReaderLex ReaderLexStr ReaderMid ReaderAgree ReaderSess ReaderSafe SpecCursor SpecText SpecErrors ReaderKinds3.

Definition shape_of (s : rstate) : list stack_value * bool * bool := (stack s, expects_member_name s, is_empty s).

Definition leads {A : Type} (m : mres A) (s : rstate) (Q : list stack_value * bool * bool -> Prop) : Prop :=
  match m with
  | MOk _ s' _ => Q (shape_of s')
  | MErr _ s' _ => shape_of s' = shape_of s
  | _ => True
  end.
Definition sure {A : Type} (m : mres A) (Q : list stack_value * bool * bool -> Prop) : Prop :=
  match m with
  | MOk _ s' _ => Q (shape_of s')
  | MErr _ s' _ => False
  | _ => True
  end.
Definition stays {A : Type} (m : mres A) (s : rstate) : Prop := leads m s (fun q => q = shape_of s).

Lemma leads_sure {A : Type} (m : mres A) s Q : sure m Q -> leads m s Q.
Proof. destruct m; cbn; tauto. Qed.
Lemma leads_impl {A : Type} (m : mres A) s (Q Q' : _ -> Prop) : leads m s Q -> (forall q, Q q -> Q' q) -> leads m s Q'.
Proof. destruct m; cbn; auto. Qed.
Lemma sure_impl {A : Type} (m : mres A) (Q Q' : _ -> Prop) : sure m Q -> (forall q, Q q -> Q' q) -> sure m Q'.
Proof. destruct m; cbn; auto. Qed.
Lemma leads_bind {A B : Type} (m : D A) (f : A -> D B) s r Q : stays (m s r) s ->
  (forall x s' r', shape_of s' = shape_of s -> leads (f x s' r') s' Q) -> leads (dbind m f s r) s Q.
Proof.
  unfold stays, dbind. destruct (m s r) as [x s' r'|e s' r'|n| |]; cbn; auto. intros He H. specialize (H x s' r' He).
  destruct (f x s' r'); cbn in *; congruence.
Qed.
Lemma leads_then {A B : Type} (m : D A) (f : A -> D B) s r Q Q2 : leads (m s r) s Q ->
  (forall x s' r', Q (shape_of s') -> sure (f x s' r') Q2) -> leads (dbind m f s r) s Q2.
Proof.
  unfold dbind. destruct (m s r) as [x s' r'|e s' r'|n| |]; cbn; auto. intros He H. specialize (H x s' r' He).
  destruct (f x s' r'); cbn in *; tauto.
Qed.
Lemma sure_bind {A B : Type} (m : D A) (f : A -> D B) s r Q Q2 : sure (m s r) Q ->
  (forall x s' r', Q (shape_of s') -> sure (f x s' r') Q2) -> sure (dbind m f s r) Q2.
Proof.
  unfold dbind. destruct (m s r) as [x s' r'|e s' r'|n| |]; cbn; auto; try tauto.
Qed.
Lemma leads_misuse_if {B : Type} b (f : unit -> D B) s r Q : (b = false -> leads (f tt s r) s Q) -> leads (dbind (dmisuse_if b) f s r) s Q.
Proof. intros H. destruct b; [exact I|]. exact (H eq_refl). Qed.
Lemma leads_get {B : Type} (f : rstate -> D B) s r Q : leads (f s s r) s Q -> leads (dbind dget f s r) s Q.
Proof. auto. Qed.
Lemma sure_get {B : Type} (f : rstate -> D B) s r Q : sure (f s s r) Q -> sure (dbind dget f s r) Q.
Proof. auto. Qed.

Lemma shape_move w s : shape_of (move w s) = shape_of s.
Proof. destruct (same_move w s) as (H1 & H2 & H3 & _). unfold shape_of. congruence. Qed.

Lemma stays_fresh E t s r : stays (d_fresh E t s r) s.
Proof.
  unfold stays, d_fresh. destruct (ws_scan E t None r) as [[w [|b r1]]| |]; cbn [leads]; auto using shape_move.
  destruct (b =? B_COMMA).
  - destruct (negb (can_have_comma s)); [exact I|]. destruct (ws_scan E t (Some IncompleteDocument) r1) as [[w2 r2]| |]; cbn; auto.
    destruct (token _ _ _ _) as [[p r3]|]; cbn; auto. destruct (_ && _); cbn; auto.
    change (shape_of (move w2 (advance 1 1 (move w s))) = shape_of s). rewrite shape_move. exact (shape_move w s).
  - destruct (token _ _ _ _) as [[p r3]|]; cbn; auto. destruct (_ && _); cbn; auto. exact (shape_move w s).
Qed.
Lemma stays_after_name E t s r : stays (d_after_name E t s r) s.
Proof.
  unfold stays, d_after_name. destruct (ws_scan E t (Some MissingColon) r) as [[w [|b r1]]| |]; cbn [leads]; auto.
  destruct (_ =? _); cbn [leads]; auto. exact (shape_move w s).
Qed.
Lemma stays_peek_optional E t s r : stays (d_peek_optional E t s r) s.
Proof.
  unfold stays, d_peek_optional. apply leads_get, leads_misuse_if. intros _. destruct (peeked s); [reflexivity|].
  apply leads_misuse_if. intros _. apply leads_bind.
  - destruct (expects_member_value s); [apply stays_after_name|reflexivity].
  - intros x s' r' He. eapply leads_impl; [apply stays_fresh|]. cbn. congruence.
Qed.
Lemma stays_peek_internal E t s r : stays (d_peek_internal E t s r) s.
Proof.
  unfold stays, d_peek_internal. apply leads_bind; [apply stays_peek_optional|]. intros [p|] s' r' He; [exact He|].
  apply leads_get. destruct (_ && _); cbn; auto.
Qed.
Lemma stays_consume_peeked s r : stays (d_consume_peeked s r) s.
Proof.
  unfold stays, d_consume_peeked, dbind, dget. destruct (peeked s) as [p|]; cbn; auto.
Qed.
Lemma sure_consume_peeked s r : sure (d_consume_peeked s r) (fun q => q = shape_of s).
Proof.
  pose proof (stays_consume_peeked s r) as H. revert H. unfold stays, d_consume_peeked, dbind, dget. destruct (peeked s); cbn; auto.
Qed.
Lemma stays_map_peeked p s r : stays (d_map_peeked p s r) s.
Proof. destruct p; cbn; auto. Qed.
Lemma stays_peek E t s r : stays (d_peek E t s r) s.
Proof.
  unfold stays, d_peek. apply leads_get, leads_misuse_if. intros _. apply leads_bind; [apply stays_peek_internal|].
  intros p s' r' He. eapply leads_impl; [apply stays_map_peeked|]. cbn. congruence.
Qed.
Lemma leads_start E t ty chk s r : leads (d_start E t ty chk s r) s (fun q => q = shape_of s /\ expects_member_name s = false).
Proof.
  unfold d_start. apply leads_get, leads_misuse_if. intros Hn. apply leads_bind; [apply stays_peek_internal|].
  intros p s1 r1 H1. apply leads_bind; [apply stays_map_peeked|]. intros a s2 r2 H2.
  destruct (value_type_eqb a ty); [|reflexivity]. apply leads_get. destruct (if chk then depth_exceeded E s2 else None); [reflexivity|].
  apply leads_bind; [apply stays_consume_peeked|]. intros [] s3 r3 H3. cbn. split; [congruence|exact Hn].
Qed.
Lemma sure_string E s r : sure (d_string E s r) (fun q => q = shape_of s).
Proof.
  unfold d_string. destruct (scan_string (fuel E) r) as [[[d w] r']| |]; cbn; auto. destruct (from_utf8 d); cbn; auto. exact (shape_move w s).
Qed.
Lemma sure_skip_string E s r : sure (d_skip_string E s r) (fun q => q = shape_of s).
Proof. unfold d_skip_string. destruct (scan_string (fuel E) r) as [[[d w] r']| |]; cbn; auto. exact (shape_move w s). Qed.
Lemma sure_number_body E t b s r : sure (d_number_body E t b s r) (fun q => q = shape_of s).
Proof.
  unfold d_number_body. destruct r as [|x r]; [exact I|]. destruct (number_scan E (x :: r)) as [[[res w] rest]| |]; cbn; auto.
  destruct (hits_error t rest); cbn; auto. destruct res; cbn; auto. destruct (from_utf8 w); cbn; auto. destruct (_ && _); cbn; auto.
  destruct (sep_ok _ _); cbn; auto.
Qed.

Definition names_in (st : list stack_value) : bool := match st with SObject :: _ => true | _ => false end.
Definition value_shape (st : list stack_value) : list stack_value * bool * bool := (st, names_in st, false).

Lemma sure_value_end s r : expects_member_name s = false -> sure (d_on_value_end s r) (fun q => q = value_shape (stack s)).
Proof.
  intros Hn. unfold d_on_value_end. apply sure_get. eapply sure_bind with (Q := fun q => q = shape_of s).
  - destruct (is_in_array s); [|reflexivity]. destruct (json_path s) as [[|[i|n] l]|]; cbn; auto.
  - intros x s' r' He. cbn. unfold shape_of in He. injection He as H1 H2 H3. unfold shape_of, value_shape, is_in_object, names_in. rewrite H1.
    destruct (stack s) as [|[|] st]; cbn; congruence.
Qed.
Lemma sure_container_end s r : expects_member_name s = false -> sure (d_on_container_end s r) (fun q => q = value_shape (tl (stack s))).
Proof.
  intros Hn. unfold d_on_container_end, dbind at 1, dupdate.
  exact (sure_value_end (set_path (option_map (@tl piece) (json_path s)) (set_stack (tl (stack s)) s)) r Hn).
Qed.

(** Reading an array, an object or another value *)
Lemma leads_begin_array E t s r : leads (d_begin_array E t s r) s (fun q => q = (SArray :: stack s, false, true)).
Proof.
  unfold d_begin_array, d_on_container_start. eapply leads_then with (Q := fun q => q = (SArray :: stack s, false, true)).
  - eapply leads_then; [apply leads_start|]. intros p s' r' (Hq & Hn). unfold shape_of in Hq. injection Hq as H1 H2 H3. cbn. unfold shape_of. cbn. congruence.
  - intros x s' r' Hq. unfold shape_of in Hq. injection Hq as H1 H2 H3. cbn. unfold shape_of. cbn. congruence.
Qed.
Lemma leads_begin_object E t s r : leads (d_begin_object E t s r) s (fun q => q = (SObject :: stack s, true, true)).
Proof.
  unfold d_begin_object, d_on_container_start. eapply leads_then with (Q := fun q => q = (SObject :: stack s, false, true)).
  - eapply leads_then; [apply leads_start|]. intros p s' r' (Hq & Hn). unfold shape_of in Hq. injection Hq as H1 H2 H3. cbn. unfold shape_of. cbn. congruence.
  - intros x s' r' Hq. unfold shape_of in Hq. injection Hq as H1 H2 H3. cbn. unfold shape_of. cbn. congruence.
Qed.
Lemma leads_end_array E t s r : expects_member_name s = false ->
  leads (d_end_array E t s r) s (fun q => q = value_shape (tl (stack s)) /\ is_in_array s = true).
Proof.
  intros Hn. unfold d_end_array. apply leads_get, leads_misuse_if. intros Ha. apply negb_false_iff in Ha.
  apply leads_bind; [apply stays_peek_internal|]. intros p s1 r1 H1. destruct p; try reflexivity.
  apply leads_sure. eapply sure_bind; [apply sure_consume_peeked|]. intros u s2 r2 H2. unfold shape_of in *. injection H1 as H11 H12 H13. injection H2 as H21 H22 H23.
  eapply sure_impl; [apply sure_container_end; congruence|]. cbn. intros q ->. split; congruence.
Qed.
Lemma leads_end_object E t s r :
  leads (d_end_object E t s r) s (fun q => q = value_shape (tl (stack s)) /\ is_in_object s = true).
Proof.
  unfold d_end_object. apply leads_get, leads_misuse_if. intros Ha. apply negb_false_iff in Ha. apply leads_misuse_if. intros _.
  apply leads_bind; [apply stays_peek_internal|]. intros p s1 r1 H1. destruct p; try reflexivity.
  apply leads_sure. eapply sure_bind; [apply sure_consume_peeked|]. intros u s2 r2 H2. unfold shape_of in *. injection H1 as H11 H12 H13. injection H2 as H21 H22 H23.
  unfold dbind, dupdate. eapply sure_impl; [apply sure_container_end; reflexivity|]. cbn. intros q ->. split; congruence.
Qed.
Lemma leads_has_next E t s r : stays (d_has_next E t s r) s.
Proof.
  unfold stays, d_has_next. apply leads_get, leads_misuse_if. intros _. apply leads_bind.
  - unfold stays. destruct (stack s).
    + apply leads_misuse_if. intros _. apply leads_misuse_if. intros _. apply stays_peek_optional.
    + apply leads_bind; [apply stays_peek_internal|]. intros p s' r' H. exact H.
  - intros [p|] s' r' H; [|exact H]. apply leads_get. destruct (_ || _); [exact H|exact I].
Qed.
Lemma leads_before_name E t s r : leads (d_before_name E t s r) s (fun q => q = (stack s, false, is_empty s) /\ expects_member_name s = true).
Proof.
  unfold d_before_name. apply leads_get, leads_misuse_if. intros Hn. apply negb_false_iff in Hn. apply leads_misuse_if. intros _.
  apply leads_bind; [apply leads_has_next|]. intros h s1 r1 H1. destruct h; cbn [negb]; [|reflexivity].
  apply leads_sure. unfold dbind, dupdate. eapply sure_impl; [apply sure_consume_peeked|]. cbn. intros q ->. unfold shape_of in *.
  injection H1 as H11 H12 H13. cbn. split; congruence.
Qed.
Lemma sure_set_path_name n s r : sure (d_set_path_name n s r) (fun q => q = shape_of s).
Proof. unfold d_set_path_name, dbind, dget. destruct (json_path s) as [[|[i|m] l]|]; cbn; auto. Qed.
Lemma leads_next_name E t s r : leads (d_next_name E t s r) s (fun q => q = (stack s, false, is_empty s) /\ expects_member_name s = true).
Proof.
  unfold d_next_name. eapply leads_then; [apply leads_before_name|]. intros x s1 r1 H1.
  eapply sure_bind; [apply sure_string|]. cbn. intros v s2 r2 H2. eapply sure_bind; [apply sure_set_path_name|]. cbn. intros u s3 r3 H3.
  rewrite H3, H2. exact H1.
Qed.
Lemma leads_skip_name E t s r : leads (d_skip_name E t s r) s (fun q => q = (stack s, false, is_empty s) /\ expects_member_name s = true).
Proof.
  unfold d_skip_name. eapply leads_then; [apply leads_before_name|]. intros x s1 r1 H1. apply sure_get.
  destruct (json_path s1).
  - eapply sure_bind; [apply sure_string|]. cbn. intros v s2 r2 H2. eapply sure_impl; [apply sure_set_path_name|]. cbn. intros q ->.
    rewrite H2. exact H1.
  - eapply sure_impl; [apply sure_skip_string|]. cbn. intros q ->. exact H1.
Qed.
Lemma leads_value {A : Type} E t ty (k : peeked_value -> D A) s r :
  (forall p s r, expects_member_name s = false -> sure (k p s r) (fun q => q = value_shape (stack s))) ->
  leads (dbind (d_start E t ty false) k s r) s (fun q => q = value_shape (stack s) /\ expects_member_name s = false).
Proof.
  intros Hk. eapply leads_then; [apply leads_start|]. intros p s' r' (Hq & Hn). unfold shape_of in Hq. injection Hq as H1 H2 H3.
  eapply sure_impl; [apply Hk; congruence|]. cbn. intros q ->. split; congruence.
Qed.
Lemma leads_next_bool E t s r : leads (d_next_bool E t s r) s (fun q => q = value_shape (stack s) /\ expects_member_name s = false).
Proof.
  apply leads_value. intros p s1 r1 Hn. eapply sure_bind with (Q := fun q => q = shape_of s1).
  - destruct p; cbn; auto.
  - intros x s2 r2 H2. unfold shape_of in H2. injection H2 as H21 H22 H23. eapply sure_bind; [apply sure_value_end; congruence|].
    cbn. congruence.
Qed.
Lemma leads_next_null E t s r : leads (d_next_null E t s r) s (fun q => q = value_shape (stack s) /\ expects_member_name s = false).
Proof.
  unfold d_next_null. apply leads_value. intros p s1 r1 Hn. apply sure_value_end; congruence.
Qed.
Lemma leads_next_string E t s r : leads (d_next_string E t s r) s (fun q => q = value_shape (stack s) /\ expects_member_name s = false).
Proof.
  apply leads_value. intros p s1 r1 Hn. eapply sure_bind; [apply sure_string|]. intros x s2 r2 H2. unfold shape_of in H2. injection H2 as H21 H22 H23.
  eapply sure_bind; [apply sure_value_end; congruence|]. cbn. congruence.
Qed.
Lemma leads_skip_string E t s r : leads ((d_start E t TString false ;; d_skip_string E ;; d_on_value_end ;; dret false)%dm s r) s
  (fun q => q = value_shape (stack s) /\ expects_member_name s = false).
Proof.
  apply leads_value. intros p s1 r1 Hn. eapply sure_bind; [apply sure_skip_string|]. intros x s2 r2 H2. unfold shape_of in H2. injection H2 as H21 H22 H23.
  eapply sure_bind; [apply sure_value_end; congruence|]. cbn. congruence.
Qed.
Lemma leads_number E t b s r : leads (d_number E t b s r) s (fun q => q = value_shape (stack s) /\ expects_member_name s = false).
Proof.
  apply leads_value. intros p s1 r1 Hn. eapply sure_bind; [apply sure_number_body|]. intros x s2 r2 H2. unfold shape_of in H2. injection H2 as H21 H22 H23.
  eapply sure_bind; [apply sure_value_end; congruence|]. cbn. congruence.
Qed.

(** ** Skipping a value *)

(** Names are only expected in objects *)
Definition named (s : rstate) : Prop := is_in_object s = false -> expects_member_name s = false.
Definition okay {A : Type} (m : mres A) (Q : A -> rstate -> Prop) : Prop :=
  match m with MOk x s' _ => Q x s' | _ => True end.
Lemma okay_bind {A B : Type} (m : D A) (f : A -> D B) s r (Q : A -> rstate -> Prop) Q2 : okay (m s r) Q ->
  (forall x s' r', Q x s' -> okay (f x s' r') Q2) -> okay (dbind m f s r) Q2.
Proof. unfold dbind. destruct (m s r); cbn; auto. Qed.
Lemma okay_leads {A : Type} (m : mres A) s Q : leads m s Q -> okay m (fun _ s' => Q (shape_of s')).
Proof. destruct m; cbn; auto. Qed.

Lemma okay_skip_string E t s r (Q : bool -> rstate -> Prop) :
  (forall s', shape_of s' = value_shape (stack s) /\ expects_member_name s = false -> Q false s') ->
  okay ((d_start E t TString false ;; d_skip_string E ;; d_on_value_end ;; dret false)%dm s r) Q.
Proof.
  intros HQ. pose proof (leads_skip_string E t s r) as H. revert H. unfold dbind. destruct (d_start E t TString false s r) as [p s1 r1| | | |]; try (intros; exact I).
  destruct (d_skip_string E s1 r1) as [p2 s2 r2| | | |]; try (intros; exact I). destruct (d_on_value_end s2 r2) as [p3 s3 r3| | | |]; try (intros; exact I).
  cbn. auto.
Qed.
Lemma named_value st s : shape_of s = value_shape st -> named s.
Proof. unfold shape_of, value_shape, named, is_in_object, names_in. intros [= -> -> _]. auto. Qed.

Definition inside (d : nat) (st : list stack_value) (s : rstate) : Prop :=
  exists l, length l = d /\ stack s = l ++ st.

Lemma okay_skip_step E t d st s r : named s -> inside d st s ->
  okay (d_skip_step E t d s r) (fun d' s' => named s' /\ inside d' st s' /\ (d' = O -> shape_of s' = value_shape st)).
Proof.
  intros Hn (l & Hl & Hst). unfold d_skip_step. eapply okay_bind with (Q := fun h s' => shape_of s' = shape_of s /\ (d = O -> h = true)).
  - destruct d; [cbn; auto|].  pose proof (leads_has_next E t s r) as H. unfold stays in H. destruct (d_has_next E t s r); cbn in *; auto. split; [auto|discriminate].
  - intros h s1 r1 (H1 & Hh). unfold shape_of in H1. injection H1 as H11 H12 H13. destruct h; cbn [negb].
    + unfold dbind at 1, dget at 1. eapply okay_bind with (Q := fun _ s' => stack s' = stack s1 /\ (expects_member_name s' = false)).
      * destruct (expects_member_name s1) eqn:En; [|cbn; auto].
        pose proof (leads_skip_name E t s1 r1) as H. destruct (d_skip_name E t s1 r1); cbn in *; auto.
        destruct H as (H & _). unfold shape_of in H. injection H as -> -> _. auto.
      * intros _ s2 r2 (H2 & Hn2).
        assert (Hin : forall s', shape_of s' = value_shape (stack s2) -> named s' /\ inside d st s' /\ (d = O -> shape_of s' = value_shape st)).
        { intros s' Hs'. split; [exact (named_value _ _ Hs')|]. split.
          - exists l. split; [exact Hl|]. unfold shape_of, value_shape in Hs'. injection Hs' as -> _ _. congruence.
          - intros ->. destruct l; [|discriminate]. cbn in Hst. congruence. }
        eapply okay_bind with (Q := fun (b : bool) s' => if b then named s' /\ inside (S d) st s' else
          named s' /\ inside d st s' /\ (d = O -> shape_of s' = value_shape st)).
        2: { intros [|] s' r' H; cbn; [split; [tauto|]; split; [tauto|discriminate]|exact H]. }
        unfold d_skip_value_start. eapply okay_bind; [apply (okay_leads _ _ _ (stays_peek E t s2 r2))|]. cbn. intros ty s3 r3 H3.
        unfold shape_of in H3. injection H3 as H31 H32 H33.
        assert (Hv : forall s', shape_of s' = value_shape (stack s3) /\ expects_member_name s3 = false -> named s' /\ inside d st s' /\ (d = O -> shape_of s' = value_shape st)).
        { intros s' (Hs' & _). apply Hin. congruence. }
        destruct ty.
        -- eapply okay_bind; [apply (okay_leads _ _ _ (leads_begin_array E t s3 r3))|]. cbn. intros _ s4 r4 H4.
           unfold shape_of in H4. injection H4 as H41 H42 H43. split; [intros _; exact H42|]. exists (SArray :: l). cbn. split; congruence.
        -- eapply okay_bind; [apply (okay_leads _ _ _ (leads_begin_object E t s3 r3))|]. cbn. intros _ s4 r4 H4.
           unfold shape_of in H4. injection H4 as H41 H42 H43. split; [unfold named, is_in_object; rewrite H41; discriminate|].
           exists (SObject :: l). cbn. split; congruence.
        -- apply okay_skip_string. auto.
        -- eapply okay_bind; [apply (okay_leads _ _ _ (leads_number E t false s3 r3))|]. cbn. auto.
        -- eapply okay_bind; [apply (okay_leads _ _ _ (leads_next_bool E t s3 r3))|]. cbn. auto.
        -- eapply okay_bind; [apply (okay_leads _ _ _ (leads_next_null E t s3 r3))|]. cbn. auto.
    + destruct d as [|d]; [discriminate (Hh eq_refl)|]. destruct l as [|v l]; [discriminate|]. cbn in Hst, Hl.
      assert (Hend : okay (d_end_container E t s1 r1) (fun _ s' => shape_of s' = value_shape (l ++ st))).
      { unfold d_end_container, dbind at 1, dget. destruct (is_in_array s1) eqn:Ea.
        - assert (Hn1 : expects_member_name s1 = false).
          { rewrite H12. apply Hn. unfold is_in_array in Ea. unfold is_in_object. rewrite <- H11. destruct (stack s1) as [|[|] ?]; congruence. }
          pose proof (leads_end_array E t s1 r1 Hn1) as H. destruct (d_end_array E t s1 r1); cbn in *; auto. destruct H as (-> & _). rewrite H11, Hst. reflexivity.
        - pose proof (leads_end_object E t s1 r1) as H. destruct (d_end_object E t s1 r1); cbn in *; auto. destruct H as (-> & _). rewrite H11, Hst. reflexivity. }
      eapply okay_bind; [exact Hend|]. cbn. intros _ s2 r2 H2. split; [exact (named_value _ _ H2)|]. split.
      * exists l. split; [lia|]. unfold shape_of, value_shape in H2. injection H2 as -> _ _. reflexivity.
      * intros ->. destruct l; [exact H2|discriminate].
Qed.
Lemma okay_skip_value_loop E t st f : forall d s r, named s -> inside d st s ->
  okay (d_skip_value_loop E t f d s r) (fun _ s' => shape_of s' = value_shape st).
Proof.
  induction f as [|f IH]; intros d s r Hn Hi; [exact I|]. cbn [d_skip_value_loop].
  eapply okay_bind; [apply (okay_skip_step E t d st s r Hn Hi)|]. cbn. intros d' s' r' (Hn' & Hi' & Hd).
  destruct d'; [exact (Hd eq_refl)|]. apply IH; assumption.
Qed.
Lemma okay_skip_value E t s r : okay (d_skip_value E t s r) (fun _ s' => shape_of s' = value_shape (stack s) /\ expects_member_name s = false).
Proof.
  unfold d_skip_value, dbind at 1, dget. destruct (expects_member_name s) eqn:En; [exact I|].
  pose proof (okay_skip_value_loop E t (stack s) (fuel E) 0 s r (fun _ => En) ltac:(exists []; auto)) as H.
  cbn [dmisuse_if dbind dret]. destruct (d_skip_value_loop E t (fuel E) 0 s r); cbn in *; auto.
Qed.

(** ** Sessions *)
Definition kinds (l : list bool) : list stack_value := map (fun b : bool => if b then SArray else SObject) l.
Definition at_spot (s : rstate) (sp : spot) : Prop := stack s = kinds (fst sp) /\ placed s (snd sp).

Lemma spot_shape s s' sp : shape_of s' = shape_of s -> at_spot s sp -> at_spot s' sp.
Proof.
  unfold shape_of, at_spot, placed, is_in_array, is_in_object. intros [= -> -> ->]. auto.
Qed.
Lemma spot_value s open : shape_of s = value_shape (kinds open) -> at_spot s (open, behind_value open).
Proof.
  unfold shape_of, value_shape, at_spot, placed, is_in_array, is_in_object. intros [= -> -> ->]. cbn.
  destruct open as [|[|] open]; cbn; auto.
Qed.
Lemma kinds_tl l : tl (kinds l) = kinds (tl l).
Proof. destruct l; reflexivity. Qed.

(** [d] is at the spot [sp], if it is known *)
Definition d_spot (d : dstate) (sp : option spot) : Prop :=
  match d, sp with DRun s _ _, Some sp => at_spot s sp | _, None => True | _, _ => False end.

Lemma spot_step E t c s rd r sp o d' out : at_spot s sp -> d_call E t c (DRun s rd r) = (o, d') -> matches out o ->
  d_spot d' (spot_after c out sp).
Proof.
  intros Hs Hc Hm. destruct sp as [open pl].
  (* failures *)
  assert (Hrun : forall (A : Type) (m : D A) val Q, leads (m s r) s Q -> d_run m val s r = (o, d') ->
    (exists v, out = OOk v) /\ (exists s' r', d' = DRun s' None r' /\ Q (shape_of s')) \/
    (exists e, out = OErr e) /\ (exists s' r', d' = DRun s' None r' /\ at_spot s' (open, pl)) \/
    (exists e, out = OErr e /\ recoverable e = false) \/ (exists k, out = OPanic k)).
  { intros A m val Q HL Hd. unfold d_run in Hd. destruct (m s r) as [x s' r'|e s' r'|n| |]; cbn in HL; injection Hd as <- <-; cbn in Hm.
    - left. subst out. eauto 8.
    - right; left. subst out. split; [eauto|]. exists s', r'. split; [reflexivity|]. exact (spot_shape _ _ _ HL Hs).
    - right; right; left. destruct n as [n|].
      + destruct Hm as (l & ->). eexists. split; reflexivity.
      + destruct Hm as (e & -> & Ha). exists e. split; [reflexivity|]. destruct e; try discriminate Ha; reflexivity.
    - right; right; right. subst out. eauto.
    - contradiction. }
  assert (Hdead : forall A : rcall, (exists e, out = OErr e /\ recoverable e = false) \/ (exists k, out = OPanic k) -> spot_after A out (open, pl) = None).
  { intros c0 [(e & -> & He)|(k & ->)]; [|reflexivity]. cbn. rewrite He. destruct c0; reflexivity. }
  assert (Herr : forall e, out = OErr e -> spot_after c out (open, pl) = None \/ spot_after c out (open, pl) = Some (open, pl)).
  { intros e ->. cbn. destruct c; auto; destruct (recoverable e); auto. }
  assert (Hgo : forall (A : Type) (m : D A) val Q, leads (m s r) s Q -> d_run m val s r = (o, d') ->
    (forall v s', out = OOk v -> Q (shape_of s') -> d_spot (DRun s' None r) (spot_after c out (open, pl))) -> d_spot d' (spot_after c out (open, pl))).
  { intros A m val Q HL Hd HQ. destruct (Hrun A m val Q HL Hd) as [((v & Hv) & s' & r' & -> & Hq)|[((e & He) & s' & r' & -> & Hq)|Hx]].
    - exact (HQ v s' Hv Hq).
    - destruct (Herr e He) as [-> | ->]; [exact I|exact Hq].
    - rewrite (Hdead c Hx). destruct d'; exact I. }
  clear Hrun. pose proof Hs as Hs0. destruct Hs as (Hst & Hpl). cbn [fst snd] in Hst, Hpl.
  assert (Hval : forall s', shape_of s' = value_shape (stack s) /\ expects_member_name s = false -> at_spot s' (open, behind_value open)).
  { intros s' (H & _). apply spot_value. congruence. }
  assert (Hname : forall s', shape_of s' = (stack s, false, is_empty s) /\ expects_member_name s = true -> at_spot s' (open, AtMember)).
  { intros s' (Hq & Hn). unfold shape_of in Hq. injection Hq as H1 H2 H3. unfold at_spot. cbn [fst snd placed]. split; [congruence|].
    unfold is_in_object. rewrite H1, H2. split; [|reflexivity].
    destruct pl; cbn in Hpl; try (destruct Hpl as (_ & Hpl & _); congruence); [|destruct Hpl; congruence]. destruct Hpl as (Hpl & _).
    exact Hpl. }
  destruct c; cbn [d_call d_call_run] in Hc.
  - eapply (Hgo _ _ _ _ (stays_peek E t s r) Hc). cbn. intros v s' -> Hq. exact (spot_shape _ _ _ Hq Hs0).
  - eapply (Hgo _ _ _ _ (leads_has_next E t s r) Hc). cbn. intros v s' -> Hq. exact (spot_shape _ _ _ Hq Hs0).
  - eapply (Hgo _ _ _ _ (leads_begin_array E t s r) Hc). cbn. intros v s' -> Hq. unfold shape_of in Hq. injection Hq as H1 H2 H3.
    unfold at_spot, placed, is_in_array. cbn. rewrite H1, Hst. auto.
  - destruct (expects_member_name s) eqn:En.
    + unfold d_run, d_end_array, dbind at 1, dget in Hc.
      assert (Ha : is_in_array s = false).
      { destruct (is_in_array s) eqn:Ea; [|reflexivity]. destruct ((proj1 (placed_array _ _ Hpl)) Ea) as (f & ->).
        destruct Hpl as (_ & Hpl & _). congruence. }
      rewrite Ha in Hc. cbn in Hc. injection Hc as <- <-. cbn in Hm. subst out. exact I.
    + eapply (Hgo _ _ _ _ (leads_end_array E t s r En) Hc). cbn. intros v s' -> (Hq & _). apply spot_value. rewrite <- kinds_tl, <- Hst. exact Hq.
  - eapply (Hgo _ _ _ _ (leads_begin_object E t s r) Hc). cbn. intros v s' -> Hq. unfold shape_of in Hq. injection Hq as H1 H2 H3.
    unfold at_spot, placed, is_in_object. cbn. rewrite H1, Hst. auto.
  - eapply (Hgo _ _ _ _ (leads_end_object E t s r) Hc). cbn. intros v s' -> (Hq & _). apply spot_value. rewrite <- kinds_tl, <- Hst. exact Hq.
  - eapply (Hgo _ _ _ _ (leads_next_name E t s r) Hc). intros v s' -> Hq. exact (Hname s' Hq).
  - eapply (Hgo _ _ _ _ (leads_next_name E t s r) Hc). intros v s' -> Hq. exact (Hname s' Hq).
  - eapply (Hgo _ _ _ _ (leads_skip_name E t s r) Hc). intros v s' -> Hq. exact (Hname s' Hq).
  - eapply (Hgo _ _ _ _ (leads_next_string E t s r) Hc). intros v s' -> Hq. exact (Hval s' Hq).
  - eapply (Hgo _ _ _ _ (leads_next_string E t s r) Hc). intros v s' -> Hq. exact (Hval s' Hq).
  - unfold d_run_reader in Hc.
    assert (HL : leads (d_next_string_reader E t s r) s (fun _ => True)).
    { unfold d_next_string_reader. eapply leads_then; [apply leads_start|]. intros p s' r' _. exact I. }
    destruct (d_next_string_reader E t s r) as [x s' r'|e s' r'|n| |]; cbn in HL; injection Hc as <- <-; cbn in Hm.
    + subst out. exact I.
    + subst out. destruct (Herr e eq_refl) as [-> | ->]; [exact I|]. exact (spot_shape _ _ _ HL Hs0).
    + rewrite Hdead; [exact I|]. left. destruct n as [n|].
      * destruct Hm as (l & ->). eexists. split; reflexivity.
      * destruct Hm as (e & -> & Ha). exists e. split; [reflexivity|]. destruct e; try discriminate Ha; reflexivity.
    + subst out. exact I.
    + contradiction.
  - unfold d_run_read in Hc. assert (Hx : spot_after (CRead len) out (open, pl) = None); [|rewrite Hx; destruct d'; exact I].
    destruct rd as [sv|]; [|injection Hc as <- <-; cbn in Hm; subst out; reflexivity].
    destruct (d_sv_read E len sv s r) as [[x s'] s'' r'|e s' r'|[n|]| |]; injection Hc as <- <-; cbn in Hm; try contradiction.
    + subst out. reflexivity.
    + destruct Hm as (e & -> & _). reflexivity.
  - eapply (Hgo _ _ _ _ (leads_number E t _ s r) Hc). intros v s' -> Hq. exact (Hval s' Hq).
  - eapply (Hgo _ _ _ _ (leads_number E t _ s r) Hc). intros v s' -> Hq. exact (Hval s' Hq).
  - eapply (Hgo _ _ _ _ (leads_next_bool E t s r) Hc). intros v s' -> Hq. exact (Hval s' Hq).
  - eapply (Hgo _ _ _ _ (leads_next_null E t s r) Hc). intros v s' -> Hq. exact (Hval s' Hq).
  - unfold d_run in Hc. pose proof (okay_skip_value E t s r) as Hq. destruct (d_skip_value E t s r) as [x s' r'|e s' r'|n| |]; cbn in Hq; injection Hc as <- <-; cbn in Hm.
    + subst out. exact (Hval s' Hq).
    + subst out. exact I.
    + rewrite Hdead; [exact I|]. left. destruct n as [n|].
      * destruct Hm as (l & ->). eexists. split; reflexivity.
      * destruct Hm as (e & -> & Ha). exists e. split; [reflexivity|]. destruct e; try discriminate Ha; reflexivity.
    + subst out. exact I.
    + contradiction.
  - assert (Hx : spot_after (CSeekTo path) out (open, pl) = None) by (destruct out; reflexivity). rewrite Hx. destruct d'; exact I.
  - assert (Hx : spot_after (CSeekBack path) out (open, pl) = None) by (destruct out; reflexivity). rewrite Hx. destruct d'; exact I.
  - assert (Hx : spot_after CSkipToTopLevel out (open, pl) = None) by (destruct out; reflexivity). rewrite Hx. destruct d'; exact I.
  - injection Hc as <- <-. cbn in Hm. subst out. exact Hs0.
  - assert (Hx : spot_after CConsumeTrailingWhitespace out (open, pl) = None) by (destruct out; reflexivity). rewrite Hx. destruct d'; exact I.
Qed.

Lemma spot_calls E t cs : forall d sp os sp', d_spot d (Some sp) -> Forall2 matches os (fst (d_calls E t cs d)) ->
  spot_behind cs os sp = Some sp' -> d_spot (snd (d_calls E t cs d)) (Some sp').
Proof.
  induction cs as [|c cs IH]; intros d sp os sp' Hd Hm Hsp; cbn [d_calls] in *.
  - cbn [fst snd] in *. inversion Hm; subst. cbn in Hsp. injection Hsp as <-. exact Hd.
  - destruct (d_call E t c d) as [o d1] eqn:Ec. destruct (d_calls E t cs d1) as [dos d2] eqn:Ed. cbn [fst snd] in *.
    inversion Hm as [|out o0 os' l Ho Hos]; subst. cbn in Hsp. destruct (spot_after c out sp) as [sp1|] eqn:Es; [|discriminate].
    destruct d as [s rd r|h| | |]; try contradiction.
    pose proof (spot_step E t c s rd r sp o d1 out Hd Ec Ho) as H. rewrite Es in H.
    specialize (IH d1 sp1 os' sp' H). rewrite Ed in IH. exact (IH Hos Hsp).
Qed.
