(** * Recoverable errors

    Auxiliary: where recoverable errors are located, and which of them can occur
    in a method. *)

From Verif Require Import Base Utf8Model NumberModel SourceModel ReaderModel
  ReaderScan ReaderLex ReaderLexStr ReaderMid ReaderAgree ReaderSess ReaderSafe SpecText.

Definition err_ok (E : env) (e : reader_error) (s : rstate) : Prop :=
  error_position e = location s /\
  match e with EMaxNestingDepth k _ => depth_exceeded E s = Some k | _ => True end.

Definition errs {A : Type} (E : env) (m : mres A) : Prop :=
  match m with MErr e s _ => err_ok E e s | _ => True end.

Lemma errs_bind {A B : Type} E (m : D A) (f : A -> D B) s r : errs E (m s r) ->
  (forall x s' r', m s r = MOk x s' r' -> errs E (f x s' r')) -> errs E (dbind m f s r).
Proof. unfold dbind, errs. intros H Hf. destruct (m s r) eqn:Em; auto. apply (Hf _ _ _ eq_refl). Qed.

Lemma errs_fresh E t s r : errs E (d_fresh E t s r).
Proof.
  unfold d_fresh. destruct (ws_scan _ _ _ r) as [[w [|b r1]]| |]; try exact I. destruct (b =? B_COMMA).
  - destruct (negb _); [exact I|]. destruct (ws_scan _ _ _ r1) as [[w2 r2]| |]; try exact I.
    destruct (token _ _ _ r2) as [[p r3]|]; [|exact I]. destruct (_ && _); exact I.
  - destruct (token _ _ _ _) as [[p r3]|]; [|exact I]. destruct (_ && _); exact I.
Qed.
Lemma errs_after_name E t s r : errs E (d_after_name E t s r).
Proof.
  unfold d_after_name. destruct (ws_scan _ _ _ r) as [[w [|b r1]]| |]; try exact I. destruct (b =? B_COLON); exact I.
Qed.
Lemma errs_string E s r : errs E (d_string E s r).
Proof. unfold d_string. destruct (scan_string _ r) as [[[d w] r1]| |]; try exact I. destruct (from_utf8 d); exact I. Qed.
Lemma errs_skip_string E s r : errs E (d_skip_string E s r).
Proof. unfold d_skip_string. destruct (scan_string _ r) as [[[d w] r1]| |]; exact I. Qed.
Lemma errs_number_body E t b s r : errs E (d_number_body E t b s r).
Proof.
  unfold d_number_body. destruct r; [exact I|]. destruct (number_scan E _) as [[[res w] rest]| |]; try exact I.
  destruct (hits_error t rest); [exact I|]. destruct res; [|exact I]. destruct (from_utf8 w); [|exact I].
  destruct (_ && _); [exact I|]. destruct (sep_ok _ _); exact I.
Qed.

Ltac errs_step := lazymatch goal with
  | |- errs _ (dbind _ _ _ _) => apply errs_bind; [|intros]
  | |- errs _ (dget _ _) => exact I
  | |- errs _ (dret _ _ _) => exact I
  | |- errs _ (dbug _ _) => exact I
  | |- errs _ (dfail _ _) => exact I
  | |- errs _ (dmisuse _ _) => exact I
  | |- errs _ (dupdate _ _ _) => exact I
  | |- errs _ (dmisuse_if ?b _ _) => destruct b; exact I
  | |- errs _ (dstructure _ _ _) => split; [reflexivity|exact I]
  | |- errs _ (derr (EUnexpectedType _ _) _ _) => split; [reflexivity|exact I]
  | |- errs _ (d_fresh _ _ _ _) => apply errs_fresh
  | |- errs _ (d_after_name _ _ _ _) => apply errs_after_name
  | |- errs _ (d_string _ _ _) => apply errs_string
  | |- errs _ (d_skip_string _ _ _) => apply errs_skip_string
  | |- errs _ (d_number_body _ _ _ _ _) => apply errs_number_body
  | |- errs _ ((match ?x with _ => _ end) _ _) => destruct x eqn:?
  | |- errs _ ((if ?x then _ else _) _ _) => destruct x eqn:?
  end.

Lemma errs_peek_optional E t s r : errs E (d_peek_optional E t s r).
Proof. unfold d_peek_optional. repeat errs_step. Qed.
Lemma errs_peek_internal E t s r : errs E (d_peek_internal E t s r).
Proof. unfold d_peek_internal. apply errs_bind; [apply errs_peek_optional|intros]. repeat errs_step. Qed.
Lemma errs_map_peeked E p s r : errs E (d_map_peeked p s r).
Proof. destruct p; cbn; try exact I. split; [reflexivity|exact I]. Qed.
Lemma errs_consume_peeked E s r : errs E (d_consume_peeked s r).
Proof. unfold d_consume_peeked. repeat errs_step. Qed.
Lemma errs_start E t ty chk s r : errs E (d_start E t ty chk s r).
Proof.
  unfold d_start. repeat (errs_step || apply errs_peek_internal || apply errs_map_peeked || apply errs_consume_peeked).
  match goal with H : dget _ _ = MOk _ _ _ |- _ => injection H as <- <- <- end.
  split; [reflexivity|]. destruct chk; [|discriminate]. assumption.
Qed.
Lemma errs_value_end E s r : errs E (d_on_value_end s r).
Proof. pose proof (value_end_pure s r) as H. destruct (d_on_value_end s r); try exact I. contradiction. Qed.
Lemma errs_container_end E s r : errs E (d_on_container_end s r).
Proof. unfold d_on_container_end. errs_step; [errs_step|apply errs_value_end]. Qed.
Lemma errs_set_path_name E n s r : errs E (d_set_path_name n s r).
Proof. unfold d_set_path_name. repeat errs_step. Qed.

Ltac errs_go := repeat first [ errs_step | apply errs_peek_optional | apply errs_peek_internal | apply errs_map_peeked | apply errs_consume_peeked
  | apply errs_start | apply errs_value_end | apply errs_container_end | apply errs_set_path_name ].

Lemma errs_peek E t s r : errs E (d_peek E t s r).
Proof. unfold d_peek. errs_go. Qed.
Lemma errs_begin_array E t s r : errs E (d_begin_array E t s r).
Proof. unfold d_begin_array, d_on_container_start. errs_go. Qed.
Lemma errs_begin_object E t s r : errs E (d_begin_object E t s r).
Proof. unfold d_begin_object, d_on_container_start. errs_go. Qed.
Lemma errs_end_array E t s r : errs E (d_end_array E t s r).
Proof. unfold d_end_array. errs_go. Qed.
Lemma errs_end_object E t s r : errs E (d_end_object E t s r).
Proof. unfold d_end_object. errs_go. Qed.
Lemma errs_has_next E t s r : errs E (d_has_next E t s r).
Proof. unfold d_has_next. errs_go. Qed.
Lemma errs_before_name E t s r : errs E (d_before_name E t s r).
Proof. unfold d_before_name. repeat first [apply errs_has_next | progress errs_go]. Qed.
Lemma errs_next_name E t s r : errs E (d_next_name E t s r).
Proof. unfold d_next_name. repeat first [apply errs_before_name | progress errs_go]. Qed.
Lemma errs_skip_name E t s r : errs E (d_skip_name E t s r).
Proof. unfold d_skip_name. repeat first [apply errs_before_name | progress errs_go]. Qed.
Lemma errs_next_bool E t s r : errs E (d_next_bool E t s r).
Proof. unfold d_next_bool. errs_go. Qed.
Lemma errs_next_null E t s r : errs E (d_next_null E t s r).
Proof. unfold d_next_null. errs_go. Qed.
Lemma errs_next_string E t s r : errs E (d_next_string E t s r).
Proof. unfold d_next_string. errs_go. Qed.
Lemma errs_next_string_reader E t s r : errs E (d_next_string_reader E t s r).
Proof. unfold d_next_string_reader. errs_go. Qed.
Lemma errs_number E t b s r : errs E (d_number E t b s r).
Proof. unfold d_number. errs_go. Qed.
Lemma errs_skip_value_start E t s r : errs E (d_skip_value_start E t s r).
Proof.
  unfold d_skip_value_start. apply errs_bind; [apply errs_peek|intros ty s1 r1 _].
  destruct ty; repeat first [apply errs_begin_array | apply errs_begin_object | apply errs_number | apply errs_next_bool | apply errs_next_null | progress errs_go].
Qed.
Lemma errs_end_container E t s r : errs E (d_end_container E t s r).
Proof. unfold d_end_container. repeat first [apply errs_end_array | apply errs_end_object | errs_step]. Qed.
Lemma errs_skip_step E t d s r : errs E (d_skip_step E t d s r).
Proof.
  unfold d_skip_step. repeat first [apply errs_has_next | apply errs_end_container | apply errs_skip_name | apply errs_skip_value_start | errs_step].
Qed.
Lemma errs_skip_value_loop E t f : forall d s r, errs E (d_skip_value_loop E t f d s r).
Proof.
  induction f as [|f IH]; intros d s r; [exact I|]. cbn [d_skip_value_loop]. apply errs_bind; [apply errs_skip_step|intros d' s' r' _].
  destruct d'; [exact I|]. apply IH.
Qed.
Lemma errs_skip_value E t s r : errs E (d_skip_value E t s r).
Proof. unfold d_skip_value. repeat first [apply errs_skip_value_loop | errs_step]. Qed.
Lemma errs_skip_items E t f : forall s r, errs E (d_skip_items E t f s r).
Proof.
  induction f as [|f IH]; intros s r; [exact I|]. cbn [d_skip_items].
  repeat first [apply errs_has_next | apply errs_skip_value | apply IH | errs_step].
Qed.
Lemma errs_skip_members E t f : forall s r, errs E (d_skip_members E t f s r).
Proof.
  induction f as [|f IH]; intros s r; [exact I|]. cbn [d_skip_members].
  repeat first [apply errs_has_next | apply errs_skip_name | apply errs_skip_value | apply IH | errs_step].
Qed.
Lemma errs_skip_to_top_level_loop E t f : forall s r, errs E (d_skip_to_top_level_loop E t f s r).
Proof.
  induction f as [|f IH]; intros s r; [exact I|]. cbn [d_skip_to_top_level_loop].
  repeat first [apply errs_skip_items | apply errs_skip_members | apply errs_end_array | apply errs_end_object | apply IH | errs_step].
Qed.
Lemma errs_skip_to_top_level E t s r : errs E (d_skip_to_top_level E t s r).
Proof. unfold d_skip_to_top_level. repeat first [apply errs_skip_value | apply errs_skip_to_top_level_loop | errs_step]. Qed.
Lemma errs_seek_item E t f : forall i n s r, errs E (d_seek_item E t f i n s r).
Proof.
  induction f as [|f IH]; intros i n s r; [exact I|]. cbn [d_seek_item].
  repeat first [apply errs_has_next | apply errs_skip_value | apply IH | errs_step].
Qed.
Lemma errs_seek_member E t f : forall n s r, errs E (d_seek_member E t f n s r).
Proof.
  induction f as [|f IH]; intros n s r; [exact I|]. cbn [d_seek_member].
  repeat first [apply errs_has_next | apply errs_next_name | apply errs_skip_value | apply IH | errs_step].
Qed.
Lemma errs_seek_pieces E t p : forall s r, errs E (d_seek_pieces E t p s r).
Proof.
  induction p as [|[i|n] p IH]; intros s r; cbn [d_seek_pieces];
  repeat first [apply errs_begin_array | apply errs_begin_object | apply errs_seek_item | apply errs_seek_member | apply IH | errs_step].
Qed.
Lemma errs_seek_to E t p s r : errs E (d_seek_to E t p s r).
Proof. unfold d_seek_to. apply errs_bind; [apply errs_peek|intros; apply errs_seek_pieces]. Qed.
Lemma errs_seek_back_pieces E t p : forall s r, errs E (d_seek_back_pieces E t p s r).
Proof.
  induction p as [|[i|n] p IH]; intros s r; cbn [d_seek_back_pieces];
  repeat first [apply errs_skip_items | apply errs_skip_members | apply errs_end_array | apply errs_end_object | apply IH | errs_step].
Qed.

(** ** Which errors occur while skipping *)

(** Only the nesting limit; no number is unsupported *)
Definition quiet {A : Type} (m : mres A) : Prop :=
  match m with
  | MErr (EMaxNestingDepth _ _) _ _ => True
  | MErr _ _ _ => False
  | MFail n => n = None
  | _ => True
  end.

Lemma quiet_bind {A B : Type} E inp (m : D A) (f : A -> D B) s r Q : quiet (m s r) -> good E inp (m s r) Q ->
  (forall x s' r', inv E inp s' r' -> Q x s' r' -> quiet (f x s' r')) -> quiet (dbind m f s r).
Proof. unfold dbind, quiet. intros H Hg Hf. destruct (m s r) eqn:Em; auto. apply Hf; apply Hg. Qed.
Lemma quiet_get {B : Type} (f : rstate -> D B) s r : quiet (f s s r) -> quiet (dbind dget f s r).
Proof. auto. Qed.
Lemma quiet_misuse_if {B : Type} b (f : unit -> D B) s r : (b = false -> quiet (f tt s r)) -> quiet (dbind (dmisuse_if b) f s r).
Proof. destruct b; cbn; auto. Qed.

Lemma quiet_peek_optional E t s r : quiet (d_peek_optional E t s r).
Proof.
  unfold d_peek_optional. apply quiet_get, quiet_misuse_if. intros _. destruct (peeked s); [exact I|]. apply quiet_misuse_if. intros _.
  assert (Hfresh : forall s r, quiet (d_fresh E t s r)).
  { clear. intros s r. unfold d_fresh. destruct (ws_scan _ _ _ r) as [[w [|b r1]]| |]; try reflexivity; try exact I. destruct (b =? B_COMMA).
    - destruct (negb _); [reflexivity|]. destruct (ws_scan _ _ _ r1) as [[w2 r2]| |]; try reflexivity; try exact I.
      destruct (token _ _ _ r2) as [[p r3]|]; [|reflexivity]. destruct (_ && _); [reflexivity|exact I].
    - destruct (token _ _ _ _) as [[p r3]|]; [|reflexivity]. destruct (_ && _); [reflexivity|exact I]. }
  destruct (expects_member_value s); [|apply Hfresh].
  unfold dbind, d_after_name. destruct (ws_scan _ _ _ r) as [[w [|b r1]]| |]; try reflexivity; try exact I.
  destruct (b =? B_COLON); [apply Hfresh|reflexivity].
Qed.

(** In an array or object *)
Lemma quiet_peek_internal E inp t s r : (length inp < fuel E)%nat -> inv E inp s r -> is_behind_top_level s = false ->
  quiet (d_peek_internal E t s r).
Proof.
  intros Hf Hi Hb. unfold d_peek_internal.
  eapply quiet_bind; [apply quiet_peek_optional|apply (peek_optional_good E inp t s r Hf Hi)|].
  intros [p|] s1 r1 _ (Hs & _); [exact I|]. apply quiet_get.
  assert (Hb1 : is_behind_top_level s1 = false).
  { unfold is_behind_top_level in *. destruct Hs as (-> & _ & -> & _). exact Hb. }
  rewrite Hb1. reflexivity.
Qed.

Lemma not_top s : stack s <> [] -> is_behind_top_level s = false.
Proof. unfold is_behind_top_level. destruct (stack s); [congruence|]. intros _. apply andb_false_r. Qed.

Lemma quiet_has_next E inp t s r : (length inp < fuel E)%nat -> inv E inp s r -> stack s <> [] -> quiet (d_has_next E t s r).
Proof.
  intros Hf Hi Hst. unfold d_has_next. apply quiet_get, quiet_misuse_if. intros _.
  apply (quiet_bind E inp _ _ s r (fun _ _ _ => True)).
  - destruct (stack s) as [|v stk] eqn:Es; [congruence|].
    eapply quiet_bind; [apply (quiet_peek_internal E inp); auto; apply not_top; congruence|apply (peek_internal_good E inp t s r Hf Hi)|].
    intros; exact I.
  - destruct (stack s) as [|v stk]; [congruence|].
    eapply good_bind; [apply (peek_internal_good E inp t s r Hf Hi)|]. cbn. auto.
  - intros [p|] s1 r1 _ _; [|exact I]. apply quiet_get. destruct (_ || _); exact I.
Qed.

(** The value which [has_next] has found, or the value of a member *)
Definition at_item (s : rstate) : Prop :=
  stack s <> [] /\ expects_member_name s = false /\
  match peeked s with Some p => is_end_token p = false | None => expects_member_value s = true end.

Lemma peeked_again E t s r p : peeked s = Some p -> string_reader_active s = false -> d_peek_optional E t s r = MOk (Some p) s r.
Proof. intros H Ha. unfold d_peek_optional, dbind, dget. rewrite Ha, H. reflexivity. Qed.

Lemma in_object_member s : stack s <> [] -> expects_member_name s = false -> is_in_array s = false -> expects_member_value s = true.
Proof.
  unfold expects_member_value, is_in_array, is_in_object. intros H ->. destruct (stack s) as [|[]]; try congruence; auto.
Qed.

Definition calm {A : Type} (E : env) (inp : bytes) (m : mres A) (Q : A -> rstate -> bytes -> Prop) : Prop := quiet m /\ good E inp m Q.

Lemma calm_bind {A B : Type} E inp (m : D A) (f : A -> D B) s r Q Q2 : calm E inp (m s r) Q ->
  (forall x s' r', inv E inp s' r' -> Q x s' r' -> calm E inp (f x s' r') Q2) -> calm E inp (dbind m f s r) Q2.
Proof.
  intros [H1 H2] H. split.
  - eapply quiet_bind; [exact H1|exact H2|]. intros x s' r' Hi Hq. apply (H x s' r' Hi Hq).
  - eapply good_bind; [exact H2|]. intros x s' r' Hi Hq. apply (H x s' r' Hi Hq).
Qed.
Lemma calm_get {B : Type} E inp (f : rstate -> D B) s r Q : calm E inp (f s s r) Q -> calm E inp (dbind dget f s r) Q.
Proof. auto. Qed.
Lemma calm_misuse_if {B : Type} E inp b (f : unit -> D B) s r Q : (b = false -> calm E inp (f tt s r) Q) -> calm E inp (dbind (dmisuse_if b) f s r) Q.
Proof. destruct b; cbn; [split; exact I|auto]. Qed.
Lemma calm_ret {A : Type} E inp (x : A) s r (Q : A -> rstate -> bytes -> Prop) : inv E inp s r -> Q x s r -> calm E inp (dret x s r) Q.
Proof. intros. split; [exact I|]. cbn. auto. Qed.
Lemma calm_impl {A : Type} E inp (m : mres A) (Q Q2 : A -> rstate -> bytes -> Prop) : calm E inp m Q ->
  (forall x s r, Q x s r -> Q2 x s r) -> calm E inp m Q2.
Proof. intros [H1 H2] H. split; [exact H1|]. destruct m; cbn in *; auto. destruct H2. auto. Qed.

Lemma start_quiet E t ty chk s r p : peeked s = Some p -> type_of p = Some ty ->
  string_reader_active s = false -> quiet (d_start E t ty chk s r).
Proof.
  intros Hpk Hty Ha. unfold d_start. apply quiet_get, quiet_misuse_if. intros Hn.
  unfold dbind at 1, d_peek_internal, dbind at 1. rewrite (peeked_again E t s r p Hpk Ha). unfold dret at 1.
  unfold dbind at 1. assert (Hm : d_map_peeked p s r = MOk ty s r) by (destruct p; cbn in *; try discriminate; injection Hty as <-; reflexivity).
  rewrite Hm. assert (He : value_type_eqb ty ty = true) by (destruct ty; reflexivity). rewrite He.
  apply quiet_get. destruct (if chk then depth_exceeded E s else None); [exact I|].
  unfold dbind, d_consume_peeked, dbind, dget. rewrite Hpk. exact I.
Qed.

Lemma peek_at_item E inp t s r : (length inp < fuel E)%nat -> inv E inp s r -> at_item s ->
  quiet (d_peek E t s r).
Proof.
  intros Hf Hi (Hst & Hn & Hpk). unfold d_peek. apply quiet_get, quiet_misuse_if. intros _.
  destruct (string_reader_active s) eqn:Ha.
  { unfold d_peek_internal, d_peek_optional, dbind, dget. rewrite Ha. exact I. }
  destruct (peeked s) as [p|] eqn:Ep.
  - unfold dbind, d_peek_internal, dbind. rewrite (peeked_again E t s r p Ep Ha). destruct p; try exact I; discriminate.
  - eapply quiet_bind; [apply (quiet_peek_internal E inp); auto; apply not_top; exact Hst|apply (peek_internal_good E inp t s r Hf Hi)|].
    intros p s1 r1 Hi1 (Hs & _ & _ & Hpk1).
    pose proof (i_peek _ _ _ _ Hi1) as H1. unfold peek_ok in H1. rewrite Hpk1 in H1. destruct H1 as (_ & _ & H1 & _).
    destruct p; try exact I. exfalso. specialize (H1 eq_refl).
    unfold expects_member_value, is_in_object in Hpk. unfold is_in_array in H1. destruct Hs as (_ & _ & Hs & _).
    rewrite Hs in H1. destruct (stack s) as [|[]]; discriminate.
Qed.

Lemma quiet_value_end s r : quiet (d_on_value_end s r).
Proof. pose proof (value_end_pure s r) as H. destruct (d_on_value_end s r); try exact I; contradiction. Qed.
Lemma quiet_string E s r : quiet (d_string E s r).
Proof. unfold d_string. destruct (scan_string _ r) as [[[d w] r1]| |]; try reflexivity; try exact I. destruct (from_utf8 d); exact I. Qed.
Lemma quiet_skip_string E s r : quiet (d_skip_string E s r).
Proof. unfold d_skip_string. destruct (scan_string _ r) as [[[d w] r1]| |]; try reflexivity; exact I. Qed.
Lemma quiet_number_body E t s r : quiet (d_number_body E t false s r).
Proof.
  unfold d_number_body. destruct r; [exact I|]. destruct (number_scan E _) as [[[res w] rest]| |]; try reflexivity; try exact I.
  destruct (hits_error t rest); [reflexivity|]. destruct res; [|reflexivity]. destruct (from_utf8 w); [|exact I].
  cbn [andb]. destruct (sep_ok _ _); [exact I|reflexivity].
Qed.

Definition plain_bind {A B : Type} (m : D A) (f : A -> D B) s r : quiet (m s r) -> (forall x s' r', quiet (f x s' r')) -> quiet (dbind m f s r).
Proof. unfold dbind, quiet. intros H Hf. destruct (m s r); auto. apply Hf. Qed.

Lemma calm_skip_value_start E inp t s r : (length inp < fuel E)%nat -> inv E inp s r -> at_item s ->
  calm E inp (d_skip_value_start E t s r) (fun b s' r' =>
    (mu s' r' < mu s r)%nat /\ if b : bool then exists v, stack s' = v :: stack s else stack s' = stack s).
Proof.
  intros Hf Hi Hat. unfold d_skip_value_start.
  eapply calm_bind; [split; [apply (peek_at_item E inp); auto|apply (peek_good E inp t s r Hf Hi)]|].
  intros ty s1 r1 Hi1 (Hs & Hn & Ha & Hmu & p & Hpk & Hty).
  destruct Hs as (_ & _ & Hst & Hact & _).
  assert (Ha1 : string_reader_active s1 = false).
  { pose proof (i_peek _ _ _ _ Hi1) as H1. unfold peek_ok in H1. rewrite Hpk in H1. apply H1. }
  assert (Hq : forall chk, quiet (d_start E t ty chk s1 r1)) by (intros; eapply start_quiet; eauto).
  destruct ty; split.
  - apply plain_bind; [|intros; exact I]. unfold d_begin_array, d_on_container_start. apply plain_bind; [|intros; exact I].
    apply plain_bind; [apply Hq|intros; exact I].
  - eapply good_bind; [apply (begin_array_good E inp t s1 r1 Hf Hi1)|]. intros u s2 r2 Hi2 (G1 & G2). cbn. split; [exact Hi2|].
    split; [lia|]. exists SArray. congruence.
  - apply plain_bind; [|intros; exact I]. unfold d_begin_object, d_on_container_start. apply plain_bind; [|intros; exact I].
    apply plain_bind; [apply Hq|intros; exact I].
  - eapply good_bind; [apply (begin_object_good E inp t s1 r1 Hf Hi1)|]. intros u s2 r2 Hi2 (G1 & G2). cbn. split; [exact Hi2|].
    split; [lia|]. exists SObject. congruence.
  - apply plain_bind; [apply Hq|intros]. apply plain_bind; [apply quiet_skip_string|intros]. apply plain_bind; [apply quiet_value_end|intros; exact I].
  - eapply good_impl; [apply (skip_string_value_good E inp t s1 r1 Hf Hi1)|]. unfold value_read. intros b s2 r2 _ (-> & H).
    split; [lia|]. destruct H as (H & _). congruence.
  - apply plain_bind; [|intros; exact I]. unfold d_number. apply plain_bind; [apply Hq|intros]. apply plain_bind; [apply quiet_number_body|intros].
    apply plain_bind; [apply quiet_value_end|intros; exact I].
  - eapply good_bind; [apply (number_good E inp t false s1 r1 Hf Hi1)|]. unfold value_read. intros b s2 r2 Hi2 H. cbn. split; [exact Hi2|].
    split; [lia|]. destruct H as (H & _). congruence.
  - apply plain_bind; [|intros; exact I]. unfold d_next_bool. apply plain_bind; [apply Hq|intros x s2 r2].
    destruct x; try exact I; (apply plain_bind; [first [exact I|apply quiet_value_end]|intros]); try exact I;
    try (apply plain_bind; [apply quiet_value_end|intros; exact I]).
  - eapply good_bind; [apply (next_bool_good E inp t s1 r1 Hf Hi1)|]. unfold value_read. intros b s2 r2 Hi2 H. cbn. split; [exact Hi2|].
    split; [lia|]. destruct H as (H & _). congruence.
  - apply plain_bind; [|intros; exact I]. unfold d_next_null. apply plain_bind; [apply Hq|intros x s2 r2].
    apply quiet_value_end.
  - eapply good_bind; [apply (next_null_good E inp t s1 r1 Hf Hi1)|]. unfold value_read. intros b s2 r2 Hi2 H. cbn. split; [exact Hi2|].
    split; [lia|]. destruct H as (H & _). congruence.
Qed.

Lemma calm_has_next E inp t s r : (length inp < fuel E)%nat -> inv E inp s r -> stack s <> [] ->
  calm E inp (d_has_next E t s r) (fun h s' r' =>
    stack s' = stack s /\ expects_member_name s' = expects_member_name s /\ expects_member_value s = false /\
    (mu s' r' <= mu s r)%nat /\ exists p, peeked s' = Some p /\ h = negb (is_end_token p)).
Proof.
  intros Hf Hi Hst. split; [apply (quiet_has_next E inp); auto|].
  eapply good_impl; [apply (has_next_good E inp t s r Hf Hi)|]. cbn. intros h s' r' _ (Hs & _ & Hv & Hmu & Hpk).
  destruct Hs as (_ & Hn & Hs & _). splits; auto. destruct (peeked s') as [p|]; [eauto|]. destruct Hpk. congruence.
Qed.

Lemma quiet_set_path_name n s r : quiet (d_set_path_name n s r).
Proof. unfold d_set_path_name. apply quiet_get. destruct (json_path s) as [[|[] l]|]; exact I. Qed.

(** [has_next] has found a member *)
Lemma calm_skip_name E inp t s r p : (length inp < fuel E)%nat -> inv E inp s r -> peeked s = Some p -> is_end_token p = false ->
  stack s <> [] -> calm E inp (d_skip_name E t s r) (fun _ s' r' => name_read s r s' r').
Proof.
  intros Hf Hi Hpk Hp Hst. split; [|apply (skip_name_good E inp t s r Hf Hi)].
  unfold d_skip_name. apply plain_bind.
  - unfold d_before_name. apply quiet_get, quiet_misuse_if. intros Hn. apply quiet_misuse_if. intros Ha.
    assert (Hh : d_has_next E t s r = MOk true s r \/ d_has_next E t s r = MMisuse).
    { unfold d_has_next, dbind, dget. destruct (expects_member_value s); [right; reflexivity|left]. cbn [dmisuse_if dret].
      destruct (stack s) as [|v st] eqn:Est; [congruence|].
      unfold d_peek_internal, dbind. rewrite (peeked_again E t s r p Hpk Ha). cbn [dret].
      pose proof (i_peek _ _ _ _ Hi) as H. unfold peek_ok in H. rewrite Hpk in H. destruct H as (_ & H & _). apply negb_false_iff in Hn.
      rewrite Hn in *. destruct H as [-> | ->]; [reflexivity|discriminate]. }
    unfold dbind at 1. destruct Hh as [-> | ->]; [|exact I]. cbn [negb].
    unfold dbind, dupdate, d_consume_peeked, dbind, dget. cbn [peeked set_expects_name]. rewrite Hpk. exact I.
  - intros _ s1 r1. apply quiet_get. destruct (json_path s1); [|apply quiet_skip_string].
    apply plain_bind; [apply quiet_string|intros; apply quiet_set_path_name].
Qed.

Lemma calm_end_array E inp t s r : (length inp < fuel E)%nat -> inv E inp s r -> peeked s = Some PkArrayEnd ->
  calm E inp (d_end_array E t s r) (fun _ s' r' => stack s' = tl (stack s) /\ (mu s' r' < mu s r)%nat).
Proof.
  intros Hf Hi Hpk. split; [|apply (end_array_good E inp t s r Hf Hi)].
  assert (Ha : string_reader_active s = false).
  { pose proof (i_peek _ _ _ _ Hi) as H. unfold peek_ok in H. rewrite Hpk in H. apply H. }
  unfold d_end_array. apply quiet_get, quiet_misuse_if. intros _.
  unfold dbind at 1, d_peek_internal, dbind at 1. rewrite (peeked_again E t s r _ Hpk Ha). unfold dret.
  unfold dbind, d_consume_peeked, dbind, dget. rewrite Hpk. unfold dupdate, d_on_container_end, dbind. apply quiet_value_end.
Qed.
Lemma calm_end_object E inp t s r : (length inp < fuel E)%nat -> inv E inp s r -> peeked s = Some PkObjectEnd ->
  calm E inp (d_end_object E t s r) (fun _ s' r' => stack s' = tl (stack s) /\ (mu s' r' < mu s r)%nat).
Proof.
  intros Hf Hi Hpk. split; [|apply (end_object_good E inp t s r Hf Hi)].
  assert (Ha : string_reader_active s = false).
  { pose proof (i_peek _ _ _ _ Hi) as H. unfold peek_ok in H. rewrite Hpk in H. apply H. }
  unfold d_end_object. apply quiet_get, quiet_misuse_if. intros _. apply quiet_misuse_if. intros _.
  unfold dbind at 1, d_peek_internal, dbind at 1. rewrite (peeked_again E t s r _ Hpk Ha). unfold dret.
  unfold dbind, d_consume_peeked, dbind, dget. rewrite Hpk. unfold dupdate, d_on_container_end, dbind. apply quiet_value_end.
Qed.

(** The end which [has_next] has found belongs to the innermost container *)
Lemma end_found E inp s r p : inv E inp s r -> peeked s = Some p -> is_end_token p = true ->
  p = if is_in_array s then PkArrayEnd else PkObjectEnd.
Proof.
  intros Hi Hpk Hp. pose proof (i_peek _ _ _ _ Hi) as H. unfold peek_ok in H. rewrite Hpk in H. destruct H as (_ & Hn & Ha & _).
  pose proof (i_name _ _ _ _ Hi) as Hin. destruct p; try discriminate.
  - rewrite (Ha eq_refl). reflexivity.
  - destruct (expects_member_name s); [|destruct Hn; congruence]. specialize (Hin eq_refl).
    unfold is_in_object in Hin. unfold is_in_array. destruct (stack s) as [|[]]; try discriminate; reflexivity.
Qed.

Lemma calm_skip_step E inp t d s r : (length inp < fuel E)%nat -> inv E inp s r ->
  (match d with O => at_item s | _ => (d <= length (stack s))%nat end) ->
  calm E inp (d_skip_step E t d s r) (fun d' s' r' => (mu s' r' < mu s r)%nat /\
    (length (stack s') + d = length (stack s) + d')%nat).
Proof.
  intros Hf Hi Hd. unfold d_skip_step.
  apply (calm_bind E inp _ _ s r (fun h s' r' => (mu s' r' <= mu s r)%nat /\ stack s' = stack s /\
     if h : bool then (if expects_member_name s' then exists p, peeked s' = Some p /\ is_end_token p = false else at_item s')
     else (d <> 0)%nat /\ exists p, peeked s' = Some p /\ is_end_token p = true)).
  { destruct d as [|d].
    - apply calm_ret; auto. splits; auto. destruct Hd as (H1 & H2 & H3). rewrite H2. unfold at_item. auto.
    - assert (Hst : stack s <> []) by (destruct (stack s); [cbn in Hd; lia|congruence]).
      eapply calm_impl; [apply (calm_has_next E inp t s r Hf Hi Hst)|].
      cbn. intros h s' r' (H1 & H2 & H3 & H4 & p & H5 & ->). splits; auto.
      destruct (is_end_token p) eqn:Ep; cbn [negb]; [split; [congruence|eauto]|].
      destruct (expects_member_name s') eqn:En; [eauto|]. unfold at_item. rewrite H1, H5. auto. }
  intros h s1 r1 Hi1 (Hmu & Hst & Hh). destruct h; cbn [negb].
  - apply calm_get.
    apply (calm_bind E inp _ _ s1 r1 (fun _ s' r' => (mu s' r' <= mu s r)%nat /\ stack s' = stack s /\ at_item s')).
    + destruct (expects_member_name s1) eqn:En; [|apply calm_ret; auto].
      destruct Hh as (p & Hpk & Hp). pose proof (i_name _ _ _ _ Hi1 En) as Hin.
      assert (Hst1 : stack s1 <> []) by (unfold is_in_object in Hin; destruct (stack s1); [discriminate|congruence]).
      eapply calm_impl; [apply (calm_skip_name E inp t s1 r1 p Hf Hi1 Hpk Hp Hst1)|].
      intros _ s2 r2 (H1 & H2 & H3 & H4 & H5 & H6). splits; [lia|congruence|]. unfold at_item. rewrite H3, H4. splits; auto; [congruence|].
      unfold expects_member_value. rewrite H4. unfold is_in_object in *. rewrite H1. rewrite Hin. reflexivity.
    + intros _ s2 r2 Hi2 (H1 & H2 & H3).
      eapply calm_bind; [apply (calm_skip_value_start E inp t s2 r2 Hf Hi2 H3)|].
      intros b s3 r3 Hi3 (H4 & H5). apply calm_ret; auto. split; [lia|].
      destruct b; [destruct H5 as (v & ->)|rewrite H5]; cbn [length]; rewrite H2; lia.
  - destruct Hh as (Hd0 & p & Hpk & Hp).
    assert (Hne : (1 <= length (stack s1))%nat) by (rewrite Hst; destruct d; [congruence|lia]).
    apply (calm_bind E inp _ _ s1 r1 (fun _ s' r' => (mu s' r' < mu s1 r1)%nat /\ stack s' = tl (stack s1))).
    + unfold d_end_container. apply calm_get. pose proof (end_found E inp s1 r1 p Hi1 Hpk Hp) as Hpe. destruct (is_in_array s1).
      * eapply calm_impl; [apply (calm_end_array E inp t s1 r1 Hf Hi1); congruence|]. cbn. tauto.
      * eapply calm_impl; [apply (calm_end_object E inp t s1 r1 Hf Hi1); congruence|]. cbn. tauto.
    + intros _ s2 r2 Hi2 (H1 & H2). apply calm_ret; auto. split; [lia|]. rewrite H2, <- Hst. destruct (stack s1); cbn in *; lia.
Qed.

Lemma calm_skip_value_loop E inp t f : forall d s r, (length inp < fuel E)%nat -> inv E inp s r -> (mu s r < f)%nat ->
  (match d with O => at_item s | _ => (d <= length (stack s))%nat end) ->
  calm E inp (d_skip_value_loop E t f d s r) (fun _ s' r' => (mu s' r' < mu s r)%nat /\ (length (stack s') + d = length (stack s))%nat).
Proof.
  induction f as [|f IH]; intros d s r Hf Hi Hmu Hd; [blia|]. cbn [d_skip_value_loop].
  eapply calm_bind; [apply (calm_skip_step E inp t d s r Hf Hi Hd)|]. intros d' s1 r1 Hi1 (H1 & H2).
  assert (Hle : (d <= length (stack s))%nat) by (destruct d; [lia|exact Hd]).
  destruct d' as [|d']; [apply calm_ret; auto; split; [exact H1|lia]|].
  eapply calm_impl; [apply IH; auto; [blia|lia]|]. cbn. intros _ s2 r2 (H3 & H4). split; lia.
Qed.

Lemma calm_skip_value E inp t s r : (length inp < fuel E)%nat -> inv E inp s r -> at_item s ->
  calm E inp (d_skip_value E t s r) (fun _ s' r' => (mu s' r' < mu s r)%nat /\ length (stack s') = length (stack s)).
Proof.
  intros Hf Hi Hat. unfold d_skip_value. apply calm_get, calm_misuse_if. intros _.
  pose proof (mu_bound _ _ _ _ Hi). eapply calm_impl; [apply calm_skip_value_loop; auto; blia|]. cbn. intros _ s' r' (H1 & H2). split; lia.
Qed.

Lemma calm_end E inp t s r p (b : bool) : (length inp < fuel E)%nat -> inv E inp s r -> stack s <> [] -> peeked s = Some p -> is_end_token p = true ->
  calm E inp ((if b then d_end_array E t else d_end_object E t) s r) (fun _ s' r' => (mu s' r' < mu s r)%nat).
Proof.
  intros Hf Hi Hst Hpk Hp. pose proof (end_found E inp s r p Hi Hpk Hp) as He. destruct b.
  - destruct (is_in_array s) eqn:Ea; [|unfold d_end_array, dbind, dget; rewrite Ea; split; exact I].
    eapply calm_impl; [apply (calm_end_array E inp t s r Hf Hi); congruence|]. cbn. tauto.
  - destruct (is_in_array s) eqn:Ea.
    + assert (Ho : is_in_object s = false) by (unfold is_in_object; unfold is_in_array in Ea; destruct (stack s) as [|[]]; congruence).
      unfold d_end_object, dbind, dget. rewrite Ho. split; exact I.
    + eapply calm_impl; [apply (calm_end_object E inp t s r Hf Hi); congruence|]. cbn. tauto.
Qed.

Lemma calm_skip_items E inp t f : forall s r, (length inp < fuel E)%nat -> inv E inp s r -> (mu s r < f)%nat -> stack s <> [] ->
  calm E inp (d_skip_items E t f s r) (fun _ s' r' => (mu s' r' <= mu s r)%nat /\ stack s' <> [] /\
    exists p, peeked s' = Some p /\ is_end_token p = true).
Proof.
  induction f as [|f IH]; intros s r Hf Hi Hmu Hst; [blia|]. cbn [d_skip_items].
  eapply calm_bind; [apply (calm_has_next E inp t s r Hf Hi Hst)|]. intros h s1 r1 Hi1 (H1 & H2 & H3 & H4 & p & H5 & ->).
  destruct (is_end_token p) eqn:Ep; cbn [negb].
  - apply calm_ret; auto. splits; [lia|congruence|eauto].
  - destruct (expects_member_name s1) eqn:En.
    { unfold d_skip_value, dbind, dget. rewrite En. split; exact I. }
    eapply calm_bind.
    { apply (calm_skip_value E inp t s1 r1 Hf Hi1). unfold at_item. rewrite H1, H5. auto. }
    intros _ s2 r2 Hi2 (G1 & G2). assert (stack s2 <> []) by (destruct (stack s2); [|congruence]; rewrite H1 in G2; destruct (stack s); [congruence|discriminate]).
    eapply calm_impl; [apply IH; auto; blia|]. cbn. intros _ s3 r3 (K1 & K2 & K3). splits; auto. lia.
Qed.

Lemma calm_skip_members E inp t f : forall s r, (length inp < fuel E)%nat -> inv E inp s r -> (mu s r < f)%nat -> stack s <> [] ->
  calm E inp (d_skip_members E t f s r) (fun _ s' r' => (mu s' r' <= mu s r)%nat /\ stack s' <> [] /\
    exists p, peeked s' = Some p /\ is_end_token p = true).
Proof.
  induction f as [|f IH]; intros s r Hf Hi Hmu Hst; [blia|]. cbn [d_skip_members].
  eapply calm_bind; [apply (calm_has_next E inp t s r Hf Hi Hst)|]. intros h s1 r1 Hi1 (H1 & H2 & H3 & H4 & p & H5 & ->).
  destruct (is_end_token p) eqn:Ep; cbn [negb].
  - apply calm_ret; auto. splits; [lia|congruence|eauto].
  - assert (Hst1 : stack s1 <> []) by congruence.
    eapply calm_bind; [apply (calm_skip_name E inp t s1 r1 p Hf Hi1 H5 Ep Hst1)|].
    intros _ s2 r2 Hi2 (N1 & N2 & N3 & N4 & N5 & N6).
    assert (Hst2 : stack s2 <> []) by congruence.
    eapply calm_bind.
    { apply (calm_skip_value E inp t s2 r2 Hf Hi2). unfold at_item. rewrite N3. splits; auto.
      unfold expects_member_value, is_in_object in *. rewrite N1, N4. rewrite N2. reflexivity. }
    intros _ s3 r3 Hi3 (G1 & G2). assert (stack s3 <> []) by (destruct (stack s3); [|congruence]; destruct (stack s2); [congruence|discriminate]).
    eapply calm_impl; [apply IH; auto; blia|]. cbn. intros _ s4 r4 (K1 & K2 & K3). splits; auto. lia.
Qed.

Lemma calm_skip_to_top_level_loop E inp t f : forall s r, (length inp < fuel E)%nat -> inv E inp s r -> (mu s r < f)%nat ->
  calm E inp (d_skip_to_top_level_loop E t f s r) (fun _ _ _ => True).
Proof.
  induction f as [|f IH]; intros s r Hf Hi Hmu; [blia|]. cbn [d_skip_to_top_level_loop]. apply calm_get.
  pose proof (mu_bound _ _ _ _ Hi) as Hb.
  destruct (stack s) as [|[] st] eqn:Est; [apply calm_ret; auto| |].
  - eapply calm_bind; [apply (calm_skip_items E inp t (fuel E) s r Hf Hi); [blia|congruence]|]. intros _ s2 r2 Hi2 (H1 & H2 & p & H3 & H4).
    eapply calm_bind; [apply (calm_end E inp t s2 r2 p true Hf Hi2 H2 H3 H4)|]. intros u3 s3 r3 Hi3 H5; cbn beta in H5. apply IH; auto. blia.
  - eapply calm_bind; [apply (calm_skip_members E inp t (fuel E) s r Hf Hi); [blia|congruence]|]. intros _ s2 r2 Hi2 (H1 & H2 & p & H3 & H4).
    eapply calm_bind; [apply (calm_end E inp t s2 r2 p false Hf Hi2 H2 H3 H4)|]. intros u3 s3 r3 Hi3 H5; cbn beta in H5. apply IH; auto. blia.
Qed.

Lemma calm_skip_to_top_level E inp t s r : (length inp < fuel E)%nat -> inv E inp s r ->
  calm E inp (d_skip_to_top_level E t s r) (fun _ _ _ => True).
Proof.
  intros Hf Hi. unfold d_skip_to_top_level. apply calm_get, calm_misuse_if. intros _.
  apply (calm_bind E inp _ _ s r (fun _ _ _ => True)).
  - destruct (expects_member_value s) eqn:Ev; [|apply calm_ret; auto].
    eapply calm_impl; [apply (calm_skip_value E inp t s r Hf Hi)|auto].
    pose proof Ev as Ev2. unfold expects_member_value, is_in_object in Ev. unfold at_item. splits.
    + destruct (stack s); [discriminate|congruence].
    + destruct (expects_member_name s); [|reflexivity]. destruct (stack s) as [|[]]; discriminate.
    + destruct (peeked s) as [p|] eqn:Hpk; [|exact Ev2].
      pose proof (end_found E inp s r p Hi Hpk) as He. destruct (is_end_token p) eqn:Ep; [|reflexivity]. specialize (He eq_refl).
      pose proof (i_peek _ _ _ _ Hi) as H. unfold peek_ok in H. rewrite Hpk in H. destruct H as (_ & Hn & Ha & _).
      assert (Hn0 : expects_member_name s = false).
      { destruct (expects_member_name s); [|reflexivity]. destruct (stack s) as [|[]]; discriminate. }
      rewrite Hn0 in Hn. destruct (is_in_array s) eqn:Ei; [|tauto].
      unfold is_in_array in Ei. destruct (stack s) as [|[]]; discriminate.
  - intros _ s1 r1 Hi1 _. pose proof (mu_bound _ _ _ _ Hi1). apply calm_skip_to_top_level_loop; auto. blia.
Qed.

Lemma consume_errors E t s r : match d_consume_trailing E t s r with MErr _ _ _ => False | MFail n => n = None | _ => True end.
Proof.
  unfold d_consume_trailing, dbind, dget, dmisuse_if, dmisuse, dret, dfail, d_ws.
  destruct (string_reader_active s); [exact I|]. destruct (stack s); [|exact I].
  destruct (is_empty s); [exact I|]. destruct (ws_scan E t None r) as [[w [|b l]]| |]; cbn; auto.
Qed.
