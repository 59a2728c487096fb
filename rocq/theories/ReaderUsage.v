(** * When the reader panics because of incorrect usage

    For every input the functions of [ReaderMid] do not end with [MMisuse] in the
    states in which they may be called. *)

From Verif Require Import Base Utf8Model NumberModel SourceModel ReaderModel ReaderScan ReaderLex ReaderLexStr ReaderMid
  ReaderSess ReaderSafe ReaderAgree.

(** No incorrect usage; the result of a success and the state after a
    recoverable error are described *)
Definition fine {A : Type} (E : env) (inp : bytes) (m : mres A) (Q : A -> rstate -> bytes -> Prop) (Qe : rstate -> Prop) : Prop :=
  match m with
  | MOk x s r => inv E inp s r /\ Q x s r
  | MErr _ s _ => Qe s
  | MMisuse => False
  | _ => True
  end.

(** The same without the invariant *)
Definition calm {A : Type} (m : mres A) (Q : A -> rstate -> bytes -> Prop) (Qe : rstate -> Prop) : Prop :=
  match m with
  | MOk x s r => Q x s r
  | MErr _ s _ => Qe s
  | MMisuse => False
  | _ => True
  end.

Lemma fine_good {A : Type} E inp (m : mres A) Q Q2 Qe : good E inp m Q -> calm m Q2 Qe ->
  fine E inp m (fun x s r => Q x s r /\ Q2 x s r) Qe.
Proof. destruct m as [x s r|e s r|n| |]; cbn; tauto. Qed.
Lemma fine_bind {A B : Type} E inp (d : D A) (f : A -> D B) s r Q Q2 Qe : fine E inp (d s r) Q Qe ->
  (forall x s' r', inv E inp s' r' -> Q x s' r' -> fine E inp (f x s' r') Q2 Qe) -> fine E inp (dbind d f s r) Q2 Qe.
Proof.
  intros H Hf. unfold dbind. destruct (d s r) as [x s' r'|e s' r'|n| |]; cbn in *; auto. apply Hf; apply H.
Qed.
Lemma fine_assoc {A B C : Type} E inp (m : D A) (f : A -> D B) (g : B -> D C) s r Q Qe :
  fine E inp (dbind m (fun x => dbind (f x) g) s r) Q Qe -> fine E inp (dbind (dbind m f) g s r) Q Qe.
Proof. unfold dbind. destruct (m s r); auto. Qed.
Lemma fine_misuse_if {B : Type} E inp b (f : unit -> D B) s r Q Qe : b = false ->
  fine E inp (f tt s r) Q Qe -> fine E inp (dbind (dmisuse_if b) f s r) Q Qe.
Proof. intros -> H. exact H. Qed.
Lemma fine_get {B : Type} E inp (f : rstate -> D B) s r Q Qe :
  fine E inp (f s s r) Q Qe -> fine E inp (dbind dget f s r) Q Qe.
Proof. intros H. exact H. Qed.
Lemma fine_impl {A : Type} E inp (m : mres A) (Q Q2 : A -> rstate -> bytes -> Prop) (Qe Qe2 : rstate -> Prop) :
  fine E inp m Q Qe -> (forall x s r, inv E inp s r -> Q x s r -> Q2 x s r) -> (forall s, Qe s -> Qe2 s) -> fine E inp m Q2 Qe2.
Proof. destruct m as [x s r|e s r|n| |]; cbn; auto. intros [H1 H2] H. auto. Qed.

(** ** States *)

(** Something may be peeked *)
Definition quiet (E : env) (s : rstate) : Prop :=
  string_reader_active s = false /\ (is_behind_top_level s = true -> allow_multiple_top_level (cfg E) = true).
(** A value may be read *)
Definition ready (E : env) (s : rstate) : Prop := quiet E s /\ expects_member_name s = false.
(** Between two elements of a container, or behind a top-level value *)
Definition inside (s : rstate) : Prop := string_reader_active s = false /\ expects_member_name s = is_in_object s.
(** A value has been read completely *)
Definition finished (s s' : rstate) : Prop := stack s' = stack s /\ inside s' /\ is_empty s' = false.

Lemma quiet_same E s s' : same s s' -> quiet E s -> quiet E s'.
Proof. unfold quiet, is_behind_top_level. intros (-> & _ & -> & -> & _). auto. Qed.
Lemma ready_same E s s' : same s s' -> ready E s -> ready E s'.
Proof. intros H [Hq Hn]. split; [exact (quiet_same _ _ _ H Hq)|]. destruct H as (_ & -> & _). exact Hn. Qed.
Lemma inside_same s s' : same s s' -> inside s -> inside s'.
Proof. unfold inside, is_in_object. intros (_ & -> & -> & -> & _). auto. Qed.
Lemma finished_same s s1 s2 : same s s1 -> finished s1 s2 -> finished s s2.
Proof. unfold finished. intros (_ & _ & -> & _). auto. Qed.
Lemma same_sym s s' : same s s' -> same s' s.
Proof. unfold same. intros (H1 & H2 & H3 & H4 & H5). auto. Qed.

Lemma quiet_nested E s v st : stack s = v :: st -> string_reader_active s = false -> quiet E s.
Proof.
  unfold quiet, is_behind_top_level. intros -> H. split; [exact H|]. rewrite ?andb_false_r. discriminate.
Qed.

(** ** Peeking *)

Lemma after_name_calm E t s r : peeked s = None -> calm (d_after_name E t s r) (fun _ s' _ => same s s') (fun _ => False).
Proof.
  intros Hpk. unfold d_after_name. destruct (ws_scan E t (Some MissingColon) r) as [[w [|b r']]| |]; cbn; auto.
  destruct (b =? B_COLON); cbn; auto. exact (same_trans _ _ _ (same_move w s) (same_advance 1 1 _)).
Qed.
Lemma fresh_calm E t s r : calm (d_fresh E t s r) (fun _ _ _ => True) (fun _ => False).
Proof.
  unfold d_fresh. destruct (ws_scan E t None r) as [[w [|b r']]| |]; try exact I.
  destruct (b =? B_COMMA).
  - destruct (negb (can_have_comma s)); [exact I|].
    destruct (ws_scan E t (Some IncompleteDocument) r') as [[w2 r2]| |]; try exact I.
    destruct (token _ _ _ _) as [[p r3]|]; [|exact I].
    destruct (is_end_token p && negb (allow_trailing_comma (cfg E))); exact I.
  - destruct (token _ _ _ _) as [[p r3]|]; [|exact I]. destruct (negb (is_end_token p) && can_have_comma s); exact I.
Qed.

Lemma peek_optional_fine E inp t s r : (length inp < fuel E)%nat -> inv E inp s r -> quiet E s ->
  fine E inp (d_peek_optional E t s r) (fun op s' r' => same s s' /\ peeked s' = op) (fun _ => False).
Proof.
  intros Hf Hinv [Hact Htop]. eapply fine_impl; [apply (fine_good _ _ _ _ (fun _ _ _ => True) (fun _ => False) (peek_optional_good E inp t s r Hf Hinv))| |].
  - unfold d_peek_optional, dbind, dget, dmisuse_if. rewrite Hact. unfold dret. destruct (peeked s) as [p|] eqn:Hpk; [exact I|].
    replace (is_behind_top_level s && negb (allow_multiple_top_level (cfg E))) with false
      by (symmetry; destruct (is_behind_top_level s); [rewrite Htop by reflexivity|]; reflexivity).
    destruct (expects_member_value s).
    + pose proof (after_name_calm E t s r Hpk) as H. destruct (d_after_name E t s r) as [x s' r'|e s' r'|n| |]; cbn in *; auto.
      apply fresh_calm.
    + apply fresh_calm.
  - cbn. tauto.
  - auto.
Qed.

Lemma peek_internal_fine E inp t s r : (length inp < fuel E)%nat -> inv E inp s r -> quiet E s ->
  fine E inp (d_peek_internal E t s r) (fun p s' r' => same s s' /\ peeked s' = Some p) (fun s' => same s s').
Proof.
  intros Hf Hinv Hq. unfold d_peek_internal.
  eapply fine_bind; [eapply fine_impl; [apply (peek_optional_fine E inp t s r Hf Hinv Hq)|intros ? ? ? _ Hx; exact Hx|contradiction]|].
  intros [p|] s' r' Hinv' (H1 & H2).
  - cbn [fine dret]. splits; auto.
  - apply fine_get. destruct (_ && _); [exact H1|exact I].
Qed.

Lemma map_peeked_fine E inp s r p : inv E inp s r -> peeked s = Some p -> expects_member_name s = false ->
  fine E inp (d_map_peeked p s r) (fun ty s' r' => s' = s /\ r' = r /\ type_of p = Some ty) (fun s' => s' = s).
Proof.
  intros Hinv Hpk Hn. pose proof (map_peeked_good E inp s r p Hinv Hpk Hn) as H. destruct p; cbn in *; auto.
Qed.

Lemma peek_fine E inp t s r : (length inp < fuel E)%nat -> inv E inp s r -> ready E s ->
  fine E inp (d_peek E t s r) (fun ty s' r' => same s s') (fun s' => same s s').
Proof.
  intros Hf Hinv [Hq Hn]. unfold d_peek. apply fine_get, fine_misuse_if; [exact Hn|].
  eapply fine_bind; [apply (peek_internal_fine E inp t s r Hf Hinv Hq)|].
  intros p s' r' Hinv' (H1 & H2).
  assert (Hn' : expects_member_name s' = false) by (destruct H1 as (_ & -> & _); exact Hn).
  eapply fine_impl; [apply (map_peeked_fine E inp s' r' p Hinv' H2 Hn')| |].
  - intros ty s2 r2 _ (-> & -> & Hty). exact H1.
  - intros s2 ->. exact H1.
Qed.

Lemma start_fine E inp t ty chk s r : (length inp < fuel E)%nat -> inv E inp s r -> ready E s ->
  fine E inp (d_start E t ty chk s r) (fun p s' r' => same s s' /\ peeked s' = None /\ type_of p = Some ty /\ (ty = TNumber -> number_start r'))
    (fun s' => same s s').
Proof.
  intros Hf Hinv [Hq Hn].
  eapply fine_impl; [apply (fine_good _ _ _ _ (fun _ _ _ => True) (fun s' => same s s') (start_good E inp t ty chk s r Hf Hinv))| |].
  - unfold d_start. unfold dbind at 1, dget at 1. unfold dbind at 1, dmisuse_if. rewrite Hn. unfold dret at 1. unfold dbind at 1.
    pose proof (peek_internal_fine E inp t s r Hf Hinv Hq) as Hp.
    destruct (d_peek_internal E t s r) as [p s' r'|e s' r'|n| |]; cbn in Hp; try exact I; try exact Hp; try contradiction.
    destruct Hp as (Hinv' & H1 & H2).
    assert (Hn' : expects_member_name s' = false) by (destruct H1 as (_ & -> & _); exact Hn).
    pose proof (map_peeked_fine E inp s' r' p Hinv' H2 Hn') as Hm. unfold dbind at 1.
    destruct (d_map_peeked p s' r') as [ty' s2 r2|e s2 r2|n| |]; cbn in Hm; try exact I; try contradiction; [|subst; exact H1].
    destruct Hm as (_ & -> & -> & Hty). destruct (value_type_eqb ty' ty); [|exact H1].
    unfold dbind at 1, dget at 1. destruct (if chk then _ else _) as [m|]; [exact H1|].
    unfold d_consume_peeked, dbind, dget, dupdate, dret. rewrite H2. exact I.
  - cbn. tauto.
  - auto.
Qed.

(** ** Ends of values *)

Lemma value_end_fine E inp s r Qe : inv E inp s r -> peeked s = None -> expects_member_name s = false ->
  string_reader_active s = false ->
  fine E inp (d_on_value_end s r) (fun _ s' r' => finished s s' /\ peeked s' = None) Qe.
Proof.
  intros Hinv Hpk Hn Ha. pose proof (value_end_good E inp s r Hinv Hpk Hn Ha) as H. pose proof (value_end_pure s r) as Hp.
  destruct (d_on_value_end s r) as [x s' r'|e s' r'|n| |]; cbn in *; try tauto.
  destruct H as (Hi & H1 & H2 & H3 & H4 & H5 & H6). split; [exact Hi|]. unfold finished, inside, is_in_object in *. rewrite H1. auto.
Qed.

Lemma container_end_fine E inp s r v st Qe : inv E inp s r -> peeked s = None -> expects_member_name s = false ->
  string_reader_active s = false -> stack s = v :: st ->
  fine E inp (d_on_container_end s r) (fun _ s' r' => stack s' = st /\ inside s' /\ is_empty s' = false) Qe.
Proof.
  intros Hinv Hpk Hn Ha Hst. pose proof (container_end_good E inp s r v st Hinv Hpk Hn Ha Hst) as H.
  unfold d_on_container_end, dbind, dupdate in *. pose proof (value_end_pure (set_path (option_map (@tl piece) (json_path s)) (set_stack (tl (stack s)) s)) r) as Hp.
  destruct (d_on_value_end _ r) as [x s' r'|e s' r'|n| |]; cbn in *; try tauto.
  destruct H as (Hi & H1 & H2 & H3 & H4 & H5 & H6). split; [exact Hi|]. unfold inside, is_in_object. rewrite H1. auto.
Qed.

Lemma end_array_fine E inp t s r st : (length inp < fuel E)%nat -> inv E inp s r ->
  string_reader_active s = false -> stack s = SArray :: st ->
  fine E inp (d_end_array E t s r) (fun _ s' r' => stack s' = st /\ inside s' /\ is_empty s' = false) (fun s' => same s s').
Proof.
  intros Hf Hinv Ha Est. unfold d_end_array. apply fine_get, fine_misuse_if; [unfold is_in_array; rewrite Est; reflexivity|].
  eapply fine_bind; [apply (peek_internal_fine E inp t s r Hf Hinv (quiet_nested _ _ _ _ Est Ha))|].
  intros p s' r' Hinv' (H1 & H4).
  destruct p; try exact H1.
  destruct (consume_peeked_good E inp s' r' _ Hinv' H4) as (Hc & Hinv2 & Hs2 & Hpk2 & Hmu).
  unfold dbind at 1. rewrite Hc. set (s2 := move _ _) in *.
  assert (Hst : stack s2 = stack s). { destruct Hs2 as (_ & _ & -> & _). apply H1. }
  rewrite Est in Hst.
  assert (Hn : expects_member_name s2 = false).
  { destruct (expects_member_name s2) eqn:En; [|reflexivity]. apply (i_name _ _ _ _ Hinv2) in En. unfold is_in_object in En.
    rewrite Hst in En. discriminate. }
  assert (Ha2 : string_reader_active s2 = false).
  { destruct Hs2 as (_ & _ & _ & -> & _). destruct H1 as (_ & _ & _ & -> & _). exact Ha. }
  exact (container_end_fine E inp s2 r' SArray st _ Hinv2 Hpk2 Hn Ha2 Hst).
Qed.

Lemma end_object_fine E inp t s r st : (length inp < fuel E)%nat -> inv E inp s r ->
  string_reader_active s = false -> stack s = SObject :: st -> expects_member_name s = true ->
  fine E inp (d_end_object E t s r) (fun _ s' r' => stack s' = st /\ inside s' /\ is_empty s' = false) (fun s' => same s s').
Proof.
  intros Hf Hinv Ha Est Hn. unfold d_end_object. apply fine_get, fine_misuse_if; [unfold is_in_object; rewrite Est; reflexivity|].
  apply fine_misuse_if; [unfold expects_member_value; rewrite Hn; apply andb_false_r|].
  eapply fine_bind; [apply (peek_internal_fine E inp t s r Hf Hinv (quiet_nested _ _ _ _ Est Ha))|].
  intros p s' r' Hinv' (H1 & H4).
  destruct p; try exact H1.
  destruct (consume_peeked_good E inp s' r' _ Hinv' H4) as (Hc & Hinv2 & Hs2 & Hpk2 & Hmu).
  unfold dbind at 1. rewrite Hc. unfold dbind at 1, dupdate at 1. set (s2 := move _ _) in *.
  assert (Hst : stack s2 = stack s). { destruct Hs2 as (_ & _ & -> & _). apply H1. }
  rewrite Est in Hst.
  assert (Ha2 : string_reader_active s2 = false).
  { destruct Hs2 as (_ & _ & _ & -> & _). destruct H1 as (_ & _ & _ & -> & _). exact Ha. }
  pose proof (inv_expects_false _ _ _ _ Hinv2 Hpk2) as Hinv3.
  exact (container_end_fine E inp (set_expects_name false s2) r' SObject st _ Hinv3 Hpk2 eq_refl Ha2 Hst).
Qed.

Definition opened (v : stack_value) (s s' : rstate) : Prop :=
  stack s' = v :: stack s /\ inside s' /\ is_empty s' = true.

Lemma begin_array_fine E inp t s r : (length inp < fuel E)%nat -> inv E inp s r -> ready E s ->
  fine E inp (d_begin_array E t s r) (fun _ s' r' => opened SArray s s') (fun s' => same s s').
Proof.
  intros Hf Hinv Hr.
  eapply fine_impl; [apply (fine_good _ _ _ _ (fun _ s' _ => opened SArray s s') (fun s' => same s s') (begin_array_good E inp t s r Hf Hinv))|cbn; tauto|auto].
  pose proof (start_fine E inp t TArray true s r Hf Hinv Hr) as H.
  unfold d_begin_array, d_on_container_start, dbind, dupdate.
  destruct (d_start E t TArray true s r) as [p s' r'|e s' r'|n| |]; cbn in *; try exact I; try tauto.
  destruct H as (_ & (H1 & H2 & H3 & H4 & H5) & _). unfold opened, inside, is_in_object. cbn. rewrite H3, H4.
  destruct Hr as [[Ha _] _]. auto.
Qed.
Lemma begin_object_fine E inp t s r : (length inp < fuel E)%nat -> inv E inp s r -> ready E s ->
  fine E inp (d_begin_object E t s r) (fun _ s' r' => opened SObject s s') (fun s' => same s s').
Proof.
  intros Hf Hinv Hr.
  eapply fine_impl; [apply (fine_good _ _ _ _ (fun _ s' _ => opened SObject s s') (fun s' => same s s') (begin_object_good E inp t s r Hf Hinv))|cbn; tauto|auto].
  pose proof (start_fine E inp t TObject true s r Hf Hinv Hr) as H.
  unfold d_begin_object, d_on_container_start, dbind, dupdate.
  destruct (d_start E t TObject true s r) as [p s' r'|e s' r'|n| |]; cbn in *; try exact I; try tauto.
  destruct H as (_ & (H1 & H2 & H3 & H4 & H5) & _). unfold opened, inside, is_in_object. cbn. rewrite H3, H4.
  destruct Hr as [[Ha _] _]. auto.
Qed.

(** [has_next] may be called *)
Definition countable (E : env) (s : rstate) : Prop :=
  string_reader_active s = false /\ expects_member_value s = false /\
  (stack s = [] -> is_empty s = false /\ allow_multiple_top_level (cfg E) = true).

Lemma inside_countable E s v st : stack s = v :: st -> inside s -> countable E s.
Proof.
  unfold countable, inside, expects_member_value. intros Hs [Ha Hn]. rewrite Hn, Hs. splits; [exact Ha|apply andb_negb_r|discriminate].
Qed.

Lemma has_next_fine E inp t s r : (length inp < fuel E)%nat -> inv E inp s r -> countable E s ->
  fine E inp (d_has_next E t s r) (fun h s' r' => same s s') (fun s' => same s s').
Proof.
  intros Hf Hinv (Ha & Hv & Htop).
  eapply fine_impl; [apply (fine_good _ _ _ _ (fun _ s' _ => True) (fun s' => same s s') (has_next_good E inp t s r Hf Hinv))|cbn; tauto|auto].
  unfold d_has_next. unfold dbind at 1, dget at 1. unfold dbind at 1, dmisuse_if at 1. rewrite Hv. unfold dret at 1.
  destruct (stack s) as [|v st] eqn:Est.
  - destruct (Htop eq_refl) as [He Hm]. rewrite He, Hm. cbn [negb dmisuse_if]. unfold dbind at 1, dbind at 1, dret at 1, dbind at 1, dret at 1.
    assert (Hq : quiet E s) by (split; auto).
    pose proof (peek_optional_fine E inp t s r Hf Hinv Hq) as H.
    destruct (d_peek_optional E t s r) as [[p|] s' r'|e s' r'|n| |]; cbn in *; try exact I; try tauto.
    unfold dbind, dget. destruct (_ || _); exact I.
  - unfold dbind at 1. unfold dbind at 1.
    pose proof (peek_internal_fine E inp t s r Hf Hinv (quiet_nested _ _ _ _ Est Ha)) as H.
    destruct (d_peek_internal E t s r) as [p s' r'|e s' r'|n| |]; cbn in *; try exact I; try tauto.
    unfold dbind, dget. destruct (_ || _); exact I.
Qed.

(** ** Names *)

Definition named (s s' : rstate) : Prop :=
  stack s' = stack s /\ is_in_object s = true /\ expects_member_name s' = false /\ string_reader_active s' = false.

Lemma before_name_fine E inp t s r : (length inp < fuel E)%nat -> inv E inp s r ->
  string_reader_active s = false -> expects_member_name s = true ->
  fine E inp (d_before_name E t s r) (fun _ s' r' => named s s' /\ peeked s' = None) (fun s' => same s s').
Proof.
  intros Hf Hinv Ha Hn.
  eapply fine_impl; [apply (fine_good _ _ _ _ (fun _ s' _ => True) (fun s' => same s s') (before_name_good E inp t s r Hf Hinv))| |auto].
  - assert (Hc : countable E s).
    { pose proof (i_name _ _ _ _ Hinv Hn) as Ho. unfold countable, expects_member_value. rewrite Hn, andb_false_r. splits; auto.
      unfold is_in_object in Ho. intros Hs. rewrite Hs in Ho. discriminate. }
    unfold d_before_name. unfold dbind at 1, dget at 1. unfold dbind at 1, dmisuse_if at 1. rewrite Hn. cbn [negb]. unfold dret at 1.
    unfold dbind at 1, dmisuse_if at 1. rewrite Ha. unfold dret at 1. unfold dbind at 1.
    pose proof (has_next_fine E inp t s r Hf Hinv Hc) as H.
    destruct (d_has_next E t s r) as [h s' r'|e s' r'|n| |]; cbn in H; try exact I; try exact H; try contradiction.
    destruct (negb h); [apply H|]. unfold d_consume_peeked, dbind, dupdate, dget. destruct (peeked _); exact I.
  - cbn. unfold named. tauto.
Qed.

Lemma string_calm E s r Q : calm (d_string E s r) (fun _ _ _ => True) Q.
Proof. unfold d_string. destruct (scan_string _ _) as [[[d w] r']| |]; try exact I. destruct (from_utf8 d); exact I. Qed.
Lemma skip_string_calm E s r Q : calm (d_skip_string E s r) (fun _ _ _ => True) Q.
Proof. unfold d_skip_string. destruct (scan_string _ _) as [[[d w] r']| |]; exact I. Qed.
Lemma number_body_calm E t b s r Q : calm (d_number_body E t b s r) (fun _ _ _ => True) Q.
Proof.
  unfold d_number_body. destruct r as [|x l]; [exact I|]. destruct (number_scan _ _) as [[[[n|] w] rest]| |]; try exact I; destruct (hits_error _ _); try exact I.
  destruct (from_utf8 w); [|exact I]. destruct (_ && _); [exact I|]. destruct (sep_ok _ _); exact I.
Qed.
Lemma set_path_name_calm n s r Q : calm (d_set_path_name n s r) (fun _ _ _ => True) Q.
Proof. unfold d_set_path_name, dbind, dget. destruct (json_path s) as [[|[] l]|]; exact I. Qed.

Lemma string_fine E inp s r Qe : (length inp < fuel E)%nat -> inv E inp s r -> peeked s = None ->
  fine E inp (d_string E s r) (fun v s' r' => same s s' /\ peeked s' = None) Qe.
Proof.
  intros Hf Hinv Hpk. eapply fine_impl; [apply (fine_good _ _ _ _ _ Qe (string_good E inp s r Hf Hinv Hpk) (string_calm E s r Qe))|cbn; tauto|auto].
Qed.
Lemma skip_string_fine E inp s r Qe : (length inp < fuel E)%nat -> inv E inp s r -> peeked s = None ->
  fine E inp (d_skip_string E s r) (fun v s' r' => same s s' /\ peeked s' = None) Qe.
Proof.
  intros Hf Hinv Hpk. eapply fine_impl; [apply (fine_good _ _ _ _ _ Qe (skip_string_good E inp s r Hf Hinv Hpk) (skip_string_calm E s r Qe))|cbn; tauto|auto].
Qed.
Lemma number_body_fine E inp t b s r Qe : (length inp < fuel E)%nat -> inv E inp s r -> peeked s = None -> number_start r ->
  fine E inp (d_number_body E t b s r) (fun v s' r' => same s s' /\ peeked s' = None) Qe.
Proof.
  intros Hf Hinv Hpk Hn. eapply fine_impl; [apply (fine_good _ _ _ _ _ Qe (number_body_good E inp t b s r Hf Hinv Hpk Hn) (number_body_calm E t b s r Qe))|cbn; tauto|auto].
Qed.

Lemma next_name_fine E inp t s r : (length inp < fuel E)%nat -> inv E inp s r ->
  string_reader_active s = false -> expects_member_name s = true ->
  fine E inp (d_next_name E t s r) (fun _ s' r' => named s s') (fun s' => same s s').
Proof.
  intros Hf Hinv Ha Hn.
  eapply fine_impl; [apply (fine_good _ _ _ _ (fun _ s' _ => True) (fun s' => same s s') (next_name_good E inp t s r Hf Hinv))| |auto].
  - pose proof (before_name_fine E inp t s r Hf Hinv Ha Hn) as H. unfold d_next_name. unfold dbind at 1.
    destruct (d_before_name E t s r) as [x s' r'|e s' r'|n| |]; cbn in H; try exact I; try exact H; try contradiction.
    unfold dbind at 1. pose proof (string_calm E s' r' (fun _ => False)) as Hs.
    destruct (d_string E s' r') as [v s2 r2|e s2 r2|n| |]; cbn in Hs; try exact I; try contradiction.
    unfold dbind at 1. pose proof (set_path_name_calm v s2 r2 (fun _ => False)) as Hp.
    destruct (d_set_path_name v s2 r2); cbn in Hp; try exact I; contradiction.
  - unfold name_read, named. intros _ s' r' _. tauto.
Qed.

Lemma skip_name_fine E inp t s r : (length inp < fuel E)%nat -> inv E inp s r ->
  string_reader_active s = false -> expects_member_name s = true ->
  fine E inp (d_skip_name E t s r) (fun _ s' r' => named s s') (fun s' => same s s').
Proof.
  intros Hf Hinv Ha Hn.
  eapply fine_impl; [apply (fine_good _ _ _ _ (fun _ s' _ => True) (fun s' => same s s') (skip_name_good E inp t s r Hf Hinv))| |auto].
  - pose proof (before_name_fine E inp t s r Hf Hinv Ha Hn) as H. unfold d_skip_name. unfold dbind at 1.
    destruct (d_before_name E t s r) as [x s' r'|e s' r'|n| |]; cbn in H; try exact I; try exact H; try contradiction.
    unfold dbind at 1, dget at 1. destruct (json_path s').
    + unfold dbind at 1. pose proof (string_calm E s' r' (fun _ => False)) as Hs.
      destruct (d_string E s' r') as [v s2 r2|e s2 r2|n| |]; cbn in Hs; try exact I; try contradiction.
      pose proof (set_path_name_calm v s2 r2 (fun _ => False)) as Hp.
      destruct (d_set_path_name v s2 r2); cbn in Hp; try exact I; contradiction.
    + pose proof (skip_string_calm E s' r' (fun _ => False)) as Hs.
      destruct (d_skip_string E s' r'); cbn in Hs; try exact I; contradiction.
  - unfold name_read, named. intros _ s' r' _. tauto.
Qed.

(** ** Simple values *)

Lemma ready_parts E s s' : same s s' -> ready E s -> expects_member_name s' = false /\ string_reader_active s' = false.
Proof. intros H Hr. destruct (ready_same _ _ _ H Hr) as [[H1 _] H2]. auto. Qed.

Lemma next_bool_fine E inp t s r : (length inp < fuel E)%nat -> inv E inp s r -> ready E s ->
  fine E inp (d_next_bool E t s r) (fun _ s' r' => finished s s') (fun s' => same s s').
Proof.
  intros Hf Hinv Hr. unfold d_next_bool. eapply fine_bind; [apply (start_fine E inp t TBoolean false s r Hf Hinv Hr)|].
  intros p s1 r1 Hinv1 (H1 & H2 & H3 & _). destruct (ready_parts E s s1 H1 Hr) as [Hn Ha].
  destruct p; try discriminate; cbn [dbind dret];
  (eapply fine_bind; [apply (value_end_fine E inp s1 r1 _ Hinv1 H2 Hn Ha)|];
   intros _ s2 r2 Hinv2 (G1 & _); cbn [fine dret]; split; [exact Hinv2|exact (finished_same _ _ _ H1 G1)]).
Qed.
Lemma next_null_fine E inp t s r : (length inp < fuel E)%nat -> inv E inp s r -> ready E s ->
  fine E inp (d_next_null E t s r) (fun _ s' r' => finished s s') (fun s' => same s s').
Proof.
  intros Hf Hinv Hr. unfold d_next_null. eapply fine_bind; [apply (start_fine E inp t TNull false s r Hf Hinv Hr)|].
  intros p s1 r1 Hinv1 (H1 & H2 & H3 & _). destruct (ready_parts E s s1 H1 Hr) as [Hn Ha].
  eapply fine_impl; [apply (value_end_fine E inp s1 r1 (fun s' => same s s') Hinv1 H2 Hn Ha)| |auto].
  intros _ s2 r2 Hinv2 (G1 & _). exact (finished_same _ _ _ H1 G1).
Qed.
Lemma next_string_fine E inp t s r : (length inp < fuel E)%nat -> inv E inp s r -> ready E s ->
  fine E inp (d_next_string E t s r) (fun _ s' r' => finished s s') (fun s' => same s s').
Proof.
  intros Hf Hinv Hr. unfold d_next_string. eapply fine_bind; [apply (start_fine E inp t TString false s r Hf Hinv Hr)|].
  intros p s1 r1 Hinv1 (H1 & H2 & H3 & _).
  eapply fine_bind; [apply (string_fine E inp s1 r1 _ Hf Hinv1 H2)|]. intros v s2 r2 Hinv2 (G1 & G2).
  pose proof (same_trans _ _ _ H1 G1) as Hs. destruct (ready_parts E s s2 Hs Hr) as [Hn Ha].
  eapply fine_bind; [apply (value_end_fine E inp s2 r2 _ Hinv2 G2 Hn Ha)|].
  intros _ s3 r3 Hinv3 (K1 & _). cbn [fine dret]. split; [exact Hinv3|exact (finished_same _ _ _ Hs K1)].
Qed.
Lemma skip_string_value_fine E inp t s r : (length inp < fuel E)%nat -> inv E inp s r -> ready E s ->
  fine E inp ((d_start E t TString false ;; d_skip_string E ;; d_on_value_end ;; dret false)%dm s r)
    (fun b s' r' => b = false /\ finished s s') (fun s' => same s s').
Proof.
  intros Hf Hinv Hr. eapply fine_bind; [apply (start_fine E inp t TString false s r Hf Hinv Hr)|].
  intros p s1 r1 Hinv1 (H1 & H2 & H3 & _).
  eapply fine_bind; [apply (skip_string_fine E inp s1 r1 _ Hf Hinv1 H2)|]. intros v s2 r2 Hinv2 (G1 & G2).
  pose proof (same_trans _ _ _ H1 G1) as Hs. destruct (ready_parts E s s2 Hs Hr) as [Hn Ha].
  eapply fine_bind; [apply (value_end_fine E inp s2 r2 _ Hinv2 G2 Hn Ha)|].
  intros _ s3 r3 Hinv3 (K1 & _). cbn [fine dret]. splits; [exact Hinv3|reflexivity|]. apply (finished_same _ _ _ Hs K1). 
Qed.
Lemma number_fine E inp t b s r : (length inp < fuel E)%nat -> inv E inp s r -> ready E s ->
  fine E inp (d_number E t b s r) (fun _ s' r' => finished s s') (fun s' => same s s').
Proof.
  intros Hf Hinv Hr. unfold d_number. eapply fine_bind; [apply (start_fine E inp t TNumber false s r Hf Hinv Hr)|].
  intros p s1 r1 Hinv1 (H1 & H2 & H3 & H4).
  eapply fine_bind; [apply (number_body_fine E inp t b s1 r1 _ Hf Hinv1 H2 (H4 eq_refl))|]. intros v s2 r2 Hinv2 (G1 & G2).
  pose proof (same_trans _ _ _ H1 G1) as Hs. destruct (ready_parts E s s2 Hs Hr) as [Hn Ha].
  eapply fine_bind; [apply (value_end_fine E inp s2 r2 _ Hinv2 G2 Hn Ha)|].
  intros _ s3 r3 Hinv3 (K1 & _). cbn [fine dret]. split; [exact Hinv3|exact (finished_same _ _ _ Hs K1)].
Qed.

(** ** Skipping *)

Definition any (_ : rstate) : Prop := True.

Ltac weaken H := eapply fine_impl; [apply H|let q := fresh in intros ? ? ? _ q; exact q|intros; exact I].

Lemma skip_value_start_fine E inp t s r : (length inp < fuel E)%nat -> inv E inp s r -> ready E s ->
  fine E inp (d_skip_value_start E t s r) (fun started s' r' =>
    if started : bool then exists v, opened v s s' else finished s s') any.
Proof.
  intros Hf Hinv Hr. unfold d_skip_value_start. eapply fine_bind; [weaken (peek_fine E inp t s r Hf Hinv Hr)|].
  intros ty s1 r1 Hinv1 H1. cbv beta in H1. pose proof (ready_same _ _ _ H1 Hr) as Hr1.
  assert (Ho : forall v s2, opened v s1 s2 -> opened v s s2) by (unfold opened; destruct H1 as (_ & _ & -> & _); auto).
  assert (Hfi : forall s2, finished s1 s2 -> finished s s2) by (intros s2; apply finished_same; exact H1).
  destruct ty.
  - eapply fine_bind; [weaken (begin_array_fine E inp t s1 r1 Hf Hinv1 Hr1)|]. intros u2 s2 r2 Hinv2 G. cbn. split; [exact Hinv2|]. eexists. apply Ho. exact G.
  - eapply fine_bind; [weaken (begin_object_fine E inp t s1 r1 Hf Hinv1 Hr1)|]. intros u2 s2 r2 Hinv2 G. cbn. split; [exact Hinv2|]. eexists. apply Ho. exact G.
  - eapply fine_impl; [apply (skip_string_value_fine E inp t s1 r1 Hf Hinv1 Hr1)| |intros; exact I]. intros u2 s2 r2 Hinv2 (-> & G). apply Hfi. exact G.
  - eapply fine_bind; [weaken (number_fine E inp t false s1 r1 Hf Hinv1 Hr1)|]. intros u2 s2 r2 Hinv2 G. cbn. split; [exact Hinv2|apply Hfi; exact G].
  - eapply fine_bind; [weaken (next_bool_fine E inp t s1 r1 Hf Hinv1 Hr1)|]. intros u2 s2 r2 Hinv2 G. cbn. split; [exact Hinv2|apply Hfi; exact G].
  - eapply fine_bind; [weaken (next_null_fine E inp t s1 r1 Hf Hinv1 Hr1)|]. intros u2 s2 r2 Hinv2 G. cbn. split; [exact Hinv2|apply Hfi; exact G].
Qed.

Lemma inside_ready E s v st : stack s = v :: st -> inside s -> expects_member_name s = false -> ready E s.
Proof. intros Hs [Ha _] Hn. split; [exact (quiet_nested _ _ _ _ Hs Ha)|exact Hn]. Qed.

Lemma end_container_fine E inp t s r v st : (length inp < fuel E)%nat -> inv E inp s r -> stack s = v :: st -> inside s ->
  fine E inp (d_end_container E t s r) (fun _ s' r' => stack s' = st /\ inside s' /\ is_empty s' = false) any.
Proof.
  intros Hf Hinv Hs [Ha Hn]. unfold d_end_container. apply fine_get. unfold is_in_array. rewrite Hs. destruct v.
  - weaken (end_array_fine E inp t s r st Hf Hinv Ha Hs).
  - assert (Hn2 : expects_member_name s = true) by (rewrite Hn; unfold is_in_object; rewrite Hs; reflexivity).
    weaken (end_object_fine E inp t s r st Hf Hinv Ha Hs Hn2).
Qed.

(** The containers [cs] have been opened above the stack [st]; without any: the
    value has not been started or is complete *)
Definition at_depth (E : env) (depth : nat) (st : list stack_value) (s : rstate) : Prop :=
  match depth with
  | O => stack s = st /\ ready E s
  | S _ => exists cs, length cs = depth /\ stack s = cs ++ st /\ inside s
  end.
Definition after_step (depth : nat) (st : list stack_value) (s : rstate) : Prop :=
  exists cs, length cs = depth /\ stack s = cs ++ st /\ inside s /\ (depth = O -> is_empty s = false).

Lemma after_at E depth st s : after_step (S depth) st s -> at_depth E (S depth) st s.
Proof. intros (cs & H1 & H2 & H3 & _). exists cs. auto. Qed.

Lemma skip_step_fine E inp t depth st s r : (length inp < fuel E)%nat -> inv E inp s r -> at_depth E depth st s ->
  fine E inp (d_skip_step E t depth s r) (fun depth' s' r' => after_step depth' st s') any.
Proof.
  intros Hf Hinv Hd. unfold d_skip_step. destruct depth as [|depth].
  - destruct Hd as [Hs Hr]. unfold dbind at 1, dret at 1. cbn [negb]. apply fine_get. pose proof Hr as [_ Hn]. rewrite Hn.
    unfold dbind at 1, dret at 1.
    eapply fine_bind; [apply (skip_value_start_fine E inp t s r Hf Hinv Hr)|]. intros [] s1 r1 Hinv1 H1; cbn [fine dret]; (split; [exact Hinv1|]).
    + destruct H1 as (v & H1 & H2 & H3). exists [v]. rewrite H1, Hs. splits; auto. discriminate.
    + destruct H1 as (H1 & H2 & H3). exists []. rewrite H1, Hs. auto.
  - destruct Hd as (cs & Hl & Hs & Hi). destruct cs as [|v cs]; [discriminate|]. cbn [app] in Hs. injection Hl as Hl.
    eapply fine_bind; [weaken (has_next_fine E inp t s r Hf Hinv (inside_countable E s v _ Hs Hi))|].
    intros h s1 r1 Hinv1 H1. cbv beta in H1. pose proof (inside_same _ _ H1 Hi) as Hi1.
    assert (Hs1 : stack s1 = v :: cs ++ st) by (destruct H1 as (_ & _ & -> & _); exact Hs).
    destruct h; cbn [negb].
    + apply fine_get.
      apply (fine_bind E inp _ _ s1 r1 (fun _ s' _ => stack s' = stack s1 /\ ready E s')).
      { destruct (expects_member_name s1) eqn:En.
        - eapply fine_impl; [apply (skip_name_fine E inp t s1 r1 Hf Hinv1 (proj1 Hi1) En)| |intros; exact I].
          cbn. intros _ s' r' _ (K1 & _ & K2 & K3). split; [exact K1|]. split; [|exact K2].
          rewrite Hs1 in K1. exact (quiet_nested _ _ _ _ K1 K3).
        - cbn. split; [exact Hinv1|]. split; [reflexivity|]. exact (inside_ready E s1 v _ Hs1 Hi1 En). }
      intros _ s2 r2 Hinv2 (K1 & K2).
      eapply fine_bind; [apply (skip_value_start_fine E inp t s2 r2 Hf Hinv2 K2)|]. intros [] s3 r3 Hinv3 H3; cbn [fine dret]; (split; [exact Hinv3|]).
      * destruct H3 as (v' & G1 & G2 & G3). exists (v' :: v :: cs). rewrite G1, K1, Hs1. cbn. rewrite Hl. splits; auto. discriminate.
      * destruct H3 as (G1 & G2 & G3). exists (v :: cs). rewrite G1, K1, Hs1. cbn. rewrite Hl. splits; auto.
    + eapply fine_bind; [apply (end_container_fine E inp t s1 r1 v (cs ++ st) Hf Hinv1 Hs1 Hi1)|].
      intros _ s2 r2 Hinv2 (G1 & G2 & G3). cbn [fine dret pred]. split; [exact Hinv2|]. exists cs. auto.
Qed.

Lemma skip_value_loop_fine E inp t st f : forall depth s r, (length inp < fuel E)%nat -> inv E inp s r -> at_depth E depth st s ->
  fine E inp (d_skip_value_loop E t f depth s r) (fun _ s' r' => stack s' = st /\ inside s' /\ is_empty s' = false) any.
Proof.
  induction f as [|f IH]; intros depth s r Hf Hinv Hd; [exact I|]. cbn [d_skip_value_loop].
  eapply fine_bind; [apply (skip_step_fine E inp t depth st s r Hf Hinv Hd)|]. intros depth' s1 r1 Hinv1 H1.
  destruct depth' as [|d'].
  - destruct H1 as (cs & Hl & Hs & Hi & He). destruct cs; [|discriminate]. cbn. auto.
  - apply IH; auto. apply after_at. exact H1.
Qed.

Lemma skip_value_fine E inp t s r : (length inp < fuel E)%nat -> inv E inp s r -> ready E s ->
  fine E inp (d_skip_value E t s r) (fun _ s' r' => finished s s') any.
Proof.
  intros Hf Hinv Hr. unfold d_skip_value. apply fine_get, fine_misuse_if; [apply Hr|].
  eapply fine_impl; [apply (skip_value_loop_fine E inp t (stack s) (fuel E) 0 s r Hf Hinv)|auto|auto]. cbn. auto.
Qed.

Lemma skip_items_fine E inp t st f : forall s r, (length inp < fuel E)%nat -> inv E inp s r ->
  stack s = SArray :: st -> inside s ->
  fine E inp (d_skip_items E t f s r) (fun _ s' r' => stack s' = SArray :: st /\ inside s') any.
Proof.
  induction f as [|f IH]; intros s r Hf Hinv Hs Hi; [exact I|]. cbn [d_skip_items].
  eapply fine_bind; [weaken (has_next_fine E inp t s r Hf Hinv (inside_countable E s _ _ Hs Hi))|].
  intros h s1 r1 Hinv1 H1. cbv beta in H1. pose proof (inside_same _ _ H1 Hi) as Hi1.
  assert (Hs1 : stack s1 = SArray :: st) by (destruct H1 as (_ & _ & -> & _); exact Hs).
  destruct h; [|cbn; auto].
  assert (Hr : ready E s1).
  { apply (inside_ready E s1 _ _ Hs1 Hi1). destruct Hi1 as [_ ->]. unfold is_in_object. rewrite Hs1. reflexivity. }
  eapply fine_bind; [apply (skip_value_fine E inp t s1 r1 Hf Hinv1 Hr)|]. intros u2 s2 r2 Hinv2 (G1 & G2 & _).
  apply IH; auto. congruence.
Qed.

Lemma skip_members_fine E inp t st f : forall s r, (length inp < fuel E)%nat -> inv E inp s r ->
  stack s = SObject :: st -> inside s ->
  fine E inp (d_skip_members E t f s r) (fun _ s' r' => stack s' = SObject :: st /\ inside s') any.
Proof.
  induction f as [|f IH]; intros s r Hf Hinv Hs Hi; [exact I|]. cbn [d_skip_members].
  eapply fine_bind; [weaken (has_next_fine E inp t s r Hf Hinv (inside_countable E s _ _ Hs Hi))|].
  intros h s1 r1 Hinv1 H1. cbv beta in H1. pose proof (inside_same _ _ H1 Hi) as Hi1.
  assert (Hs1 : stack s1 = SObject :: st) by (destruct H1 as (_ & _ & -> & _); exact Hs).
  destruct h; [|cbn; auto].
  assert (Hn : expects_member_name s1 = true) by (destruct Hi1 as [_ ->]; unfold is_in_object; rewrite Hs1; reflexivity).
  eapply fine_bind; [weaken (skip_name_fine E inp t s1 r1 Hf Hinv1 (proj1 Hi1) Hn)|]. intros u2 s2 r2 Hinv2 (K1 & _ & K2 & K3).
  rewrite Hs1 in K1. assert (Hr : ready E s2) by (split; [exact (quiet_nested _ _ _ _ K1 K3)|exact K2]).
  eapply fine_bind; [apply (skip_value_fine E inp t s2 r2 Hf Hinv2 Hr)|]. intros u3 s3 r3 Hinv3 (G1 & G2 & _).
  apply IH; auto. congruence.
Qed.

Lemma inside_name s st : stack s = SObject :: st -> inside s -> expects_member_name s = true.
Proof. intros Hs [_ ->]. unfold is_in_object. rewrite Hs. reflexivity. Qed.

Lemma skip_to_top_level_loop_fine E inp t f : forall s r, (length inp < fuel E)%nat -> inv E inp s r ->
  inside s -> (stack s = [] -> is_empty s = false) ->
  fine E inp (d_skip_to_top_level_loop E t f s r) (fun _ s' r' => stack s' = [] /\ inside s' /\ is_empty s' = false) any.
Proof.
  induction f as [|f IH]; intros s r Hf Hinv Hi He; [exact I|]. cbn [d_skip_to_top_level_loop]. apply fine_get.
  destruct (stack s) as [|[] st] eqn:Est; [cbn; auto| |].
  - eapply fine_bind; [apply (skip_items_fine E inp t st (fuel E) s r Hf Hinv Est Hi)|]. intros u2 s2 r2 Hinv2 (H1 & H2).
    eapply fine_bind; [weaken (end_array_fine E inp t s2 r2 st Hf Hinv2 (proj1 H2) H1)|]. intros u3 s3 r3 Hinv3 (G1 & G2 & G3).
    apply IH; auto.
  - eapply fine_bind; [apply (skip_members_fine E inp t st (fuel E) s r Hf Hinv Est Hi)|]. intros u2 s2 r2 Hinv2 (H1 & H2).
    eapply fine_bind; [weaken (end_object_fine E inp t s2 r2 st Hf Hinv2 (proj1 H2) H1 (inside_name _ _ H1 H2))|]. intros u3 s3 r3 Hinv3 (G1 & G2 & G3).
    apply IH; auto.
Qed.

(** Nothing happens outside of all containers *)
Lemma skip_to_top_level_fine E inp t s r : (length inp < fuel E)%nat -> inv E inp s r -> string_reader_active s = false ->
  fine E inp (d_skip_to_top_level E t s r) (fun _ s' r' =>
    match stack s with [] => s' = s | _ => stack s' = [] /\ inside s' /\ is_empty s' = false end) any.
Proof.
  intros Hf Hinv Ha. unfold d_skip_to_top_level. apply fine_get, fine_misuse_if; [exact Ha|].
  destruct (stack s) as [|v st] eqn:Est.
  { unfold expects_member_value, is_in_object. rewrite Est. cbn [andb]. unfold dbind, dret.
    destruct (fuel E) as [|f]; [exact I|]. cbn [d_skip_to_top_level_loop]. apply fine_get. rewrite Est. cbn. auto. }
  apply (fine_bind E inp _ _ s r (fun _ s' _ => stack s' = v :: st /\ inside s')).
  { destruct (expects_member_value s) eqn:Ev.
    - unfold expects_member_value in Ev. apply andb_true_iff in Ev as [Ho Hn]. apply negb_true_iff in Hn.
      assert (Hr : ready E s) by (split; [exact (quiet_nested _ _ _ _ Est Ha)|exact Hn]).
      eapply fine_impl; [apply (skip_value_fine E inp t s r Hf Hinv Hr)| |auto]. intros _ s' r' _ (G1 & G2 & _). split; [congruence|exact G2].
    - cbn. split; [exact Hinv|]. split; [exact Est|]. split; [exact Ha|]. unfold expects_member_value in Ev.
      destruct (is_in_object s) eqn:Eo; cbn in Ev; [apply negb_false_iff in Ev; exact Ev|].
      destruct (expects_member_name s) eqn:En; [|reflexivity]. rewrite (i_name _ _ _ _ Hinv En) in Eo. discriminate. }
  intros _ s1 r1 Hinv1 (H1 & H2). apply skip_to_top_level_loop_fine; auto. rewrite H1. discriminate.
Qed.

(** ** Seeking *)

Lemma seek_item_fine E inp t st f : forall i n s r, (length inp < fuel E)%nat -> inv E inp s r -> stack s = SArray :: st -> inside s ->
  fine E inp (d_seek_item E t f i n s r) (fun _ s' _ => stack s' = SArray :: st /\ ready E s') any.
Proof.
  induction f as [|f IH]; intros i n s r Hf Hinv Hs Hi; [exact I|]. cbn [d_seek_item].
  eapply fine_bind; [weaken (has_next_fine E inp t s r Hf Hinv (inside_countable E s _ _ Hs Hi))|].
  intros h s1 r1 Hinv1 H1. cbv beta in H1. pose proof (inside_same _ _ H1 Hi) as Hi1.
  assert (Hs1 : stack s1 = SArray :: st) by (destruct H1 as (_ & _ & -> & _); exact Hs).
  destruct (negb h); [exact I|].
  assert (Hr : ready E s1).
  { apply (inside_ready E s1 _ _ Hs1 Hi1). destruct Hi1 as [_ ->]. unfold is_in_object. rewrite Hs1. reflexivity. }
  destruct (n =? 0); [cbn; auto|].
  eapply fine_bind; [apply (skip_value_fine E inp t s1 r1 Hf Hinv1 Hr)|]. intros u2 s2 r2 Hinv2 (G1 & G2 & _). apply IH; auto. congruence.
Qed.

Lemma seek_member_fine E inp t st f : forall n s r, (length inp < fuel E)%nat -> inv E inp s r -> stack s = SObject :: st -> inside s ->
  fine E inp (d_seek_member E t f n s r) (fun _ s' _ => stack s' = SObject :: st /\ ready E s') any.
Proof.
  induction f as [|f IH]; intros n s r Hf Hinv Hs Hi; [exact I|]. cbn [d_seek_member].
  eapply fine_bind; [weaken (has_next_fine E inp t s r Hf Hinv (inside_countable E s _ _ Hs Hi))|].
  intros h s1 r1 Hinv1 H1. cbv beta in H1. pose proof (inside_same _ _ H1 Hi) as Hi1.
  assert (Hs1 : stack s1 = SObject :: st) by (destruct H1 as (_ & _ & -> & _); exact Hs).
  destruct (negb h); [exact I|].
  eapply fine_bind; [weaken (next_name_fine E inp t s1 r1 Hf Hinv1 (proj1 Hi1) (inside_name _ _ Hs1 Hi1))|]. intros m s2 r2 Hinv2 (K1 & _ & K2 & K3).
  rewrite Hs1 in K1. assert (Hr : ready E s2) by (split; [exact (quiet_nested _ _ _ _ K1 K3)|exact K2]).
  destruct (str_eqb m n); [cbn; auto|].
  eapply fine_bind; [apply (skip_value_fine E inp t s2 r2 Hf Hinv2 Hr)|]. intros u3 s3 r3 Hinv3 (G1 & G2 & _). apply IH; auto. congruence.
Qed.

Definition kind_of (p : piece) : stack_value := match p with PIndex _ => SArray | PName _ => SObject end.

Lemma seek_pieces_fine E inp t p : forall s r, (length inp < fuel E)%nat -> inv E inp s r -> ready E s ->
  fine E inp (d_seek_pieces E t p s r) (fun _ s' _ => stack s' = rev (map kind_of p) ++ stack s /\ ready E s' /\ (p = [] -> same s s')) any.
Proof.
  induction p as [|[i|n] p IH]; intros s r Hf Hinv Hr; cbn [d_seek_pieces].
  - cbn. splits; auto using same_refl.
  - eapply fine_bind; [weaken (begin_array_fine E inp t s r Hf Hinv Hr)|]. intros u1 s1 r1 Hinv1 (G1 & G2 & _).
    eapply fine_bind; [apply (seek_item_fine E inp t (stack s) (fuel E) i i s1 r1 Hf Hinv1 G1 G2)|]. intros u2 s2 r2 Hinv2 (K1 & K2).
    eapply fine_impl; [apply IH; auto| |auto]. cbn. intros _ s3 r3 _ (L1 & L2 & _). rewrite L1, K1, <- app_assoc. splits; auto. discriminate.
  - eapply fine_bind; [weaken (begin_object_fine E inp t s r Hf Hinv Hr)|]. intros u1 s1 r1 Hinv1 (G1 & G2 & _).
    eapply fine_bind; [apply (seek_member_fine E inp t (stack s) (fuel E) n s1 r1 Hf Hinv1 G1 G2)|]. intros u2 s2 r2 Hinv2 (K1 & K2).
    eapply fine_impl; [apply IH; auto| |auto]. cbn. intros _ s3 r3 _ (L1 & L2 & _). rewrite L1, K1, <- app_assoc. splits; auto. discriminate.
Qed.

Lemma seek_to_fine E inp t p s r : (length inp < fuel E)%nat -> inv E inp s r -> ready E s ->
  fine E inp (d_seek_to E t p s r) (fun _ s' _ => stack s' = rev (map kind_of p) ++ stack s /\ ready E s' /\ (p = [] -> same s s')) any.
Proof.
  intros Hf Hinv Hr. unfold d_seek_to. eapply fine_bind; [weaken (peek_fine E inp t s r Hf Hinv Hr)|].
  intros u1 s1 r1 Hinv1 H1. cbv beta in H1. eapply fine_impl; [apply seek_pieces_fine; auto; exact (ready_same _ _ _ H1 Hr)| |auto].
  cbn. intros _ s2 r2 _ (G1 & G2 & G3). splits; auto.
  - rewrite G1. destruct H1 as (_ & _ & -> & _). reflexivity.
  - intros Hp. exact (same_trans _ _ _ H1 (G3 Hp)).
Qed.

Lemma seek_back_pieces_fine E inp t p : forall s r st, (length inp < fuel E)%nat -> inv E inp s r ->
  stack s = map kind_of p ++ st -> inside s ->
  fine E inp (d_seek_back_pieces E t p s r) (fun _ s' _ => stack s' = st /\
    (p <> [] -> inside s' /\ is_empty s' = false) /\ (p = [] -> s' = s)) any.
Proof.
  induction p as [|[i|n] p IH]; intros s r st Hf Hinv Hs Hi; cbn [d_seek_back_pieces].
  - cbn in *. splits; auto; congruence.
  - cbn [map kind_of app] in Hs.
    eapply fine_bind; [apply (skip_items_fine E inp t (map kind_of p ++ st) (fuel E) s r Hf Hinv Hs Hi)|]. intros u1 s1 r1 Hinv1 (H1 & H2).
    eapply fine_bind; [weaken (end_array_fine E inp t s1 r1 (map kind_of p ++ st) Hf Hinv1 (proj1 H2) H1)|]. intros u2 s2 r2 Hinv2 (G1 & G2 & G3).
    eapply fine_impl; [apply (IH s2 r2 st Hf Hinv2 G1 G2)| |auto]. intros _ s3 r3 _ (K1 & K2 & K3). splits; auto; [|discriminate].
    intros _. destruct p; [rewrite (K3 eq_refl); auto|apply K2; discriminate].
  - cbn [map kind_of app] in Hs.
    eapply fine_bind; [apply (skip_members_fine E inp t (map kind_of p ++ st) (fuel E) s r Hf Hinv Hs Hi)|]. intros u1 s1 r1 Hinv1 (H1 & H2).
    eapply fine_bind; [weaken (end_object_fine E inp t s1 r1 (map kind_of p ++ st) Hf Hinv1 (proj1 H2) H1 (inside_name _ _ H1 H2))|]. intros u2 s2 r2 Hinv2 (G1 & G2 & G3).
    eapply fine_impl; [apply (IH s2 r2 st Hf Hinv2 G1 G2)| |auto]. intros _ s3 r3 _ (K1 & K2 & K3). splits; auto; [|discriminate].
    intros _. destruct p; [rewrite (K3 eq_refl); auto|apply K2; discriminate].
Qed.
