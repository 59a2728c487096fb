(** * Writer: further consequences for runs *)

From Verif Require Import Base Utf8Model Utf8Proofs NumberModel SpecNumber NumberProofs SpecJson
  WriterModel SpecWriter Utf8Prefix WriterProofs WriterDocProofs WriterStringProofs WriterSession WriterRun WriterSafe.

(** ** A call describes at most one document *)

Lemma digits_bound ds : Forall digit ds -> digits_value ds < 10 ^ N.of_nat (length ds).
Proof.
  induction ds as [|d ds IH] using rev_ind; intros H; [cbn; lia|].
  apply Forall_app in H as [H1 H2]. apply Forall_inv in H2. specialize (IH H1).
  rewrite digits_value_app, app_length. cbn [length]. rewrite Nat.add_1_r, Nat2N.inj_succ, N.pow_succ_r by lia.
  unfold digit in H2. lia.
Qed.

Lemma digits_inj a : forall b, Forall digit a -> Forall digit b -> length a = length b ->
  digits_value a = digits_value b -> a = b.
Proof.
  induction a as [|d a IH] using rev_ind; intros b Ha Hb Hl Hv.
  - destruct b; [reflexivity|discriminate].
  - destruct b as [|e b _] using rev_ind; [rewrite app_length in Hl; cbn in Hl; lia|].
    rewrite !app_length in Hl. cbn in Hl. apply Forall_app in Ha as [Ha Hd], Hb as [Hb He].
    apply Forall_inv in Hd, He. rewrite !digits_value_app in Hv. unfold digit in Hd, He.
    assert (digits_value a = digits_value b /\ d = e) as [H1 ->] by lia. rewrite (IH b); auto. lia.
Qed.

Lemma digits_value_lead d ds : digits_value (d :: ds) = (d - 0x30) * 10 ^ N.of_nat (length ds) + digits_value ds.
Proof.
  induction ds as [|e ds IH] using rev_ind; [cbn; lia|].
  rewrite app_comm_cons, !digits_value_app, IH, app_length. cbn [length].
  rewrite Nat.add_1_r, Nat2N.inj_succ, N.pow_succ_r by lia. lia.
Qed.

Lemma int_text_inj a b : int_text a -> int_text b -> digits_value a = digits_value b -> a = b.
Proof.
  assert (Hz : forall d ds, 0x31 <= d <= 0x39 -> Forall digit ds ->
    10 ^ N.of_nat (length ds) <= digits_value (d :: ds) < 10 ^ N.of_nat (S (length ds))).
  { intros d ds Hd Hds. pose proof (digits_bound ds Hds) as Hb.
    rewrite digits_value_lead, Nat2N.inj_succ, N.pow_succ_r by lia.
    assert (0 < 10 ^ N.of_nat (length ds)) by (apply N.neq_0_lt_0, N.pow_nonzero; discriminate). nia. }
  assert (H0 : forall d ds, 0x31 <= d <= 0x39 -> Forall digit ds -> digits_value (d :: ds) <> 0).
  { intros d ds Hd Hds. specialize (Hz d ds Hd Hds).
    assert (0 < 10 ^ N.of_nat (length ds)) by (apply N.neq_0_lt_0, N.pow_nonzero; discriminate). lia. }
  intros [->|(d & ds & -> & Hd & Hds)] [->|(e & es & -> & He & Hes)] Hv.
  - reflexivity.
  - exfalso. apply (H0 e es); auto.
  - exfalso. apply (H0 d ds); auto.
  - apply digits_inj; auto; try (constructor; [unfold digit; lia|assumption]).
    pose proof (Hz d ds Hd Hds) as H1. pose proof (Hz e es He Hes) as H2. rewrite Hv in H1.
    cbn [length]. f_equal.
    destruct (Nat.lt_trichotomy (length ds) (length es)) as [H|[H|H]]; [exfalso|exact H|exfalso].
    + assert (10 ^ N.of_nat (S (length ds)) <= 10 ^ N.of_nat (length es)) by (apply N.pow_le_mono_r; lia). lia.
    + assert (10 ^ N.of_nat (S (length es)) <= 10 ^ N.of_nat (length ds)) by (apply N.pow_le_mono_r; lia). lia.
Qed.

Lemma decimal_inj z a b : decimal_text z a -> decimal_text z b -> a = b.
Proof.
  intros [[Ha Hva]|(ds & -> & Ha & Hna & Hva)] [[Hb Hvb]|(es & -> & Hb & Hnb & Hvb)].
  - apply int_text_inj; auto. lia.
  - exfalso. lia.
  - exfalso. lia.
  - f_equal. apply int_text_inj; auto. lia.
Qed.

Lemma describes_det multi d c d1 d2 : describes multi d c d1 -> describes multi d c d2 -> d1 = d2.
Proof.
  intros H1 H2. destruct H1; inversion H2; subst; try reflexivity; try contradiction; try congruence.
  f_equal. f_equal. eapply decimal_inj; eauto.
Qed.

Lemma describes_all_det multi cs : forall d d1 d2, describes_all multi d cs d1 -> describes_all multi d cs d2 -> d1 = d2.
Proof.
  induction cs as [|c cs IH]; intros d d1 d2 H1 H2; inversion H1; inversion H2; subst; [congruence|].
  assert (d' = d'0) as -> by (eapply describes_det; eauto). eapply IH; eauto.
Qed.

Lemma describes_all_app multi cs1 cs2 d1 d2 d3 : describes_all multi d1 cs1 d2 -> describes_all multi d2 cs2 d3 ->
  describes_all multi d1 (cs1 ++ cs2) d3.
Proof. induction 1; intros H3; [exact H3|]. cbn. econstructor; eauto. Qed.
Lemma describes_all_split multi cs1 cs2 : forall d1 d3, describes_all multi d1 (cs1 ++ cs2) d3 ->
  exists d2, describes_all multi d1 cs1 d2 /\ describes_all multi d2 cs2 d3.
Proof.
  induction cs1 as [|c cs1 IH]; intros d1 d3 H; [exists d1; split; [constructor|exact H]|].
  inversion H; subst. destruct (IH _ _ H5) as (d2 & Ha & Hb). exists d2. split; [econstructor; eauto|exact Hb].
Qed.

Lemma describes_not_misuse multi d c d' : describes multi d c d' -> ~ misuse multi d c.
Proof.
  intros H. destruct H; cbn; try tauto; try (intros [_ H3]; tauto); try (intros [H3 _]; tauto); try (intros [H3|H3]; [congruence|eauto]).
Qed.

(** Bytes of an unfinished string value can still become a string *)
Definition string_possible (d : wdoc) : Prop := forall acc, d_string d = Some acc -> utf8_prefix acc.

Lemma string_possible_back multi d c d' : describes multi d c d' -> string_possible d' -> string_possible d /\ ~ malformed d c.
Proof.
  intros H Hp. unfold string_possible, malformed in *.
  assert (Hnone : d_string d = None -> (forall acc, d_string d = Some acc -> utf8_prefix acc) /\
     ~ (exists acc, d_string d = Some acc /\ match c with CWrite bs => ~ utf8_prefix (acc ++ bs)
         | CWriteStr _ | CFinishValue => from_utf8 acc = None | _ => False end)).
  { intros E. rewrite E. split; [discriminate|]. intros (acc & H1 & _). discriminate. }
  destruct H; try (apply Hnone; apply H); try (apply Hnone; assumption).
  - cbn [d_string] in Hp. specialize (Hp _ eq_refl). split.
    + intros a Ha. rewrite H in Ha. injection Ha as <-. eapply utf8_prefix_app, Hp.
    + intros (a & Ha & Hm). rewrite H in Ha. injection Ha as <-. contradiction.
  - split.
    + intros a Ha. rewrite H in Ha. injection Ha as <-. exists []. rewrite app_nil_r. exact H0.
    + intros (a & Ha & Hm). rewrite H in Ha. injection Ha as <-. contradiction.
  - split; [exact Hp|]. intros (a & Ha & Hm). exact Hm.
  - split.
    + intros a Ha. rewrite H in Ha. injection Ha as <-. exists []. rewrite app_nil_r, H0. discriminate.
    + intros (a & Ha & Hm). rewrite H in Ha. injection Ha as <-. congruence.
Qed.

Lemma describes_all_possible multi cs : forall d d', describes_all multi d cs d' -> string_possible d' -> string_possible d.
Proof.
  intros d d' H. induction H; intros Hp; [exact Hp|]. eapply string_possible_back; eauto.
Qed.

Lemma complete_possible d : complete d -> string_possible d.
Proof. intros (_ & H & _) acc E. congruence. Qed.

(** ** Described calls succeed, unless the sink fails *)

Lemma step_described cfg d s c d' : sess_ok cfg d s -> valid_call c -> describes (multi_top_level cfg) d c d' ->
  ~ malformed d c -> call_ok cfg c d' s (wstep cfg c s).
Proof.
  intros Hok Hc Hd Hm.
  destruct (step_outcome cfg d s c Hok Hc) as [(d2 & Hd2 & H)|[(H & _)|[(H & _)|[(H & H2 & _)|(H & _ & H2)]]]].
  - rewrite (describes_det _ _ _ _ _ Hd Hd2). exact H.
  - exfalso. eapply describes_not_misuse; eauto.
  - contradiction.
  - exfalso. destruct Hd; cbn in H; try tauto; congruence.
  - exfalso. destruct Hd; try contradiction; try congruence; try (apply H; apply H0); auto.
Qed.

Lemma run_described cfg cs : forall d s d', sess_ok cfg d s -> Forall valid_call cs ->
  describes_all (multi_top_level cfg) d cs d' -> string_possible d' -> sess_good s ->
  Forall2 success cs (fst (wrun cfg cs s)) /\ sess_ok cfg d' (snd (wrun cfg cs s)) /\ sess_good (snd (wrun cfg cs s)).
Proof.
  induction cs as [|c cs IH]; intros d s d' Hok Hv Hd Hp Hg.
  - inversion Hd; subst. cbn. auto.
  - apply Forall_cons_iff in Hv as [Hc Hv]. inversion Hd as [|? ? d1 ? ? Hd1 Hd2]; subst.
    pose proof (describes_all_possible _ _ _ _ Hd2 Hp) as Hp1.
    destruct (string_possible_back _ _ _ _ Hd1 Hp1) as [_ Hm].
    destruct (step_described cfg d s c d1 Hok Hc Hd1 Hm) as [(Hs & Hok1 & Hg1)|(e & _ & _ & Hb & _)]; [|contradiction].
    rewrite wrun_cons by (intros k E; rewrite E in Hs; eapply success_not_panic, Hs).
    cbn [fst snd]. destruct (IH d1 _ d' Hok1 Hv Hd2 Hp (Hg1 Hg)) as (H1 & H2 & H3). splits; auto.
Qed.

(** ** A document only grows *)

Lemma text_grows cfg d c d' t : describes (multi_top_level cfg) d c d' -> valid_call c ->
  Forall pending_frame (tl (d_open d)) -> (forall acc, d_string d = Some acc -> value_allowed (multi_top_level cfg) (no_string d)) ->
  text_of cfg d t -> exists r, text_of cfg d' (t ++ r).
Proof.
  intros Hd Hv Hp Hs Ht. unfold text_of in *.
  assert (Hval : forall v, value_allowed (multi_top_level cfg) d -> exists r,
    match d_string (add_value v d) with
    | Some acc => exists (s : list char) (tail : bytes), Forall is_char s /\ acc = encode_utf8 s ++ tail /\
        t ++ r = doc_text cfg (add_value v d) ++ child_sep cfg (d_top (add_value v d)) (d_open (add_value v d)) ++ [0x22] ++ string_content cfg s
    | None => t ++ r = doc_text cfg (add_value v d) end).
  { intros v Hva. assert (Hds : d_string d = None) by apply Hva. rewrite Hds in Ht.
    rewrite add_value_string by exact Hds. rewrite doc_text_add by exact Hva. subst t. eauto. }
  destruct Hd; try (apply Hval; assumption).
  - (* invalid number *) exists []. rewrite app_nil_r. exact Ht.
  - exists []. rewrite app_nil_r. exact Ht.
  - assert (Hds : d_string d = None) by apply H. rewrite Hds in Ht. cbn.
    destruct (begin_step cfg d (OpenArr []) (begin_array cfg) H ltac:(auto)) as (t2 & E & _). exists t2. rewrite Ht. symmetry. exact E.
  - assert (Hds : d_string d = None) by apply H. rewrite Hds in Ht. cbn.
    destruct (begin_step cfg d (OpenObj [] None) (begin_object cfg) H ltac:(auto)) as (t2 & E & _). exists t2. rewrite Ht. symmetry. exact E.
  - rewrite H in Ht. rewrite add_value_string by reflexivity. destruct d as [top o' st]. cbn in *. subst.
    destruct (end_array_step cfg top items o Hp) as (t2 & E & _). exists t2. symmetry. exact E.
  - rewrite H in Ht. rewrite add_value_string by reflexivity. destruct d as [top o' st]. cbn in *. subst.
    destruct (end_object_step cfg top ms o Hp) as (t2 & E & _). exists t2. symmetry. exact E.
  - rewrite H in Ht. destruct d as [top o' st]. cbn in *. subst.
    destruct (name_step cfg n top ms o Hv) as (t2 & E & _). exists t2. symmetry. exact E.
  - assert (Hds : d_string d = None) by apply H. rewrite Hds in Ht. cbn [d_string d_top d_open].
    eexists. exists [], []. splits; auto. rewrite Ht. unfold doc_text. cbn [d_top d_open]. reflexivity.
  - rewrite H in Ht. destruct Ht as (s & tail & Hsc & Hacc & Et). exists []. cbn [d_string d_top d_open].
    exists s, (tail ++ bs). splits; auto; [rewrite Hacc, app_assoc; reflexivity|]. rewrite app_nil_r. exact Et.
  - rewrite H in Ht. destruct Ht as (s0 & tail & Hsc & Hacc & Et). exists []. cbn [d_string d_top d_open].
    exists s0, (tail ++ encode_utf8 s). splits; auto; [rewrite Hacc, app_assoc; reflexivity|]. rewrite app_nil_r. exact Et.
  - exists []. rewrite app_nil_r. exact Ht.
  - rewrite H in Ht. destruct Ht as (s0 & tail & Hsc & Hacc & Et). rewrite add_value_string by reflexivity.
    specialize (Hs _ H). change (Wdoc (d_top d) (d_open d) None) with (no_string d). rewrite doc_text_add by exact Hs.
    rewrite Hacc, from_utf8_encode_app in H0 by exact Hsc. destruct (from_utf8 tail) as [s1|]; [|discriminate].
    injection H0 as <-. exists (string_content cfg s1 ++ [0x22]). rewrite Et. unfold no_string, doc_text. cbn [d_top d_open layout].
    unfold string_text. rewrite string_content_app, <- !app_assoc. reflexivity.
Qed.

(** Invariants of described documents *)
Definition doc_ok (multi : bool) (d : wdoc) : Prop :=
  Forall pending_frame (tl (d_open d)) /\ (forall acc, d_string d = Some acc -> value_allowed multi (no_string d)).

Lemma doc_ok_add multi v top o : Forall pending_frame (tl o) -> doc_ok multi (add_value v (Wdoc top o None)).
Proof.
  intros Hp. split; [apply add_value_pending, Hp|]. rewrite add_value_string by reflexivity. discriminate.
Qed.

Lemma doc_ok_step multi d c d' : describes multi d c d' -> doc_ok multi d -> doc_ok multi d'.
Proof.
  intros H [Hp Hs].
  assert (Hadd : forall v, value_allowed multi d -> doc_ok multi (add_value v d)).
  { intros v [Hva _]. destruct d as [top o st]. cbn in *. subst. apply doc_ok_add, Hp. }
  destruct H; auto; try (split; assumption).
  - split; [|discriminate]. cbn. destruct H as [Hds Hv]. destruct d as [top o st]. cbn in *. subst.
    destruct o as [|f o]; [constructor|]. constructor; [|exact Hp]. destruct f; cbn in *; auto.
  - split; [|discriminate]. cbn. destruct H as [Hds Hv]. destruct d as [top o st]. cbn in *. subst.
    destruct o as [|f o]; [constructor|]. constructor; [|exact Hp]. destruct f; cbn in *; auto.
  - apply doc_ok_add. rewrite H0 in Hp. cbn in Hp. destruct Hp; cbn; auto.
  - apply doc_ok_add. rewrite H0 in Hp. cbn in Hp. destruct Hp; cbn; auto.
  - split; [|discriminate]. cbn. rewrite H0 in Hp. exact Hp.
  - split; [exact Hp|]. intros acc _. unfold no_string. cbn. destruct H as [Hds Hv]. destruct d as [top o st]. cbn in *. split; [reflexivity|exact Hv].
  - split; [exact Hp|]. intros a _. apply (Hs _ H).
  - split; [exact Hp|]. intros a _. apply (Hs _ H).
  - apply doc_ok_add, Hp.
Qed.

Lemma text_grows_all cfg cs : forall d d' t, describes_all (multi_top_level cfg) d cs d' -> Forall valid_call cs ->
  doc_ok (multi_top_level cfg) d -> text_of cfg d t -> exists r, text_of cfg d' (t ++ r).
Proof.
  induction cs as [|c cs IH]; intros d d' t Hd Hv Hok Ht; inversion Hd; subst.
  - exists []. rewrite app_nil_r. exact Ht.
  - apply Forall_cons_iff in Hv as [Hc Hv].
    destruct (text_grows cfg d c d'0 t H2 Hc (proj1 Hok) (proj2 Hok) Ht) as [r1 H1].
    destruct (IH d'0 d' (t ++ r1) H4 Hv (doc_ok_step _ _ _ _ H2 Hok) H1) as [r2 H3].
    exists (r1 ++ r2). rewrite app_assoc. exact H3.
Qed.

Lemma empty_doc_ok multi : doc_ok multi empty_doc.
Proof. split; [constructor|discriminate]. Qed.

Lemma describes_all_ok multi cs : forall d d', describes_all multi d cs d' -> doc_ok multi d -> doc_ok multi d'.
Proof. intros d d' H. induction H; intros Hok; [exact Hok|]. apply IHdescribes_all. eapply doc_ok_step; eauto. Qed.

Lemma text_of_complete cfg d t : complete d -> text_of cfg d t -> t = documents_layout cfg (d_top d).
Proof. intros (Ho & Hs & _) H. unfold text_of, doc_text in H. rewrite Hs, Ho in H. exact H. Qed.

(** ** The result does not depend on how a reliable sink behaves *)

Definition same (st1 st2 : wst) : Prop :=
  core_of st1 = core_of st2 /\ emitted st1 = emitted st2 /\ good_sink (w_sink st1) /\ good_sink (w_sink st2).

Definition rel {A} (m : W A) : Prop := forall st1 st2, same st1 st2 ->
  fst (m st1) = fst (m st2) /\ same (snd (m st1)) (snd (m st2)).

Lemma rel_bytes bs : rel (write_bytes bs).
Proof.
  intros st1 st2 (Hk & He & Hg1 & Hg2).
  pose proof (writes_bytes bs st1 (buf_ok_any _)) as H1. pose proof (writes_bytes bs st2 (buf_ok_any _)) as H2.
  destruct (write_bytes bs st1) as [r1 s1], (write_bytes bs st2) as [r2 s2].
  destruct H1 as [(-> & E1 & K1 & _ & G1)|(e & _ & _ & Hb & _)]; [|contradiction].
  destruct H2 as [(-> & E2 & K2 & _ & G2)|(e & _ & _ & Hb & _)]; [|contradiction].
  cbn. split; [reflexivity|]. unfold same. rewrite K1, K2, E1, E2, Hk, He. auto.
Qed.
Lemma rel_flush : rel flush.
Proof.
  intros st1 st2 (Hk & He & Hg1 & Hg2).
  pose proof (wr_flush (core_of st1) st1 eq_refl (buf_ok_any _)) as H1. pose proof (wr_flush (core_of st2) st2 eq_refl (buf_ok_any _)) as H2.
  destruct (flush st1) as [r1 s1], (flush st2) as [r2 s2].
  destruct H1 as [(-> & E1 & K1 & _ & G1)|(e & _ & _ & Hb & _)]; [|contradiction].
  destruct H2 as [(-> & E2 & K2 & _ & G2)|(e & _ & _ & Hb & _)]; [|contradiction].
  cbn. split; [reflexivity|]. unfold same. rewrite K1, K2, E1, E2, Hk, He. auto.
Qed.
Lemma rel_bind {A B} (m : W A) (f : A -> W B) : rel m -> (forall a, rel (f a)) -> rel (wbind m f).
Proof.
  intros Hm Hf st1 st2 Hs. destruct (Hm st1 st2 Hs) as [H1 H2]. unfold wbind.
  destruct (m st1) as [r1 s1], (m st2) as [r2 s2]. cbn in *. subst r2. destruct r1; cbn; auto. apply Hf, H2.
Qed.
Lemma rel_ret {A} (a : A) : rel (wret a).
Proof. intros st1 st2 H. cbn. auto. Qed.
Lemma rel_panic {A} k : rel (@wpanic A k).
Proof. intros st1 st2 H. cbn. auto. Qed.
Lemma rel_get {A} (g : wst -> A) (h : core -> A) : (forall st, g st = h (core_of st)) -> rel (wget g).
Proof. intros Hg st1 st2 H. cbn. split; [|exact H]. rewrite !Hg. destruct H as [-> _]. reflexivity. Qed.
Lemma rel_modify f (h : core -> core) : (forall st, w_sink (f st) = w_sink st /\ w_buf (f st) = w_buf st /\ core_of (f st) = h (core_of st)) -> rel (wmodify f).
Proof.
  intros Hf st1 st2 (Hk & He & Hg1 & Hg2). cbn. split; [reflexivity|]. unfold same, emitted in *.
  destruct (Hf st1) as (-> & -> & ->), (Hf st2) as (-> & -> & ->). rewrite Hk. auto.
Qed.
Create HintDb rel.
Global Hint Resolve rel_bytes rel_flush rel_bind rel_ret rel_panic : rel.
Ltac rel_get_step h := apply rel_bind; [apply (rel_get _ h); intros; reflexivity|intros ?].
Ltac rel_mod h := apply (rel_modify _ h); intros; repeat split; reflexivity.

Lemma rel_indentation : rel write_indentation.
Proof.
  assert (H : forall n, rel (write_indentation_loop n)).
  { induction n; cbn [write_indentation_loop]; auto with rel. }
  intros st1 st2 Hs. unfold write_indentation. pose proof Hs as [Hk _]. apply (f_equal k_indent) in Hk. cbn in Hk.
  rewrite Hk. apply H, Hs.
Qed.
Lemma rel_increase : rel increase_indentation.
Proof. rel_mod (fun k => Core (k_empty k) (k_expects k) (k_stack k) (k_active k) (S (k_indent k))). Qed.
Lemma rel_decrease : rel decrease_indentation.
Proof.
  intros st1 st2 (Hk & He & Hg). unfold decrease_indentation. pose proof (f_equal k_indent Hk) as Hi. cbn in Hi. rewrite Hi.
  destruct (w_indentation st2) as [|n] eqn:En; cbn; (split; [reflexivity|]); unfold same; auto. split; [|auto].
  unfold core_of in *. cbn. congruence.
Qed.
Global Hint Resolve rel_indentation rel_increase rel_decrease : rel.
Lemma rel_before_element cfg : rel (before_container_element cfg).
Proof.
  unfold before_container_element. rel_get_step k_empty. destruct a, (pretty_print cfg); auto with rel.
Qed.
Global Hint Resolve rel_before_element : rel.
Lemma rel_before_value cfg : rel (before_value cfg).
Proof.
  unfold before_value. rel_get_step k_active. destruct a; auto with rel. rel_get_step k_expects. destruct a; auto with rel.
  rel_get_step (fun k => negb (k_empty k) && match k_stack k with [] => true | _ => false end).
  rel_get_step k_in_array. apply rel_bind.
  - destruct a; [destruct (multi_top_level_value_separator cfg); auto with rel|]. destruct a0; auto with rel.
  - intros _. apply rel_bind; [rel_mod (k_set_empty false)|]. intros _. rel_get_step k_in_object.
    destruct a1; auto with rel. rel_mod (k_set_expects true).
Qed.
Global Hint Resolve rel_before_value : rel.
Lemma rel_u_escape v : rel (write_unicode_escape v).
Proof. unfold write_unicode_escape. apply rel_bind; auto with rel. intros _. destruct (get_unicode_escape v); auto with rel. Qed.
Global Hint Resolve rel_u_escape : rel.
Lemma rel_escaped_char c : rel (write_escaped_char c).
Proof.
  unfold write_escaped_char. repeat match goal with |- context[if ?b then _ else _] => destruct b; auto with rel end.
Qed.
Global Hint Resolve rel_escaped_char : rel.
Lemma rel_piece cfg s : rel (write_string_value_piece cfg s).
Proof.
  assert (H : forall bs chars i j, rel (string_piece_loop cfg bs chars i j)).
  { intros bs. induction chars as [|c chars IH]; intros i j; cbn [string_piece_loop]; auto with rel.
    destruct (should_escape cfg c); auto with rel.
    apply rel_bind; [destruct (Nat.ltb j i); auto with rel|]. intros _. apply rel_bind; auto with rel. }
  unfold write_string_value_piece. apply rel_bind; auto. intros n. destruct (Nat.ltb _ _); auto with rel.
Qed.
Global Hint Resolve rel_piece : rel.
Lemma rel_string cfg s : rel (write_string_value cfg s).
Proof. unfold write_string_value. auto with rel. Qed.
Global Hint Resolve rel_string : rel.
Lemma rel_container_end cfg : rel (on_container_end cfg).
Proof.
  unfold on_container_end. apply rel_bind; [rel_mod (fun k => k_set_stack (tl (k_stack k)) k)|]. intros _.
  rel_get_step k_empty. apply rel_bind; [destruct (negb a && pretty_print cfg); auto with rel|]. intros _.
  apply rel_bind; [rel_mod (k_set_empty false)|]. intros _. rel_mod (fun k => k_set_expects (k_in_object k) k).
Qed.
Global Hint Resolve rel_container_end : rel.

Definition svrel {A} (m : SV A) : Prop := forall sv st1 st2, same st1 st2 ->
  fst (m sv st1) = fst (m sv st2) /\ same (snd (m sv st1)) (snd (m sv st2)).
Lemma svrel_lift {A} (m : W A) : rel m -> svrel (sv_lift m).
Proof.
  intros Hm sv st1 st2 Hs. destruct (Hm st1 st2 Hs) as [H1 H2]. unfold sv_lift.
  destruct (m st1), (m st2). cbn in *. subst. auto.
Qed.
Lemma svrel_bind {A B} (m : SV A) (f : A -> SV B) : svrel m -> (forall a, svrel (f a)) -> svrel (sv_bind m f).
Proof.
  intros Hm Hf sv st1 st2 Hs. destruct (Hm sv st1 st2 Hs) as [H1 H2]. unfold sv_bind.
  destruct (m sv st1) as [[r1 v1] s1], (m sv st2) as [[r2 v2] s2]. cbn in *. injection H1 as -> ->. destruct r2; cbn; auto. apply Hf, H2.
Qed.
Lemma svrel_const {A} (g : svw -> res werr A * svw) : svrel (fun sv st => (g sv, st)).
Proof. intros sv st1 st2 H. cbn. auto. Qed.
Lemma svrel_ret {A} (a : A) : svrel (sv_ret a).
Proof. apply (svrel_const (fun sv => (Ok a, sv))). Qed.
Lemma svrel_err {A} e : svrel (@sv_err A e).
Proof. apply (svrel_const (fun sv => (Err e, sv))). Qed.
Lemma svrel_panic {A} e : svrel (@sv_panic A e).
Proof. apply (svrel_const (fun sv => (Panic e, sv))). Qed.
Lemma svrel_set b n : svrel (sv_set b n).
Proof. apply (svrel_const (fun sv => (Ok tt, Svw b n (sv_error sv)))). Qed.
Lemma svrel_utf8 bs : svrel (sv_from_utf8 bs).
Proof. unfold sv_from_utf8. destruct (from_utf8 bs); [apply svrel_ret|apply svrel_err]. Qed.
Lemma svrel_piece cfg s : svrel (sv_lift (write_string_value_piece cfg s)).
Proof. apply svrel_lift, rel_piece. Qed.
Global Hint Resolve svrel_bind svrel_ret svrel_err svrel_panic svrel_set svrel_utf8 svrel_piece : rel.
Lemma svrel_scan cfg fuel : forall buf sp i, svrel (write_scan_loop cfg fuel buf sp i).
Proof.
  induction fuel as [|fuel IH]; intros buf sp i; cbn [write_scan_loop]; [apply (svrel_const (fun sv => (OutOfFuel, sv)))|].
  destruct (nth_error buf i) as [b|]; [|destruct (Nat.ltb _ _); auto with rel].
  destruct (is_1byte b); auto.
  assert (H : forall n, svrel (if Nat.ltb (length buf - i) n then
     if Nat.ltb i sp then sv_panic Bug else
            s <-% sv_from_utf8 (slice buf sp i) ;;
            sv_lift (write_string_value_piece cfg s) ;;%
            sv_set (skipn i buf) n ;;%
            sv_ret (length buf)
          else write_scan_loop cfg fuel buf sp (i + (n - 1) + 1))).
  { intros n. destruct (Nat.ltb (length buf - i) n); auto. destruct (Nat.ltb i sp); auto 8 with rel. }
  cbv zeta. repeat match goal with |- context[if ?f b then _ else _] => destruct (f b); auto end. auto with rel.
Qed.
Global Hint Resolve svrel_scan : rel.
Lemma svrel_write_impl cfg buf : svrel (sv_write_impl cfg buf).
Proof.
  intros sv st1 st2 Hs. unfold sv_write_impl. destruct buf as [|x buf]; [cbn; auto|].
  match goal with |- fst (sv_bind ?m ?f sv st1) = _ /\ _ => assert (H : svrel (sv_bind m f)) end; [|apply H, Hs].
  apply svrel_bind.
  - destruct (sv_buf sv); auto with rel. destruct (Nat.ltb _ _); auto with rel.
    cbv zeta. destruct (Nat.ltb _ _); auto with rel. apply svrel_bind; auto with rel.
    destruct (Nat.leb _ _); auto with rel. apply svrel_bind; auto with rel. intros _.
    apply svrel_bind; auto with rel. unfold decode_utf8_char. apply svrel_bind; auto with rel.
    intros [|c [|]]; auto with rel.
  - intros sp. destruct (max_or_offset_negative _ _ _); auto with rel.
Qed.
Lemma svrel_check : svrel check_previous_error.
Proof. intros sv st1 st2 Hs. unfold check_previous_error. destruct (sv_error sv); cbn; auto. Qed.
Lemma svrel_tracked {A} (m : SV A) : svrel m -> svrel (run_with_error_tracking m).
Proof.
  intros H. unfold run_with_error_tracking. apply svrel_bind; [apply svrel_check|].
  intros _ sv st1 st2 Hs. destruct (H sv st1 st2 Hs) as [H1 H2].
  destruct (m sv st1) as [[r1 v1] s1], (m sv st2) as [[r2 v2] s2]. cbn in *. injection H1 as -> ->. destruct r2; cbn; auto.
Qed.

Definition same_session (s1 s2 : wsession) : Prop := same (ws_writer s1) (ws_writer s2) /\ ws_string s1 = ws_string s2.

Lemma same_json m s1 s2 : rel m -> same_session s1 s2 ->
  fst (json_call m s1) = fst (json_call m s2) /\ same_session (snd (json_call m s1)) (snd (json_call m s2)).
Proof.
  intros Hm [Hs _]. destruct (Hm _ _ Hs) as [H1 H2]. unfold json_call, same_session.
  destruct (m (ws_writer s1)), (m (ws_writer s2)). cbn in *. subst. auto.
Qed.
Lemma same_number m s1 s2 : rel m -> same_session s1 s2 ->
  fst (number_call m s1) = fst (number_call m s2) /\ same_session (snd (number_call m s1)) (snd (number_call m s2)).
Proof.
  intros Hm [Hs _]. destruct (Hm _ _ Hs) as [H1 H2]. unfold number_call, same_session.
  destruct (m (ws_writer s1)), (m (ws_writer s2)). cbn in *. subst. auto.
Qed.
Lemma same_string {A} f (m : SV A) s1 s2 : svrel m -> same_session s1 s2 ->
  fst (string_call f m s1) = fst (string_call f m s2) /\ same_session (snd (string_call f m s1)) (snd (string_call f m s2)).
Proof.
  intros Hm [Hs E]. unfold string_call. rewrite E. destruct (ws_string s2) as [sv|] eqn:Es; [|cbn; unfold same_session; rewrite Es; auto].
  destruct (Hm sv _ _ Hs) as [H1 H2]. unfold same_session.
  destruct (m sv (ws_writer s1)) as [[r1 v1] t1], (m sv (ws_writer s2)) as [[r2 v2] t2]. cbn in *. injection H1 as -> ->. auto.
Qed.

Lemma same_step cfg c s1 s2 : same_session s1 s2 ->
  fst (wstep cfg c s1) = fst (wstep cfg c s2) /\ same_session (snd (wstep cfg c s1)) (snd (wstep cfg c s2)).
Proof.
  intros Hs. destruct c as [| | | |n|v|b| |z|v|v| |bs|v| |]; cbn [wstep].
  - apply same_json; [|exact Hs]. unfold begin_object. apply rel_bind; auto with rel. intros _.
    apply rel_bind; [rel_mod (fun k => k_set_stack (SvObject :: k_stack k) k)|]. intros _.
    apply rel_bind; [rel_mod (k_set_empty true)|]. intros _. apply rel_bind; [rel_mod (k_set_expects true)|]. auto with rel.
  - apply same_json; [|exact Hs]. unfold end_object. rel_get_step k_in_object. destruct a; cbn [negb]; try solve [auto with rel].
    rel_get_step k_active. destruct a; cbn [negb]; try solve [auto with rel]. rel_get_step k_expects. destruct a; cbn [negb]; try solve [auto with rel].
  - apply same_json; [|exact Hs]. unfold begin_array. apply rel_bind; auto with rel. intros _.
    apply rel_bind; [rel_mod (fun k => k_set_stack (SvArray :: k_stack k) k)|]. intros _.
    apply rel_bind; [rel_mod (k_set_empty true)|]. intros _. apply rel_bind; [rel_mod (k_set_expects false)|]. auto with rel.
  - apply same_json; [|exact Hs]. unfold end_array. rel_get_step k_in_array. destruct a; cbn [negb]; try solve [auto with rel].
    rel_get_step k_active. destruct a; cbn [negb]; try solve [auto with rel].
  - apply same_json; [|exact Hs]. unfold name. rel_get_step k_expects. destruct a; cbn [negb]; try solve [auto with rel].
    rel_get_step k_active. destruct a; cbn [negb]; try solve [auto with rel]. apply rel_bind; auto with rel. intros _.
    apply rel_bind; auto with rel. intros _. apply rel_bind; auto with rel. intros _. rel_mod (k_set_expects false).
  - apply same_json; [|exact Hs]. unfold string_value. auto with rel.
  - apply same_json; [|exact Hs]. unfold bool_value. auto with rel.
  - apply same_json; [|exact Hs]. unfold null_value. auto with rel.
  - apply same_json; [|exact Hs]. unfold number_value, number_str_value. destruct (negb _); auto with rel.
  - apply same_number; [|exact Hs]. unfold fp_number_value, number_str_value. destruct v; auto with rel. destruct (negb _); auto with rel.
  - apply same_number; [|exact Hs]. unfold number_value_from_string. destruct (is_valid_json_number v); auto with rel.
  - assert (H : rel (string_value_writer cfg)).
    { unfold string_value_writer. apply rel_bind; auto with rel. intros _. apply rel_bind; auto with rel. intros _.
      apply rel_bind; [rel_mod (k_set_active true)|auto with rel]. }
    destruct Hs as [Hs _]. destruct (H _ _ Hs) as [H1 H2]. unfold same_session.
    destruct (string_value_writer cfg (ws_writer s1)), (string_value_writer cfg (ws_writer s2)). cbn in *. subst.
    destruct r0; cbn; auto.
  - apply same_string; [|exact Hs]. apply svrel_tracked, svrel_write_impl.
  - apply same_string; [|exact Hs]. apply svrel_tracked. intros sv st1 st2 H. destruct (sv_buf sv); [apply svrel_piece, H|cbn; auto].
  - apply same_string; [|exact Hs]. apply svrel_tracked, svrel_lift, rel_flush.
  - assert (H : svrel sv_finish_value).
    { unfold sv_finish_value. apply svrel_bind; [apply svrel_check|]. intros _ sv st1 st2 H.
      destruct (sv_buf sv); [|cbn; auto]. apply svrel_bind; [apply svrel_lift, rel_bytes| |exact H].
      intros _. apply svrel_lift. rel_mod (k_set_active false). }
    destruct (same_string (fun _ : unit => RDone) _ s1 s2 H Hs) as [H1 [H2 _]].
    destruct (string_call _ sv_finish_value s1), (string_call _ sv_finish_value s2). cbn in *. subst.
    unfold same_session. cbn. auto.
Qed.

Lemma same_run cfg cs : forall s1 s2, same_session s1 s2 ->
  fst (wrun cfg cs s1) = fst (wrun cfg cs s2) /\ same_session (snd (wrun cfg cs s1)) (snd (wrun cfg cs s2)).
Proof.
  induction cs as [|c cs IH]; intros s1 s2 Hs; [cbn; auto|]. destruct (same_step cfg c s1 s2 Hs) as [H1 H2].
  cbn [wrun]. destruct (wstep cfg c s1) as [r t1], (wstep cfg c s2) as [r2 t2]. cbn [fst snd] in *. subst r2.
  destruct (IH t1 t2 H2) as [H3 H4]. destruct (wrun cfg cs t1), (wrun cfg cs t2). cbn [fst snd] in *. subst.
  destruct r; cbn; auto.
Qed.

Lemma same_finish s1 s2 : same_session s1 s2 -> fst (wfinish s1) = fst (wfinish s2) /\
  (fst (wfinish s1) = RDone -> received (snd (wfinish s1)) = received (snd (wfinish s2))).
Proof.
  intros [Hs _]. pose proof Hs as (Hk & He & Hg1 & Hg2). rewrite !wfinish_cases. unfold core_of in Hk. injection Hk as -> -> -> -> _.
  destruct (w_string_active _); [split; [reflexivity|discriminate]|]. destruct (w_expects_member_name _); [split; [reflexivity|discriminate]|].
  destruct (w_stack _); [|split; [reflexivity|discriminate]]. destruct (w_is_empty _); [split; [reflexivity|discriminate]|].
  destruct (rel_flush _ _ Hs) as [H1 (_ & H2 & _)].
  assert (Hb : forall st, fst (flush st) = Ok tt -> w_buf (snd (flush st)) = []).
  { intros st. unfold flush. destruct (write_all _ _) as [[| | |] s']; cbn; try discriminate. destruct (sink_flush s') as [r s'']. reflexivity. }
  pose proof (Hb (ws_writer s1)) as Hb1. pose proof (Hb (ws_writer s2)) as Hb2.
  destruct (flush (ws_writer s1)) as [r1 t1], (flush (ws_writer s2)) as [r2 t2]. cbn [fst snd] in *. subst r2.
  split; [reflexivity|]. destruct r1 as [[]| | |]; try discriminate. intros _. unfold emitted in H2.
  rewrite Hb1, Hb2, !app_nil_r in H2 by reflexivity. exact H2.
Qed.

(** ** String value writer *)

Definition with_string (d : wdoc) (acc : bytes) : wdoc := Wdoc (d_top d) (d_open d) (Some acc).

Lemma pieces_described multi d ws : forall acc, Forall string_piece ws ->
  (forall ws1 s ws2, ws = ws1 ++ CWriteStr s :: ws2 -> from_utf8 (acc ++ written ws1) <> None) ->
  describes_all multi (with_string d acc) ws (with_string d (acc ++ written ws)).
Proof.
  induction ws as [|c ws IH]; intros acc Hp Hb.
  - cbn. rewrite app_nil_r. constructor.
  - apply Forall_cons_iff in Hp as [Hc Hp].
    assert (Hnext : describes_all multi (with_string d (acc ++ piece_bytes c)) ws (with_string d (acc ++ written (c :: ws)))).
    { unfold written. cbn [map concat]. rewrite app_assoc. apply IH; [exact Hp|].
      intros ws1 s ws2 E. rewrite <- app_assoc. apply (Hb (c :: ws1) s ws2). rewrite E. reflexivity. }
    destruct c; try contradiction; cbn [piece_bytes] in *.
    + econstructor; [apply (D_write multi (with_string d acc) acc); reflexivity|exact Hnext].
    + econstructor; [apply (D_write_str multi (with_string d acc) acc); [reflexivity|]|exact Hnext].
      specialize (Hb [] s ws eq_refl). cbn in Hb. rewrite app_nil_r in Hb. exact Hb.
    + rewrite app_nil_r in Hnext. econstructor; [apply (D_flush multi (with_string d acc) acc); reflexivity|exact Hnext].
Qed.

Lemma string_writer_described multi d ws s : value_allowed multi d -> Forall string_piece ws -> write_str_between_chars ws ->
  from_utf8 (written ws) = Some s ->
  describes_all multi d (CStringWriter :: ws ++ [CFinishValue]) (add_value (JStr s) d).
Proof.
  intros Hv Hp Hb Hw. econstructor; [apply D_string_writer, Hv|].
  eapply describes_all_app; [apply (pieces_described multi d ws []); assumption|].
  cbn [app]. econstructor; [|constructor].
  assert (E : d = Wdoc (d_top d) (d_open d) None) by (destruct Hv as [Hds _]; destruct d; cbn in *; subst; reflexivity).
  replace (add_value (JStr s) d) with (add_value (JStr s) (Wdoc (d_top (with_string d (written ws))) (d_open (with_string d (written ws))) None))
    by (cbn; rewrite <- E; reflexivity).
  eapply D_finish_value; [reflexivity|exact Hw].
Qed.

(** What a successfully finished string value writer has written is UTF-8 *)
Lemma pieces_inv multi ws : forall d acc d', Forall string_piece ws -> d_string d = Some acc -> describes_all multi d ws d' ->
  d_string d' = Some (acc ++ written ws).
Proof.
  induction ws as [|c ws IH]; intros d acc d' Hp Hd H; inversion H; subst.
  - cbn. rewrite app_nil_r. exact Hd.
  - apply Forall_cons_iff in Hp as [Hc Hp]. unfold written. cbn [map concat]. rewrite app_assoc. eapply IH; eauto.
    destruct H3; try contradiction; cbn [d_string piece_bytes]; try congruence. rewrite app_nil_r. congruence.
Qed.

Lemma string_writer_utf8 multi d ws d' : Forall string_piece ws ->
  describes_all multi d (CStringWriter :: ws ++ [CFinishValue]) d' ->
  exists s, from_utf8 (written ws) = Some s /\ d' = add_value (JStr s) (no_string d).
Proof.
  intros Hp H. inversion H; subst. inversion H3; subst.
  apply describes_all_split in H5 as (d2 & H5 & H6). 
  assert (Hd2 : d_string d2 = Some ([] ++ written ws)) by (eapply pieces_inv; eauto; reflexivity). cbn in Hd2.
  inversion H6 as [|? ? d3 ? ? Hfin Hnil]; subst. inversion Hnil; subst. inversion Hfin as [| | | | | | | | | | | | | | | | |acc s Hacc Hs]; subst.
  rewrite Hd2 in Hacc. injection Hacc as <-. exists s. split; [assumption|].
  assert (E : d_top d2 = d_top d /\ d_open d2 = d_open d).
  { clear - H5 Hp. remember (Wdoc (d_top d) (d_open d) (Some [])) as d0 eqn:E0.
    assert (Hd0 : d_top d0 = d_top d /\ d_open d0 = d_open d) by (subst; auto). clear E0.
    revert d0 Hd0 H5. induction ws as [|c ws IH]; intros d0 Hd0 H5; inversion H5 as [|? ? d1 ? ? Hd1 Hds]; subst; [exact Hd0|].
    apply Forall_cons_iff in Hp as [Hc Hp]. apply (IH Hp d1); [|exact Hds]. destruct Hd1; try contradiction; cbn; auto. }
  destruct E as [E1 E2]. unfold no_string. rewrite E1, E2. reflexivity.
Qed.

(** Runs of the string value writer are not abandoned *)
Lemma run_sound_strings cfg cs : forall d s rs s', sess_ok cfg d s -> Forall valid_call cs ->
  Forall (fun c => match c with CFloat None | CNumberFromString _ => False | _ => True end) cs ->
  wrun cfg cs s = (rs, s') -> Forall2 success cs rs ->
  exists d', describes_all (multi_top_level cfg) d cs d' /\ sess_ok cfg d' s'.
Proof.
  induction cs as [|c cs IH]; intros d s rs s' Hok Hv Hno Hrun Hsucc.
  - cbn in Hrun. injection Hrun as <- <-. exists d. split; [constructor|exact Hok].
  - apply Forall_cons_iff in Hv as [Hc Hv]. apply Forall_cons_iff in Hno as [Hn Hno].
    assert (Hr : rs = fst (wstep cfg c s) :: tl rs /\ success c (fst (wstep cfg c s)) /\ Forall2 success cs (tl rs)).
    { inversion Hsucc as [|? r0 ? rs0 Hs0 Hss]; subst. cbn in Hrun.
      destruct (wstep cfg c s) as [r1 s1]. cbn [fst]. destruct (wrun cfg cs s1) as [rs2 s2].
      destruct r1 as [| | | |k| |]; injection Hrun as E; subst; auto; exfalso; eapply success_not_panic, Hs0. }
    destruct Hr as (Hr & Hs1 & Hss).
    assert (Hnp : forall k, fst (wstep cfg c s) <> RPanic k).
    { intros k E. rewrite E in Hs1. eapply success_not_panic, Hs1. }
    rewrite wrun_cons in Hrun by exact Hnp. injection Hrun as Hrs Hs'.
    assert (Hrun' : wrun cfg cs (snd (wstep cfg c s)) = (tl rs, s')).
    { rewrite <- Hrs. cbn [tl]. rewrite <- Hs'. destruct (wrun cfg cs _); reflexivity. }
    destruct (step_outcome cfg d s c Hok Hc) as [(d' & Hd & [(_ & Hok' & _)|(e & He & _)])|[(_ & E)|[(_ & e & He & _)|[(_ & _ & E)|(Hne & E & Hcall)]]]].
    + destruct (IH d' _ _ _ Hok' Hv Hno Hrun' Hss) as (d'' & Hds & Hok'').
      exists d''. split; [econstructor; eauto|exact Hok''].
    + exfalso. rewrite He in Hs1. eapply success_not_error, Hs1.
    + exfalso. rewrite E in Hs1. eapply success_not_panic, Hs1.
    + exfalso. rewrite He in Hs1. eapply success_not_error, Hs1.
    + exfalso. rewrite E in Hs1. eapply success_not_inexpressible, Hs1.
    + exfalso. destruct c; try contradiction. destruct s0; contradiction.
Qed.

(** ** Removing whitespace *)

Fixpoint lex_from (s : lex_state) (t : bytes) : lex_state :=
  match t with [] => s | b :: t' => lex_from (match s with LOutside => if is_ws b then s else lex_next s b | _ => lex_next s b end) t' end.

Lemma strip_app t1 : forall s t2, strip_from s (t1 ++ t2) = strip_from s t1 ++ strip_from (lex_from s t1) t2.
Proof.
  induction t1 as [|b t1 IH]; intros s t2; [reflexivity|]. cbn [app strip_from lex_from].
  destruct s; try (cbn [app]; rewrite IH; reflexivity). destruct (is_ws b); cbn [app]; rewrite IH; reflexivity.
Qed.
Lemma lex_app t1 : forall s t2, lex_from s (t1 ++ t2) = lex_from (lex_from s t1) t2.
Proof. induction t1 as [|b t1 IH]; intros s t2; [reflexivity|]. apply IH. Qed.

(** [strips s t out s']: the text [t] becomes [out] *)
Definition strips (s : lex_state) (t out : bytes) (s' : lex_state) : Prop := strip_from s t = out /\ lex_from s t = s'.
Lemma strips_app s1 t1 o1 s2 t2 o2 s3 : strips s1 t1 o1 s2 -> strips s2 t2 o2 s3 -> strips s1 (t1 ++ t2) (o1 ++ o2) s3.
Proof. intros [<- <-] [<- <-]. split; [apply strip_app|apply lex_app]. Qed.

Lemma strips_plain t : Forall (fun b => b <> 0x22 /\ is_ws b = false) t -> strips LOutside t t LOutside.
Proof.
  induction 1 as [|b t [Hb Hw] Ht [IH1 IH2]]; [split; reflexivity|]. apply N.eqb_neq in Hb.
  split; cbn; rewrite Hw; cbn; rewrite Hb; [rewrite IH1; reflexivity|exact IH2].
Qed.

Lemma strips_content_raw t : Forall (fun b => b <> 0x22 /\ b <> 0x5C) t -> strips LString t t LString.
Proof.
  induction 1 as [|b t [Hb Hw] Ht [IH1 IH2]]; [split; reflexivity|]. apply N.eqb_neq in Hb, Hw.
  split; cbn; rewrite Hb, Hw; [rewrite IH1; reflexivity|exact IH2].
Qed.

Lemma encode_char_not_special c : is_char c -> c <> 0x22 -> c <> 0x5C -> Forall (fun b => b <> 0x22 /\ b <> 0x5C) (encode_char c).
Proof.
  intros Hc H1 H2. destruct (N.lt_ge_cases c 0x80) as [H|H].
  - unfold encode_char. destruct (N.ltb_spec c 0x80); [|lia]. constructor; auto.
  - destruct (N.lt_ge_cases c 0x800); [rewrite encode_char_2 by lia|destruct (N.lt_ge_cases c 0x10000); [rewrite encode_char_3 by lia|rewrite encode_char_4 by lia]];
      repeat constructor; lia.
Qed.

Lemma hex_digit_range n : n < 16 -> 0x30 <= hex_digit n <= 0x46.
Proof. intros H. unfold hex_digit. destruct (N.ltb_spec n 10); lia. Qed.

Lemma u_escape_tail v : v < 0x10000 -> exists hs, u_escape v = 0x5C :: 0x75 :: hs /\ Forall (fun b => 0x30 <= b <= 0x46) hs.
Proof.
  intros H. eexists. split; [reflexivity|]. repeat (constructor; [apply hex_digit_range; lia|]). constructor.
Qed.

Lemma strips_escape b t : strips LString t t LString -> strips LString (0x5C :: b :: t) (0x5C :: b :: t) LString.
Proof.
  intros [H1 H2]. split.
  - change (0x5C :: b :: strip_from LString t = 0x5C :: b :: t). rewrite H1. reflexivity.
  - exact H2.
Qed.

Lemma strips_u_escape v : v < 0x10000 -> strips LString (u_escape v) (u_escape v) LString.
Proof.
  intros H. destruct (u_escape_tail v H) as (hs & -> & Hh). apply strips_escape, strips_content_raw.
  eapply Forall_impl; [|exact Hh]. cbn. intros a Ha. split.
  - lia.
  - lia.
Qed.

Lemma strips_char cfg c : is_char c -> strips LString (char_text cfg c) (char_text cfg c) LString.
Proof.
  intros Hc. unfold char_text. destruct (must_escape cfg c) eqn:E.
  - unfold escape_seq.
    repeat match goal with |- context[?a =? ?b] => destruct (a =? b); [apply strips_escape; split; reflexivity|] end.
    unfold is_char in Hc. destruct (N.ltb_spec c 0x10000); [apply strips_u_escape; assumption|].
    eapply strips_app; apply strips_u_escape; lia.
  - unfold must_escape in E. rewrite !orb_false_iff in E. destruct E as [[[[E1 E2] _] _] _]. apply N.eqb_neq in E1, E2.
    apply strips_content_raw, encode_char_not_special; assumption.
Qed.

Lemma strips_string_content cfg s : Forall is_char s -> strips LString (string_content cfg s) (string_content cfg s) LString.
Proof.
  induction 1 as [|c s Hc Hs IH]; [split; reflexivity|].
  unfold string_content. cbn [flat_map]. eapply strips_app; [apply strips_char, Hc|exact IH].
Qed.

Definition compact (cfg : wsettings) : wsettings :=
  WSettings false (escape_all_control_chars cfg) (escape_all_non_ascii cfg) (multi_top_level_value_separator cfg).

Lemma string_text_compact cfg s : string_text (compact cfg) s = string_text cfg s.
Proof. reflexivity. Qed.

Lemma strips_string_text cfg s : Forall is_char s -> strips LOutside (string_text cfg s) (string_text (compact cfg) s) LOutside.
Proof.
  intros Hs. rewrite string_text_compact. unfold string_text.
  apply (strips_app LOutside [0x22] [0x22] LString); [split; reflexivity|].
  eapply strips_app; [apply strips_string_content, Hs|split; reflexivity].
Qed.

Lemma strips_ws t : Forall (fun b => is_ws b = true) t -> strips LOutside t [] LOutside.
Proof. induction 1 as [|b t Hb Ht [IH1 IH2]]; [split; reflexivity|]. split; cbn; rewrite Hb; assumption. Qed.
Lemma new_line_ws n : Forall (fun b => is_ws b = true) (new_line n).
Proof. constructor; [reflexivity|]. induction n; cbn; repeat constructor; assumption. Qed.

Lemma strips_before_element cfg first level :
  strips LOutside (before_element cfg first level) (before_element (compact cfg) first level) LOutside.
Proof.
  unfold before_element. cbn [compact pretty_print]. apply (strips_app _ _ _ LOutside).
  - destruct first; split; reflexivity.
  - destruct (pretty_print cfg); [apply strips_ws, new_line_ws|split; reflexivity].
Qed.
Lemma strips_before_end cfg e level : strips LOutside (before_end cfg e level) (before_end (compact cfg) e level) LOutside.
Proof.
  unfold before_end. cbn [compact pretty_print andb]. destruct (pretty_print cfg && negb e); [apply strips_ws, new_line_ws|split; reflexivity].
Qed.
Lemma strips_colon cfg : strips LOutside (colon cfg) (colon (compact cfg)) LOutside.
Proof. unfold colon. cbn [compact pretty_print]. destruct (pretty_print cfg); split; reflexivity. Qed.

Lemma number_text_chars t : number_text t -> Forall number_char t.
Proof.
  intros (n & minus & int & frac & exp & -> & Hm & Hi & Hf & He).
  assert (Hd : forall l, Forall digit l -> Forall number_char l) by (intros l Hl; eapply Forall_impl; [|exact Hl]; intros; left; assumption).
  rewrite !Forall_app. splits.
  - destruct Hm as [->| ->]; [constructor|]. constructor; [unfold number_char; auto|constructor].
  - apply Hd. destruct Hi as [->|(d & ds & -> & H & H2)]; [repeat constructor; unfold digit; lia|]. constructor; [unfold digit; lia|exact H2].
  - destruct Hf as [->|(ds & -> & _ & H)]; [constructor|]. constructor; [unfold number_char; auto|apply Hd, H].
  - destruct He as [[-> _]|(e & sign & ds & -> & H1 & H2 & [_ H3] & _)]; [constructor|].
    constructor; [unfold number_char; tauto|]. apply Forall_app. split; [|apply Hd, H3].
    destruct H2 as [->|[->| ->]]; [constructor| |]; (constructor; [unfold number_char; auto|constructor]).
Qed.

Lemma number_text_plain t : number_text t -> Forall (fun b => b <> 0x22 /\ is_ws b = false) t.
Proof.
  intros Hn. eapply Forall_impl; [|apply number_text_chars, Hn]. cbn. intros b Hb. unfold number_char, digit in Hb. unfold is_ws. lia.
Qed.

Lemma strips_layout cfg v : forall level, wf_json v ->
  strips LOutside (layout cfg level v) (layout (compact cfg) level v) LOutside.
Proof.
  induction v as [| |t|s|items IH|ms IH] using json_tree_ind; intros level Hwf.
  - split; reflexivity.
  - destruct b; split; reflexivity.
  - apply strips_plain, number_text_plain, Hwf.
  - apply strips_string_text, Hwf.
  - rewrite !layout_arr. apply wf_json_arr in Hwf.
    apply (strips_app _ [0x5B] [0x5B] LOutside); [split; reflexivity|].
    apply (strips_app _ _ _ LOutside).
    + assert (H : forall first, strips LOutside (items_body cfg level first items) (items_body (compact cfg) level first items) LOutside).
      { induction items as [|x items IHi]; intros first; [split; reflexivity|].
        apply Forall_cons_iff in IH as [Hx IH]. apply Forall_cons_iff in Hwf as [Hwx Hwf]. cbn [items_body].
        eapply strips_app; [apply strips_before_element|]. eapply strips_app; [apply Hx, Hwx|]. apply IHi; assumption. }
      apply H.
    + eapply strips_app; [apply strips_before_end|split; reflexivity].
  - rewrite !layout_obj. apply wf_json_obj in Hwf.
    apply (strips_app _ [0x7B] [0x7B] LOutside); [split; reflexivity|].
    apply (strips_app _ _ _ LOutside).
    + assert (H : forall first, strips LOutside (members_body cfg level first ms) (members_body (compact cfg) level first ms) LOutside).
      { induction ms as [|[n x] ms IHi]; intros first; [split; reflexivity|].
        apply Forall_cons_iff in IH as [Hx IH]. apply Forall_cons_iff in Hwf as [[Hwn Hwx] Hwf]. cbn [members_body].
        eapply strips_app; [apply strips_before_element|]. eapply strips_app; [apply strips_string_text, Hwn|].
        eapply strips_app; [apply strips_colon|]. eapply strips_app; [apply Hx, Hwx|]. apply IHi; assumption. }
      apply H.
    + eapply strips_app; [apply strips_before_end|split; reflexivity].
Qed.

(** Separator without whitespace between top-level values *)
Definition strip_sep (cfg : wsettings) : Prop := Forall (fun b => is_ws b = true) (separator cfg).

Lemma documents_join cfg vs : documents_layout cfg vs = join (separator cfg) (map (layout cfg 0) vs).
Proof.
  induction vs as [|v vs IH]; [reflexivity|]. destruct vs as [|v2 vs]; [reflexivity|].
  change (documents_layout cfg (v :: v2 :: vs)) with (layout cfg 0 v ++ separator cfg ++ documents_layout cfg (v2 :: vs)).
  rewrite IH. reflexivity.
Qed.

Lemma strip_documents cfg vs : Forall wf_json vs -> strip_sep cfg ->
  strip_ws (documents_layout cfg vs) = concat (map (layout (compact cfg) 0) vs).
Proof.
  intros Hwf Hs. rewrite documents_join.
  assert (H : strips LOutside (join (separator cfg) (map (layout cfg 0) vs)) (concat (map (layout (compact cfg) 0) vs)) LOutside); [|apply H].
  induction Hwf as [|v vs Hv Hvs IH]; [split; reflexivity|]. destruct vs as [|v2 vs].
  - cbn. rewrite app_nil_r. apply strips_layout, Hv.
  - change (join (separator cfg) (map (layout cfg 0) (v :: v2 :: vs))) with
      (layout cfg 0 v ++ separator cfg ++ join (separator cfg) (map (layout cfg 0) (v2 :: vs))).
    change (concat (map (layout (compact cfg) 0) (v :: v2 :: vs))) with
      (layout (compact cfg) 0 v ++ [] ++ concat (map (layout (compact cfg) 0) (v2 :: vs))).
    eapply strips_app; [apply strips_layout, Hv|]. eapply strips_app; [apply strips_ws, Hs|exact IH].
Qed.
