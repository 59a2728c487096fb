(** * Writer: no unexpected panics, even when a client continues after errors *)

From Verif Require Import Base Utf8Model Utf8Proofs NumberModel SpecNumber NumberProofs SpecJson
  WriterModel SpecWriter Utf8Prefix WriterProofs WriterDocProofs WriterStringProofs WriterSession WriterRun.

(** ** Writing bytes only changes the buffer and the sink *)

Definition keeps {A} (m : W A) : Prop := forall st, core_of (snd (m st)) = core_of st.
Definition sv_keeps {A} (m : SV A) : Prop := forall sv st, core_of (snd (m sv st)) = core_of st.

Lemma keeps_bind {A B} (m : W A) (f : A -> W B) : keeps m -> (forall a, keeps (f a)) -> keeps (wbind m f).
Proof.
  intros Hm Hf st. specialize (Hm st). unfold wbind. destruct (m st) as [[a|e|k|] st1]; cbn in *; auto.
  rewrite Hf. exact Hm.
Qed.
Lemma keeps_bytes bs : keeps (write_bytes bs).
Proof. intros st. pose proof (write_bytes_any bs st) as H. destruct (write_bytes bs st). apply H. Qed.
Lemma keeps_ret {A} (a : A) : keeps (wret a).
Proof. intros st. reflexivity. Qed.
Lemma keeps_panic {A} k : keeps (@wpanic A k).
Proof. intros st. reflexivity. Qed.
Create HintDb keeps.
Global Hint Resolve keeps_bind keeps_bytes keeps_ret keeps_panic : keeps.

Lemma keeps_u_escape v : keeps (write_unicode_escape v).
Proof. unfold write_unicode_escape. apply keeps_bind; auto with keeps. intros _. destruct (get_unicode_escape v); auto with keeps. Qed.
Global Hint Resolve keeps_u_escape : keeps.
Lemma keeps_escaped_char c : keeps (write_escaped_char c).
Proof.
  unfold write_escaped_char. repeat match goal with |- context[if ?b then _ else _] => destruct b; auto with keeps end.
Qed.
Global Hint Resolve keeps_escaped_char : keeps.

Lemma keeps_piece cfg s : keeps (write_string_value_piece cfg s).
Proof.
  assert (H : forall bs chars i j, keeps (string_piece_loop cfg bs chars i j)).
  { intros bs. induction chars as [|c chars IH]; intros i j; cbn [string_piece_loop]; auto with keeps.
    destruct (should_escape cfg c); auto with keeps.
    apply keeps_bind; [destruct (Nat.ltb j i); auto with keeps|]. intros _. apply keeps_bind; auto with keeps. }
  unfold write_string_value_piece. apply keeps_bind; auto. intros n. destruct (Nat.ltb _ _); auto with keeps.
Qed.

Lemma keeps_flush : keeps flush.
Proof.
  intros st. unfold flush. destruct (write_all _ _) as [[a|e|k|] s1]; try reflexivity.
  destruct (sink_flush s1); reflexivity.
Qed.

Lemma sv_keeps_bind {A B} (m : SV A) (f : A -> SV B) : sv_keeps m -> (forall a, sv_keeps (f a)) -> sv_keeps (sv_bind m f).
Proof.
  intros Hm Hf sv st. specialize (Hm sv st). unfold sv_bind. destruct (m sv st) as [[[a|e|k|] sv1] st1]; cbn in *; auto.
  rewrite Hf. exact Hm.
Qed.
Lemma sv_keeps_ret {A} (a : A) : sv_keeps (sv_ret a).
Proof. intros sv st. reflexivity. Qed.
Lemma sv_keeps_err {A} e : sv_keeps (@sv_err A e).
Proof. intros sv st. reflexivity. Qed.
Lemma sv_keeps_panic {A} e : sv_keeps (@sv_panic A e).
Proof. intros sv st. reflexivity. Qed.
Lemma sv_keeps_set b n : sv_keeps (sv_set b n).
Proof. intros sv st. reflexivity. Qed.
Lemma sv_keeps_piece cfg s : sv_keeps (sv_lift (write_string_value_piece cfg s)).
Proof. intros sv st. unfold sv_lift. pose proof (keeps_piece cfg s st). destruct (write_string_value_piece cfg s st). exact H. Qed.
Lemma sv_keeps_utf8 bs : sv_keeps (sv_from_utf8 bs).
Proof. unfold sv_from_utf8. destruct (from_utf8 bs); intros sv st; reflexivity. Qed.
Global Hint Resolve sv_keeps_bind sv_keeps_ret sv_keeps_err sv_keeps_panic sv_keeps_set sv_keeps_piece sv_keeps_utf8 : keeps.

Lemma sv_keeps_scan cfg fuel : forall buf sp i, sv_keeps (write_scan_loop cfg fuel buf sp i).
Proof.
  induction fuel as [|fuel IH]; intros buf sp i; cbn [write_scan_loop]; [intros sv st; reflexivity|].
  destruct (nth_error buf i) as [b|]; [|destruct (Nat.ltb _ _); auto with keeps].
  destruct (is_1byte b); auto.
  assert (H : forall n, sv_keeps (if Nat.ltb (length buf - i) n then
     if Nat.ltb i sp then sv_panic Bug else
            s <-% sv_from_utf8 (slice buf sp i) ;;
            sv_lift (write_string_value_piece cfg s) ;;%
            sv_set (skipn i buf) n ;;%
            sv_ret (length buf)
          else write_scan_loop cfg fuel buf sp (i + (n - 1) + 1))).
  { intros n. destruct (Nat.ltb (length buf - i) n); auto. destruct (Nat.ltb i sp); auto 8 with keeps. }
  cbv zeta. repeat match goal with |- context[if ?f b then _ else _] => destruct (f b); auto end. auto with keeps.
Qed.
Global Hint Resolve sv_keeps_scan : keeps.

Lemma sv_keeps_write_impl cfg buf : sv_keeps (sv_write_impl cfg buf).
Proof.
  intros sv st. unfold sv_write_impl. destruct buf as [|x buf]; [reflexivity|].
  match goal with |- core_of (snd (sv_bind ?m ?f sv st)) = _ => assert (H : sv_keeps (sv_bind m f)) end; [|apply H].
  apply sv_keeps_bind.
  - destruct (sv_buf sv); auto with keeps. destruct (Nat.ltb _ _); auto with keeps.
    cbv zeta. destruct (Nat.ltb _ _); auto with keeps. apply sv_keeps_bind; auto with keeps.
    destruct (Nat.leb _ _); auto with keeps. apply sv_keeps_bind; auto with keeps. intros _.
    apply sv_keeps_bind; auto with keeps. unfold decode_utf8_char. apply sv_keeps_bind; auto with keeps.
    intros [|c [|]]; auto with keeps.
  - intros sp. destruct (max_or_offset_negative _ _ _); auto with keeps.
Qed.

Lemma sv_keeps_tracked {A} (m : SV A) : sv_keeps m -> sv_keeps (run_with_error_tracking m).
Proof.
  intros H. unfold run_with_error_tracking. apply sv_keeps_bind.
  - intros sv st. unfold check_previous_error. destruct (sv_error sv); reflexivity.
  - intros _ sv st. specialize (H sv st). destruct (m sv st) as [[[]] ]; exact H.
Qed.

Lemma sv_keeps_write cfg buf : sv_keeps (sv_write cfg buf).
Proof. apply sv_keeps_tracked, sv_keeps_write_impl. Qed.
Lemma sv_keeps_write_str cfg s : sv_keeps (sv_write_str cfg s).
Proof.
  apply sv_keeps_tracked. intros sv st. destruct (sv_buf sv); [apply sv_keeps_piece|reflexivity].
Qed.
Lemma sv_keeps_flush : sv_keeps sv_flush.
Proof.
  apply sv_keeps_tracked. intros sv st. unfold sv_lift. pose proof (keeps_flush st). destruct (flush st). exact H.
Qed.

(** ** Indentation *)

Definition safe_core (cfg : wsettings) (k : core) : Prop :=
  pretty_print cfg = true ->
  match k_stack k with
  | [] => True
  | f :: fs => (length fs + (if k_empty k then 0 else 1) <= k_indent k)%nat /\
      (f = SvObject -> k_expects k = false -> (S (length fs) <= k_indent k)%nat)
  end.

(** [m] keeps the invariant on errors; on success [Q] holds; only documented panics *)
Definition safe {A} (cfg : wsettings) (P : core -> Prop) (m : W A) (Q : core -> Prop) : Prop :=
  forall st, P (core_of st) ->
  match m st with
  | (Ok _, st') => Q (core_of st')
  | (Err _, st') => safe_core cfg (core_of st')
  | (Panic k, st') => k = Misuse
  | (OutOfFuel, _) => False
  end.

Lemma safe_bind {A B} cfg P Q R (m : W A) (f : A -> W B) :
  safe cfg P m Q -> (forall a, safe cfg Q (f a) R) -> safe cfg P (wbind m f) R.
Proof.
  intros Hm Hf st HP. specialize (Hm st HP). unfold wbind. destruct (m st) as [[a|e|k|] st1]; auto. apply Hf, Hm.
Qed.
Lemma safe_get {A B} cfg (P : core -> Prop) (g : wst -> A) (f : A -> W B) (R : core -> Prop) :
  (forall st0, P (core_of st0) -> safe cfg (fun k => P k /\ k = core_of st0) (f (g st0)) R) -> safe cfg P (wbind (wget g) f) R.
Proof. intros H st HP. unfold wbind, wget. apply (H st); auto. Qed.
Lemma safe_ret {A} cfg (P Q : core -> Prop) (a : A) : (forall k, P k -> Q k) -> safe cfg P (wret a) Q.
Proof. intros H st HP. apply H, HP. Qed.
Lemma safe_misuse {A} cfg (P Q : core -> Prop) : safe cfg P (@wpanic A Misuse) Q.
Proof. intros st HP. reflexivity. Qed.
Lemma safe_modify cfg (P Q : core -> Prop) f : (forall st, P (core_of st) -> Q (core_of (f st))) -> safe cfg P (wmodify f) Q.
Proof. intros H st HP. apply H, HP. Qed.
Lemma safe_bytes cfg (P Q : core -> Prop) bs : (forall k, P k -> safe_core cfg k) -> (forall k, P k -> Q k) -> safe cfg P (write_bytes bs) Q.
Proof.
  intros H1 H2 st HP. pose proof (write_bytes_any bs st) as H. destruct (write_bytes bs st) as [r st'].
  destruct H as [[->|[e ->]] E]; rewrite E; auto.
Qed.
Lemma safe_bytes_same cfg (P : core -> Prop) bs : (forall k, P k -> safe_core cfg k) -> safe cfg P (write_bytes bs) P.
Proof. intros H. apply safe_bytes; auto. Qed.
Lemma safe_weaken {A} cfg (P P' Q Q' : core -> Prop) (m : W A) : safe cfg P' m Q' -> (forall k, P k -> P' k) -> (forall k, Q' k -> Q k) -> safe cfg P m Q.
Proof. intros H HP HQ st Hk. specialize (H st (HP _ Hk)). destruct (m st) as [[a|e|k|] st1]; auto. Qed.

(** [m] behaves like writing some bytes *)
Lemma safe_wr {A} cfg (m : W A) (P : core -> Prop) : keeps m ->
  (forall st, match m st with (Panic k, _) => k = Misuse | (OutOfFuel, _) => False | _ => True end) ->
  (forall k, P k -> safe_core cfg k) -> safe cfg P m P.
Proof.
  intros Hk Hn HP st Hst. specialize (Hk st). specialize (Hn st). destruct (m st) as [[a|e|k|] st1]; cbn in *; auto.
  - rewrite Hk. exact Hst.
  - rewrite Hk. auto.
Qed.

Lemma safe_indentation cfg (P : core -> Prop) : (forall k, P k -> safe_core cfg k) -> safe cfg P write_indentation P.
Proof.
  intros HP.
  assert (H : forall n, safe cfg P (write_indentation_loop n) P).
  { induction n as [|n IH]; cbn [write_indentation_loop]; [apply safe_ret; auto|].
    eapply safe_bind; [apply safe_bytes_same, HP|]. intros _. exact IH. }
  intros st Hst. unfold write_indentation. apply H, Hst.
Qed.

(** After [before_container_element] the indentation is that of the elements. *)
Definition elem_core (cfg : wsettings) (k : core) : Prop :=
  pretty_print cfg = true -> match k_stack k with [] => True | _ :: fs => (S (length fs) <= k_indent k)%nat end.

Lemma elem_safe cfg k : elem_core cfg k -> safe_core cfg k.
Proof.
  intros H Hp. specialize (H Hp). destruct (k_stack k); auto. split; [destruct (k_empty k); lia|auto].
Qed.

Lemma safe_before_element cfg : safe cfg (safe_core cfg) (before_container_element cfg) (elem_core cfg).
Proof.
  unfold before_container_element. apply safe_get. intros st0 HP. destruct (w_is_empty st0) eqn:Ee.
  - destruct (pretty_print cfg) eqn:Epp; [|apply safe_ret; intros k _ Hp; congruence].
    eapply safe_bind; [apply safe_bytes_same; tauto|]. intros _.
    eapply (safe_bind _ _ (elem_core cfg)); [|intros _; apply safe_indentation, elem_safe].
    apply safe_modify. intros st [Hst Hk] Hp. specialize (Hst Hp). cbn in *. destruct (w_stack st); auto.
    destruct Hst as [Hst _]. destruct (w_is_empty st); lia.
  - assert (He : forall k, safe_core cfg k /\ k = core_of st0 -> elem_core cfg k).
    { intros k [Hk ->] Hp. specialize (Hk Hp). cbn in *. rewrite Ee in Hk. destruct (w_stack st0); auto. destruct Hk; lia. }
    destruct (pretty_print cfg) eqn:Epp; [|apply safe_bytes; [tauto|intros k _ Hp; congruence]].
    eapply (safe_bind _ _ (elem_core cfg)); [apply safe_bytes; [tauto|exact He]|].
    intros _. apply safe_indentation, elem_safe.
Qed.

(** After [before_value]: where a value, or a new container, comes next *)
Lemma safe_before_value cfg : safe cfg (safe_core cfg) (before_value cfg) (elem_core cfg).
Proof.
  unfold before_value. apply safe_get. intros st0 _. destruct (w_string_active st0); [apply safe_misuse|].
  apply safe_get. intros st1 [_ E1]. destruct (w_expects_member_name st1) eqn:Ex; [apply safe_misuse|].
  apply safe_get. intros st2 _. apply safe_get. intros st3 _.
  apply (safe_weaken _ _ (fun k => safe_core cfg k /\ k = core_of st1 /\ k = core_of st2 /\ k = core_of st3) _ (elem_core cfg)); [|tauto|auto].
  eapply (safe_bind _ _ (fun k => safe_core cfg k /\ elem_core cfg k)).
  - destruct (negb (w_is_empty st2) && match w_stack st2 with [] => true | _ => false end) eqn:Eb.
    + destruct (multi_top_level_value_separator cfg); [|apply safe_misuse].
      apply safe_bytes; [tauto|]. intros k (Hk & _ & Hk2 & _). split; [exact Hk|]. intros Hp. rewrite Hk2. cbn.
      apply andb_prop in Eb as [_ Eb]. destruct (w_stack st2); [exact I|discriminate].
    + destruct (w_is_in_array st3) eqn:Ea.
      * eapply safe_weaken; [apply safe_before_element|tauto|]. intros k Hk. split; [apply elem_safe, Hk|exact Hk].
      * apply safe_ret. intros k (Hk & Hk1 & Hk2 & Hk3). split; [exact Hk|]. intros Hp. specialize (Hk Hp).
        unfold w_is_in_array in Ea. assert (Es : k_stack k = w_stack st3) by (rewrite Hk3; reflexivity).
        assert (Ex' : k_expects k = w_expects_member_name st1) by (rewrite Hk1; reflexivity).
        rewrite Es, Ex', Ex in Hk. rewrite Es. destruct (w_stack st3) as [|[|] fs]; [exact I|discriminate|].
        apply Hk; reflexivity.
  - intros _. eapply (safe_bind _ _ (fun k => safe_core cfg k /\ elem_core cfg k)).
    + apply safe_modify. intros st [_ Hst]. split; [apply elem_safe|]; exact Hst.
    + intros _. apply safe_get. intros st4 _. destruct (w_is_in_object st4); [|apply safe_ret; tauto].
      apply safe_modify. intros st [[_ Hst] _]. exact Hst.
Qed.

Lemma safe_value cfg (m : W unit) : safe cfg (elem_core cfg) m (elem_core cfg) ->
  safe cfg (safe_core cfg) (wbind (before_value cfg) (fun _ => m)) (safe_core cfg).
Proof.
  intros H. eapply safe_bind; [apply safe_before_value|]. intros _. eapply safe_weaken; [exact H|auto|apply elem_safe].
Qed.

Lemma safe_elem_bytes cfg bs : safe cfg (elem_core cfg) (write_bytes bs) (elem_core cfg).
Proof. apply safe_bytes_same, elem_safe. Qed.

Lemma piece_no_panic cfg s : Forall is_char s -> forall st,
  match write_string_value_piece cfg s st with (Panic k, _) => k = Misuse | (OutOfFuel, _) => False | _ => True end.
Proof.
  intros Hs st. pose proof (writes_piece cfg s st Hs (buf_ok_any st)) as H.
  destruct (write_string_value_piece cfg s st) as [r st']. destruct H as [(-> & _)|(e & -> & _)]; exact I.
Qed.

Lemma safe_string cfg s : Forall is_char s -> safe cfg (elem_core cfg) (write_string_value cfg s) (elem_core cfg).
Proof.
  intros Hs. unfold write_string_value. eapply safe_bind; [apply safe_elem_bytes|]. intros _.
  eapply safe_bind; [|intros _; apply safe_elem_bytes].
  apply safe_wr; [apply keeps_piece|apply piece_no_panic, Hs|apply elem_safe].
Qed.

Lemma safe_begin cfg kind (b : bool) bs : (kind = SvObject -> b = true) -> safe cfg (safe_core cfg)
  (before_value cfg ;;! wmodify (fun st => set_stack (kind :: w_stack st) st) ;;!
   wmodify (set_empty true) ;;! wmodify (set_expects_name b) ;;! write_bytes bs) (safe_core cfg).
Proof.
  intros Hb. eapply safe_bind; [apply safe_before_value|]. intros _.
  intros st Hst. unfold wbind, wmodify.
  assert (Hs : safe_core cfg (core_of (set_expects_name b (set_empty true (set_stack (kind :: w_stack st) st))))).
  { intros Hp. specialize (Hst Hp). cbn in *. destruct (w_stack st); cbn in *; (split; [lia|]); intros E; rewrite (Hb E); discriminate. }
  pose proof (safe_bytes_same cfg (safe_core cfg) bs ltac:(auto) _ Hs) as H. exact H.
Qed.

Lemma safe_container_end cfg bs (P : core -> Prop) : (forall k, P k -> safe_core cfg k) ->
  (forall k, P k -> k_stack k <> []) ->
  safe cfg P (on_container_end cfg ;;! write_bytes bs) (safe_core cfg).
Proof.
  intros HP Hne. eapply (safe_bind _ _ (safe_core cfg)); [|intros _; apply safe_bytes_same; auto].
  unfold on_container_end.
  (* after popping *)
  eapply (safe_bind _ _ (fun k => pretty_print cfg = true ->
     (length (k_stack k) + (if k_empty k then 0 else 1) <= k_indent k)%nat)).
  { apply safe_modify. intros st Hst Hp. pose proof (HP _ Hst Hp) as H. pose proof (Hne _ Hst) as H1. cbn in *.
    destruct (w_stack st); [contradiction|]. cbn. apply H. }
  intros _. apply safe_get. intros st0 H0.
  eapply (safe_bind _ _ (fun k => pretty_print cfg = true -> (length (k_stack k) <= k_indent k)%nat)).
  - destruct (negb (w_is_empty st0) && pretty_print cfg) eqn:E.
    + apply andb_prop in E as [Ee Epp]. apply negb_true_iff in Ee.
      apply (safe_weaken _ _ (fun k => safe_core cfg k /\ (S (length (k_stack k)) <= k_indent k)%nat) _
         (fun k => (length (k_stack k) <= k_indent k)%nat)).
      * eapply safe_bind; [apply safe_bytes_same; tauto|]. intros _.
        apply (safe_bind _ _ (fun k => safe_core cfg k /\ (length (k_stack k) <= k_indent k)%nat)).
        -- intros st [_ Hst]. unfold decrease_indentation. cbn in *. destruct (w_indentation st) as [|n] eqn:En; [lia|].
           cbn. split; [|lia]. intros _. cbn. destruct (w_stack st); cbn in *; [exact I|]. split; [destruct (w_is_empty st); lia|lia].
        -- intros _. eapply safe_weaken; [apply (safe_indentation cfg (fun k => safe_core cfg k /\ (length (k_stack k) <= k_indent k)%nat)); tauto|auto|intros k Hk; apply Hk].
      * intros k [Hk ->]. specialize (Hk Epp). cbn in *. rewrite Ee in Hk. split; [|lia].
        intros _. cbn. rewrite Ee. destruct (w_stack st0); cbn in *; [exact I|]. split; lia.
      * auto.
    + apply safe_ret. intros k [Hk _] Hp. specialize (Hk Hp). destruct (k_empty k); lia.
  - intros _. eapply (safe_bind _ _ (fun k => pretty_print cfg = true -> (length (k_stack k) <= k_indent k)%nat)).
    + apply safe_modify. auto.
    + intros _. apply safe_modify. intros st Hst Hp. specialize (Hst Hp). cbn in *.
      destruct (w_stack st); cbn in *; [exact I|]. split; [destruct (w_is_empty st); lia|lia].
Qed.

(** ** Sessions *)

Definition safe_session (cfg : wsettings) (s : wsession) : Prop :=
  safe_core cfg (core_of (ws_writer s)) /\
  match ws_string s with
  | Some sv => w_string_active (ws_writer s) = true /\ (sv_error sv = None -> sv_ok sv)
  | None => True
  end.

Definition no_bug (r : wresult) : Prop := r <> RPanic Bug /\ r <> RNoFuel.

Lemma safe_json cfg (m : W unit) s : safe cfg (safe_core cfg) m (safe_core cfg) -> safe_session cfg s ->
  no_bug (fst (json_call m s)) /\ (fst (json_call m s) = RPanic Misuse \/ safe_session cfg (snd (json_call m s))).
Proof.
  intros Hm [Hs _]. specialize (Hm _ Hs). unfold json_call, no_bug, safe_session.
  destruct (m (ws_writer s)) as [[a|e|k|] st']; cbn; try contradiction; subst; (split; [split; discriminate|]); auto.
Qed.

Lemma safe_number cfg (m : W number_result) s : safe cfg (safe_core cfg) m (safe_core cfg) -> safe_session cfg s ->
  no_bug (fst (number_call m s)) /\ (fst (number_call m s) = RPanic Misuse \/ safe_session cfg (snd (number_call m s))).
Proof.
  intros Hm [Hs _]. specialize (Hm _ Hs). unfold number_call, no_bug, safe_session.
  destruct (m (ws_writer s)) as [[[]|e|k|] st']; cbn; try contradiction; subst; (split; [split; discriminate|]); auto.
Qed.

(** Calls of the string value writer *)
Definition sv_safe {A} (m : SV A) : Prop := forall sv st, (sv_error sv = None -> sv_ok sv) ->
  match m sv st with
  | (Ok _, sv', _) => sv_error sv' = None -> sv_ok sv'
  | (Err _, sv', _) => sv_error sv' <> None
  | _ => False
  end.

Lemma sv_safe_call {A} cfg f (m : SV A) s : (forall a, no_bug (f a)) -> sv_keeps m -> sv_safe m -> safe_session cfg s ->
  no_bug (fst (string_call f m s)) /\ safe_session cfg (snd (string_call f m s)).
Proof.
  intros Hf Hk Hm [Hs Hsv]. unfold string_call. destruct (ws_string s) as [sv|] eqn:E.
  - destruct Hsv as [Ha Hsv]. specialize (Hm sv (ws_writer s) Hsv). specialize (Hk sv (ws_writer s)).
    destruct (m sv (ws_writer s)) as [[[a|e|k|] sv'] st']; cbn in *; try contradiction.
    + split; [apply Hf|]. unfold safe_session. cbn. rewrite Hk. splits; auto.
      apply (f_equal k_active) in Hk. cbn in Hk. congruence.
    + split; [split; discriminate|]. unfold safe_session. cbn. rewrite Hk. splits; auto.
      * apply (f_equal k_active) in Hk. cbn in Hk. congruence.
      * intros; contradiction.
  - cbn. split; [split; discriminate|]. split; auto. rewrite E. exact I.
Qed.

Lemma tracked_safe {A} (m : SV A) : (forall sv st, sv_error sv = None -> sv_ok sv -> match m sv st with
   | (Ok _, sv', _) => sv_ok sv' | (Err _, _, _) => True | _ => False end) -> sv_safe (run_with_error_tracking m).
Proof.
  intros H sv st Hsv. unfold run_with_error_tracking, sv_bind, check_previous_error.
  destruct (sv_error sv) eqn:E; [rewrite E; discriminate|].
  specialize (H sv st E (Hsv eq_refl)). destruct (m sv st) as [[[a|e|k|] sv'] st']; auto. cbn. discriminate.
Qed.

Lemma safe_sv_write cfg bs : sv_safe (sv_write cfg bs).
Proof.
  apply tracked_safe. intros sv st _ Hok.
  destruct (sv_write_impl_spec cfg bs sv (core_of st) Hok) as [(s & sv' & _ & _ & Hok' & _ & Hw)|[Hbad _]].
  - specialize (Hw st eq_refl (buf_ok_any st)). destruct (sv_write_impl cfg bs sv st) as [[r sv1] st1].
    destruct Hw as [(-> & -> & _)|(e & -> & _)]; auto.
  - specialize (Hbad st eq_refl (buf_ok_any st)). destruct (sv_write_impl cfg bs sv st) as [[r sv1] st1].
    destruct Hbad as (e & -> & _). exact I.
Qed.
Lemma safe_sv_write_str cfg s : Forall is_char s -> sv_safe (sv_write_str cfg s).
Proof.
  intros Hs. apply tracked_safe. intros sv st _ Hok. destruct (sv_buf sv) eqn:E; [|exact I].
  unfold sv_lift. pose proof (writes_piece cfg s st Hs (buf_ok_any st)) as H.
  destruct (write_string_value_piece cfg s st) as [r st']. destruct H as [(-> & _)|(e & -> & _)]; auto.
Qed.
Lemma safe_sv_flush : sv_safe sv_flush.
Proof.
  apply tracked_safe. intros sv st _ Hok. unfold sv_lift.
  pose proof (wr_flush (core_of st) st eq_refl (buf_ok_any st)) as H.
  destruct (flush st) as [r st']. destruct H as [(-> & _)|(e & -> & _)]; auto.
Qed.

Lemma safe_step cfg c s : valid_call c -> safe_session cfg s ->
  no_bug (fst (wstep cfg c s)) /\ (fst (wstep cfg c s) = RPanic Misuse \/ safe_session cfg (snd (wstep cfg c s))).
Proof.
  intros Hc Hs.
  destruct c as [| | | |n|v|b| |z|v|v| |bs|v| |]; cbn [wstep].
  - apply safe_json; auto. apply safe_begin. auto.
  - apply safe_json; auto. unfold end_object. apply safe_get. intros st0 _.
    destruct (w_is_in_object st0) eqn:Ei; [|apply safe_misuse]. cbn [negb].
    apply safe_get. intros st1 _. destruct (w_string_active st1); [apply safe_misuse|].
    apply safe_get. intros st2 _. destruct (w_expects_member_name st2); [|apply safe_misuse]. cbn [negb].
    apply safe_container_end; [tauto|]. intros k (((_ & E0) & _) & _). rewrite E0. cbn. unfold w_is_in_object in Ei. destruct (w_stack st0); discriminate.
  - apply safe_json; auto. apply safe_begin. discriminate.
  - apply safe_json; auto. unfold end_array. apply safe_get. intros st0 _.
    destruct (w_is_in_array st0) eqn:Ei; [|apply safe_misuse]. cbn [negb].
    apply safe_get. intros st1 _. destruct (w_string_active st1); [apply safe_misuse|].
    apply safe_container_end; [tauto|]. intros k ((_ & E0) & _). rewrite E0. cbn. unfold w_is_in_array in Ei. destruct (w_stack st0); discriminate.
  - apply safe_json; auto. unfold name. apply safe_get. intros st0 _. destruct (w_expects_member_name st0); [|apply safe_misuse]. cbn [negb].
    apply safe_get. intros st1 _. destruct (w_string_active st1); [apply safe_misuse|].
    eapply (safe_bind _ _ (elem_core cfg)); [eapply safe_weaken; [apply safe_before_element|tauto|auto]|]. intros _.
    eapply safe_bind; [apply safe_string, Hc|]. intros _.
    eapply safe_bind; [apply safe_elem_bytes|]. intros _. apply safe_modify. intros st Hst. apply elem_safe. exact Hst.
  - apply safe_json; auto. apply safe_value, safe_string, Hc.
  - apply safe_json; auto. apply safe_value, safe_elem_bytes.
  - apply safe_json; auto. apply safe_value, safe_elem_bytes.
  - apply safe_json; auto. unfold number_value. destruct (int_to_string_spec z) as (_ & _ & ->). apply safe_value, safe_elem_bytes.
  - apply safe_number; auto. destruct v as [v|]; cbn [fp_number_value]; [|apply safe_ret; auto].
    destruct Hc as [_ Hc]. apply is_valid_json_number_spec in Hc. unfold fp_number_value. rewrite Hc. cbn [negb].
    eapply safe_bind; [apply safe_value, safe_elem_bytes|]. intros _. apply safe_ret; auto.
  - apply safe_number; auto. unfold number_value_from_string. destruct (is_valid_json_number v); [|apply safe_ret; auto].
    eapply safe_bind; [apply safe_before_value|]. intros _.
    eapply safe_bind; [apply safe_elem_bytes|]. intros _. apply safe_ret. apply elem_safe.
  - assert (H : safe cfg (safe_core cfg) (string_value_writer cfg) (fun k => safe_core cfg k /\ k_active k = true)).
    { eapply safe_bind; [apply safe_before_value|]. intros _. eapply safe_bind; [apply safe_elem_bytes|]. intros _.
      eapply (safe_bind _ _ (fun k => safe_core cfg k /\ k_active k = true)); [|intros _; apply safe_ret; auto].
      apply safe_modify. intros st Hst. split; [apply elem_safe, Hst|reflexivity]. }
    destruct Hs as [Hs _]. specialize (H _ Hs).
    assert (Hsv : forall sv st', string_value_writer cfg (ws_writer s) = (Ok sv, st') -> sv = Svw [] 0 None).
    { intros sv st'. unfold string_value_writer, wbind, wmodify, wret.
      destruct (before_value cfg (ws_writer s)) as [[| | |] s1]; try discriminate.
      destruct (write_bytes [B_QUOTE] s1) as [[| | |] s2]; try discriminate. intros [= <- _]. reflexivity. }
    unfold no_bug, safe_session.
    destruct (string_value_writer cfg (ws_writer s)) as [[sv|e|k|] st']; cbn; try contradiction.
    + split; [split; discriminate|]. right. destruct H as [H1 H2]. splits; auto.
      rewrite (Hsv sv st' eq_refl). intros _. left. reflexivity.
    + split; [split; discriminate|]. auto.
    + subst k. split; [split; discriminate|]. auto.
  - edestruct (sv_safe_call cfg RCount (sv_write cfg bs) s) as [H1 H2]; auto using sv_keeps_write, safe_sv_write. split; discriminate.
  - edestruct (sv_safe_call cfg (fun _ : unit => RDone) (sv_write_str cfg v) s) as [H1 H2]; auto using sv_keeps_write_str, safe_sv_write_str. split; discriminate.
  - edestruct (sv_safe_call cfg (fun _ : unit => RDone) sv_flush s) as [H1 H2]; auto using sv_keeps_flush, safe_sv_flush. split; discriminate.
  - (* finish_value *)
    destruct Hs as [Hs Hsv]. unfold string_call. destruct (ws_string s) as [sv|] eqn:E.
    2:{ cbn. split; [split; discriminate|]. right. split; auto. }
    unfold sv_finish_value, sv_bind, check_previous_error. destruct (sv_error sv).
    { cbn. split; [split; discriminate|]. right. split; auto. }
    destruct (sv_buf sv).
    2:{ cbn. split; [split; discriminate|]. right. split; auto. }
    unfold sv_lift. pose proof (write_bytes_any [B_QUOTE] (ws_writer s)) as H.
    destruct (write_bytes [B_QUOTE] (ws_writer s)) as [r st1]. destruct H as [[->|[e ->]] Hk].
    + cbn. split; [split; discriminate|]. right. split; [|exact I]. cbn.
      rewrite <- Hk in Hs. exact Hs.
    + cbn. split; [split; discriminate|]. right. split; [|exact I]. cbn. rewrite Hk. exact Hs.
Qed.

Lemma safe_run cfg cs : forall s, Forall valid_call cs -> safe_session cfg s ->
  Forall no_bug (fst (wrun cfg cs s)) /\ (In (RPanic Misuse) (fst (wrun cfg cs s)) \/ safe_session cfg (snd (wrun cfg cs s))).
Proof.
  induction cs as [|c cs IH]; intros s Hv Hs; [cbn; auto|].
  apply Forall_cons_iff in Hv as [Hc Hv]. destruct (safe_step cfg c s Hc Hs) as [Hn Hs'].
  cbn [wrun]. destruct (wstep cfg c s) as [r s1]. cbn [fst snd] in *.
  destruct Hs' as [->|Hs'].
  - cbn. split; [constructor; [exact Hn|constructor]|]. left. left. reflexivity.
  - destruct (IH s1 Hv Hs') as [H1 H2]. destruct (wrun cfg cs s1) as [rs s2]. cbn [fst snd] in *.
    destruct r as [| | | |k| |]; cbn; try (split; [constructor; assumption|]; destruct H2; auto).
    split; [constructor; [exact Hn|constructor]|]. destruct k; [left; left; reflexivity|]. destruct Hn as [Hn _]. contradiction.
Qed.

Lemma new_session_safe cfg s : safe_session cfg (new_session s).
Proof. split; [intros _; exact I|exact I]. Qed.

Lemma finish_no_bug s : no_bug (fst (wfinish s)).
Proof.
  rewrite wfinish_cases. unfold no_bug.
  destruct (w_string_active _); [split; discriminate|]. destruct (w_expects_member_name _); [split; discriminate|].
  destruct (w_stack _); [|split; discriminate]. destruct (w_is_empty _); [split; discriminate|].
  pose proof (wr_flush (core_of (ws_writer s)) (ws_writer s) eq_refl (buf_ok_any _)) as H.
  destruct (flush (ws_writer s)) as [r st']. destruct H as [(-> & _)|(e & -> & _)]; split; discriminate.
Qed.
