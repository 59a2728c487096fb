(** * Writer: an underlying [Write] which may fail, compared with one which does not

    Auxiliary.  As in WriterMore.v, but the first [Write] may fail; then the call
    reports its error. *)

From Verif Require Import Base Utf8Model Utf8Proofs NumberModel SpecNumber NumberProofs SpecJson
  WriterModel SpecWriter Utf8Prefix WriterProofs WriterDocProofs WriterStringProofs WriterSession WriterRun WriterSafe SpecSimpleWriter SpecSinks.

(** ** Errors of the [Write] are among its responses *)

Definition from (O s : sink) : Prop := incl (write_resps s) (write_resps O) /\ incl (flush_resps s) (flush_resps O).

Lemma incl_cons_inv' {A : Type} (x : A) l l' : incl (x :: l) l' -> In x l' /\ incl l l'.
Proof. intros H. split; [apply H; left; reflexivity|intros y Hy; apply H; right; exact Hy]. Qed.

Lemma write_all_loop_from l : forall resps recv buf r recv' resps', incl resps l -> write_all_loop resps recv buf = (r, recv', resps') ->
  incl resps' l /\ forall e, r = Err e -> match e with WSink n => In (SErr n) l | WWriteZero => In (SAccept 0) l | _ => False end.
Proof.
  induction resps as [|x resps IH]; intros recv buf r recv' resps' Hi H; destruct buf as [|b buf]; cbn [write_all_loop] in H.
  - injection H as <- _ <-. split; [exact Hi|discriminate].
  - injection H as <- _ <-. split; [exact Hi|discriminate].
  - injection H as <- _ <-. split; [exact Hi|discriminate].
  - apply incl_cons_inv' in Hi as [Hx Hi]. destruct x as [n| |e].
    + destruct (N.to_nat (N.min n (N.of_nat (length (b :: buf))))) eqn:En.
      * injection H as <- _ <-. split; [exact Hi|]. intros e He. injection He as <-. assert (n = 0) as -> by (cbn [length] in En; lia). exact Hx.
      * exact (IH _ _ _ _ _ Hi H).
    + exact (IH _ _ _ _ _ Hi H).
    + injection H as <- _ <-. split; [exact Hi|]. intros e' He. injection He as <-. exact Hx.
Qed.

Lemma write_all_from O s buf r s' : from O s -> write_all s buf = (r, s') -> from O s' /\ forall e, r = Err e -> error_of_the_sink O e.
Proof.
  intros [H1 H2] H. unfold write_all in H. destruct (write_all_loop (write_resps s) (received s) buf) as [[r1 recv] resps] eqn:E. injection H as <- <-.
  destruct (write_all_loop_from _ _ _ _ _ _ _ H1 E) as [H3 H4]. split; [split; assumption|]. intros e He. specialize (H4 e He). destruct e; try contradiction; cbn; auto.
Qed.

Definition tracks {A} (m : W A) : Prop := forall O st, from O (w_sink st) ->
  from O (w_sink (snd (m st))) /\ forall e, fst (m st) = Err e -> error_of_the_sink O e.

Lemma tracks_bytes bs : tracks (write_bytes bs).
Proof.
  unfold write_bytes. generalize (S (length bs)). intros fuel. revert bs. induction fuel as [|fuel IH]; intros bs O st Ho; destruct bs as [|b bs]; cbn [write_bytes_loop];
    try (cbn; split; [exact Ho|discriminate]).
  cbv zeta. destruct (Nat.leb _ _).
  - destruct (write_all (w_sink st) _) as [r s'] eqn:E. destruct (write_all_from O _ _ _ _ Ho E) as [H1 H2].
    destruct r as [[]|e|k|]; [apply IH; exact H1|cbn; split; [exact H1|]; intros e' He; injection He as <-; exact (H2 _ eq_refl)|cbn; split; [exact H1|discriminate]..].
  - apply IH. exact Ho.
Qed.

Lemma tracks_flush : tracks flush.
Proof.
  intros O st Ho. unfold flush. destruct (write_all (w_sink st) (w_buf st)) as [r s'] eqn:E. destruct (write_all_from O _ _ _ _ Ho E) as [[H1 H1'] H2].
  destruct r as [[]|e|k|]; [|cbn; split; [split; assumption|]; intros e' He; injection He as <-; exact (H2 _ eq_refl)|cbn; split; [split; assumption|discriminate]..].
  unfold sink_flush. destruct (flush_resps s') as [|[e|] rs] eqn:Ef; cbn.
  - split; [split; [exact H1|intros x []]|discriminate].
  - apply incl_cons_inv' in H1' as [Hx Hi]. split; [split; assumption|]. intros e' He. injection He as <-. cbn. auto.
  - apply incl_cons_inv' in H1' as [Hx Hi]. split; [split; assumption|discriminate].
Qed.

Definition same (O : sink) (st1 st2 : wst) : Prop :=
  core_of st1 = core_of st2 /\ emitted st1 = emitted st2 /\ good_sink (w_sink st2) /\ from O (w_sink st1).

Definition rel {A} (m : W A) : Prop := forall O st1 st2, same O st1 st2 ->
  (exists e, fst (m st1) = Err e /\ error_of_the_sink O e) \/ fst (m st1) = fst (m st2) /\ same O (snd (m st1)) (snd (m st2)).

Lemma rel_bytes bs : rel (write_bytes bs).
Proof.
  intros O st1 st2 (Hk & He & Hg2 & Ho).
  pose proof (writes_bytes bs st1 (buf_ok_any _)) as H1. pose proof (writes_bytes bs st2 (buf_ok_any _)) as H2.
  destruct (tracks_bytes bs O st1 Ho) as [T1 T2].
  destruct (write_bytes bs st1) as [r1 s1], (write_bytes bs st2) as [r2 s2]. cbn [fst snd] in T1, T2.
  destruct H2 as [(-> & E2 & K2 & _ & G2)|(e & _ & _ & Hb & _)]; [|contradiction].
  destruct H1 as [(-> & E1 & K1 & _ & G1)|(e & -> & _ & _ & _)]; [right|left; cbn; eauto].
  cbn. split; [reflexivity|]. unfold same. rewrite K1, K2, E1, E2, Hk, He. auto.
Qed.
Lemma rel_flush : rel flush.
Proof.
  intros O st1 st2 (Hk & He & Hg2 & Ho).
  pose proof (wr_flush (core_of st1) st1 eq_refl (buf_ok_any _)) as H1. pose proof (wr_flush (core_of st2) st2 eq_refl (buf_ok_any _)) as H2.
  destruct (tracks_flush O st1 Ho) as [T1 T2].
  destruct (flush st1) as [r1 s1], (flush st2) as [r2 s2]. cbn [fst snd] in T1, T2.
  destruct H2 as [(-> & E2 & K2 & _ & G2)|(e & _ & _ & Hb & _)]; [|contradiction].
  destruct H1 as [(-> & E1 & K1 & _ & G1)|(e & -> & _ & _ & _)]; [right|left; cbn; eauto].
  cbn. split; [reflexivity|]. unfold same. rewrite K1, K2, E1, E2, Hk, He. auto.
Qed.
Lemma rel_bind {A B} (m : W A) (f : A -> W B) : rel m -> (forall a, rel (f a)) -> rel (wbind m f).
Proof.
  intros Hm Hf O st1 st2 Hs. unfold wbind. destruct (Hm O st1 st2 Hs) as [(e & H1 & H2)|[H1 H2]];
    destruct (m st1) as [r1 s1], (m st2) as [r2 s2]; cbn in *; subst.
  - left. cbn. eauto.
  - destruct r2; cbn; [apply Hf, H2|right; auto..].
Qed.
Lemma rel_ret {A} (a : A) : rel (wret a).
Proof. intros O st1 st2 H. right. cbn. auto. Qed.
Lemma rel_panic {A} k : rel (@wpanic A k).
Proof. intros O st1 st2 H. right. cbn. auto. Qed.
Lemma rel_get {A} (g : wst -> A) (h : core -> A) : (forall st, g st = h (core_of st)) -> rel (wget g).
Proof. intros Hg O st1 st2 H. right. cbn. split; [|exact H]. rewrite !Hg. destruct H as [-> _]. reflexivity. Qed.
Lemma rel_modify f (h : core -> core) : (forall st, w_sink (f st) = w_sink st /\ w_buf (f st) = w_buf st /\ core_of (f st) = h (core_of st)) -> rel (wmodify f).
Proof.
  intros Hf O st1 st2 (Hk & He & Hg2 & Ho). right. cbn. split; [reflexivity|]. unfold same, emitted in *.
  destruct (Hf st1) as (-> & -> & ->), (Hf st2) as (-> & -> & ->). rewrite Hk. auto.
Qed.
Create HintDb frel.
Local Hint Resolve rel_bytes rel_flush rel_bind rel_ret rel_panic : frel.
Ltac rel_get_step h := apply rel_bind; [apply (rel_get _ h); intros; reflexivity|intros ?].
Ltac rel_mod h := apply (rel_modify _ h); intros; repeat split; reflexivity.

Lemma rel_indentation : rel write_indentation.
Proof.
  assert (H : forall n, rel (write_indentation_loop n)).
  { induction n; cbn [write_indentation_loop]; auto with frel. }
  intros O st1 st2 Hs. unfold write_indentation. pose proof Hs as [Hk _]. apply (f_equal k_indent) in Hk. cbn in Hk.
  rewrite Hk. apply H, Hs.
Qed.
Lemma rel_increase : rel increase_indentation.
Proof. rel_mod (fun k => Core (k_empty k) (k_expects k) (k_stack k) (k_active k) (S (k_indent k))). Qed.
Lemma rel_decrease : rel decrease_indentation.
Proof.
  intros O st1 st2 (Hk & He & Hg). right. unfold decrease_indentation. pose proof (f_equal k_indent Hk) as Hi. cbn in Hi. rewrite Hi.
  destruct (w_indentation st2) as [|n] eqn:En; cbn; (split; [reflexivity|]); unfold same; auto. split; [|auto].
  unfold core_of in *. cbn. congruence.
Qed.
Local Hint Resolve rel_indentation rel_increase rel_decrease : frel.
Lemma rel_before_element cfg : rel (before_container_element cfg).
Proof.
  unfold before_container_element. rel_get_step k_empty. destruct a, (pretty_print cfg); auto with frel.
Qed.
Local Hint Resolve rel_before_element : frel.
Lemma rel_before_value cfg : rel (before_value cfg).
Proof.
  unfold before_value. rel_get_step k_active. destruct a; auto with frel. rel_get_step k_expects. destruct a; auto with frel.
  rel_get_step (fun k => negb (k_empty k) && match k_stack k with [] => true | _ => false end).
  rel_get_step k_in_array. apply rel_bind.
  - destruct a; [destruct (multi_top_level_value_separator cfg); auto with frel|]. destruct a0; auto with frel.
  - intros _. apply rel_bind; [rel_mod (k_set_empty false)|]. intros _. rel_get_step k_in_object.
    destruct a1; auto with frel. rel_mod (k_set_expects true).
Qed.
Local Hint Resolve rel_before_value : frel.
Lemma rel_u_escape v : rel (write_unicode_escape v).
Proof. unfold write_unicode_escape. apply rel_bind; auto with frel. intros _. destruct (get_unicode_escape v); auto with frel. Qed.
Local Hint Resolve rel_u_escape : frel.
Lemma rel_escaped_char c : rel (write_escaped_char c).
Proof.
  unfold write_escaped_char. repeat match goal with |- context[if ?b then _ else _] => destruct b; auto with frel end.
Qed.
Local Hint Resolve rel_escaped_char : frel.
Lemma rel_piece cfg s : rel (write_string_value_piece cfg s).
Proof.
  assert (H : forall bs chars i j, rel (string_piece_loop cfg bs chars i j)).
  { intros bs. induction chars as [|c chars IH]; intros i j; cbn [string_piece_loop]; auto with frel.
    destruct (should_escape cfg c); auto with frel.
    apply rel_bind; [destruct (Nat.ltb j i); auto with frel|]. intros _. apply rel_bind; auto with frel. }
  unfold write_string_value_piece. apply rel_bind; auto. intros n. destruct (Nat.ltb _ _); auto with frel.
Qed.
Local Hint Resolve rel_piece : frel.
Lemma rel_string cfg s : rel (write_string_value cfg s).
Proof. unfold write_string_value. auto with frel. Qed.
Local Hint Resolve rel_string : frel.
Lemma rel_container_end cfg : rel (on_container_end cfg).
Proof.
  unfold on_container_end. apply rel_bind; [rel_mod (fun k => k_set_stack (tl (k_stack k)) k)|]. intros _.
  rel_get_step k_empty. apply rel_bind; [destruct (negb a && pretty_print cfg); auto with frel|]. intros _.
  apply rel_bind; [rel_mod (k_set_empty false)|]. intros _. rel_mod (fun k => k_set_expects (k_in_object k) k).
Qed.
Local Hint Resolve rel_container_end : frel.


Definition svrel {A} (m : SV A) : Prop := forall O sv st1 st2, same O st1 st2 ->
  (exists e, fst (fst (m sv st1)) = Err e /\ error_of_the_sink O e) \/ fst (m sv st1) = fst (m sv st2) /\ same O (snd (m sv st1)) (snd (m sv st2)).
Lemma svrel_lift {A} (m : W A) : rel m -> svrel (sv_lift m).
Proof.
  intros Hm O sv st1 st2 Hs. unfold sv_lift. destruct (Hm O st1 st2 Hs) as [(e & H1 & H2)|[H1 H2]];
    destruct (m st1), (m st2); cbn in *; subst; [left; eauto|right; auto].
Qed.
Lemma svrel_bind {A B} (m : SV A) (f : A -> SV B) : svrel m -> (forall a, svrel (f a)) -> svrel (sv_bind m f).
Proof.
  intros Hm Hf O sv st1 st2 Hs. unfold sv_bind. destruct (Hm O sv st1 st2 Hs) as [(e & H1 & H2)|[H1 H2]];
    destruct (m sv st1) as [[r1 v1] s1], (m sv st2) as [[r2 v2] s2]; cbn in *.
  - subst r1. left. cbn. eauto.
  - injection H1 as -> ->. destruct r2; cbn; [apply Hf, H2|right; auto..].
Qed.
Lemma svrel_const {A} (g : svw -> res werr A * svw) : svrel (fun sv st => (g sv, st)).
Proof. intros O sv st1 st2 H. right. cbn. auto. Qed.
Lemma svrel_ret {A} (a : A) : svrel (sv_ret a).
Proof. apply (svrel_const (fun sv => (Ok a, sv))). Qed.
Lemma svrel_err {A} e : svrel (@sv_err A e).
Proof. apply (svrel_const (fun sv => (Err e, sv))). Qed.
Lemma svrel_panic {A} e : svrel (@sv_panic A e).
Proof. apply (svrel_const (fun sv => (Panic e, sv))). Qed.
Lemma svrel_set b n : svrel (sv_set b n).
Proof. apply (svrel_const (fun sv => (Ok tt, Svw b n (sv_error sv)))). Qed.
Lemma svrel_utf8 bs : svrel (sv_from_utf8 bs).
Proof. unfold sv_from_utf8. destruct (from_utf8 bs); [apply svrel_ret|apply svrel_err]. Qed.
Lemma svrel_piece cfg s : svrel (sv_lift (write_string_value_piece cfg s)).
Proof. apply svrel_lift, rel_piece. Qed.
Local Hint Resolve svrel_bind svrel_ret svrel_err svrel_panic svrel_set svrel_utf8 svrel_piece : frel.
Lemma svrel_scan cfg fuel : forall buf sp i, svrel (write_scan_loop cfg fuel buf sp i).
Proof.
  induction fuel as [|fuel IH]; intros buf sp i; cbn [write_scan_loop]; [apply (svrel_const (fun sv => (OutOfFuel, sv)))|].
  destruct (nth_error buf i) as [b|]; [|destruct (Nat.ltb _ _); auto with frel].
  destruct (is_1byte b); auto.
  assert (H : forall n, svrel (if Nat.ltb (length buf - i) n then
     if Nat.ltb i sp then sv_panic Bug else
            s <-% sv_from_utf8 (slice buf sp i) ;;
            sv_lift (write_string_value_piece cfg s) ;;%
            sv_set (skipn i buf) n ;;%
            sv_ret (length buf)
          else write_scan_loop cfg fuel buf sp (i + (n - 1) + 1))).
  { intros n. destruct (Nat.ltb (length buf - i) n); auto. destruct (Nat.ltb i sp); auto 8 with frel. }
  cbv zeta. repeat match goal with |- context[if ?f b then _ else _] => destruct (f b); auto end. auto with frel.
Qed.
Local Hint Resolve svrel_scan : frel.
Lemma svrel_write_impl cfg buf : svrel (sv_write_impl cfg buf).
Proof.
  intros O sv st1 st2 Hs. unfold sv_write_impl. destruct buf as [|x buf]; [right; cbn; auto|].
  match goal with |- (exists e, fst (fst (sv_bind ?m ?f sv st1)) = _ /\ _) \/ _ => assert (H : svrel (sv_bind m f)) end; [|apply H, Hs].
  apply svrel_bind.
  - destruct (sv_buf sv); auto with frel. destruct (Nat.ltb _ _); auto with frel.
    cbv zeta. destruct (Nat.ltb _ _); auto with frel. apply svrel_bind; auto with frel.
    destruct (Nat.leb _ _); auto with frel. apply svrel_bind; auto with frel. intros _.
    apply svrel_bind; auto with frel. unfold decode_utf8_char. apply svrel_bind; auto with frel.
    intros [|c [|]]; auto with frel.
  - intros sp. destruct (max_or_offset_negative _ _ _); auto with frel.
Qed.
Lemma svrel_check : svrel check_previous_error.
Proof. intros O sv st1 st2 Hs. right. unfold check_previous_error. destruct (sv_error sv); cbn; auto. Qed.
Lemma svrel_tracked {A} (m : SV A) : svrel m -> svrel (run_with_error_tracking m).
Proof.
  intros H. unfold run_with_error_tracking. apply svrel_bind; [apply svrel_check|].
  intros _ O sv st1 st2 Hs. destruct (H O sv st1 st2 Hs) as [(e & H1 & H2)|[H1 H2]];
    destruct (m sv st1) as [[r1 v1] s1], (m sv st2) as [[r2 v2] s2]; cbn in *.
  - subst r1. left. cbn. eauto.
  - injection H1 as -> ->. right. destruct r2; cbn; auto.
Qed.

Definition same_session (O : sink) (s1 s2 : wsession) : Prop := same O (ws_writer s1) (ws_writer s2) /\ ws_string s1 = ws_string s2.

(** The call fails with an error of the [Write], or has the same result *)
Definition same_or_error (O : sink) (x1 x2 : wresult * wsession) : Prop :=
  (exists e, fst x1 = RError e /\ error_of_the_sink O e) \/ fst x1 = fst x2 /\ same_session O (snd x1) (snd x2).

Lemma same_json O m s1 s2 : rel m -> same_session O s1 s2 -> same_or_error O (json_call m s1) (json_call m s2).
Proof.
  intros Hm [Hs _]. unfold json_call, same_or_error, same_session. destruct (Hm _ _ _ Hs) as [(e & H1 & H2)|[H1 H2]];
    destruct (m (ws_writer s1)), (m (ws_writer s2)); cbn in *; subst; [left; cbn; eauto|right; auto].
Qed.
Lemma same_number O m s1 s2 : rel m -> same_session O s1 s2 -> same_or_error O (number_call m s1) (number_call m s2).
Proof.
  intros Hm [Hs _]. unfold number_call, same_or_error, same_session. destruct (Hm _ _ _ Hs) as [(e & H1 & H2)|[H1 H2]];
    destruct (m (ws_writer s1)), (m (ws_writer s2)); cbn in *; subst; [left; cbn; eauto|right; auto].
Qed.
Lemma same_string {A} O f (m : SV A) s1 s2 : svrel m -> same_session O s1 s2 -> same_or_error O (string_call f m s1) (string_call f m s2).
Proof.
  intros Hm [Hs E]. unfold string_call. rewrite E. destruct (ws_string s2) as [sv|] eqn:Es; [|right; cbn; unfold same_session; rewrite Es; auto].
  unfold same_or_error, same_session. destruct (Hm _ sv _ _ Hs) as [(e & H1 & H2)|[H1 H2]];
    destruct (m sv (ws_writer s1)) as [[r1 v1] t1], (m sv (ws_writer s2)) as [[r2 v2] t2]; cbn in *.
  - subst r1. left. cbn. eauto.
  - injection H1 as -> ->. right. auto.
Qed.

Lemma same_step O cfg c s1 s2 : same_session O s1 s2 ->
  same_or_error O (wstep cfg c s1) (wstep cfg c s2).
Proof.
  intros Hs. destruct c as [| | | |n|v|b| |z|v|v| |bs|v| |]; cbn [wstep].
  - apply same_json; [|exact Hs]. unfold begin_object. apply rel_bind; auto with frel. intros _.
    apply rel_bind; [rel_mod (fun k => k_set_stack (SvObject :: k_stack k) k)|]. intros _.
    apply rel_bind; [rel_mod (k_set_empty true)|]. intros _. apply rel_bind; [rel_mod (k_set_expects true)|]. auto with frel.
  - apply same_json; [|exact Hs]. unfold end_object. rel_get_step k_in_object. destruct a; cbn [negb]; try solve [auto with frel].
    rel_get_step k_active. destruct a; cbn [negb]; try solve [auto with frel]. rel_get_step k_expects. destruct a; cbn [negb]; try solve [auto with frel].
  - apply same_json; [|exact Hs]. unfold begin_array. apply rel_bind; auto with frel. intros _.
    apply rel_bind; [rel_mod (fun k => k_set_stack (SvArray :: k_stack k) k)|]. intros _.
    apply rel_bind; [rel_mod (k_set_empty true)|]. intros _. apply rel_bind; [rel_mod (k_set_expects false)|]. auto with frel.
  - apply same_json; [|exact Hs]. unfold end_array. rel_get_step k_in_array. destruct a; cbn [negb]; try solve [auto with frel].
    rel_get_step k_active. destruct a; cbn [negb]; try solve [auto with frel].
  - apply same_json; [|exact Hs]. unfold name. rel_get_step k_expects. destruct a; cbn [negb]; try solve [auto with frel].
    rel_get_step k_active. destruct a; cbn [negb]; try solve [auto with frel]. apply rel_bind; auto with frel. intros _.
    apply rel_bind; auto with frel. intros _. apply rel_bind; auto with frel. intros _. rel_mod (k_set_expects false).
  - apply same_json; [|exact Hs]. unfold string_value. auto with frel.
  - apply same_json; [|exact Hs]. unfold bool_value. auto with frel.
  - apply same_json; [|exact Hs]. unfold null_value. auto with frel.
  - apply same_json; [|exact Hs]. unfold number_value, number_str_value. destruct (negb _); auto with frel.
  - apply same_number; [|exact Hs]. unfold fp_number_value, number_str_value. destruct v; auto with frel. destruct (negb _); auto with frel.
  - apply same_number; [|exact Hs]. unfold number_value_from_string. destruct (is_valid_json_number v); auto with frel.
  - assert (H : rel (string_value_writer cfg)).
    { unfold string_value_writer. apply rel_bind; auto with frel. intros _. apply rel_bind; auto with frel. intros _.
      apply rel_bind; [rel_mod (k_set_active true)|auto with frel]. }
    destruct Hs as [Hs _]. unfold same_or_error, same_session. destruct (H _ _ _ Hs) as [(e & H1 & H2)|[H1 H2]];
      destruct (string_value_writer cfg (ws_writer s1)), (string_value_writer cfg (ws_writer s2)); cbn in *; subst; [left; cbn; eauto|right].
    destruct r0; cbn; auto.
  - apply same_string; [|exact Hs]. apply svrel_tracked, svrel_write_impl.
  - apply same_string; [|exact Hs]. apply svrel_tracked. intros O2 sv st1 st2 H. destruct (sv_buf sv); [apply svrel_piece, H|right; cbn; auto].
  - apply same_string; [|exact Hs]. apply svrel_tracked, svrel_lift, rel_flush.
  - assert (H : svrel sv_finish_value).
    { unfold sv_finish_value. apply svrel_bind; [apply svrel_check|]. intros _ O2 sv st1 st2 H.
      destruct (sv_buf sv); [|right; cbn; auto]. apply svrel_bind; [apply svrel_lift, rel_bytes| |exact H].
      intros _. apply svrel_lift. rel_mod (k_set_active false). }
    destruct (same_string O (fun _ : unit => RDone) _ s1 s2 H Hs) as [(e & H1 & H2)|[H1 [H2 _]]];
      destruct (string_call _ sv_finish_value s1), (string_call _ sv_finish_value s2); cbn in *; subst; [left; cbn; eauto|right].
    unfold same_session. cbn. auto.
Qed.

Lemma same_finish O s1 s2 : same_session O s1 s2 ->
  (exists e, fst (wfinish s1) = RError e /\ error_of_the_sink O e) \/
  fst (wfinish s1) = fst (wfinish s2) /\ (fst (wfinish s1) = RDone -> received (snd (wfinish s1)) = received (snd (wfinish s2))).
Proof.
  intros [Hs _]. pose proof Hs as (Hk & He & Hg2 & _). rewrite !wfinish_cases. unfold core_of in Hk. injection Hk as -> -> -> -> _.
  destruct (w_string_active _); [right; split; [reflexivity|discriminate]|]. destruct (w_expects_member_name _); [right; split; [reflexivity|discriminate]|].
  destruct (w_stack _); [|right; split; [reflexivity|discriminate]]. destruct (w_is_empty _); [right; split; [reflexivity|discriminate]|].
  assert (Hb : forall st, fst (flush st) = Ok tt -> w_buf (snd (flush st)) = []).
  { intros st. unfold flush. destruct (write_all _ _) as [[| | |] s']; cbn; try discriminate. destruct (sink_flush s') as [r s'']. reflexivity. }
  pose proof (Hb (ws_writer s1)) as Hb1. pose proof (Hb (ws_writer s2)) as Hb2.
  destruct (rel_flush _ _ _ Hs) as [(e & H1 & H2)|[H1 (_ & H2 & _)]];
    destruct (flush (ws_writer s1)) as [r1 t1], (flush (ws_writer s2)) as [r2 t2]; cbn [fst snd] in *.
  - subst r1. left. cbn. eauto.
  - subst r2. right. split; [reflexivity|]. destruct r1 as [[]| | |]; try discriminate. intros _. unfold emitted in H2.
    rewrite Hb1, Hb2, !app_nil_r in H2 by reflexivity. exact H2.
Qed.
