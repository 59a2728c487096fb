(** * The kind and the location of errors, in sessions

    Auxiliary. *)

From Verif Require Import Base Utf8Model Utf8Proofs NumberModel SpecNumber NumberProofs SpecJson SourceModel SourceProofs
  ReaderModel ReaderScan ReaderLex ReaderLexStr ReaderMid ReaderAgree ReaderSess ReaderGrammar ReaderSafe SpecCursor ReaderRepr ReaderForward
  ReaderBack ReaderErrs SpecText ReaderText SpecErrors ReaderKinds ReaderKinds2 ReaderKinds3 ReaderKinds4 ReaderKinds5 ReaderFinal4.

Local Open Scope rmonad_scope.

(** ** The program behind a call of a session *)
Lemma arun_calls_app E cs1 : forall cs2 st a os st' a', arun (client_calls E (cs1 ++ cs2) st) a = Some ((os, st'), a') ->
  exists os1 st1 a1 os2, arun (client_calls E cs1 st) a = Some ((os1, st1), a1) /\
    arun (client_calls E cs2 st1) a1 = Some ((os2, st'), a') /\ os = os1 ++ os2 /\ length os1 = length cs1.
Proof.
  induction cs1 as [|c cs1 IH]; intros cs2 st a os st' a' H; cbn [app client_calls] in *.
  - exists [], st, a, os. splits; auto.
  - rewrite arun_bind in H. rewrite arun_bind. destruct (arun (client_call E c st) a) as [[[o st1] a1]|]; [|discriminate].
    cbn [fst snd] in *. rewrite arun_bind in H. destruct (arun (client_calls E (cs1 ++ cs2) st1) a1) as [[[osl st2] a2]|] eqn:Er; [|discriminate].
    cbn in H. injection H as <- <- <-. destruct (IH _ _ _ _ _ _ Er) as (os1 & st3 & a3 & os2 & H1 & H2 & -> & Hl).
    exists (o :: os1), st3, a3, os2. rewrite arun_bind, H1. cbn. splits; auto.
Qed.

Lemma session_exec s evs cs c os o : Forall is_byte (fst (supplied evs)) ->
  read_session s evs (cs ++ [c]) = os ++ [o] ->
  let E := Env s (enough_fuel (fst (supplied evs))) in
  let t := snd (supplied evs) in
  let ds := d_calls E t cs (DRun (rstate_new s) None (fst (supplied evs))) in
  dinv E (fst (supplied evs)) (snd ds) /\ Forall2 matches os (fst ds) /\
  exists st a st' a', srel t st a (snd ds) /\ arun (client_call E c st) a = Some ((o, st'), a') /\
    matches o (fst (d_call E t c (snd ds))).
Proof.
  intros Hb Hos E t ds.
  pose proof (session_no_bug s evs (cs ++ [c]) Hb) as Hnb.
  destruct (session_agree s evs (cs ++ [c]) Hnb) as (os0 & st' & a' & Hrun & Hrs & Hm). rewrite Hos in Hrs. subst os0.
  fold E t in Hrun. destruct (arun_calls_app _ _ _ _ _ _ _ _ Hrun) as (os1 & st1 & a1 & os2 & H1 & H2 & He & Hl).
  cbn [client_calls] in H2. rewrite arun_bind in H2. destruct (arun (client_call E c st1) a1) as [[[o1 st2] a2]|] eqn:Ec; [|discriminate].
  cbn in H2. injection H2 as <- <- <-. apply app_inj_tail in He as (-> & <-).
  assert (Hd0 : dinv E (fst (supplied evs)) (DRun (rstate_new s) None (fst (supplied evs)))).
  { split; [apply inv_start; exact Hb|exact I]. }
  assert (Hf : (length (fst (supplied evs)) < fuel E)%nat) by (cbn; unfold enough_fuel; lia).
  pose proof (calls_good E _ t cs Hf _ Hd0) as Hg. fold ds in Hg.
  assert (Hnb1 : snd ds <> DBug) by (intros Hx; rewrite Hx in Hg; exact Hg).
  assert (Hs0 : srel t (session_new s) (asrc_new (fst (supplied evs)) t) (DRun (rstate_new s) None (fst (supplied evs)))).
  { cbn [srel]. splits; [reflexivity| |exact I]. exists false. reflexivity. }
  destruct (calls_agree E t cs ltac:(lia) _ _ _ Hs0 Hnb1) as (os3 & st3 & a3 & H3 & Hm3 & Hs3). fold ds in Hm3, Hs3.
  rewrite H1 in H3. injection H3 as <- <- <-. splits; [exact Hg|exact Hm3|]. exists st1, a1, st2, a2. splits; [exact Hs3|exact Ec|].
  pose proof (client_call_agree E t c st1 a1 _ ltac:(lia) Hs3) as Hc.
  pose proof (call_good E _ t c _ Hf Hg) as Hg2.
  destruct (Hc ltac:(intros Hx; rewrite Hx in Hg2; exact Hg2)) as (o4 & st4 & a4 & H4 & Hm4 & _). rewrite Ec in H4. injection H4 as <- _ _. exact Hm4.
Qed.

Lemma stops_call {A : Type} t F (m : M A) val s s' rd a o st' a' : stops t F m s s' a ->
  arun (call m val (Session s rd Running)) a = Some ((o, st'), a') ->
  exists e, o = OErr e /\ reports t F e /\ error_position e = location s'.
Proof.
  intros (e & a1 & He & Hr & Hp) H. unfold call in H. rewrite arun_bind in H. cbn [s_state] in H. unfold exec in He. rewrite He in H.
  cbn in H. injection H as <- _ _. exists e. auto.
Qed.

(** ** Valid texts *)
Lemma error_behind inp c s rest t1 b : located inp c s (t1 ++ rest) -> valid_text t1 -> is_behind (current_position b (move t1 s)) (c ++ t1).
Proof.
  intros (He & Hv & Hp & Hcr) Ht. apply (located_behind (c ++ t1) (c ++ t1) (move t1 s) []).
  apply located_move; auto.
  - unfold located. rewrite app_nil_r. splits; auto. intros H. specialize (Hcr H). destruct t1; [exact I|exact Hcr].
  - intros _. exact I.
  - intros _ _. exact I.
Qed.

Lemma block_body_valid body : block_comment_body body -> valid_text body.
Proof.
  intros ((cs & -> & Hcs) & _). apply comment_chars_valid. exact Hcs.
Qed.
Lemma ws_error_valid sx k x t1 F : ws_error sx k x t1 F -> valid_text t1.
Proof.
  intros H. destruct H.
  - eapply final_ws_valid; eassumption.
  - eapply ws_text_valid; eassumption.
  - apply valid_text_app; [eapply ws_text_valid; eassumption|apply valid_text_ascii; repeat constructor; lia].
  - apply valid_text_app; [eapply ws_text_valid; eassumption|apply valid_text_ascii; repeat constructor; lia].
  - apply valid_text_app; [eapply ws_text_valid; eassumption|]. apply valid_text_app; [apply valid_text_ascii; repeat constructor; lia|].
    apply block_body_valid; assumption.
  - apply valid_text_app; [eapply ws_text_valid; eassumption|]. apply valid_text_app; [apply valid_text_ascii; repeat constructor; lia|].
    apply block_body_valid; assumption.
  - apply valid_text_app; [eapply ws_text_valid; eassumption|]. apply valid_text_app; [apply valid_text_ascii; repeat constructor; lia|].
    eapply line_body_valid; eassumption.
Qed.
Lemma valid_cons b w : b < 0x80 -> valid_text w -> valid_text (b :: w).
Proof. intros Hb Hw. apply (valid_text_app [b] w); [apply valid_text_ascii; repeat constructor; exact Hb|exact Hw]. Qed.
Lemma valid_nil : valid_text [].
Proof. apply valid_text_ascii. constructor. Qed.
Lemma element_error_valid t sx pl x t1 F : element_error t sx pl x t1 F -> valid_text t1.
Proof.
  intros H. destruct H; eauto using ws_error_valid, ws_text_valid;
    (apply valid_text_app; [eauto using ws_text_valid|]; apply valid_cons; [lia|]; eauto using ws_error_valid, ws_text_valid).
Qed.
Lemma next_error_valid t sx pl x t1 F : next_error t sx pl x t1 F -> valid_text t1.
Proof.
  intros H. destruct H; eauto using ws_error_valid, ws_text_valid, element_error_valid.
  apply valid_text_app; [eauto using ws_text_valid|]. apply valid_cons; [lia|]. eauto using element_error_valid.
Qed.
Lemma ws_error_text sx k x t1 F : ws_error sx k x t1 F -> exists rest, x = t1 ++ rest.
Proof.
  intros H. destruct H; try (exists []; rewrite app_nil_r; reflexivity); eauto.
  - exists (b :: r). rewrite <- app_assoc. reflexivity.
  - exists bad. rewrite <- !app_assoc. reflexivity.
  - exists bad. rewrite <- !app_assoc. reflexivity.
Qed.
Lemma element_error_text t sx pl x t1 F : element_error t sx pl x t1 F -> exists rest, x = t1 ++ rest.
Proof.
  intros H. destruct H; eauto using ws_error_text.
  - match goal with H : ws_error _ _ _ _ _ |- _ => destruct (ws_error_text _ _ _ _ _ H) as (rest & ->) end.
    exists rest. rewrite <- app_assoc. reflexivity.
  - exists x. rewrite <- app_assoc. reflexivity.
Qed.
Lemma next_error_text t sx pl x t1 F : next_error t sx pl x t1 F -> exists rest, x = t1 ++ rest.
Proof.
  intros H. destruct H; eauto using ws_error_text, element_error_text.
  match goal with H : element_error _ _ _ _ _ _ |- _ => destruct (element_error_text _ _ _ _ _ _ H) as (rest & ->) end.
  exists rest. rewrite <- app_assoc. reflexivity.
Qed.

(** ** Structure *)

(** No unsupported numbers *)
Definition no_number {A : Type} (m : mres A) : Prop := match m with MFail (Some _) => False | _ => True end.
Lemma no_number_bind {A B : Type} (m : D A) (f : A -> D B) s r : no_number (m s r) -> (forall x s' r', no_number (f x s' r')) ->
  no_number (dbind m f s r).
Proof. unfold dbind. destruct (m s r) as [x s' r'|e s' r'|[n|]| |]; cbn; auto. Qed.
Lemma no_number_misuse b s r : no_number (dmisuse_if b s r).
Proof. destruct b; exact I. Qed.
Lemma no_number_fresh E t s r : no_number (d_fresh E t s r).
Proof.
  unfold d_fresh. destruct (ws_scan E t None r) as [[w [|b r1]]| |]; try exact I.
  destruct (b =? B_COMMA).
  - destruct (negb (can_have_comma s)); [exact I|]. destruct (ws_scan E t (Some IncompleteDocument) r1) as [[w2 r2]| |]; try exact I.
    destruct (token _ _ _ _) as [[p r3]|]; try exact I. destruct (_ && _); exact I.
  - destruct (token _ _ _ _) as [[p r3]|]; try exact I. destruct (_ && _); exact I.
Qed.
Lemma no_number_optional E t s r : no_number (d_peek_optional E t s r).
Proof.
  unfold d_peek_optional. apply no_number_bind; [exact I|]. intros x s1 r1. apply no_number_bind; [apply no_number_misuse|]. intros u s2 r2.
  destruct (peeked x); [exact I|]. apply no_number_bind; [apply no_number_misuse|]. intros u2 s3 r3. apply no_number_bind.
  - destruct (expects_member_value x); [|exact I]. unfold d_after_name. destruct (ws_scan _ _ _ _) as [[w [|b r4]]| |]; try exact I. destruct (_ =? _); exact I.
  - intros u4 s4 r4. apply no_number_fresh.
Qed.
Lemma no_number_internal E t s r : no_number (d_peek_internal E t s r).
Proof.
  unfold d_peek_internal. apply no_number_bind; [apply no_number_optional|]. intros [p|] s1 r1; [exact I|]. unfold dbind, dget. destruct (_ && _); exact I.
Qed.
Lemma no_number_peek E t s r : no_number (d_peek E t s r).
Proof.
  unfold d_peek. apply no_number_bind; [exact I|]. intros x s1 r1. apply no_number_bind; [apply no_number_misuse|]. intros u s2 r2.
  apply no_number_bind; [apply no_number_internal|]. intros p s3 r3. destruct p; exact I.
Qed.
Lemma no_number_has_next E t s r : no_number (d_has_next E t s r).
Proof.
  unfold d_has_next. apply no_number_bind; [exact I|]. intros x s1 r1. apply no_number_bind; [apply no_number_misuse|]. intros u s2 r2.
  apply no_number_bind.
  - destruct (stack x).
    + apply no_number_bind; [apply no_number_misuse|]. intros u3 s3 r3. apply no_number_bind; [apply no_number_misuse|]. intros. apply no_number_optional.
    + apply no_number_bind; [apply no_number_internal|]. intros. exact I.
  - intros [p|] s3 r3; [|exact I]. unfold dbind, dget. destruct (_ || _); exact I.
Qed.

(** Peeking again does not fail *)
Lemma optional_again E t s r p : peeked s = Some p -> string_reader_active s = false -> d_peek_optional E t s r = MOk (Some p) s r.
Proof. exact (peeked_again E t s r p). Qed.
Lemma optional_active E t s r : string_reader_active s = true -> d_peek_optional E t s r = MMisuse.
Proof. intros H. unfold d_peek_optional, dbind, dget, dmisuse_if. rewrite H. reflexivity. Qed.
Lemma internal_again E t s r p n : peeked s = Some p -> d_peek_internal E t s r <> MFail n.
Proof.
  intros Hp. unfold d_peek_internal, dbind. destruct (string_reader_active s) eqn:Ea.
  - rewrite (optional_active _ _ _ _ Ea). discriminate.
  - rewrite (optional_again _ _ _ _ _ Hp Ea). discriminate.
Qed.
Lemma peek_again_ok E t s r p n : peeked s = Some p -> d_peek E t s r <> MFail n.
Proof.
  intros Hp. unfold d_peek. unfold dbind at 1, dget. destruct (expects_member_name s); [discriminate|]. unfold dmisuse_if, dbind, dret.
  pose proof (internal_again E t s r p n Hp) as H. destruct (d_peek_internal E t s r) as [q s' r'| | | |]; try discriminate; [destruct q; cbn; discriminate|]. congruence.
Qed.
Lemma has_next_again_ok E t s r p n : peeked s = Some p -> d_has_next E t s r <> MFail n.
Proof.
  intros Hp. unfold d_has_next. unfold dbind at 1, dget at 1. destruct (expects_member_value s); [discriminate|]. unfold dmisuse_if at 1. unfold dbind at 1, dret at 1.
  assert (Hopt : forall m, (forall k, m s r <> MFail k) -> dbind m (fun op : option peeked_value => match op with None => dret false | Some p =>
    dbind dget (fun s => if negb (expects_member_name s) || match p with PkNameStart | PkObjectEnd => true | _ => false end then dret (negb (is_end_token p)) else dbug) end) s r <> MFail n).
  { intros m Hm. unfold dbind at 1. specialize (Hm n). destruct (m s r) as [[q|] s' r'| | | |]; try discriminate; [|congruence].
    unfold dbind, dget. destruct (_ || _); discriminate. }
  apply Hopt. intros k. destruct (stack s).
  - destruct (is_empty s); [discriminate|]. destruct (negb _); [discriminate|]. unfold dmisuse_if, dbind, dret.
    destruct (string_reader_active s) eqn:Ea; [rewrite (optional_active _ _ _ _ Ea); discriminate|rewrite (optional_again _ _ _ _ _ Hp Ea); discriminate].
  - unfold dbind. pose proof (internal_again E t s r p k Hp) as H. destruct (d_peek_internal E t s r); try discriminate. congruence.
Qed.

Lemma run_failed {A : Type} t (m : M A) (d : D A) val s r e : agree t m d -> no_number (d s r) ->
  matches (OErr e) (fst (d_run d val s r)) -> recoverable e = false -> d s r = MFail None.
Proof.
  intros Ha Hn Hm He. specialize (Ha s r false). unfold d_run in Hm. destruct (d s r) as [x s' r'|e' s' r'|[n|]| |]; cbn in *; try discriminate; try contradiction.
  - injection Hm as <-. destruct Ha as (Ha & _). congruence.
  - reflexivity.
Qed.

(** The error which is found when looking for the next element *)
Lemma look_failed E inp t q s rd r kn pl e o st' a' : (length inp < fuel E)%nat -> inv E inp s r -> placed s pl -> q = CPeek \/ q = CHasNext ->
  matches (OErr e) (fst (d_call E t q (DRun s rd r))) -> recoverable e = false ->
  arun (client_call E q (Session s rd Running)) (At r t kn) = Some ((o, st'), a') ->
  peeked s = None /\ exists t1 F e', o = OErr e' /\ next_error t (the_syntax E) pl r t1 F /\ reports t F e' /\ error_position e' = location (move t1 s).
Proof.
  intros Hf Hi Hp Hq Hm He Hrun. pose proof (i_bytes _ _ _ _ Hi) as Hb.
  assert (Hs : peeked s = None /\ (q = CPeek -> stops_as t (peek E) s (At r t kn) (next_error t (the_syntax E) pl r)) /\
    (q = CHasNext -> stops_as t (has_next E) s (At r t kn) (next_error t (the_syntax E) pl r))).
  { destruct Hq as [-> | ->]; cbn [d_call d_call_run] in Hm.
    - pose proof (run_failed t _ _ _ _ _ _ (agree_peek E t) (no_number_peek E t s r) Hm He) as Hd.
      assert (Hpk : peeked s = None).
      { destruct (peeked s) as [p|] eqn:Ep; [|reflexivity]. destruct (peek_again_ok E t s r p None Ep Hd). }
      splits; [exact Hpk| |discriminate]. intros _. exact (peek_stops E t s r kn pl Hb Hp Hpk Hd).
    - pose proof (run_failed t _ _ _ _ _ _ (agree_has_next E t) (no_number_has_next E t s r) Hm He) as Hd.
      assert (Hpk : peeked s = None).
      { destruct (peeked s) as [p|] eqn:Ep; [|reflexivity]. destruct (has_next_again_ok E t s r p None Ep Hd). }
      splits; [exact Hpk|discriminate|]. intros _. exact (has_next_stops E t s r kn pl Hb Hp Hpk Hd). }
  destruct Hs as (Hpk & H1 & H2). split; [exact Hpk|]. destruct Hq as [-> | ->]; cbn [client_call s_phase] in Hrun.
  - destruct (H1 eq_refl) as (t1 & F & s' & Hn & Hst & Hl). destruct (stops_call _ _ _ _ _ _ _ _ _ _ _ Hst Hrun) as (e' & -> & Hr & Hpos).
    exists t1, F, e'. splits; auto. congruence.
  - destruct (H2 eq_refl) as (t1 & F & s' & Hn & Hst & Hl). destruct (stops_call _ _ _ _ _ _ _ _ _ _ _ Hst Hrun) as (e' & -> & Hr & Hpos).
    exists t1, F, e'. splits; auto. congruence.
Qed.

Lemma stops_assoc {A B C : Type} t F (m : M A) (f : A -> M B) (g : B -> M C) s s' a :
  stops t F (bind m (fun x => bind (f x) g)) s s' a -> stops t F (bind (bind m f) g) s s' a.
Proof. intros (e & a' & H & He). exists e, a'. rewrite exec_assoc. auto. Qed.

Lemma location_eq s s' : pos3 s = pos3 s' -> json_path s = json_path s' -> location s = location s'.
Proof. unfold pos3, location, current_position. intros [= -> -> ->] ->. reflexivity. Qed.
Lemma move_path w s : json_path (move w s) = json_path s.
Proof. apply same_move. Qed.

(** The opening quote *)
Lemma quote_location body s s1 : pos3 s1 = pos3 s -> json_path s1 = json_path s ->
  location (move body (move [0x22] s1)) = location (move (0x22 :: body) s).
Proof.
  intros Hp Hj. apply location_eq.
  - change (0x22 :: body) with ([0x22] ++ body). rewrite move_app by reflexivity. apply pos3_move, pos3_move. exact Hp.
  - rewrite !move_path. exact Hj.
Qed.

Lemma start_ok E t s r kn p ty : peeked s = Some p -> type_of p = Some ty -> expects_member_name s = false -> string_reader_active s = false ->
  exists kn', exec (start_expected_value_type E ty false) s (At r t kn) = Some ((Ok p, move (tok p) (set_peeked None s)), At r t kn').
Proof.
  intros Hp Ht Hn Ha. pose proof (agree_start E t ty false s r kn) as H.
  assert (Hd : d_start E t ty false s r = MOk p (move (tok p) (set_peeked None s)) r).
  { unfold d_start, d_peek_internal, dbind, dget, dmisuse_if. rewrite Hn. unfold dret. rewrite (peeked_again E t s r p Hp Ha).
    assert (Hm : d_map_peeked p s r = MOk ty s r) by (destruct p; cbn in Ht; try discriminate; injection Ht as <-; reflexivity). rewrite Hm.
    assert (Ht' : value_type_eqb ty ty = true) by (destruct ty; reflexivity). rewrite Ht'.
    unfold d_consume_peeked, dbind, dget, dupdate. rewrite Hp, tok_move. reflexivity. }
  rewrite Hd in H. exact H.
Qed.
Lemma name_ok E t s r kn : peeked s = Some PkNameStart -> expects_member_name s = true -> string_reader_active s = false -> is_in_object s = true ->
  exists kn', exec (before_name E) s (At r t kn) = Some ((Ok tt, move [0x22] (set_peeked None (set_expects_name false s))), At r t kn').
Proof.
  intros Hp Hn Ha Ho. pose proof (agree_before_name E t s r kn) as H.
  assert (Hd : d_before_name E t s r = MOk tt (move [0x22] (set_peeked None (set_expects_name false s))) r).
  { unfold d_before_name, dbind at 1, dget at 1. rewrite Hn. unfold dmisuse_if at 1. cbn [negb]. unfold dbind at 1, dret at 1. rewrite Ha.
    unfold dmisuse_if at 1. unfold dbind at 1, dret at 1.
    assert (Hh : d_has_next E t s r = MOk true s r).
    { unfold d_has_next, dbind at 1, dget at 1. unfold expects_member_value. rewrite Hn. cbn [negb]. rewrite andb_false_r || idtac.
      unfold is_in_object in Ho. destruct (stack s) as [|[|] st] eqn:Es; try discriminate.
      unfold dmisuse_if, d_peek_internal, dbind, dget, dret. cbn [negb andb]. rewrite (peeked_again E t s r _ Hp Ha). rewrite Hn. reflexivity. }
    unfold dbind at 1. rewrite Hh. cbn [negb]. unfold d_consume_peeked, dbind, dupdate, dget.
    cbn [peeked set_expects_name]. rewrite Hp. reflexivity. }
  rewrite Hd in H. exact H.
Qed.

Lemma scan_string_bad E r : Forall is_byte r -> (length r < fuel E)%nat -> scan_string (fuel E) r = SFail ->
  exists body v bad F, r = body ++ bad /\ str_text body v /\ string_error bad F.
Proof.
  intros Hr Hl Hs. destruct (string_decided (S (length r)) r Hr ltac:(lia)) as [(body & v & rest & -> & Hb)|H]; [|exact H].
  rewrite (scan_string_complete body v Hb (fuel E) rest) in Hs; [discriminate|exact Hl].
Qed.

(** The five methods which read a string literal *)
Definition reads_string (E : env) (c : rcall) : Prop := In c [CNextString; CNextStr; CSkipValue].
Definition reads_name (E : env) (c : rcall) : Prop := In c [CNextName; CNextNameOwned; CSkipName].

Lemma string_call_stops E t body v bad F s kn c : str_text body v -> string_error bad F -> Forall is_byte (body ++ bad) -> (length (body ++ bad) < fuel E)%nat ->
  peeked s = Some PkStringStart -> expects_member_name s = false -> string_reader_active s = false ->
  let s' := move body (move [0x22] (set_peeked None s)) in
  match c with
  | CNextString => stops t F (next_string E) s s' (At (body ++ bad) t kn)
  | CNextStr => stops t F (next_str E) s s' (At (body ++ bad) t kn)
  | CSkipValue => stops t F (skip_value E) s s' (At (body ++ bad) t kn)
  | _ => True
  end.
Proof.
  intros Hb He Hf Hl Hp Hn Ha s'. apply Forall_app in Hf as [_ Hf].
  destruct (start_ok E t s (body ++ bad) kn _ TString Hp eq_refl Hn Ha) as (kn' & Hst).
  destruct c; try exact I.
  - unfold next_string. eapply stops_bind_ok; [exact Hst|]. apply stops_bind. apply (read_string_stops t body v bad F); auto.
  - unfold next_str. eapply stops_bind_ok; [exact Hst|]. apply stops_bind. apply (read_string_stops t body v bad F); auto.
  - unfold skip_value. eapply stops_bind_ok; [apply get_ok|]. rewrite Hn. eapply stops_bind_ok; [apply ret_ok|].
    destruct (fuel E) as [|f] eqn:Ef; [lia|]. cbn [skip_value_loop]. eapply stops_bind_ok; [apply ret_ok|]. cbn [negb].
    apply stops_bind. eapply stops_bind_ok; [apply get_ok|]. rewrite Hn. eapply stops_bind_ok; [apply ret_ok|]. apply stops_bind.
    unfold skip_value_start.
    assert (Hpk : exists kn2, exec (peek E) s (At (body ++ bad) t kn) = Some ((Ok TString, s), At (body ++ bad) t kn2)).
    { pose proof (agree_peek E t s (body ++ bad) kn) as H.
      assert (Hd : d_peek E t s (body ++ bad) = MOk TString s (body ++ bad)).
      { unfold d_peek, d_peek_internal, dbind, dget, dmisuse_if. rewrite Hn. unfold dret. rewrite (peeked_again E t s _ _ Hp Ha). reflexivity. }
      rewrite Hd in H. exact H. }
    destruct Hpk as (kn2 & Hpk). destruct (start_ok E t s (body ++ bad) kn2 _ TString Hp eq_refl Hn Ha) as (kn3 & Hst2).
    eapply stops_bind_ok; [exact Hpk|]. cbn beta iota. eapply stops_bind_ok; [exact Hst2|]. apply stops_bind.
    unfold skip_all_string_bytes. apply (skip_string_stops t body v bad F); auto. rewrite Ef. exact Hl.
Qed.

Lemma name_call_stops E t body v bad F s kn c : str_text body v -> string_error bad F -> Forall is_byte (body ++ bad) -> (length (body ++ bad) < fuel E)%nat ->
  peeked s = Some PkNameStart -> expects_member_name s = true -> string_reader_active s = false -> is_in_object s = true ->
  let s' := move body (move [0x22] (set_peeked None (set_expects_name false s))) in
  match c with
  | CNextName => stops t F (next_name E) s s' (At (body ++ bad) t kn)
  | CNextNameOwned => stops t F (next_name_owned E) s s' (At (body ++ bad) t kn)
  | CSkipName => stops t F (skip_name E) s s' (At (body ++ bad) t kn)
  | _ => True
  end.
Proof.
  intros Hb He Hf Hl Hp Hn Ha Ho s'. apply Forall_app in Hf as [_ Hf].
  destruct (name_ok E t s (body ++ bad) kn Hp Hn Ha Ho) as (kn' & Hst).
  destruct c; try exact I.
  - unfold next_name. eapply stops_bind_ok; [exact Hst|]. apply stops_bind. apply (read_string_stops t body v bad F); auto.
  - unfold next_name_owned. eapply stops_bind_ok; [exact Hst|]. apply stops_bind. apply (read_string_stops t body v bad F); auto.
  - unfold skip_name. eapply stops_bind_ok; [exact Hst|]. eapply stops_bind_ok; [apply get_ok|].
    destruct (json_path _).
    + apply stops_bind. apply (read_string_stops t body v bad F); auto.
    + unfold skip_all_string_bytes. apply (skip_string_stops t body v bad F); auto.
Qed.

(** ** Calls which cannot fail *)
Definition lucky {A : Type} (m : mres A) : Prop := match m with MOk _ _ _ | MBug => True | _ => False end.
Lemma lucky_bind {A B : Type} (m : D A) (f : A -> D B) s r : lucky (m s r) -> (forall x s' r', m s r = MOk x s' r' -> lucky (f x s' r')) ->
  lucky (dbind m f s r).
Proof. unfold dbind. destruct (m s r); cbn; auto. Qed.
Lemma lucky_value_end s r : lucky (d_on_value_end s r).
Proof.
  unfold d_on_value_end. apply lucky_bind; [exact I|]. intros x s' r' _. apply lucky_bind; [|intros; exact I].
  destruct (is_in_array x); [|exact I]. destruct (json_path x) as [[|[i|n] l]|]; exact I.
Qed.
Lemma lucky_set_path_name n s r : lucky (d_set_path_name n s r).
Proof. unfold d_set_path_name, dbind, dget. destruct (json_path s) as [[|[i|m] l]|]; exact I. Qed.
Lemma lucky_run {A : Type} (m : D A) val s r e : lucky (m s r) -> ~ matches (OErr e) (fst (d_run m val s r)).
Proof. unfold d_run. destruct (m s r); cbn; try tauto. discriminate. Qed.

Lemma d_start_ok E t s r p ty : peeked s = Some p -> type_of p = Some ty -> expects_member_name s = false -> string_reader_active s = false ->
  d_start E t ty false s r = MOk p (move (tok p) (set_peeked None s)) r.
Proof.
  intros Hp Ht Hn Ha.
  unfold d_start, d_peek_internal, dbind, dget, dmisuse_if. rewrite Hn. unfold dret. rewrite (peeked_again E t s r p Hp Ha).
  assert (Hm : d_map_peeked p s r = MOk ty s r) by (destruct p; cbn in Ht; try discriminate; injection Ht as <-; reflexivity). rewrite Hm.
  assert (Ht' : value_type_eqb ty ty = true) by (destruct ty; reflexivity). rewrite Ht'.
  unfold d_consume_peeked, dbind, dget, dupdate. rewrite Hp, tok_move. reflexivity.
Qed.

(** Skipping a scalar value is one step *)
Lemma lucky_skip_value E t s r p ty : peeked s = Some p -> type_of p = Some ty -> expects_member_name s = false -> string_reader_active s = false ->
  match ty with
  | TString => lucky ((d_start E t TString false ;; d_skip_string E ;; d_on_value_end ;; dret false)%dm s r)
  | TNumber => lucky (d_number E t false s r)
  | _ => False
  end -> (0 < fuel E)%nat -> lucky (d_skip_value E t s r).
Proof.
  intros Hp Ht Hn Ha Hl Hf. unfold d_skip_value. apply lucky_bind; [exact I|]. intros x s0 r0 [= <- <- <-]. rewrite Hn. apply lucky_bind; [exact I|].
  intros u s0 r0 [= <- <- <-]. destruct (fuel E) as [|f]; [lia|]. cbn [d_skip_value_loop].
  assert (Hpeek : d_peek E t s r = MOk ty s r).
  { unfold d_peek, d_peek_internal, dbind, dget, dmisuse_if. rewrite Hn. unfold dret. rewrite (peeked_again E t s r _ Hp Ha).
    destruct p; cbn in Ht; try discriminate; injection Ht as <-; reflexivity. }
  assert (Hs : forall b s' r', d_skip_value_start E t s r = MOk b s' r' -> b = false).
  { intros b s' r'. unfold d_skip_value_start, dbind at 1. rewrite Hpeek. destruct ty; try contradiction; unfold dbind, dret.
    - destruct (d_start E t TString false s r); try discriminate. destruct (d_skip_string E s0 r0); try discriminate. destruct (d_on_value_end s1 r1); congruence.
    - destruct (d_number E t false s r); congruence. }
  apply lucky_bind.
  - unfold d_skip_step. apply lucky_bind; [exact I|]. intros h s0 r0 [= <- <- <-]. cbn [negb]. apply lucky_bind; [exact I|]. intros x s0 r0 [= <- <- <-].
    rewrite Hn. apply lucky_bind; [exact I|]. intros x s0 r0 [= <- <- <-]. apply lucky_bind; [|intros; exact I].
    unfold d_skip_value_start. apply lucky_bind; [rewrite Hpeek; exact I|]. intros x s0 r0 Hx. rewrite Hpeek in Hx. injection Hx as <- <- <-.
    destruct ty; try contradiction; [exact Hl|]. apply lucky_bind; [exact Hl|]. intros; exact I.
  - intros d s0 r0 Hd. unfold d_skip_step, dbind at 1, dret at 1 in Hd. cbn [negb] in Hd. unfold dbind at 1, dget at 1 in Hd. rewrite Hn in Hd.
    unfold dbind at 1, dret at 1 in Hd. unfold dbind in Hd. destruct (d_skip_value_start E t s r) as [b s1 r1| | | |] eqn:Eb; try discriminate.
    rewrite (Hs _ _ _ eq_refl) in Hd. unfold dret in Hd. injection Hd as <- _ _. exact I.
Qed.

Lemma lucky_string_call E t s rd r body v rest c e : peeked s = Some PkStringStart -> expects_member_name s = false -> string_reader_active s = false ->
  r = body ++ 0x22 :: rest -> str_text body v -> (length r < fuel E)%nat -> In c [CNextString; CNextStr; CSkipValue] ->
  ~ matches (OErr e) (fst (d_call E t c (DRun s rd r))).
Proof.
  intros Hp Hn Ha Hr Hb Hl Hc. pose proof (scan_string_complete body v Hb (fuel E) rest) as Hsc. change B_QUOTE with 0x22 in Hsc. rewrite <- Hr in Hsc. specialize (Hsc Hl).
  assert (Hns : lucky (d_next_string E t s r)).
  { unfold d_next_string. apply lucky_bind; [rewrite (d_start_ok E t s r _ TString Hp eq_refl Hn Ha); exact I|].
    intros x s' r' Hx. rewrite (d_start_ok E t s r _ TString Hp eq_refl Hn Ha) in Hx. injection Hx as _ <- <-.
    apply lucky_bind; [unfold d_string; rewrite Hsc; destruct (from_utf8 _); exact I|]. intros y s2 r2 _. apply lucky_bind; [apply lucky_value_end|]. intros; exact I. }
  destruct Hc as [<-|[<-|[<-|[]]]]; cbn [d_call d_call_run]; apply lucky_run; auto.
  apply (lucky_skip_value E t s r _ TString Hp eq_refl Hn Ha); [|lia].
  apply lucky_bind; [rewrite (d_start_ok E t s r _ TString Hp eq_refl Hn Ha); exact I|].
  intros x s' r' Hx. rewrite (d_start_ok E t s r _ TString Hp eq_refl Hn Ha) in Hx. injection Hx as _ <- <-.
  apply lucky_bind; [unfold d_skip_string; rewrite Hsc; exact I|]. intros y s2 r2 _. apply lucky_bind; [apply lucky_value_end|]. intros; exact I.
Qed.

Lemma d_name_ok E t s r : peeked s = Some PkNameStart -> expects_member_name s = true -> string_reader_active s = false -> is_in_object s = true ->
  d_before_name E t s r = MOk tt (move [0x22] (set_peeked None (set_expects_name false s))) r.
Proof.
  intros Hp Hn Ha Ho. unfold d_before_name, dbind at 1, dget at 1. rewrite Hn. unfold dmisuse_if at 1. cbn [negb]. unfold dbind at 1, dret at 1. rewrite Ha.
  unfold dmisuse_if at 1. unfold dbind at 1, dret at 1.
  assert (Hh : d_has_next E t s r = MOk true s r).
  { unfold d_has_next, dbind at 1, dget at 1. unfold expects_member_value. rewrite Hn. cbn [negb]. rewrite andb_false_r || idtac.
    unfold is_in_object in Ho. destruct (stack s) as [|[|] st] eqn:Es; try discriminate.
    unfold dmisuse_if, d_peek_internal, dbind, dget, dret. cbn [negb andb]. rewrite (peeked_again E t s r _ Hp Ha). rewrite Hn. reflexivity. }
  unfold dbind at 1. rewrite Hh. cbn [negb]. unfold d_consume_peeked, dbind, dupdate, dget.
  cbn [peeked set_expects_name]. rewrite Hp. reflexivity.
Qed.

Lemma lucky_name_call E t s rd r body v rest c e : peeked s = Some PkNameStart -> expects_member_name s = true -> string_reader_active s = false ->
  is_in_object s = true -> r = body ++ 0x22 :: rest -> str_text body v -> (length r < fuel E)%nat -> In c [CNextName; CNextNameOwned; CSkipName] ->
  ~ matches (OErr e) (fst (d_call E t c (DRun s rd r))).
Proof.
  intros Hp Hn Ha Ho Hr Hb Hl Hc. pose proof (scan_string_complete body v Hb (fuel E) rest) as Hsc. change B_QUOTE with 0x22 in Hsc. rewrite <- Hr in Hsc. specialize (Hsc Hl).
  pose proof (d_name_ok E t s r Hp Hn Ha Ho) as Hd.
  assert (Hns : lucky (d_next_name E t s r)).
  { unfold d_next_name. apply lucky_bind; [rewrite Hd; exact I|]. intros x s' r' Hx. rewrite Hd in Hx. injection Hx as _ <- <-.
    apply lucky_bind; [unfold d_string; rewrite Hsc; destruct (from_utf8 _); exact I|]. intros y s2 r2 _. apply lucky_bind; [apply lucky_set_path_name|]. intros; exact I. }
  destruct Hc as [<-|[<-|[<-|[]]]]; cbn [d_call d_call_run]; apply lucky_run; auto.
  unfold d_skip_name. apply lucky_bind; [rewrite Hd; exact I|]. intros x s' r' Hx. rewrite Hd in Hx. injection Hx as _ <- <-.
  apply lucky_bind; [exact I|]. intros x2 s2 r2 [= <- <- <-]. destruct (json_path _).
  - apply lucky_bind; [unfold d_string; rewrite Hsc; destruct (from_utf8 _); exact I|]. intros y s3 r3 _. apply lucky_set_path_name.
  - unfold d_skip_string. rewrite Hsc. exact I.
Qed.

(** ** Numbers *)
Lemma number_call_stops E t b l res w rest F s kn c : (length (b :: l) < fuel E)%nat -> (b =? B_MINUS) || is_digit b = true ->
  number_scan E (b :: l) = SOk (res, w, rest) ->
  number_result t (match c with CSkipValue => false | _ => restrict_number_values (cfg E) end) res w rest = Some F ->
  peeked s = Some PkNumberStart -> expects_member_name s = false -> string_reader_active s = false ->
  let s' := move (match F with FSyntax TrailingDataAfterNumber => w | _ => [] end) (set_peeked None s) in
  match c with
  | CNextNumberStr => stops t F (next_number_as_str E) s s' (At (b :: l) t kn)
  | CNextNumberString => stops t F (next_number_as_string E) s s' (At (b :: l) t kn)
  | CSkipValue => stops t F (skip_value E) s s' (At (b :: l) t kn)
  | _ => True
  end.
Proof.
  intros Hl Hb Hs HF Hp Hn Ha s'.
  assert (Hst : forall kn, exists kn', exec (start_expected_value_type E TNumber false) s (At (b :: l) t kn) = Some ((Ok PkNumberStart, set_peeked None s), At (b :: l) t kn')).
  { intros kn0. destruct (start_ok E t s (b :: l) kn0 _ TNumber Hp eq_refl Hn Ha) as (kn' & H). exists kn'. cbn [tok] in H. rewrite move_nil in H. exact H. }
  destruct (Hst kn) as (kn' & Hst1). destruct c; try exact I.
  - unfold next_number_as_str. apply stops_bind. unfold ReaderModel.read_number_bytes, ReaderModel.number_start. apply stops_assoc.
    eapply stops_bind_ok; [exact Hst1|]. exact (number_tail_stops E t true b l kn' _ res w rest F Hl Hb Hs HF).
  - unfold next_number_as_string. apply stops_bind. unfold ReaderModel.read_number_bytes, ReaderModel.number_start. apply stops_assoc.
    eapply stops_bind_ok; [exact Hst1|]. exact (number_tail_stops E t false b l kn' _ res w rest F Hl Hb Hs HF).
  - unfold skip_value. eapply stops_bind_ok; [apply get_ok|]. rewrite Hn. eapply stops_bind_ok; [apply ret_ok|].
    destruct (fuel E) as [|f] eqn:Ef; [cbn in Hl; lia|]. cbn [skip_value_loop]. eapply stops_bind_ok; [apply ret_ok|]. cbn [negb].
    apply stops_bind. eapply stops_bind_ok; [apply get_ok|]. rewrite Hn. eapply stops_bind_ok; [apply ret_ok|]. apply stops_bind.
    unfold skip_value_start.
    assert (Hpk : exists kn2, exec (peek E) s (At (b :: l) t kn) = Some ((Ok TNumber, s), At (b :: l) t kn2)).
    { pose proof (agree_peek E t s (b :: l) kn) as H.
      assert (Hd : d_peek E t s (b :: l) = MOk TNumber s (b :: l)).
      { unfold d_peek, d_peek_internal, dbind, dget, dmisuse_if. rewrite Hn. unfold dret. rewrite (peeked_again E t s _ _ Hp Ha). reflexivity. }
      rewrite Hd in H. exact H. }
    destruct Hpk as (kn2 & Hpk). destruct (Hst kn2) as (kn3 & Hst2).
    eapply stops_bind_ok; [exact Hpk|]. cbn beta iota. apply stops_bind. unfold skip_number, ReaderModel.number_start. apply stops_assoc.
    eapply stops_bind_ok; [exact Hst2|]. apply (skip_number_tail_stops E t b l kn3 _ res w rest F); auto. rewrite Ef. exact Hl.
Qed.

Lemma lucky_number_call E t s rd b l res w rest n v c e : (length (b :: l) < fuel E)%nat ->
  number_scan E (b :: l) = SOk (res, w, rest) -> res = Some n -> from_utf8 w = Some v -> hits_error t rest = false ->
  (match c with CSkipValue => false | _ => restrict_number_values (cfg E) end) && ((2 <? n) || (100 <? len64 w)) = false -> sep_ok (is_eof t) rest = true ->
  peeked s = Some PkNumberStart -> expects_member_name s = false -> string_reader_active s = false ->
  In c [CNextNumberStr; CNextNumberString; CSkipValue] -> ~ matches (OErr e) (fst (d_call E t c (DRun s rd (b :: l)))).
Proof.
  intros Hl Hs -> Hv Hh Hr Hsep Hp Hn Ha Hc.
  assert (Hns : forall restrict, restrict && ((2 <? n) || (100 <? len64 w)) = false -> lucky (d_number E t restrict s (b :: l))).
  { intros restrict Hre. unfold d_number. apply lucky_bind; [rewrite (d_start_ok E t s _ _ TNumber Hp eq_refl Hn Ha); exact I|].
    intros x s' r' Hx. rewrite (d_start_ok E t s _ _ TNumber Hp eq_refl Hn Ha) in Hx. injection Hx as _ <- <-.
    apply lucky_bind; [unfold d_number_body; rewrite Hs, Hh, Hv, Hre, Hsep; exact I|]. intros y s2 r2 _. apply lucky_bind; [apply lucky_value_end|]. intros; exact I. }
  destruct Hc as [<-|[<-|[<-|[]]]]; cbn [d_call d_call_run]; apply lucky_run; auto.
  - unfold d_next_number. auto.
  - unfold d_next_number. auto.
  - apply (lucky_skip_value E t s _ _ TNumber Hp eq_refl Hn Ha); [|cbn in Hl; lia]. apply Hns. exact Hr.
Qed.
