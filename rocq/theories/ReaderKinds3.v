(** * The kind and the location of errors when the next element is looked at

    Auxiliary. *)

From Verif Require Import Base Utf8Model Utf8Proofs NumberModel SpecNumber NumberProofs SpecJson SourceModel SourceProofs
  ReaderModel ReaderScan ReaderLex ReaderLexStr ReaderMid ReaderAgree ReaderGrammar SpecCursor SpecText SpecErrors
  ReaderKinds ReaderKinds2.

Local Open Scope rmonad_scope.

Definition the_syntax (E : env) : syntax := Syntax (allow_comments (cfg E)) (allow_trailing_comma (cfg E)).

Definition placed (s : rstate) (pl : place) : Prop :=
  match pl with
  | AtTop first => stack s = [] /\ expects_member_name s = false /\ is_empty s = first
  | AtItem first => is_in_array s = true /\ expects_member_name s = false /\ is_empty s = first
  | AtName first => is_in_object s = true /\ expects_member_name s = true /\ is_empty s = first
  | AtMember => is_in_object s = true /\ expects_member_name s = false
  end.

Lemma placed_name s pl : placed s pl -> expects_member_name s = true <-> exists f, pl = AtName f.
Proof.
  destruct pl; cbn; intros H; (split; [intros He|intros (f & Hf)]); try (destruct H as (_ & H & _)); try congruence; eauto.
  destruct H as (_ & H). congruence.
Qed.
Lemma placed_array s pl : placed s pl -> is_in_array s = true <-> exists f, pl = AtItem f.
Proof.
  unfold is_in_array. destruct pl; cbn; unfold is_in_array, is_in_object; intros H; (split; [intros He|intros (f & Hf)]); try discriminate Hf;
    destruct (stack s) as [|[|] st]; try discriminate; try (destruct H; discriminate); eauto.
Qed.
Lemma placed_comma s pl : placed s pl -> can_have_comma s = true <-> behind_element pl.
Proof.
  intros H. pose proof (placed_name _ _ H) as Hn. pose proof (placed_array _ _ H) as Ha.
  unfold can_have_comma, behind_element. rewrite andb_true_iff, orb_true_iff, negb_true_iff, Hn, Ha.
  destruct pl as [f|f|f|]; cbn in H.
  - split; [intros [_ [(x & Hx)|(x & Hx)]]; discriminate|intros [Hx|Hx]; discriminate].
  - destruct H as (_ & _ & ->). split; [intros [-> _]; left; reflexivity|intros [[= ->]|Hx]; [|discriminate]]. split; eauto.
  - destruct H as (_ & _ & ->). split; [intros [-> _]; right; reflexivity|intros [Hx|[= ->]]; [discriminate|]]. split; eauto.
  - split; [intros [_ [(x & Hx)|(x & Hx)]]; discriminate|intros [Hx|Hx]; discriminate].
Qed.
Lemma placed_member s pl : placed s pl -> expects_member_value s = true <-> pl = AtMember.
Proof.
  unfold expects_member_value. destruct pl; cbn; unfold is_in_array, is_in_object; intros H.
  - destruct H as (-> & -> & _). split; discriminate.
  - destruct H as (H & -> & _). destruct (stack s) as [|[|] st]; try discriminate. split; discriminate.
  - destruct H as (H & -> & _). rewrite andb_false_r || destruct (stack s) as [|[|] st]; split; discriminate.
  - destruct H as (-> & ->). split; reflexivity.
Qed.

(** ** Literals *)
Lemma is_separator_iff b : is_value_separator b = true <-> separator b.
Proof.
  unfold is_value_separator, separator. rewrite !orb_true_iff, !N.eqb_eq. cbn [In].
  split; [intros H|intros H]; repeat match goal with X : _ \/ _ |- _ => destruct X; subst; auto 20 end; contradiction.
Qed.

Lemma literal_stops : forall l c u r s t kn, strip l r = None \/ (exists r', strip l r = Some r' /\ sep_ok (is_eof t) r' = false) ->
  exists F, literal_error (c :: u ++ l) (c :: u ++ r) F /\ stops t F (consume_literal l) s s (At r t kn).
Proof.
  induction l as [|e l IH]; intros c u r s t kn H.
  - destruct H as [H|(r' & [= <-] & H)]; [discriminate|]. cbn [consume_literal]. unfold verify_next_separator, verify_value_separator.
    destruct r as [|b r]; cbn [sep_ok] in H.
    + exists FSource. rewrite app_nil_r. split; [apply LE_source|]. destruct t; [discriminate|]. apply stops_peek_source.
    + exists (FSyntax TrailingDataAfterLiteral). split.
      * rewrite app_nil_r. apply (LE_trailing (c :: u) b r). rewrite <- is_separator_iff. congruence.
      * ss peek_some. rewrite H. apply stops_syntax.
  - cbn [consume_literal]. destruct r as [|b r].
    + exists (FEnd InvalidLiteral). split; [|apply stops_bind, read_end]. rewrite app_nil_r. eapply LE_cut. reflexivity.
    + cbn [strip] in H. destruct (N.eqb_spec b e) as [->|Hb].
      * destruct (IH c (u ++ [e]) r s t false H) as (F & HF & Hst). rewrite <- !app_assoc in HF. exists F. split; [exact HF|].
        ss read_some. rewrite N.eqb_refl. exact Hst.
      * exists (FSyntax InvalidLiteral). split; [eapply LE_other; [reflexivity|exact Hb]|].
        ss read_some. destruct (N.eqb_spec b e); [contradiction|]. apply stops_syntax.
Qed.

Lemma lit_token_stops c l p b r s t : b = c -> lit_token (c :: l) p (is_eof t) (b :: r) = None ->
  exists F, literal_error (c :: l) (b :: r) F /\
    stops t F (consume_literal (c :: l) ;; ret (p, false)) s s (At (b :: r) t true).
Proof.
  intros -> H. unfold lit_token in H. cbn [strip] in H. rewrite N.eqb_refl in H.
  destruct (literal_stops l c [] r s t false) as (F & HF & Hst).
  { destruct (strip l r) as [r'|]; [|left; reflexivity]. right. exists r'. split; [reflexivity|].
    destruct (sep_ok (is_eof t) r'); [discriminate|reflexivity]. }
  exists F. split; [exact HF|]. apply stops_bind. cbn [consume_literal]. ss read_some. rewrite N.eqb_refl. exact Hst.
Qed.

Lemma literal_error_none c l p x F t : literal_error (c :: l) x F -> (F = FSource -> t <> TEof) -> lit_token (c :: l) p (is_eof t) x = None.
Proof.
  intros H Ht. unfold lit_token. destruct (strip (c :: l) x) as [r'|] eqn:Es; [|reflexivity]. apply strip_spec in Es.
  assert (Hlen : forall u d v (z : bytes), c :: l = u ++ d :: v -> u <> (c :: l) ++ z).
  { intros u d v z He Hu. apply (f_equal (@length _)) in He. apply (f_equal (@length _)) in Hu. rewrite app_length in *. cbn in *. lia. }
  destruct H as [c' u d v He|c' u d v b r He Hb|b r Hb|].
  - exfalso. exact (Hlen (c' :: u) d v r' He Es).
  - exfalso. change (c' :: u ++ b :: r) with ((c' :: u) ++ b :: r) in Es. rewrite He in Es.
    change ((c' :: u ++ d :: v) ++ r') with (((c' :: u) ++ d :: v) ++ r') in Es. rewrite <- app_assoc in Es.
    apply app_inv_head in Es. injection Es as -> _. contradiction.
  - apply app_inv_head in Es. subst r'. cbn [sep_ok]. rewrite <- is_separator_iff in Hb. destruct (is_value_separator b); [contradiction Hb; reflexivity|reflexivity].
  - rewrite <- (app_nil_r (c :: l)) in Es at 1. apply app_inv_head in Es. subst r'. cbn [sep_ok].
    destruct t; [contradiction Ht; reflexivity|reflexivity].
Qed.

Lemma literal_error_head c l x F : literal_error (c :: l) x F -> exists r, x = c :: r.
Proof. intros H. destruct H as [c' u d v [= -> _]|c' u d v b r [= -> _] _|b r _|]; cbn; eauto. Qed.

(** ** Tokens *)
Lemma token_stops s pl t b r s1 : placed s pl ->
  token (expects_member_name s) (is_in_array s) (is_eof t) (b :: r) = None ->
  exists F, token_error pl (b :: r) F /\ stops t F (peek_token s b) s1 s1 (At (b :: r) t true).
Proof.
  intros Hp H. pose proof (placed_name _ _ Hp) as Hn. pose proof (placed_array _ _ Hp) as Ha.
  unfold token in H. unfold peek_token. destruct (expects_member_name s) eqn:En.
  - destruct ((proj1 Hn) eq_refl) as (f & ->).
    destruct (N.eqb_spec b B_RBRACE); [discriminate|]. destruct (N.eqb_spec b B_QUOTE); [discriminate|].
    eexists. split; [apply TE_name; assumption|apply stops_syntax].
  - assert (Hnn : forall f, pl <> AtName f) by (intros f Hf; discriminate (proj2 Hn (ex_intro _ f Hf))).
    destruct (N.eqb_spec b B_LBRACKET) as [|H1]; [discriminate|].
    destruct (N.eqb_spec b B_RBRACKET) as [->|H2].
    { destruct (is_in_array s); [discriminate|]. eexists. split; [apply TE_bracket; [|exact Hnn]|apply stops_syntax].
      intros f Hf. discriminate (proj2 Ha (ex_intro _ f Hf)). }
    destruct (N.eqb_spec b B_LBRACE) as [|H3]; [discriminate|].
    destruct (N.eqb_spec b B_RBRACE) as [->|H4].
    { eexists. split; [apply TE_brace; exact Hnn|apply stops_syntax]. }
    destruct (N.eqb_spec b B_QUOTE) as [|H5]; [discriminate|].
    destruct (N.eqb_spec b B_MINUS) as [|H6]; [discriminate|]. cbn [orb] in *.
    destruct (is_digit b) eqn:Ed; [discriminate|].
    destruct (N.eqb_spec b B_n) as [Hb|H7].
    { destruct (lit_token_stops B_n [0x75; 0x6C; 0x6C] PkNull b r s1 t Hb H) as (F & HF & Hst). exists F.
      split; [|exact Hst]. eapply TE_literal; [exact Hnn| |exact HF]. cbn; auto. }
    destruct (N.eqb_spec b B_t) as [Hb|H8].
    { destruct (lit_token_stops B_t [0x72; 0x75; 0x65] PkTrue b r s1 t Hb H) as (F & HF & Hst). exists F.
      split; [|exact Hst]. eapply TE_literal; [exact Hnn| |exact HF]. cbn; auto. }
    destruct (N.eqb_spec b B_f) as [Hb|H9].
    { destruct (lit_token_stops B_f [0x61; 0x6C; 0x73; 0x65] PkFalse b r s1 t Hb H) as (F & HF & Hst). exists F.
      split; [|exact Hst]. eapply TE_literal; [exact Hnn| |exact HF]. cbn; auto. }
    destruct (N.eqb_spec b B_COMMA) as [->|H10].
    { eexists. split; [apply TE_comma; exact Hnn|apply stops_syntax]. }
    destruct (N.eqb_spec b B_COLON) as [->|H11].
    { eexists. split; [apply TE_colon; exact Hnn|apply stops_syntax]. }
    eexists. split; [apply TE_other; [exact Hnn| |]|apply stops_syntax].
    + rewrite <- is_digit_iff. congruence.
    + cbn [In]. intros Hin. repeat (destruct Hin as [Hin|Hin]; [congruence|]). exact Hin.
Qed.

Lemma token_no_error s pl t x p r3 F : placed s pl ->
  token (expects_member_name s) (is_in_array s) (is_eof t) x = Some (p, r3) ->
  token_error pl x F -> (F = FSource -> t <> TEof) -> False.
Proof.
  intros Hp H He Ht. pose proof (placed_name _ _ Hp) as Hn. pose proof (placed_array _ _ Hp) as Ha.
  destruct (expects_member_name s) eqn:En.
  - destruct ((proj1 Hn) eq_refl) as (f & ->). inversion He as [f' b r H1 H2|? r _ H1|? r H1|? r H1|? r H1|? lit x' F' H1|? b r H1]; subst;
      try (contradiction (H1 f eq_refl)).
    cbn [token] in H. destruct (N.eqb_spec b B_RBRACE); [contradiction|]. destruct (N.eqb_spec b B_QUOTE); [contradiction|]. discriminate.
  - destruct He as [f' b r H1 H2|pl r H1 _|pl r H1|pl r H1|pl r H1|pl lit x F H1 Hl He|pl b r H1 Hd Hin].
    + assert (Hx : false = true) by (apply Hn; eauto). discriminate.
    + cbn in H. destruct (is_in_array s); [|discriminate]. destruct ((proj1 Ha) eq_refl) as (f & Hf). exact (H1 f Hf).
    + discriminate.
    + discriminate.
    + discriminate.
    + destruct Hl as [<-|[<-|[<-|[]]]]; destruct (literal_error_head _ _ _ _ He) as (r & ->).
      * apply (literal_error_none _ _ PkNull _ _ t) in He; [|exact Ht]. change (lit_token lit_null PkNull (is_eof t) (0x6E :: r) = Some (p, r3)) in H. unfold lit_null in H. congruence.
      * apply (literal_error_none _ _ PkTrue _ _ t) in He; [|exact Ht]. change (lit_token lit_true PkTrue (is_eof t) (0x74 :: r) = Some (p, r3)) in H. unfold lit_true in H. congruence.
      * apply (literal_error_none _ _ PkFalse _ _ t) in He; [|exact Ht]. change (lit_token lit_false PkFalse (is_eof t) (0x66 :: r) = Some (p, r3)) in H. unfold lit_false in H. congruence.
    + rewrite <- is_digit_iff in Hd. cbn [In] in Hin. unfold token in H.
      repeat match type of H with context [N.eqb ?a ?b] => destruct (N.eqb_spec a b) as [Hx|_]; [exfalso; apply Hin; rewrite Hx; auto 20|] end.
      cbn [orb] in H. destruct (is_digit b); [contradiction Hd; reflexivity|]. discriminate.
Qed.

(** ** Looking at the next element *)
Definition stops_as {A : Type} (t : tail_end) (m : M A) (s : rstate) (a : asrc) (P : bytes -> failure -> Prop) : Prop :=
  exists t1 F s', P t1 F /\ stops t F m s s' a /\ location s' = location (move t1 s).

Lemma stops_as_bind {A B : Type} t (m : M A) (f : A -> M B) s a P : stops_as t m s a P -> stops_as t (bind m f) s a P.
Proof. intros (t1 & F & s' & HP & H & Hl). exists t1, F, s'. splits; auto. apply stops_bind. exact H. Qed.
Lemma stops_as_ok {A B : Type} t (m : M A) (f : A -> M B) s a a1 x P : exec m s a = Some ((Ok x, s), a1) ->
  stops_as t (f x) s a1 P -> stops_as t (bind m f) s a P.
Proof. intros He (t1 & F & s' & HP & H & Hl). exists t1, F, s'. splits; auto. eapply stops_bind_ok; eassumption. Qed.

Lemma ws_error_end {A : Type} t sx k (m : M A) s s' a x t1 F : ws_error sx None x t1 F -> stops t F m s s' a ->
  exists F', ws_error sx k x t1 F' /\ stops t F' m s s' a.
Proof.
  intros H Hs. destruct H.
  - exists (end_failure k). split; [apply WE_end; assumption|apply stops_source_end; exact Hs].
  - eexists. split; [apply WE_disabled; eassumption|exact Hs].
  - eexists. split; [apply WE_slash_end; eassumption|exact Hs].
  - eexists. split; [apply WE_slash; eassumption|exact Hs].
  - eexists. split; [apply WE_block_end; eassumption|exact Hs].
  - eexists. split; [eapply WE_block; eassumption|exact Hs].
  - eexists. split; [eapply WE_line; eassumption|exact Hs].
Qed.

Lemma ws_scan_sound E t k r w r' : Forall is_byte r -> ws_scan E t k r = SOk (w, r') ->
  r = w ++ r' /\ ws_stop r' /\ (r' = [] -> is_eof t = true /\ eof_ok k = true) /\
  (ws_text (the_syntax E) w \/ (r' = [] /\ final_ws_text (the_syntax E) w)).
Proof.
  intros Hr H. apply (scan_ws_sound (fuel E) (fuel E) (the_syntax E) (is_eof t) (eof_ok k)) in H; [|exact Hr].
  destruct H as (H1 & H2 & H3 & H4). splits; auto. destruct H3 as [H3|(H3 & _ & H5)]; auto.
Qed.

Lemma ws_stop_start b r : ws_stop (b :: r) -> token_start (b :: r).
Proof. intros [H1 H2]. exists b, r. auto. Qed.

Lemma last_cr_snoc' w x : x <> B_CR -> last_cr false (w ++ [x]) = false.
Proof. apply last_cr_snoc. Qed.

Lemma move_sep w x w2 s : plain x -> move (w ++ x :: w2) s = move w2 (advance 1 1 (move w s)).
Proof.
  intros Hx. replace (w ++ x :: w2) with ((w ++ [x]) ++ w2) by (rewrite <- app_assoc; reflexivity).
  rewrite move_app by (apply last_cr_snoc; apply Hx). rewrite move_snoc_plain by exact Hx. reflexivity.
Qed.

Lemma plain_comma : plain B_COMMA. Proof. unfold plain. splits; discriminate || reflexivity. Qed.
Lemma plain_colon : plain B_COLON. Proof. unfold plain. splits; discriminate || reflexivity. Qed.

Lemma end_token_closes s pl t x b r p r3 : placed s pl -> x = b :: r ->
  token (expects_member_name s) (is_in_array s) (is_eof t) x = Some (p, r3) -> is_end_token p = true <-> closes pl b.
Proof.
  intros Hp -> H. pose proof (placed_name _ _ Hp) as Hn. pose proof (placed_array _ _ Hp) as Ha.
  unfold token in H. destruct (expects_member_name s) eqn:En.
  - destruct ((proj1 Hn) eq_refl) as (f & ->). cbn [closes].
    destruct (N.eqb_spec b B_RBRACE) as [->|Hb]; [injection H as <- _; split; reflexivity|].
    destruct (N.eqb_spec b B_QUOTE) as [->|Hb2]; [|discriminate]. injection H as <- _. split; discriminate.
  - assert (Hcl : closes pl b <-> (is_in_array s = true /\ b = 0x5D)).
    { destruct pl as [f|f|f|]; cbn [closes].
      - split; [contradiction|]. intros [Hx _]. apply Ha in Hx. destruct Hx; discriminate.
      - split; [intros ->; split; [apply Ha; eauto|reflexivity]|tauto].
      - assert (Hx : false = true) by (apply Hn; eauto). discriminate.
      - split; [contradiction|]. intros [Hx _]. apply Ha in Hx. destruct Hx; discriminate. }
    rewrite Hcl. clear Hcl.
    destruct (N.eqb_spec b B_LBRACKET) as [->|H1]; [injection H as <- _; split; [discriminate|intros [_ ?]; discriminate]|].
    destruct (N.eqb_spec b B_RBRACKET) as [->|H2].
    { destruct (is_in_array s); [|discriminate]. injection H as <- _. tauto. }
    assert (Hno : ~ (is_in_array s = true /\ b = 0x5D)) by (intros [_ ?]; contradiction).
    assert (Hp2 : is_end_token p = false).
    { unfold lit_token in H.
      repeat match type of H with
      | context [if ?c then _ else _] => destruct c
      | context [match ?c with Some _ => _ | None => _ end] => destruct c
      end; try discriminate; injection H as <- _; reflexivity. }
    rewrite Hp2. split; [discriminate|tauto].
Qed.

Lemma location_mv s s' : (line s, column s, byte_pos s) = (line s', column s', byte_pos s') -> json_path s = json_path s' -> location s = location s'.
Proof. unfold location, current_position. intros [= -> -> ->] ->. reflexivity. Qed.

Lemma fresh_stops E t s r kn pl : Forall is_byte r -> placed s pl -> d_fresh E t s r = MFail None ->
  stops_as t (ob <- skip_whitespace E None ;; match ob with None => ret None | Some b => peek_after_ws E b end) s (At r t kn)
    (element_error t (the_syntax E) pl r).
Proof.
  intros Hr Hp H. pose proof (skip_whitespace_ex E None s r t kn) as Hs. unfold d_fresh in H.
  destruct (ws_scan E t None r) as [[w [|b r1]]| |] eqn:Ew; try discriminate.
  2:{ destruct (skip_whitespace_stops E None s r t kn Hr Ew) as (t1 & F & He & Hst).
      destruct (ws_error_end t _ (end_kind pl) _ _ _ _ _ _ _ He Hst) as (F' & He' & Hst').
      exists t1, F', (move t1 s). splits; [apply EE_ws; exact He'|apply stops_bind; exact Hst'|reflexivity]. }
  apply ws_scan_sound in Ew as (-> & Hws & _ & Hw); [|exact Hr].
  assert (Hwt : ws_text (the_syntax E) w) by (destruct Hw as [Hw|[? _]]; [exact Hw|discriminate]). clear Hw.
  apply Forall_app in Hr as [_ Hr]. inversion Hr as [|? ? _ Hr1]; subst.
  cbn [hd_error] in Hs. unfold peek_after_ws.
  set (s1 := move w s) in *.
  assert (Hc : negb (is_empty s1) && (is_in_array s1 || expects_member_name s1) = can_have_comma s).
  { unfold s1, can_have_comma. autorewrite with mv. reflexivity. }
  assert (Ha : is_in_array s1 = is_in_array s) by (unfold s1; autorewrite with mv; reflexivity).
  assert (Hn : expects_member_name s1 = expects_member_name s) by (unfold s1; autorewrite with mv; reflexivity).
  assert (Hp1 : placed s1 pl).
  { unfold s1. destruct pl; cbn in *; unfold is_in_array, is_in_object in *; autorewrite with mv; exact Hp. }
  pose proof (placed_comma _ _ Hp) as Hbe.
  destruct (b =? B_COMMA) eqn:Eb.
  - apply N.eqb_eq in Eb as Eb'. subst b.
    destruct (can_have_comma s) eqn:Ec; cbn [negb] in H.
    2:{ exists w, (FSyntax UnexpectedComma), s1. splits; [|ss Hs; ss get_ok; rewrite Eb, Hc; apply stops_syntax|reflexivity].
        apply EE_unexpected_comma; [exact Hwt|]. rewrite <- Hbe. discriminate. }
    assert (Hbe' : behind_element pl) by (apply Hbe; reflexivity). clear Hbe.
    pose proof (skip_whitespace_no_eof_ex E IncompleteDocument (advance 1 1 s1) r1 t false) as H2.
    destruct (ws_scan E t (Some IncompleteDocument) r1) as [[w2 [|b2 r2]]| |] eqn:Ew2; [contradiction| | |discriminate].
    2:{ destruct (skip_whitespace_no_eof_stops E IncompleteDocument (advance 1 1 s1) r1 t false Hr1 Ew2) as (t1 & F & He & Hst).
        exists (w ++ 0x2C :: t1), F, (move t1 (advance 1 1 s1)). splits.
        - apply EE_comma_ws; assumption.
        - ss Hs. ss get_ok. rewrite Eb, Hc. cbn [negb]. ss skip_some. ss update_ok. apply stops_bind. exact Hst.
        - rewrite move_sep by apply plain_comma. reflexivity. }
    apply ws_scan_sound in Ew2 as (-> & Hws2 & _ & Hw2); [|exact Hr1].
    assert (Hwt2 : ws_text (the_syntax E) w2) by (destruct Hw2 as [Hw2|[? _]]; [exact Hw2|discriminate]). clear Hw2.
    pose proof (token_stops s1 pl t b2 r2 (move w2 (advance 1 1 s1)) Hp1) as Htok. rewrite Hn, Ha in Htok.
    pose proof (peek_token_ex s1 t b2 r2 (move w2 (advance 1 1 s1))) as H3. rewrite Hn, Ha in H3.
    destruct (token _ _ _ (b2 :: r2)) as [[p r3]|] eqn:Et.
    2:{ destruct (Htok eq_refl) as (F & HF & Hst). exists (w ++ 0x2C :: w2), F, (move w2 (advance 1 1 s1)). splits.
        - apply EE_comma_token; auto. apply ws_stop_start. exact Hws2.
        - ss Hs. ss get_ok. rewrite Eb, Hc. cbn [negb]. ss skip_some. ss update_ok. ss H2. apply stops_bind. exact Hst.
        - rewrite move_sep by apply plain_comma. reflexivity. }
    destruct H3 as (adv & H3 & Hadv). pose proof (end_token_closes _ _ _ _ _ _ _ _ Hp eq_refl Et) as Hcl.
    destruct (is_end_token p) eqn:Ep; cbn [andb] in H; [|discriminate].
    destruct (allow_trailing_comma (cfg E)) eqn:Etc; cbn [negb] in H; [discriminate|].
    exists w, (FSyntax TrailingCommaNotEnabled), (set_position (line s1) (column s1) (byte_pos s1) (move w2 (advance 1 1 s1))). splits.
    + apply EE_trailing; auto. apply Hcl. reflexivity.
    + ss Hs. ss get_ok. rewrite Eb, Hc. cbn [negb]. ss skip_some. ss update_ok. ss H2. ss H3. unfold finish_peek. cbn [fst snd].
      rewrite Ep, Etc. cbn [negb fst snd]. apply stops_bind. ss update_ok. apply stops_syntax.
    + apply location_mv; [reflexivity|]. unfold s1. change (json_path (set_position ?a ?b ?c ?s)) with (json_path s).
      autorewrite with mv. change (json_path (advance ?a ?b ?s)) with (json_path s). autorewrite with mv. reflexivity.
  - assert (Eb' : b <> 0x2C) by (apply N.eqb_neq; exact Eb).
    pose proof (token_stops s1 pl t b r1 s1 Hp1) as Htok. rewrite Hn, Ha in Htok.
    pose proof (peek_token_ex s1 t b r1 s1) as H3. rewrite Hn, Ha in H3.
    destruct (token _ _ _ (b :: r1)) as [[p r3]|] eqn:Et.
    2:{ destruct (Htok eq_refl) as (F & HF & Hst). exists w, F, s1. splits; [| |reflexivity].
        - apply EE_token; auto; [apply ws_stop_start; exact Hws|]. cbn. congruence.
        - ss Hs. ss get_ok. rewrite Eb. apply stops_bind. exact Hst. }
    destruct H3 as (adv & H3 & Hadv). pose proof (end_token_closes _ _ _ _ _ _ _ _ Hp eq_refl Et) as Hcl.
    destruct (is_end_token p) eqn:Ep; cbn [negb andb] in H; [discriminate|].
    destruct (can_have_comma s) eqn:Ec; [|discriminate].
    exists w, (FSyntax MissingComma), s1. splits; [| |reflexivity].
    + apply EE_missing_comma; auto; [apply Hbe; reflexivity|apply ws_stop_start; exact Hws| |].
      * rewrite <- Hcl. discriminate.
      * intros (F & HF & Hsrc). exact (token_no_error _ _ _ _ _ _ _ Hp Et HF Hsrc).
    + ss Hs. ss get_ok. rewrite Eb. ss H3. unfold finish_peek. cbn [fst snd]. rewrite Ep, Hc. apply stops_bind. apply stops_syntax.
Qed.

Lemma after_name_stops E t s r kn : Forall is_byte r -> d_after_name E t s r = MFail None ->
  stops_as t (after_name E) s (At r t kn) (next_error t (the_syntax E) AtMember r).
Proof.
  intros Hr H. unfold d_after_name in H. unfold after_name.
  pose proof (skip_whitespace_no_eof_ex E MissingColon s r t kn) as Hs.
  destruct (ws_scan E t (Some MissingColon) r) as [[w [|b r']]| |] eqn:Ew; try discriminate.
  - destruct (b =? B_COLON) eqn:Eb; [discriminate|]. apply ws_scan_sound in Ew as (-> & Hws & _ & Hw); [|exact Hr].
    exists w, (FSyntax MissingColon), (move w s). splits; [| |reflexivity].
    + apply XE_colon; [destruct Hw as [Hw|[? _]]; [exact Hw|discriminate]|apply ws_stop_start; exact Hws|].
      cbn. apply N.eqb_neq in Eb. congruence.
    + ss Hs. rewrite Eb. apply stops_syntax.
  - destruct (skip_whitespace_no_eof_stops E MissingColon s r t kn Hr Ew) as (t1 & F & He & Hst).
    exists t1, F, (move t1 s). splits; [apply XE_colon_ws; exact He|apply stops_bind; exact Hst|reflexivity].
Qed.

Lemma after_name_ok E t s r s1 r1 : Forall is_byte r -> d_after_name E t s r = MOk tt s1 r1 ->
  exists w, ws_text (the_syntax E) w /\ r = w ++ 0x3A :: r1 /\ s1 = advance 1 1 (move w s).
Proof.
  intros Hr H. unfold d_after_name in H.
  destruct (ws_scan E t (Some MissingColon) r) as [[w [|b r']]| |] eqn:Ew; try discriminate.
  destruct (N.eqb_spec b B_COLON) as [->|]; [|discriminate]. injection H as <- <-.
  apply ws_scan_sound in Ew as (-> & Hws & _ & Hw); [|exact Hr].
  exists w. splits; auto. destruct Hw as [Hw|[? _]]; [exact Hw|discriminate].
Qed.

Lemma placed_adv s pl w n m : placed s pl -> placed (advance n m (move w s)) pl.
Proof.
  destruct pl; cbn [placed]; unfold is_in_array, is_in_object;
    change (stack (advance n m (move w s))) with (stack (move w s));
    change (expects_member_name (advance n m (move w s))) with (expects_member_name (move w s));
    change (is_empty (advance n m (move w s))) with (is_empty (move w s)); autorewrite with mv; auto.
Qed.

Lemma peek_optional_stops E t s r kn pl : Forall is_byte r -> placed s pl -> peeked s = None ->
  d_peek_optional E t s r = MFail None ->
  stops_as t (peek_internal_optional E) s (At r t kn) (next_error t (the_syntax E) pl r).
Proof.
  intros Hr Hp Hpk H. unfold d_peek_optional, dbind, dget, dmisuse_if in H. cbn beta iota in H.
  unfold peek_internal_optional. eapply stops_as_ok; [apply get_ok|]. unfold misuse_if.
  destruct (string_reader_active s) eqn:Ea; [discriminate|]. eapply stops_as_ok; [apply ret_ok|].
  unfold dret in H. cbn beta iota in H. rewrite Hpk in H |- *.
  destruct (is_behind_top_level s && negb (allow_multiple_top_level (cfg E))); [discriminate|].
  eapply stops_as_ok; [apply ret_ok|]. cbn beta iota in H.
  pose proof (placed_member _ _ Hp) as Hm. destruct (expects_member_value s) eqn:Em.
  - assert (pl = AtMember) by (apply Hm; reflexivity). subst pl.
    destruct (d_after_name E t s r) as [[] s1 r1|e s1 r1|n| |] eqn:En; try discriminate.
    + apply after_name_ok in En as En'; [|exact Hr]. destruct En' as (w & Hw & -> & ->).
      apply Forall_app in Hr as [_ Hr]. inversion Hr as [|? ? _ Hr1]; subst.
      pose proof (agree_after_name E t s (w ++ 0x3A :: r1) kn) as Hag. rewrite En in Hag. destruct Hag as (kn' & Hag).
      destruct (fresh_stops E t (advance 1 1 (move w s)) r1 kn' AtMember Hr1 (placed_adv _ _ _ _ _ Hp) H) as (t1 & F & s' & He & Hst & Hl).
      exists (w ++ 0x3A :: t1), F, s'. splits.
      * apply XE_value; assumption.
      * eapply stops_bind_ok; [exact Hag|exact Hst].
      * rewrite move_sep by apply plain_colon. exact Hl.
    + injection H as ->. apply stops_as_bind. apply after_name_stops; assumption.
  - eapply stops_as_ok; [apply ret_ok|].
    destruct (fresh_stops E t s r kn pl Hr Hp H) as (t1 & F & s' & He & Hst & Hl).
    exists t1, F, s'. splits; auto. apply XE_element; [|exact He]. intros ->. discriminate (proj2 Hm eq_refl).
Qed.

Lemma fresh_none E t s r s1 r1 : Forall is_byte r -> d_fresh E t s r = MOk None s1 r1 ->
  t = TEof /\ s1 = move r s /\ final_ws_text (the_syntax E) r.
Proof.
  intros Hr H. unfold d_fresh in H. destruct (ws_scan E t None r) as [[w [|b r']]| |] eqn:Ew; try discriminate.
  - injection H as <- <-. apply ws_scan_sound in Ew as (-> & _ & Heof & Hw); [|exact Hr].
    destruct (Heof eq_refl) as [Ht _]. rewrite app_nil_r. splits; [destruct t; [reflexivity|discriminate]|reflexivity|].
    destruct Hw as [Hw|[_ Hw]]; [left; exact Hw|exact Hw].
  - exfalso. destruct (b =? B_COMMA).
    + destruct (negb (can_have_comma s)); [discriminate|].
      destruct (ws_scan E t (Some IncompleteDocument) r') as [[w2 r2]| |]; try discriminate.
      destruct (token _ _ _ r2) as [[p r3]|]; [|discriminate]. destruct (is_end_token p && _); discriminate.
    + destruct (token _ _ _ (b :: r')) as [[p r3]|]; [|discriminate]. destruct (negb (is_end_token p) && _); discriminate.
Qed.

Lemma peek_internal_stops E t s r kn pl : Forall is_byte r -> placed s pl -> peeked s = None ->
  d_peek_internal E t s r = MFail None ->
  stops_as t (peek_internal E) s (At r t kn) (next_error t (the_syntax E) pl r).
Proof.
  intros Hr Hp Hpk H. unfold d_peek_internal, dbind in H.
  destruct (d_peek_optional E t s r) as [[p|] s1 r1|e s1 r1|n| |] eqn:Eo; try discriminate.
  2:{ injection H as ->. apply stops_as_bind. apply peek_optional_stops; assumption. }
  pose proof (agree_peek_optional E t s r kn) as Hag. rewrite Eo in Hag. destruct Hag as (kn' & Hag).
  unfold dget in H. cbn beta iota in H.
  destruct (is_behind_top_level s1 && allow_multiple_top_level (cfg E)) eqn:Eb; [discriminate|].
  cut (exists t1, next_error t (the_syntax E) pl r t1 (FEnd IncompleteDocument) /\ location s1 = location (move t1 s) /\ t = TEof).
  { intros (t1 & He & Hl & ->). exists t1, (FEnd IncompleteDocument), s1. splits; auto.
    unfold peek_internal. eapply stops_bind_ok; [exact Hag|]. ss get_ok. rewrite Eb. eexists _, _. split; [reflexivity|]. repeat split. }
  unfold d_peek_optional, dbind, dget, dmisuse_if in Eo. cbn beta iota in Eo.
  destruct (string_reader_active s) eqn:Ea; [discriminate|]. unfold dret in Eo. cbn beta iota in Eo. rewrite Hpk in Eo.
  destruct (is_behind_top_level s && negb (allow_multiple_top_level (cfg E))) eqn:Eb2; [discriminate|]. cbn beta iota in Eo.
  pose proof (placed_member _ _ Hp) as Hm. destruct (expects_member_value s) eqn:Em.
  - assert (pl = AtMember) by (apply Hm; reflexivity). subst pl.
    destruct (d_after_name E t s r) as [[] s2 r2|e s2 r2|n| |] eqn:En; try discriminate.
    apply after_name_ok in En as (w & Hw & -> & ->); [|exact Hr].
    apply Forall_app in Hr as [_ Hr]. inversion Hr as [|? ? _ Hr1]; subst.
    destruct (fresh_none _ _ _ _ _ _ Hr1 Eo) as (-> & -> & Hfin).
    exists (w ++ 0x3A :: r2). splits; [|rewrite move_sep by apply plain_colon; reflexivity|reflexivity].
    apply XE_value; [exact Hw|]. apply EE_ws. exact (WE_end _ (Some IncompleteDocument) _ Hfin).
  - destruct (fresh_none _ _ _ _ _ _ Hr Eo) as (-> & -> & Hfin). exists r. splits; auto.
    apply XE_element; [intros ->; discriminate (proj2 Hm eq_refl)|]. apply EE_ws.
    replace (end_kind pl) with (Some IncompleteDocument); [exact (WE_end _ (Some IncompleteDocument) _ Hfin)|].
    destruct pl as [[|]| | |]; try reflexivity. exfalso. cbn in Hp. destruct Hp as (Hst & _ & He).
    unfold is_behind_top_level in Eb, Eb2. autorewrite with mv in Eb. rewrite Hst, He in Eb, Eb2. cbn in Eb, Eb2.
    destruct (allow_multiple_top_level (cfg E)); discriminate.
Qed.

Lemma peek_stops E t s r kn pl : Forall is_byte r -> placed s pl -> peeked s = None ->
  d_peek E t s r = MFail None -> stops_as t (peek E) s (At r t kn) (next_error t (the_syntax E) pl r).
Proof.
  intros Hr Hp Hpk H. unfold d_peek, dbind, dget, dmisuse_if in H. cbn beta iota in H.
  unfold peek. eapply stops_as_ok; [apply get_ok|]. unfold misuse_if.
  destruct (expects_member_name s); [discriminate|]. eapply stops_as_ok; [apply ret_ok|]. unfold dret in H. cbn beta iota in H.
  apply stops_as_bind. apply peek_internal_stops; auto.
  destruct (d_peek_internal E t s r) as [p s1 r1|e s1 r1|n| |]; try discriminate; [|injection H as ->; reflexivity]. destruct p; discriminate.
Qed.

Lemma has_next_stops E t s r kn pl : Forall is_byte r -> placed s pl -> peeked s = None ->
  d_has_next E t s r = MFail None -> stops_as t (has_next E) s (At r t kn) (next_error t (the_syntax E) pl r).
Proof.
  intros Hr Hp Hpk H. unfold d_has_next, dbind, dget, dmisuse_if in H. cbn beta iota in H.
  unfold has_next. eapply stops_as_ok; [apply get_ok|]. unfold misuse_if.
  destruct (expects_member_value s); [discriminate|]. eapply stops_as_ok; [apply ret_ok|]. unfold dret in H. cbn beta iota in H.
  apply stops_as_bind. destruct (stack s) as [|v st].
  - destruct (is_empty s); [discriminate|]. eapply stops_as_ok; [apply ret_ok|]. cbn beta iota in H.
    destruct (negb (allow_multiple_top_level (cfg E))); [discriminate|]. eapply stops_as_ok; [apply ret_ok|]. cbn beta iota in H.
    apply peek_optional_stops; auto.
    destruct (d_peek_optional E t s r) as [[p|] s1 r1|e s1 r1|n| |]; try discriminate; [|injection H as ->; reflexivity]. destruct (_ || _); discriminate.
  - apply stops_as_bind. apply peek_internal_stops; auto.
    destruct (d_peek_internal E t s r) as [p s1 r1|e s1 r1|n| |]; try discriminate; [|injection H as ->; reflexivity]. destruct (_ || _); discriminate.
Qed.
