(** * The text which is consumed by the calls of the reader *)

From Verif Require Import Base Utf8Model Utf8Proofs NumberModel SpecNumber NumberProofs SpecJson SourceModel ReaderModel
  ReaderScan ReaderLex ReaderLexStr ReaderMid ReaderAgree ReaderSess ReaderGrammar ReaderSafe SpecText.

Definition sx (E : env) : syntax := reader_syntax (cfg E).

Lemma ahead_none s r : peeked s = None -> ahead s r = r.
Proof. unfold ahead, held. intros ->. reflexivity. Qed.
Lemma ahead_some s r p : peeked s = Some p -> ahead s r = tok p ++ r.
Proof. unfold ahead, held. intros ->. reflexivity. Qed.

Lemma inv_length E inp s r : inv E inp s r -> (length inp < fuel E)%nat -> (length r < fuel E)%nat.
Proof. intros Hi Hf. pose proof (mu_bound _ _ _ _ Hi) as H. unfold mu, ahead in H. rewrite app_length in H. lia. Qed.

Lemma fresh_text E inp t s r op s' r' : (length inp < fuel E)%nat -> inv E inp s r -> peeked s = None ->
  d_fresh E t s r = MOk op s' r' ->
  exists g, r = g ++ ahead s' r' /\
    match op with
    | Some p => peeked s' = Some p /\
        (ws_text (sx E) g \/ can_have_comma s = true /\ exists w1 w2, g = w1 ++ 0x2C :: w2 /\ ws_text (sx E) w1 /\ ws_text (sx E) w2)
    | None => r' = [] /\ peeked s' = None /\ final_ws_text (sx E) g
    end.
Proof.
  intros Hf Hi Hpk He. pose proof (inv_length _ _ _ _ Hi Hf) as Hl. unfold d_fresh in He.
  pose proof (ws_scan_ok E t None r (i_bytes _ _ _ _ Hi) Hl) as Hw.
  destruct (ws_scan E t None r) as [[w r1]| |]; try discriminate. destruct Hw as (-> & _ & _ & Hw & _).
  destruct r1 as [|b r1].
  { injection He as <- <- <-. exists w. rewrite (ahead_none (move w s)) by (rewrite peeked_move; exact Hpk).
    rewrite peeked_move. splits; auto. destruct Hw as [H|[_ H]]; [left|]; exact H. }
  assert (Hws : ws_text (sx E) w) by (destruct Hw as [H|[H _]]; [exact H|discriminate]). clear Hw.
  destruct (N.eqb_spec b B_COMMA) as [->|Hb].
  - destruct (can_have_comma s); [|discriminate]. cbn [negb] in He.
    assert (Hr1 : Forall is_byte r1).
    { pose proof (i_bytes _ _ _ _ Hi) as H. apply Forall_app in H as [_ H]. inversion H; auto. }
    rewrite app_length in Hl. cbn in Hl.
    pose proof (ws_scan_ok E t (Some IncompleteDocument) r1 Hr1 ltac:(lia)) as Hw2.
    destruct (ws_scan E t (Some IncompleteDocument) r1) as [[w2 r2]| |]; try discriminate.
    destruct Hw2 as (-> & _ & _ & Htext2 & _).
    destruct (token _ _ _ r2) as [[p r3]|] eqn:Et; [|discriminate].
    destruct (_ && _) in He; [discriminate|]. injection He as <- <- <-.
    exists (w ++ 0x2C :: w2). rewrite (ahead_some _ _ p) by reflexivity.
    assert (Hr2 : r2 <> []) by (intros ->; discriminate). apply token_spec in Et as (-> & _).
    split; [rewrite <- app_assoc; reflexivity|]. split; [reflexivity|]. right. split; [reflexivity|]. exists w, w2. splits; auto.
    destruct Htext2 as [H|[H _]]; [exact H|contradiction].
  - destruct (token _ _ _ (b :: r1)) as [[p r3]|] eqn:Et; [|discriminate]. apply token_spec in Et as (-> & _).
    destruct (_ && _) in He; [discriminate|]. injection He as <- <- <-.
    exists w. rewrite (ahead_some _ _ p) by reflexivity. splits; auto.
Qed.

Lemma after_name_text E inp t s r u s' r' : (length inp < fuel E)%nat -> inv E inp s r -> peeked s = None ->
  d_after_name E t s r = MOk u s' r' -> exists w, r = w ++ 0x3A :: r' /\ ws_text (sx E) w /\ peeked s' = None /\ same s s'.
Proof.
  intros Hf Hi Hpk He. pose proof (after_name_good E inp t s r Hf Hi Hpk) as Hg. rewrite He in Hg. destruct Hg as (_ & Hs & _ & Hpk').
  unfold d_after_name in He. pose proof (ws_scan_ok E t (Some MissingColon) r (i_bytes _ _ _ _ Hi) (inv_length _ _ _ _ Hi Hf)) as Hw.
  destruct (ws_scan E t (Some MissingColon) r) as [[w [|b r1]]| |]; try discriminate. destruct Hw as (-> & _ & _ & Hw & _).
  destruct (N.eqb_spec b B_COLON) as [->|]; [|discriminate]. injection He as _ _ <-. exists w. splits; auto.
  destruct Hw as [H|[H _]]; [exact H|discriminate].
Qed.

(** [g] is skipped; nothing if something has been peeked *)
Definition skips (E : env) (s : rstate) (g : bytes) : Prop :=
  gap_text (sx E) g /\ (peeked s <> None -> g = []).

Lemma skips_nil E s : skips E s [].
Proof. split; [left; constructor|reflexivity]. Qed.

Lemma value_no_comma s : expects_member_value s = true -> can_have_comma s = false.
Proof.
  unfold expects_member_value, can_have_comma, is_in_array, is_in_object. intros H. apply andb_true_iff in H as [H1 H2].
  apply negb_true_iff in H2. rewrite H2. destruct (stack s) as [|[] l]; try discriminate. apply andb_false_r.
Qed.

Lemma peek_optional_text E inp t s r op s' r' : (length inp < fuel E)%nat -> inv E inp s r ->
  d_peek_optional E t s r = MOk op s' r' ->
  exists g, ahead s r = g ++ ahead s' r' /\
    match op with
    | Some p => peeked s' = Some p /\ skips E s g
    | None => r' = [] /\ peeked s' = None /\ peeked s = None /\ (expects_member_value s = false -> final_ws_text (sx E) g)
    end.
Proof.
  intros Hf Hi He. unfold d_peek_optional, dbind at 1, dget in He.
  unfold dmisuse_if at 1, dbind at 1 in He. destruct (string_reader_active s) eqn:Ha; [discriminate|]. unfold dret at 1 in He.
  destruct (peeked s) as [p|] eqn:Hpk.
  { injection He as <- <- <-. exists []. splits; auto; apply skips_nil. }
  destruct (is_behind_top_level s && negb (allow_multiple_top_level (cfg E))) eqn:Eb; [discriminate|].
  unfold dmisuse_if, dbind at 1, dret at 1 in He. rewrite (ahead_none s r Hpk).
  destruct (expects_member_value s) eqn:Ev.
  - unfold dbind in He. pose proof (after_name_good E inp t s r Hf Hi Hpk) as Hg.
    destruct (d_after_name E t s r) as [u s1 r1| | | |] eqn:Ea; try discriminate. destruct Hg as (Hi1 & _).
    destruct (after_name_text E inp t s r u s1 r1 Hf Hi Hpk Ea) as (w & -> & Hw & Hpk1 & Hs).
    destruct (fresh_text E inp t s1 r1 op s' r' Hf Hi1 Hpk1 He) as (g & -> & Hg).
    exists (w ++ 0x3A :: g). split; [rewrite <- app_assoc; reflexivity|]. destruct op as [p|].
    + destruct Hg as [Hp Hg]. split; [exact Hp|]. split; [|congruence]. right. exists w, 0x3A, g. splits; auto.
      destruct Hg as [Hg|[Hg _]]; [exact Hg|]. exfalso. rewrite value_no_comma in Hg; [discriminate|].
      destruct Hs as (_ & S2 & S3 & _). unfold expects_member_value, is_in_object in *. rewrite S2, S3. exact Ev.
    + destruct Hg as (-> & Hp & Hg). splits; auto. discriminate.
  - unfold dbind, dret in He. destruct (fresh_text E inp t s r op s' r' Hf Hi Hpk He) as (g & -> & Hg).
    exists g. split; [reflexivity|]. destruct op as [p|].
    + destruct Hg as [Hp Hg]. split; [exact Hp|]. split; [|congruence].
      destruct Hg as [Hg|(_ & w1 & w2 & -> & H1 & H2)]; [left; exact Hg|right]. exists w1, 0x2C, w2. auto.
    + destruct Hg as (-> & Hp & Hg). splits; auto.
Qed.

Lemma peek_internal_text E inp t s r p s' r' : (length inp < fuel E)%nat -> inv E inp s r ->
  d_peek_internal E t s r = MOk p s' r' ->
  exists g, ahead s r = g ++ tok p ++ r' /\ peeked s' = Some p /\ skips E s g.
Proof.
  intros Hf Hi He. unfold d_peek_internal, dbind at 1 in He.
  destruct (d_peek_optional E t s r) as [op s1 r1| | | |] eqn:Ep; try discriminate.
  destruct (peek_optional_text E inp t s r op s1 r1 Hf Hi Ep) as (g & Hg & Ho).
  destruct op as [q|].
  - injection He as <- <- <-. destruct Ho as [Ho Hs]. rewrite (ahead_some _ _ _ Ho) in Hg. eauto.
  - unfold dbind, dget in He. destruct (_ && _) in He; discriminate.
Qed.

Lemma map_peeked_ok p a s r s' r' : d_map_peeked p s r = MOk a s' r' -> s' = s /\ r' = r /\ type_of p = Some a.
Proof. unfold d_map_peeked. destruct p; cbn; try discriminate; intros [= <- <- <-]; auto. Qed.

Lemma peek_text E inp t s r ty s' r' : (length inp < fuel E)%nat -> inv E inp s r -> d_peek E t s r = MOk ty s' r' ->
  exists g, ahead s r = g ++ ahead s' r' /\ skips E s g /\ exists p, peeked s' = Some p /\ type_of p = Some ty.
Proof.
  intros Hf Hi He. unfold d_peek, dbind at 1, dget in He. unfold dmisuse_if, dbind at 1 in He.
  destruct (expects_member_name s); [discriminate|]. unfold dret at 1, dbind in He.
  destruct (d_peek_internal E t s r) as [p s1 r1| | | |] eqn:Ep; try discriminate.
  apply map_peeked_ok in He as (-> & -> & Hty). destruct (peek_internal_text E inp t s r p s1 r1 Hf Hi Ep) as (g & Hg & Hp & Hs).
  exists g. rewrite (ahead_some _ _ _ Hp). splits; eauto; apply Hs.
Qed.

Lemma start_text E inp t ty chk s r p s' r' : (length inp < fuel E)%nat -> inv E inp s r -> d_start E t ty chk s r = MOk p s' r' ->
  exists g, ahead s r = g ++ tok p ++ r' /\ skips E s g /\ type_of p = Some ty.
Proof.
  intros Hf Hi He. pose proof (start_good E inp t ty chk s r Hf Hi) as Hgood. rewrite He in Hgood.
  destruct Hgood as (_ & _ & _ & _ & _ & Hty & _).
  unfold d_start, dbind at 1, dget in He. unfold dmisuse_if, dbind at 1 in He.
  destruct (expects_member_name s); [discriminate|]. unfold dret at 1, dbind at 1 in He.
  pose proof (peek_internal_good E inp t s r Hf Hi) as Hg.
  destruct (d_peek_internal E t s r) as [q s1 r1| | | |] eqn:Ep; try discriminate. destruct Hg as (Hi1 & _ & _ & _ & Hpk).
  destruct (peek_internal_text E inp t s r q s1 r1 Hf Hi Ep) as (g & Hg & Hp & Hs).
  unfold dbind at 1 in He. destruct (d_map_peeked q s1 r1) as [a s2 r2| | | |] eqn:Em; try discriminate.
  apply map_peeked_ok in Em as (-> & -> & _). destruct (value_type_eqb a ty); [|discriminate].
  unfold dbind at 1, dget in He. destruct (if chk then depth_exceeded E s1 else None); [discriminate|].
  destruct (consume_peeked_good E inp s1 r1 q Hi1 Hpk) as (Hc & _). unfold dbind in He. rewrite Hc in He. injection He as <- _ <-.
  exists g. auto.
Qed.

Lemma value_end_text s r u s' r' : d_on_value_end s r = MOk u s' r' -> r' = r /\ peeked s' = peeked s.
Proof.
  unfold d_on_value_end, dbind, dget, dupdate, dret, dbug. destruct (is_in_array s).
  - destruct (json_path s) as [[|[]]|]; try discriminate; intros [= _ <- <-]; split; auto; destruct (is_in_object _); reflexivity.
  - intros [= _ <- <-]. split; auto; destruct (is_in_object _); reflexivity.
Qed.
Lemma container_end_text s r u s' r' : d_on_container_end s r = MOk u s' r' -> r' = r /\ peeked s' = peeked s.
Proof.
  unfold d_on_container_end. unfold dbind at 1, dupdate at 1. intros H. apply value_end_text in H. exact H.
Qed.

(** ** Elements *)

(** A call which consumes an element with the text [t] *)
Definition consumes (E : env) (s : rstate) (r : bytes) (s' : rstate) (r' : bytes) (P : bytes -> Prop) : Prop :=
  exists g t, ahead s r = g ++ t ++ ahead s' r' /\ skips E s g /\ P t.

Lemma begin_array_text E inp t s r u s' r' : (length inp < fuel E)%nat -> inv E inp s r -> d_begin_array E t s r = MOk u s' r' ->
  consumes E s r s' r' (fun x => x = [0x5B]).
Proof.
  intros Hf Hi He. unfold d_begin_array, d_on_container_start, dbind, dupdate in He.
  pose proof (start_good E inp t TArray true s r Hf Hi) as Hg.
  destruct (d_start E t TArray true s r) as [p s1 r1| | | |] eqn:Es; try discriminate. destruct Hg as (_ & _ & _ & _ & Hpk & _).
  destruct (start_text E inp t _ _ s r p s1 r1 Hf Hi Es) as (g & Hg & Hs & Hty). injection He as _ <- <-.
  exists g, (tok p). rewrite (ahead_none _ r1) by exact Hpk. splits; auto. destruct p; try discriminate. reflexivity.
Qed.

Lemma begin_object_text E inp t s r u s' r' : (length inp < fuel E)%nat -> inv E inp s r -> d_begin_object E t s r = MOk u s' r' ->
  consumes E s r s' r' (fun x => x = [0x7B]).
Proof.
  intros Hf Hi He. unfold d_begin_object, d_on_container_start, dbind, dupdate in He.
  pose proof (start_good E inp t TObject true s r Hf Hi) as Hg.
  destruct (d_start E t TObject true s r) as [p s1 r1| | | |] eqn:Es; try discriminate. destruct Hg as (_ & _ & _ & _ & Hpk & _).
  destruct (start_text E inp t _ _ s r p s1 r1 Hf Hi Es) as (g & Hg & Hs & Hty). injection He as _ <- <-.
  exists g, (tok p). rewrite (ahead_none _ r1) by exact Hpk. splits; auto. destruct p; try discriminate. reflexivity.
Qed.

Lemma end_array_text E inp t s r u s' r' : (length inp < fuel E)%nat -> inv E inp s r -> d_end_array E t s r = MOk u s' r' ->
  consumes E s r s' r' (fun x => x = [0x5D]).
Proof.
  intros Hf Hi He. unfold d_end_array, dbind at 1, dget in He. unfold dmisuse_if, dbind at 1 in He.
  destruct (negb (is_in_array s)); [discriminate|]. unfold dret at 1, dbind at 1 in He.
  pose proof (peek_internal_good E inp t s r Hf Hi) as Hg.
  destruct (d_peek_internal E t s r) as [q s1 r1| | | |] eqn:Ep; try discriminate. destruct Hg as (Hi1 & _ & _ & _ & Hpk).
  destruct (peek_internal_text E inp t s r q s1 r1 Hf Hi Ep) as (g & Hg & Hp & Hs). destruct q; try discriminate.
  destruct (consume_peeked_good E inp s1 r1 _ Hi1 Hpk) as (Hc & _ & _ & Hpk2 & _). unfold dbind in He. rewrite Hc in He.
  apply container_end_text in He as [-> He]. exists g, (tok PkArrayEnd). rewrite (ahead_none s') by congruence. auto.
Qed.

Lemma end_object_text E inp t s r u s' r' : (length inp < fuel E)%nat -> inv E inp s r -> d_end_object E t s r = MOk u s' r' ->
  consumes E s r s' r' (fun x => x = [0x7D]).
Proof.
  intros Hf Hi He. unfold d_end_object, dbind at 1, dget in He. unfold dmisuse_if, dbind at 1 in He.
  destruct (negb (is_in_object s)); [discriminate|]. unfold dret at 1, dbind at 1 in He.
  destruct (expects_member_value s); [discriminate|]. unfold dret at 1, dbind at 1 in He.
  pose proof (peek_internal_good E inp t s r Hf Hi) as Hg.
  destruct (d_peek_internal E t s r) as [q s1 r1| | | |] eqn:Ep; try discriminate. destruct Hg as (Hi1 & _ & _ & _ & Hpk).
  destruct (peek_internal_text E inp t s r q s1 r1 Hf Hi Ep) as (g & Hg & Hp & Hs). destruct q; try discriminate.
  destruct (consume_peeked_good E inp s1 r1 _ Hi1 Hpk) as (Hc & _ & _ & Hpk2 & _). unfold dbind in He. rewrite Hc in He.
  unfold dupdate in He. apply container_end_text in He as [-> He]. exists g, (tok PkObjectEnd).
  rewrite (ahead_none s') by (rewrite He; exact Hpk2). auto.
Qed.

(** [has_next] *)
Lemma has_next_text E inp t s r h s' r' : (length inp < fuel E)%nat -> inv E inp s r -> d_has_next E t s r = MOk h s' r' ->
  exists g, ahead s r = g ++ ahead s' r' /\
    (skips E s g /\ (exists p, peeked s' = Some p) \/
     h = false /\ final_ws_text (sx E) g /\ ahead s' r' = [] /\ peeked s = None).
Proof.
  intros Hf Hi He. unfold d_has_next, dbind at 1, dget in He. unfold dmisuse_if at 1, dbind at 1 in He.
  destruct (expects_member_value s) eqn:Ev; [discriminate|]. unfold dret at 1, dbind at 1 in He.
  match type of He with match ?x with _ => _ end = _ => set (op := x) in He end.
  assert (Hop : forall o s1 r1, op = MOk o s1 r1 -> exists g, ahead s r = g ++ ahead s1 r1 /\
    match o with Some p => peeked s1 = Some p /\ skips E s g | None => r1 = [] /\ peeked s1 = None /\ final_ws_text (sx E) g /\ peeked s = None end).
  { intros o s1 r1 Ho. unfold op in Ho. destruct (stack s).
    - unfold dmisuse_if, dbind, dret in Ho. destruct (is_empty s); [discriminate|].
      destruct (negb (allow_multiple_top_level (cfg E))); [discriminate|].
      destruct (peek_optional_text E inp t s r o s1 r1 Hf Hi Ho) as (g & Hg & H). exists g. split; [exact Hg|].
      destruct o; [exact H|]. destruct H as (H1 & H2 & H4 & H3). auto.
    - unfold dbind in Ho. destruct (d_peek_internal E t s r) as [p s2 r2| | | |] eqn:Ep; try discriminate.
      injection Ho as <- <- <-. destruct (peek_internal_text E inp t s r p s2 r2 Hf Hi Ep) as (g & Hg & Hp & Hs).
      exists g. rewrite (ahead_some _ _ _ Hp). auto. }
  destruct op as [o s1 r1| | | |]; try discriminate. destruct (Hop o s1 r1 eq_refl) as (g & Hg & Ho). exists g.
  destruct o as [p|].
  - unfold dbind, dget in He. destruct (_ || _) in He; [|discriminate]. injection He as <- <- <-. destruct Ho as [H1 H2]. eauto.
  - injection He as <- <- <-. destruct Ho as (-> & H1 & H2 & H3). split; [exact Hg|]. right. splits; auto. apply ahead_none. exact H1.
Qed.

(** Names and strings *)
Lemma string_text E inp s r v s' r' : (length inp < fuel E)%nat -> inv E inp s r -> d_string E s r = MOk v s' r' ->
  exists body, r = body ++ 0x22 :: r' /\ str_text body v /\ peeked s' = peeked s.
Proof.
  intros Hf Hi He. unfold d_string in He. pose proof (scan_string_ok E r (i_bytes _ _ _ _ Hi) (inv_length _ _ _ _ Hi Hf)) as Hs.
  destruct (scan_string (fuel E) r) as [[[d w] r1]| |]; try discriminate.
  destruct Hs as (-> & _ & _ & _ & body & x & -> & Hb & Hx). rewrite Hx in He. injection He as <- <- <-.
  exists body. rewrite <- app_assoc, peeked_move. auto.
Qed.
Lemma skip_string_text E inp s r v s' r' : (length inp < fuel E)%nat -> inv E inp s r -> d_skip_string E s r = MOk v s' r' ->
  exists body x, r = body ++ 0x22 :: r' /\ str_text body x /\ peeked s' = peeked s.
Proof.
  intros Hf Hi He. unfold d_skip_string in He. pose proof (scan_string_ok E r (i_bytes _ _ _ _ Hi) (inv_length _ _ _ _ Hi Hf)) as Hs.
  destruct (scan_string (fuel E) r) as [[[d w] r1]| |]; try discriminate.
  destruct Hs as (-> & _ & _ & _ & body & x & -> & Hb & Hx). injection He as _ <- <-.
  exists body, x. rewrite <- app_assoc, peeked_move. auto.
Qed.

Lemma quoted_body body v : str_text body v -> quoted ([0x22] ++ body ++ [0x22]) v.
Proof. intros H. exists body. auto. Qed.

Lemma before_name_text E inp t s r u s' r' : (length inp < fuel E)%nat -> inv E inp s r -> d_before_name E t s r = MOk u s' r' ->
  exists g, ahead s r = g ++ 0x22 :: r' /\ skips E s g /\ peeked s' = None /\ inv E inp s' r'.
Proof.
  intros Hf Hi He. pose proof (before_name_good E inp t s r Hf Hi) as Hgood. rewrite He in Hgood.
  destruct Hgood as (Hi' & _ & _ & Hpk' & _).
  unfold d_before_name, dbind at 1, dget in He. unfold dmisuse_if, dbind at 1 in He.
  destruct (expects_member_name s) eqn:En; [|discriminate]. cbn [negb] in He. unfold dret at 1, dbind at 1 in He.
  destruct (string_reader_active s); [discriminate|]. unfold dret at 1, dbind at 1 in He.
  pose proof (has_next_good E inp t s r Hf Hi) as Hg.
  destruct (d_has_next E t s r) as [h s1 r1| | | |] eqn:Eh; try discriminate.
  destruct (has_next_text E inp t s r h s1 r1 Hf Hi Eh) as (g & Ha & H).
  destruct h; cbn [negb] in He; [|discriminate].
  destruct H as [[Hs (p & Hp)]|[H _]]; [|discriminate]. destruct Hg as (Hi1 & Hsame & _ & _ & _ & Hend). rewrite Hp in Hend.
  unfold dbind, dupdate in He.
  assert (p = PkNameStart) as ->.
  { pose proof (i_peek _ _ _ _ Hi1) as H. unfold peek_ok in H. rewrite Hp in H. destruct Hsame as (_ & S2 & _). rewrite S2, En in H.
    symmetry in Hend. apply negb_true_iff in Hend. destruct H as (_ & [H|H] & _); [exact H|]. subst p. discriminate. }
  unfold d_consume_peeked, dbind, dget, dupdate in He. cbn [peeked set_expects_name] in He. rewrite Hp in He.
  injection He as _ _ <-. exists g. rewrite (ahead_some _ _ _ Hp) in Ha. auto.
Qed.

Lemma set_path_name_text n s r u s' r' : d_set_path_name n s r = MOk u s' r' -> r' = r /\ peeked s' = peeked s.
Proof.
  unfold d_set_path_name, dbind, dget, dupdate, dret, dbug. destruct (json_path s) as [[|[]]|]; try discriminate; intros [= _ <- <-]; auto.
Qed.

Lemma next_name_text E inp t s r n s' r' : (length inp < fuel E)%nat -> inv E inp s r -> d_next_name E t s r = MOk n s' r' ->
  consumes E s r s' r' (fun x => quoted x n).
Proof.
  intros Hf Hi He. unfold d_next_name, dbind at 1 in He.
  destruct (d_before_name E t s r) as [u s1 r1| | | |] eqn:Eb; try discriminate.
  destruct (before_name_text E inp t s r u s1 r1 Hf Hi Eb) as (g & Ha & Hs & Hp & Hi1). unfold dbind at 1 in He.
  destruct (d_string E s1 r1) as [v s2 r2| | | |] eqn:Es; try discriminate.
  destruct (string_text E inp s1 r1 v s2 r2 Hf Hi1 Es) as (body & -> & Hb & Hp2). unfold dbind at 1 in He.
  destruct (d_set_path_name v s2 r2) as [x s3 r3| | | |] eqn:Ep; try discriminate. apply set_path_name_text in Ep as [-> Hp3].
  injection He as <- <- <-. exists g, ([0x22] ++ body ++ [0x22]). rewrite (ahead_none s3) by congruence.
  rewrite Ha, <- !app_assoc. splits; auto. apply quoted_body. exact Hb.
Qed.

Lemma skip_name_text E inp t s r u s' r' : (length inp < fuel E)%nat -> inv E inp s r -> d_skip_name E t s r = MOk u s' r' ->
  consumes E s r s' r' (fun x => exists n, quoted x n).
Proof.
  intros Hf Hi He. unfold d_skip_name, dbind at 1 in He.
  destruct (d_before_name E t s r) as [x s1 r1| | | |] eqn:Eb; try discriminate.
  destruct (before_name_text E inp t s r x s1 r1 Hf Hi Eb) as (g & Ha & Hs & Hp & Hi1). unfold dbind at 1, dget in He.
  destruct (json_path s1).
  - unfold dbind at 1 in He. destruct (d_string E s1 r1) as [v s2 r2| | | |] eqn:Es; try discriminate.
    destruct (string_text E inp s1 r1 v s2 r2 Hf Hi1 Es) as (body & -> & Hb & Hp2). apply set_path_name_text in He as [-> Hp3].
    exists g, ([0x22] ++ body ++ [0x22]). rewrite (ahead_none s') by congruence.
    rewrite Ha, <- !app_assoc. splits; auto. exists v. apply quoted_body. exact Hb.
  - destruct (skip_string_text E inp s1 r1 u s' r' Hf Hi1 He) as (body & v & -> & Hb & Hp2).
    exists g, ([0x22] ++ body ++ [0x22]). rewrite (ahead_none s') by congruence.
    rewrite Ha, <- !app_assoc. splits; auto. exists v. apply quoted_body. exact Hb.
Qed.

(** A function which reads a scalar *)
Lemma scalar_text {A : Type} E inp t ty (k : peeked_value -> D A) s r (x : A) s' r' (P : A -> bytes -> Prop) :
  (length inp < fuel E)%nat -> inv E inp s r -> dbind (d_start E t ty false) k s r = MOk x s' r' ->
  (forall p s1 r1, inv E inp s1 r1 -> peeked s1 = None -> type_of p = Some ty -> (ty = TNumber -> number_start r1) -> k p s1 r1 = MOk x s' r' ->
     peeked s' = None /\ exists w, r1 = w ++ r' /\ P x (tok p ++ w)) ->
  consumes E s r s' r' (P x).
Proof.
  intros Hf Hi He Hk. unfold dbind at 1 in He. pose proof (start_good E inp t ty false s r Hf Hi) as Hg.
  destruct (d_start E t ty false s r) as [p s1 r1| | | |] eqn:Es; try discriminate.
  destruct Hg as (Hi1 & _ & _ & _ & Hpk & Hty & _ & Hn & _).
  destruct (start_text E inp t _ _ s r p s1 r1 Hf Hi Es) as (g & Ha & Hs & _).
  destruct (Hk p s1 r1 Hi1 Hpk Hty Hn He) as (Hp & w & -> & Hw). exists g, (tok p ++ w).
  rewrite (ahead_none s' r' Hp), Ha, <- app_assoc. auto.
Qed.

Lemma next_null_text E inp t s r u s' r' : (length inp < fuel E)%nat -> inv E inp s r -> d_next_null E t s r = MOk u s' r' ->
  consumes E s r s' r' (fun x => x = [0x6E; 0x75; 0x6C; 0x6C]).
Proof.
  intros Hf Hi He. apply (scalar_text E inp t TNull _ s r u s' r' (fun _ x => x = _) Hf Hi He).
  intros p s1 r1 Hi1 Hpk Hty _ H. apply value_end_text in H as [-> H]. split; [congruence|]. exists []. split; [reflexivity|].
  destruct p; try discriminate. reflexivity.
Qed.

Lemma next_bool_text E inp t s r b s' r' : (length inp < fuel E)%nat -> inv E inp s r -> d_next_bool E t s r = MOk b s' r' ->
  consumes E s r s' r' (fun x => x = if b then [0x74; 0x72; 0x75; 0x65] else [0x66; 0x61; 0x6C; 0x73; 0x65]).
Proof.
  intros Hf Hi He. apply (scalar_text E inp t TBoolean _ s r b s' r' (fun b x => x = if b : bool then _ else _) Hf Hi He).
  intros p s1 r1 Hi1 Hpk Hty _ H. unfold dbind at 1 in H.
  destruct p; try discriminate; unfold dret at 1 in H; unfold dbind in H;
    destruct (d_on_value_end s1 r1) as [x s2 r2| | | |] eqn:Ev; try discriminate; injection H as <- <- <-;
    apply value_end_text in Ev as [-> H]; (split; [congruence|]); exists []; split; reflexivity.
Qed.

Lemma next_string_text E inp t s r v s' r' : (length inp < fuel E)%nat -> inv E inp s r -> d_next_string E t s r = MOk v s' r' ->
  consumes E s r s' r' (fun x => quoted x v).
Proof.
  intros Hf Hi He. apply (scalar_text E inp t TString _ s r v s' r' (fun v x => quoted x v) Hf Hi He).
  intros p s1 r1 Hi1 Hpk Hty _ H. unfold dbind at 1 in H. destruct (d_string E s1 r1) as [x s2 r2| | | |] eqn:Es; try discriminate.
  destruct (string_text E inp s1 r1 x s2 r2 Hf Hi1 Es) as (body & -> & Hb & Hp2). unfold dbind in H.
  destruct (d_on_value_end s2 r2) as [y s3 r3| | | |] eqn:Ev; try discriminate. injection H as <- <- <-.
  apply value_end_text in Ev as [-> H]. split; [congruence|]. exists (body ++ [0x22]). rewrite <- app_assoc. split; [reflexivity|].
  destruct p; try discriminate. apply quoted_body. exact Hb.
Qed.

Lemma string_reader_text E inp t s r v s' r' : (length inp < fuel E)%nat -> inv E inp s r -> d_next_string_reader E t s r = MOk v s' r' ->
  consumes E s r s' r' (fun x => x = [0x22]).
Proof.
  intros Hf Hi He. apply (scalar_text E inp t TString _ s r v s' r' (fun v x => x = _) Hf Hi He).
  intros p s1 r1 Hi1 Hpk Hty _ H. unfold dbind, dupdate, dret in H. injection H as _ <- <-. split; [exact Hpk|]. exists [].
  split; [reflexivity|]. destruct p; try discriminate. reflexivity.
Qed.

Lemma number_call_text E inp t restrict s r v s' r' : (length inp < fuel E)%nat -> inv E inp s r -> d_number E t restrict s r = MOk v s' r' ->
  consumes E s r s' r' (fun x => x = v /\ number_text x).
Proof.
  intros Hf Hi He. apply (scalar_text E inp t TNumber _ s r v s' r' (fun v x => x = v /\ number_text x) Hf Hi He).
  intros p s1 r1 Hi1 Hpk Hty Hn H. specialize (Hn eq_refl). unfold dbind at 1 in H.
  destruct (d_number_body E t restrict s1 r1) as [x s2 r2| | | |] eqn:En; try discriminate.
  unfold dbind in H. destruct (d_on_value_end s2 r2) as [y s3 r3| | | |] eqn:Ev; try discriminate. injection H as <- <- <-.
  apply value_end_text in Ev as [-> Hp3]. unfold d_number_body in En. destruct r1 as [|b l]; [discriminate|].
  destruct (number_scan E (b :: l)) as [[[res w] rest]| |] eqn:Es; try discriminate.
  destruct (hits_error t rest); [discriminate|]. destruct res as [n|]; [|discriminate].
  apply number_scan_sound in Es as (Hr & _ & m & Hm & ->).
  rewrite (number_utf8 _ _ Hm) in En. destruct (_ && _) in En; [discriminate|]. destruct (sep_ok _ _); [|discriminate]. injection En as <- <- <-.
  split; [rewrite Hp3; exact Hpk|]. exists w. split; [exact Hr|]. destruct p; try discriminate. split; [reflexivity|]. exists m. exact Hm.
Qed.
