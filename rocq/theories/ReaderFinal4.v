(** * Proofs of the property theorems about positions and the text calls consume *)

From Verif Require Import Base Utf8Model Utf8Proofs NumberModel SpecNumber SpecJson
  SourceModel SourceProofs ReaderModel ReaderScan ReaderLex ReaderMid ReaderSess ReaderGrammar ReaderSafe SpecCursor ReaderWalk ReaderOut
  SpecRead SpecSessions SpecText ReaderText ReaderBack ReaderErrs ReaderFinal ReaderFinal2 ReaderFinal3.


(** ** Positions *)
Lemma cont_byte x : is_continuation (0x80 + x mod 0x40) = true.
Proof.
  assert (H : x mod 0x40 < 0x40) by (apply N.mod_lt; discriminate). rewrite is_continuation_range by (unfold is_byte; lia).
  unfold in_range. apply andb_true_iff. split; apply N.leb_le; lia.
Qed.

Lemma fold_char x l c b cr : is_char x -> 0x80 <= x ->
  fold_left pstep (encode_char x) (l, c, b, cr) = (l, c + 1, b + N.of_nat (length (encode_char x)), false).
Proof.
  intros Hx Hh. assert (H : exists b0 rest, encode_char x = b0 :: rest /\ 0xC0 <= b0 /\ b0 < 0x100 /\ Forall (fun y => is_continuation y = true) rest).
  { unfold is_char in Hx. destruct (N.ltb_spec x 0x800) as [H2|H2]; [rewrite encode_char_2 by assumption|
      destruct (N.ltb_spec x 0x10000) as [H3|H3]; [rewrite encode_char_3 by assumption|rewrite encode_char_4 by assumption]];
      eexists _, _; (split; [reflexivity|]).
    - assert (x / 0x40 < 0x20) by (apply N.div_lt_upper_bound; lia). splits; [lia|lia|]. repeat constructor; apply cont_byte.
    - assert (x / 0x1000 < 0x10) by (apply N.div_lt_upper_bound; lia). splits; [lia|lia|]. repeat constructor; apply cont_byte.
    - assert (x / 0x40000 < 0x10) by (apply N.div_lt_upper_bound; lia). splits; [lia|lia|]. repeat constructor; apply cont_byte. }
  destruct H as (b0 & rest & -> & H1 & H2 & Hr). cbn [fold_left]. unfold pstep at 2.
  destruct (N.eqb_spec b0 0x0A); [lia|]. destruct (N.eqb_spec b0 0x0D); [lia|].
  assert (Hc : is_continuation b0 = false).
  { rewrite is_continuation_range by exact H2. unfold in_range. apply andb_false_iff. right. apply N.leb_gt. lia. }
  rewrite Hc, fold_continuation by exact Hr. unfold len64. cbn [length]. do 2 f_equal. lia.
Qed.

Lemma fold_chars cs : Forall is_char cs -> forall l c b (cr : bool),
  exists cr', fold_left pstep (encode_utf8 cs) (l, c, b, cr) =
    (let '(l', c') := match cs with x :: cs' => if cr && (x =? 0x0A) then line_and_column cs' l c else line_and_column cs l c | [] => (l, c) end in
     (l', c', b + N.of_nat (length (encode_utf8 cs)), cr')).
Proof.
  induction 1 as [|x cs Hx Hcs IH]; intros l c b cr.
  - exists cr. cbn. rewrite N.add_0_r. reflexivity.
  - rewrite encode_utf8_cons, fold_left_app, app_length. destruct (N.ltb_spec x 0x80) as [H1|H1].
    + rewrite encode_char_1 by exact H1. cbn [fold_left length]. unfold pstep at 2.
      assert (Hcont : is_continuation x = false).
      { rewrite is_continuation_range by (unfold is_byte; lia). unfold in_range. apply andb_false_iff. left. apply N.leb_gt. lia. }
      rewrite Hcont. cbn [line_and_column].
      destruct (N.eqb_spec x 0x0A) as [->|Hlf]; cbn [andb].
      * destruct cr; cbn [andb].
        -- destruct (IH l c (b + 1) false) as (cr' & ->). exists cr'. destruct cs as [|y cs]; cbn [andb].
           ++ cbn. do 2 f_equal. lia.
           ++ destruct (line_and_column (y :: cs) l c). do 2 f_equal. lia.
        -- destruct (IH (l + 1) 0 (b + 1) false) as (cr' & ->). exists cr'. destruct cs as [|y cs]; cbn [andb].
           ++ cbn. do 2 f_equal. lia.
           ++ destruct (line_and_column (y :: cs) (l + 1) 0). do 2 f_equal. lia.
      * rewrite andb_false_r. destruct (N.eqb_spec x 0x0D) as [->|Hcr].
        -- destruct (IH (l + 1) 0 (b + 1) true) as (cr' & ->). exists cr'. destruct cs as [|y cs]; cbn [andb].
           ++ cbn. do 2 f_equal. lia.
           ++ destruct (y =? 0x0A); [destruct (line_and_column cs (l + 1) 0)|destruct (line_and_column (y :: cs) (l + 1) 0)]; do 2 f_equal; lia.
        -- destruct (IH l (c + 1) (b + 1) false) as (cr' & ->). exists cr'. destruct cs as [|y cs]; cbn [andb].
           ++ cbn. do 2 f_equal. lia.
           ++ destruct (line_and_column (y :: cs) l (c + 1)). do 2 f_equal. lia.
    + rewrite fold_char by assumption. destruct (IH l (c + 1) (b + N.of_nat (length (encode_char x))) false) as (cr' & ->). exists cr'.
      assert (x =? 0x0A = false) as E1 by (apply N.eqb_neq; lia). assert (x =? 0x0D = false) as E2 by (apply N.eqb_neq; lia).
      rewrite E1, andb_false_r. cbn [line_and_column]. rewrite E1, E2. destruct cs as [|y cs]; cbn [andb].
      * cbn. do 2 f_equal. lia.
      * destruct (line_and_column (y :: cs) l (c + 1)). do 2 f_equal. lia.
Qed.

Lemma located_behind inp c s rest b : located inp c s rest -> is_behind (current_position b s) c.
Proof.
  intros (_ & (cs & -> & Hcs) & Hp & _). unfold pos_of, move, movecr, start_state, rstate_new, pos3 in Hp. cbn [line column byte_pos] in Hp.
  destruct (fold_chars cs Hcs 0 0 0 false) as (cr' & Hf). rewrite Hf in Hp. unfold is_behind, current_position. cbn [p_byte p_line p_column].
  assert (Hz : (match cs with x :: cs' => if false && (x =? 0x0A) then line_and_column cs' 0 0 else line_and_column cs 0 0 | [] => (0, 0) end)
    = line_and_column cs 0 0) by (destruct cs; reflexivity). rewrite Hz in Hp.
  destruct (line_and_column cs 0 0) as [l' c'] eqn:El. cbn in Hp. injection Hp as -> -> ->. split; [reflexivity|]. exists cs. rewrite El. auto.
Qed.

Lemma inv_behind E inp s r b : inv E inp s r -> exists c, inp = c ++ ahead s r /\ is_behind (current_position b s) c.
Proof.
  intros Hi. destruct (i_pos _ _ _ _ Hi) as (c & Hl). exists c. split; [exact (proj1 Hl)|]. exact (located_behind _ _ _ _ b Hl).
Qed.

(** ** Sessions *)
Lemma session_tail s evs cs1 cs2 os1 os2 : Forall is_byte (fst (supplied evs)) ->
  read_session s evs (cs1 ++ cs2) = os1 ++ os2 -> length os2 = length cs2 ->
  let E := Env s (enough_fuel (fst (supplied evs))) in
  let d := snd (d_calls E (snd (supplied evs)) cs1 (DRun (rstate_new s) None (fst (supplied evs)))) in
  dinv E (fst (supplied evs)) d /\ Forall2 matches os2 (fst (d_calls E (snd (supplied evs)) cs2 d)).
Proof.
  intros Hb Hos Hl. destruct (session_split s evs cs1 cs2 _ Hb Hos) as (H1 & H2 & H3). split; [exact H1|].
  rewrite !app_length in H3. assert (Hl1 : length os1 = length cs1) by lia.
  rewrite skipn_app, <- Hl1, skipn_all, Nat.sub_diag in H2. exact H2.
Qed.

Lemma run_element {A : Type} E inp (m : D A) val t c v s rd r (P : A -> bytes -> bytes -> rstate -> bytes -> Prop) :
  d_call E t c (DRun s rd r) = d_run m val s r ->
  (forall x s' r', m s r = MOk x s' r' -> exists g u, ahead s r = g ++ u ++ ahead s' r' /\ P x g u s' r') ->
  matches (OOk v) (fst (d_call E t c (DRun s rd r))) -> dinv E inp (snd (d_call E t c (DRun s rd r))) ->
  exists x s' r' g u, v = val x /\ snd (d_call E t c (DRun s rd r)) = DRun s' None r' /\ inv E inp s' r' /\
    ahead s r = g ++ u ++ ahead s' r' /\ P x g u s' r'.
Proof.
  intros Hc Hp Hm Hd. rewrite Hc in *. unfold d_run in *. destruct (m s r) as [x s' r'|e s' r'|[n|]| |]; cbn in Hm, Hd.
  - injection Hm as ->. destruct (Hp x s' r' eq_refl) as (g & u & H1 & H2). exists x, s', r', g, u. cbn. splits; auto. apply Hd.
  - discriminate.
  - destruct Hm as (? & [=]).
  - destruct Hm as (? & [=] & _).
  - discriminate.
  - contradiction.
Qed.

Lemma number_ok_restrict E inp t s r v s' r' : (length inp < fuel E)%nat -> inv E inp s r -> d_next_number E t s r = MOk v s' r' ->
  consumes E s r s' r' (fun x => x = v /\ number_text x).
Proof. exact (number_call_text E inp t _ s r v s' r'). Qed.

Lemma element_call E inp t c v s rd r : (length inp < fuel E)%nat -> inv E inp s r -> reader_ok s rd -> has_element c = true ->
  matches (OOk v) (fst (d_call E t c (DRun s rd r))) ->
  exists s' rd' r' g u, snd (d_call E t c (DRun s rd r)) = DRun s' rd' r' /\ inv E inp s' r' /\
    ahead s r = g ++ u ++ ahead s' r' /\ element_text c v u /\
    (skips E s g \/ c = CHasNext /\ v = RBool false /\ final_ws_text (sx E) g /\ ahead s' r' = [] /\ peeked s = None).
Proof.
  intros Hf Hi Hrd Hh Hm. pose proof (call_good E inp t c (DRun s rd r) Hf (conj Hi Hrd)) as Hg.
  assert (Hgen : forall A (m : D A) val (P : A -> bytes -> Prop), d_call E t c (DRun s rd r) = d_run m val s r ->
    (forall x s' r', m s r = MOk x s' r' -> consumes E s r s' r' (P x)) -> (forall x u, P x u -> element_text c (val x) u) ->
    exists s' rd' r' g u, snd (d_call E t c (DRun s rd r)) = DRun s' rd' r' /\ inv E inp s' r' /\
      ahead s r = g ++ u ++ ahead s' r' /\ element_text c v u /\
      (skips E s g \/ c = CHasNext /\ v = RBool false /\ final_ws_text (sx E) g /\ ahead s' r' = [] /\ peeked s = None)).
  { intros A m val P Hc Hx He. destruct (run_element E inp m val t c v s rd r (fun x g u _ _ => skips E s g /\ P x u) Hc) as (x & s' & r' & g & u & -> & H1 & H2 & H3 & H4 & H5); auto.
    exists s', None, r', g, u. splits; auto. }
  destruct c; try discriminate Hh.
  - apply (Hgen _ (d_peek E t) RType (fun _ u => u = [])); [reflexivity| |intros x u ->; reflexivity].
    intros x s' r' Hx. destruct (peek_text E inp t s r x s' r' Hf Hi Hx) as (g & H1 & H2 & _). exists g, []. auto.
  - destruct (run_element E inp (d_has_next E t) RBool t CHasNext v s rd r (fun x g u s' r' => u = [] /\
      (skips E s g \/ x = false /\ final_ws_text (sx E) g /\ ahead s' r' = [] /\ peeked s = None)) eq_refl) as (x & s' & r' & g & u & -> & H1 & H2 & H3 & -> & H5); auto.
    { intros x s' r' Hx. destruct (has_next_text E inp t s r x s' r' Hf Hi Hx) as (g & H1 & [[H2 _]|H2]); exists g, []; auto. }
    exists s', None, r', g, []. splits; auto. { reflexivity. } destruct H5 as [H5|(-> & H5)]; auto.
  - apply (Hgen _ _ to_unit (fun _ u => u = [0x5B]) eq_refl); [|intros x u ->; reflexivity]. intros x s' r'. apply begin_array_text with (inp := inp); assumption.
  - apply (Hgen _ _ to_unit (fun _ u => u = [0x5D]) eq_refl); [|intros x u ->; reflexivity]. intros x s' r'. apply end_array_text with (inp := inp); assumption.
  - apply (Hgen _ _ to_unit (fun _ u => u = [0x7B]) eq_refl); [|intros x u ->; reflexivity]. intros x s' r'. apply begin_object_text with (inp := inp); assumption.
  - apply (Hgen _ _ to_unit (fun _ u => u = [0x7D]) eq_refl); [|intros x u ->; reflexivity]. intros x s' r'. apply end_object_text with (inp := inp); assumption.
  - apply (Hgen _ _ RStr (fun n u => quoted u n) eq_refl); [|intros x u H; exact H]. intros x s' r'. apply next_name_text with (inp := inp); assumption.
  - apply (Hgen _ _ RStr (fun n u => quoted u n) eq_refl); [|intros x u H; exact H]. intros x s' r'. apply next_name_text with (inp := inp); assumption.
  - apply (Hgen _ _ to_unit (fun _ u => exists n, quoted u n) eq_refl); [|intros x u H; exact H]. intros x s' r'. apply skip_name_text with (inp := inp); assumption.
  - apply (Hgen _ _ RStr (fun n u => quoted u n) eq_refl); [|intros x u H; exact H]. intros x s' r'. apply next_string_text with (inp := inp); assumption.
  - apply (Hgen _ _ RStr (fun n u => quoted u n) eq_refl); [|intros x u H; exact H]. intros x s' r'. apply next_string_text with (inp := inp); assumption.
  - cbn [d_call d_call_run] in *. unfold d_run_reader in *.
    destruct (d_next_string_reader E t s r) as [x s' r'|e s' r'|[n|]| |] eqn:Ex; cbn in Hm, Hg.
    + injection Hm as ->. destruct (string_reader_text E inp t s r x s' r' Hf Hi Ex) as (g & u & H1 & H2 & ->).
      exists s', (Some x), r', g, [0x22]. cbn. splits; auto. apply Hg.
    + discriminate.
    + destruct Hm as (? & [=]).
    + destruct Hm as (? & [=] & _).
    + discriminate.
    + contradiction.
  - apply (Hgen _ _ RStr (fun n u => u = n /\ number_text u) eq_refl); [|intros x u H; exact H]. intros x s' r'. apply number_ok_restrict with (inp := inp); assumption.
  - apply (Hgen _ _ RStr (fun n u => u = n /\ number_text u) eq_refl); [|intros x u H; exact H]. intros x s' r'. apply number_ok_restrict with (inp := inp); assumption.
  - apply (Hgen _ _ RBool (fun (b : bool) u => u = if b then [0x74; 0x72; 0x75; 0x65] else [0x66; 0x61; 0x6C; 0x73; 0x65]) eq_refl); [|intros [|] u ->; reflexivity].
    intros x s' r'. apply next_bool_text with (inp := inp); assumption.
  - apply (Hgen _ _ to_unit (fun _ u => u = [0x6E; 0x75; 0x6C; 0x6C]) eq_refl); [|intros x u ->; reflexivity]. intros x s' r'. apply next_null_text with (inp := inp); assumption.
Qed.

(** A state in which nothing is skipped *)
Lemma look_call E inp t q v s rd r : (length inp < fuel E)%nat -> inv E inp s r -> q = CPeek \/ q = CHasNext ->
  matches (OOk v) (fst (d_call E t q (DRun s rd r))) ->
  exists s' r', snd (d_call E t q (DRun s rd r)) = DRun s' None r' /\ (peeked s' <> None \/ ahead s' r' = []).
Proof.
  intros Hf Hi Hq Hm. destruct Hq as [-> | ->]; cbn [d_call d_call_run] in *; unfold d_run in *.
  - destruct (d_peek E t s r) as [x s' r'|e s' r'|[n|]| |] eqn:Ex; cbn in Hm; try (destruct Hm as (? & Hm); try destruct Hm as (Hm & _)); try discriminate Hm; [|contradiction].
    destruct (peek_text E inp t s r x s' r' Hf Hi Ex) as (g & _ & _ & p & Hp & _). exists s', r'. split; [reflexivity|]. left. rewrite Hp. discriminate.
  - destruct (d_has_next E t s r) as [x s' r'|e s' r'|[n|]| |] eqn:Ex; cbn in Hm; try (destruct Hm as (? & Hm); try destruct Hm as (Hm & _)); try discriminate Hm; [|contradiction].
    destruct (has_next_text E inp t s r x s' r' Hf Hi Ex) as (g & _ & [(_ & p & Hp)|(_ & _ & H & _)]); exists s', r'; (split; [reflexivity|]); auto.
    left. rewrite Hp. discriminate.
Qed.

Lemma app_pre_eq {A} (a b c : list A) : a ++ b = c ++ b -> a = c.
Proof. intros H. apply app_inv_tail in H. exact H. Qed.

(** Two positions with a call in between *)
Lemma between E inp t c v s rd r b1 b2 p1 p2 : (length inp < fuel E)%nat -> inv E inp s r -> has_element c = true ->
  Forall2 matches [OOk (RPos p1); OOk v; OOk (RPos p2)] (fst (d_calls E t [CPosition b1; c; CPosition b2] (DRun s rd r))) ->
  exists pre g u rest, inp = pre ++ g ++ u ++ rest /\ is_behind p1 pre /\ is_behind p2 (pre ++ g ++ u) /\ element_text c v u /\
    (skips E s g \/ c = CHasNext /\ v = RBool false /\ final_ws_text (sx E) g /\ rest = [] /\ peeked s = None) /\
    (ahead s r = [] -> g = []).
Proof.
  intros Hf Hi Hh Hm. cbn [d_calls] in Hm. change (d_call E t (CPosition b1) (DRun s rd r)) with (DOut (OOk (RPos (current_position b1 s))), DRun s None r) in Hm.
  cbv iota in Hm. destruct (d_call E t c (DRun s None r)) as [o d1] eqn:Ec. destruct (d_call E t (CPosition b2) d1) as [o2 d2] eqn:Ep. cbn [fst] in Hm.
  inversion Hm as [|? ? ? ? Hm1 Hm']; subst. inversion Hm' as [|? ? ? ? Hm2 Hm'']; subst. inversion Hm'' as [|? ? ? ? Hm3 _]; subst. clear Hm Hm' Hm''.
  cbn in Hm1. injection Hm1 as ->. destruct (element_call E inp t c v s None r Hf Hi I Hh) as (s' & rd' & r' & g & u & Hd & Hi' & Ha & He & Hg).
  { rewrite Ec. exact Hm2. }
  rewrite Ec in Hd. cbn [snd] in Hd. subst d1. cbn in Ep. injection Ep as <- <-. cbn in Hm3. injection Hm3 as ->.
  destruct (inv_behind E inp s r b1 Hi) as (pre & H1 & H2). destruct (inv_behind E inp s' r' b2 Hi') as (pre' & H3 & H4).
  exists pre, g, u, (ahead s' r'). rewrite H1 in H3. rewrite Ha, !app_assoc in H3. apply app_pre_eq in H3. subst pre'. rewrite <- app_assoc in H4.
  splits; auto; [rewrite H1, Ha; reflexivity|]. intros H0. rewrite H0 in Ha. destruct g; [reflexivity|discriminate].
Qed.

Lemma dead_no_element E t c v held : has_element c = true -> ~ matches (OOk v) (fst (d_call E t c (DDead held))).
Proof. destruct c; try discriminate; intros _ H; cbn in H; try discriminate H. Qed.


Lemma C25_positions_are_exact_holds : forall (s : settings) (evs : list event) (cs : list rcall) (c : rcall) (os : list outcome) (o : outcome) (p : position),
  Forall is_byte (fst (supplied evs)) ->
  read_session s evs (cs ++ [c]) = os ++ [o] ->
  o = OOk (RPos p) \/ (exists e, o = OErr e /\ recoverable e = true /\ p = error_position e) ->
  (forall e, ~ In (OReadErr e) os) ->
  exists pre rest, fst (supplied evs) = pre ++ rest /\ is_behind p pre.
Proof.
  intros s evs cs c os o p Hb Hos Ho Hno. set (inp := fst (supplied evs)) in *. set (t := snd (supplied evs)).
  set (E := Env s (enough_fuel inp)). assert (Hf : (length inp < fuel E)%nat) by apply fuel_enough.
  destruct (session_tail s evs cs [c] os [o] Hb Hos eq_refl) as (Hd & Hm). fold inp t E in Hd, Hm.
  remember (snd (d_calls E t cs (DRun (rstate_new s) None inp))) as d eqn:Hdd.
  cbn [d_calls] in Hm. destruct (d_call E t c d) as [o' d'] eqn:Ec. inversion Hm as [|? ? ? ? Hm1 _]; subst. clear Hm.
  assert (Hinv : (exists s' r' b, inv E inp s' r' /\ p = current_position b s') -> exists pre rest, inp = pre ++ rest /\ is_behind p pre).
  { intros (s' & r' & b & Hi & ->). destruct (inv_behind E inp s' r' b Hi) as (pre & H1 & H2). eauto. }
  apply Hinv. clear Hinv. destruct Ho as [-> | (e & -> & Hr & ->)].
  2: { assert (He : fst (d_call E t c (snd (d_calls E t cs (DRun (rstate_new s) None inp)))) = DOut (OErr e)).
       { rewrite Ec. cbn [fst]. destruct o' as [o'|[n|]| | |]; cbn [matches] in Hm1; try congruence.
         - destruct Hm1 as (l & [= ->]). discriminate.
         - destruct Hm1 as (e' & [= <-] & Ha). apply recoverable_aborting in Ha. congruence.
         - destruct Hm1 as (e' & [=] & _).
         - destruct Hm1 as (p & [=]).
         - contradiction. }
       destruct (call_errs E inp t c _ e Hf Hd He) as (s' & r' & Hi & He' & _). exists s', r', true. auto. }
  destruct (snd (d_calls E t cs (DRun (rstate_new s) None inp))) as [s1 rd r|h| | |] eqn:Hdd.
  - assert (Hr : forall A (x : D A) val, (forall y, val y <> RPos p) -> ~ matches (OOk (RPos p)) (fst (d_run x val s1 r))).
    { intros A x val Hval. unfold d_run. destruct (x s1 r) as [y| |[n|]| |]; cbn; try congruence.
      - intros (? & [=]).
      - intros (? & [=] & _). }
    destruct c; cbn [d_call d_call_run] in Ec; try (exfalso; eapply Hr; [|rewrite Ec; exact Hm1]; discriminate).
    + exfalso. unfold d_run_reader in Ec. destruct (d_next_string_reader E t s1 r) as [| |[n|]| |]; injection Ec as <- <-; cbn in Hm1; try discriminate;
        try contradiction; destruct Hm1 as (? & Hm1); try destruct Hm1 as (Hm1 & _); discriminate.
    + exfalso. unfold d_run_read in Ec. destruct rd as [sv|]; [|injection Ec as <- <-; discriminate].
      destruct (d_sv_read E len sv s1 r) as [[]| |[]| |]; injection Ec as <- <-; cbn in Hm1; try discriminate;
        try contradiction; destruct Hm1 as (? & Hm1); try destruct Hm1 as (Hm1 & _); discriminate.
    + injection Ec as <- <-. cbn in Hm1. injection Hm1 as ->. destruct Hd as [Hi _]. eauto.
    + exfalso. unfold d_run_consume in Ec. destruct (d_consume_trailing E t s1 r) as [| |[n|]| |]; injection Ec as <- <-; cbn in Hm1; try discriminate;
        try contradiction; destruct Hm1 as (? & Hm1); try destruct Hm1 as (Hm1 & _); discriminate.
  - exfalso. destruct (dead_reported _ _ _ _ _ Hdd) as [(h' & H)|H]; [discriminate|].
    destruct (session_agree s evs (cs ++ [c]) (session_no_bug s evs _ Hb)) as (os' & st' & a' & _ & Hos' & Hall).
    rewrite Hos in Hos'. subst os'. assert (Hds : d_session s evs (cs ++ [c]) = d_calls E t (cs ++ [c]) (DRun (rstate_new s) None inp)) by reflexivity.
    rewrite Hds, d_calls_app in Hall. cbn [fst] in Hall. apply Forall2_app_inv_r in Hall as (l1 & l2 & H1 & H2 & Hl).
    assert (l1 = os).
    { pose proof (forall2_length _ _ _ H2) as Hl2. cbn [d_calls] in Hl2. rewrite Hdd, Ec in Hl2. destruct l2 as [|x [|]]; try discriminate Hl2.
      apply app_inj_tail in Hl. symmetry. apply Hl. }
    subst l1. clear - H H1 Hno. revert H Hno. induction H1 as [|x y l l' Hxy _ IH]; cbn [In]; [tauto|].
    intros [->|H] Hno; [|apply IH; [exact H|]; intros e He; apply (Hno e); right; exact He].
    destruct Hxy as (e & -> & _). apply (Hno (SvError e)). left. reflexivity.
  - cbn in Ec. injection Ec as <- <-. discriminate.
  - cbn in Ec. injection Ec as <- <-. discriminate.
  - contradiction.
Qed.

Lemma C25_consumed_text_holds : forall (s : settings) (evs : list event) (cs : list rcall) (os : list outcome) (c : rcall) (v : rvalue)
    (b1 b2 : bool) (p1 p2 : position), Forall is_byte (fst (supplied evs)) ->
  has_element c = true ->
  read_session s evs (cs ++ [CPosition b1; c; CPosition b2]) = os ++ [OOk (RPos p1); OOk v; OOk (RPos p2)] ->
  exists pre gap text rest,
    fst (supplied evs) = pre ++ gap ++ text ++ rest /\
    is_behind p1 pre /\ is_behind p2 (pre ++ gap ++ text) /\
    element_text c v text /\
    (gap_text (Syntax (allow_comments s) (allow_trailing_comma s)) gap \/
     c = CHasNext /\ v = RBool false /\ final_ws_text (Syntax (allow_comments s) (allow_trailing_comma s)) gap /\ rest = []).
Proof.
  intros s evs cs os c v b1 b2 p1 p2 Hb Hh Hos. set (inp := fst (supplied evs)) in *. set (t := snd (supplied evs)).
  set (E := Env s (enough_fuel inp)). assert (Hf : (length inp < fuel E)%nat) by apply fuel_enough.
  destruct (session_tail s evs cs _ os _ Hb Hos eq_refl) as (Hd & Hm). fold inp t E in Hd, Hm.
  destruct (snd (d_calls E t cs (DRun (rstate_new s) None inp))) as [s1 rd r|h| | |].
  - destruct Hd as [Hi _]. destruct (between E inp t c v s1 rd r b1 b2 p1 p2 Hf Hi Hh Hm) as (pre & g & u & rest & H1 & H2 & H3 & H4 & H5 & _).
    exists pre, g, u, rest. splits; auto. destruct H5 as [[H5 _]|(H5 & H6 & H7 & H8 & _)]; auto.
  - exfalso. cbn [d_calls] in Hm. change (d_call E t (CPosition b1) (DDead h)) with (DPos, DDead false) in Hm. cbv iota in Hm.
    destruct (d_call E t c (DDead false)) as [o d1] eqn:Ec. destruct (d_call E t (CPosition b2) d1). cbn [fst] in Hm.
    inversion Hm as [|? ? ? ? _ Hm']; subst. inversion Hm' as [|? ? ? ? Hm2 _]; subst.
    apply (dead_no_element E t c v false Hh). rewrite Ec. exact Hm2.
  - exfalso. inversion Hm as [|? ? ? ? Hm1 _]; subst. discriminate Hm1.
  - exfalso. inversion Hm as [|? ? ? ? Hm1 _]; subst. discriminate Hm1.
  - contradiction.
Qed.

Lemma C25_consumed_text_after_looking_holds : forall (s : settings) (evs : list event) (cs : list rcall) (os : list outcome) (q c : rcall) (w v : rvalue)
    (b1 b2 : bool) (p1 p2 : position), Forall is_byte (fst (supplied evs)) ->
  q = CPeek \/ q = CHasNext ->
  has_element c = true ->
  read_session s evs (cs ++ [q; CPosition b1; c; CPosition b2]) = os ++ [OOk w; OOk (RPos p1); OOk v; OOk (RPos p2)] ->
  exists pre text rest,
    fst (supplied evs) = pre ++ text ++ rest /\
    is_behind p1 pre /\ is_behind p2 (pre ++ text) /\
    element_text c v text.
Proof.
  intros s evs cs os q c w v b1 b2 p1 p2 Hb Hq Hh Hos. set (inp := fst (supplied evs)) in *. set (t := snd (supplied evs)).
  set (E := Env s (enough_fuel inp)). assert (Hf : (length inp < fuel E)%nat) by apply fuel_enough.
  destruct (session_tail s evs cs _ os _ Hb Hos eq_refl) as (Hd & Hm). fold inp t E in Hd, Hm.
  assert (Hqe : has_element q = true) by (destruct Hq as [-> | ->]; reflexivity).
  remember [CPosition b1; c; CPosition b2] as cs2 eqn:Hcs2. cbn [d_calls] in Hm.
  destruct (d_call E t q (snd (d_calls E t cs (DRun (rstate_new s) None inp)))) as [o1 d1] eqn:Ec.
  destruct (d_calls E t cs2 d1) as [os2 d2] eqn:E2. cbn [fst] in Hm. inversion Hm as [|? ? ? ? Hm1 Hm2]; subst. clear Hm.
  pose proof (call_good E inp t q _ Hf Hd) as Hd1. rewrite Ec in Hd1. cbn [snd] in Hd1.
  destruct (snd (d_calls E t cs (DRun (rstate_new s) None inp))) as [s1 rd r|h| | |].
  - destruct Hd as [Hi _]. destruct (look_call E inp t q w s1 rd r Hf Hi Hq) as (s' & r' & Hs & Hpk); [rewrite Ec; exact Hm1|].
    rewrite Ec in Hs. cbn [snd] in Hs. subst d1. destruct Hd1 as [Hi' _].
    destruct (between E inp t c v s' None r' b1 b2 p1 p2 Hf Hi' Hh) as (pre & g & u & rest & H1 & H2 & H3 & H4 & H5 & H6); [rewrite E2; exact Hm2|].
    assert (g = []) as ->.
    { destruct Hpk as [Hpk|Hpk]; [|exact (H6 Hpk)]. destruct H5 as [[_ H5]|(_ & _ & _ & _ & H5)]; [exact (H5 Hpk)|contradiction]. }
    exists pre, u, rest. auto.
  - exfalso. apply (dead_no_element E t q w h Hqe). rewrite Ec. exact Hm1.
  - exfalso. cbn in Ec. injection Ec as <- <-. discriminate Hm1.
  - exfalso. cbn in Ec. injection Ec as <- <-. discriminate Hm1.
  - contradiction.
Qed.
