(** * Reading backwards: what a successful reading says about the text

    Auxiliary: if, after a call, the text still to be read belongs to a cursor
    of [SpecCursor], then the text before the call belongs to a cursor as well. *)

From Verif Require Import Base Utf8Model Utf8Proofs NumberModel SpecNumber NumberProofs SpecJson SourceModel ReaderModel
  ReaderScan ReaderLex ReaderLexStr ReaderMid ReaderAgree ReaderSess ReaderGrammar ReaderSafe SpecCursor ReaderRepr ReaderForward.

(** ** Texts *)

Lemma cur_stream sx vs t : cur_text sx [] vs t -> stream_text sx vs t.
Proof.
  intros [(w & b & -> & Hw & Hb)|(_ & -> & H)]; [|constructor; exact H].
  destruct vs as [|v vs]; [contradiction|]. destruct Hb as (tv & t' & -> & Hv & Ho & Hs). inversion Ho as [? ? Hst| |]; subst.
  constructor; auto. intros Hword. specialize (Hs Hword).
  destruct Hst as [t0 [Ht|(t1 & body & -> & Ht & _)]|w2 v2 tv2 vs2 t2 Hw2 Hv2 _ _].
  - destruct Ht; cbn; auto.
  - destruct Ht; cbn; auto.
  - destruct (value_head _ _ _ Hv2) as (b & l & -> & Hne).
    destruct Hw2 as [|b' w2' Hb' _|body b' w' _ _ _ _|body w' _ _ _]; cbn in *; auto.
    unfold ws_byte in *. unfold is_value_separator in Hs.
    clear - Hs Hne. rewrite !orb_true_iff, !N.eqb_eq in Hs. lia.
Qed.

Lemma cur_items sx i l fs vs t : cur_text sx (InArray i l :: fs) vs t ->
  exists t1 t2, t = t1 ++ t2 /\ items_text sx (i =? 0) l t1 /\ outer sx fs vs t2.
Proof.
  intros [(w & b & -> & Hw & Hb)|(H & _)]; [|discriminate]. destruct l as [|v l]; cbn in Hw, Hb.
  - destruct Hb as (t' & -> & Ho). exists (w ++ [0x5D]), t'. rewrite <- app_assoc. splits; auto.
    destruct (i =? 0); [constructor; exact Hw|].
    destruct Hw as [(w1 & w2 & -> & Hw1 & Hw2 & Htc)|(_ & Hw)]; [|constructor; exact Hw].
    rewrite <- !app_assoc. constructor; auto.
  - destruct Hb as (tv & t' & -> & Hv & Ho & _). inversion Ho as [|i' l' fs' vs' t1 t2 Hi Ho'|]; subst.
    exists (w ++ tv ++ t1), t2. rewrite <- !app_assoc. splits; auto.
    destruct (i =? 0); [constructor; auto|].
    destruct Hw as [(w1 & w2 & -> & Hw1 & Hw2 & Htc)|(H & _)]; [|discriminate].
    rewrite <- !app_assoc. constructor; auto.
Qed.

Definition no_name (n : option str) : bool := match n with None => true | Some _ => false end.

Lemma cur_members sx n l fs vs t : cur_text sx (InObject n l :: fs) vs t ->
  exists t1 t2, t = t1 ++ t2 /\ members_text sx (no_name n) l t1 /\ outer sx fs vs t2.
Proof.
  intros [(w & b & -> & Hw & Hb)|(H & _)]; [|discriminate]. destruct l as [|[m v] l]; cbn in Hb.
  - destruct Hb as (t' & -> & Ho). exists (w ++ [0x7D]), t'. rewrite <- app_assoc. splits; auto.
    destruct n as [n|]; cbn in Hw |- *; [|constructor; exact Hw].
    destruct Hw as [(w1 & w2 & -> & Hw1 & Hw2 & Htc)|(_ & Hw)]; [|constructor; exact Hw].
    rewrite <- !app_assoc. constructor; auto.
  - destruct Hb as (tn & wc & t' & -> & Hq & (c1 & c2 & -> & Hc1 & Hc2) & tv & t0 & -> & Hv & Ho & _).
    inversion Ho as [| |n' l' fs' vs' t1 t2 Hi Ho']; subst.
    exists (w ++ tn ++ c1 ++ [0x3A] ++ c2 ++ tv ++ t1), t2. rewrite <- !app_assoc. splits; auto.
    destruct n as [n|]; cbn in Hw |- *; [|constructor; auto].
    destruct Hw as [(w1 & w2 & -> & Hw1 & Hw2 & Htc)|(H & _)]; [|discriminate].
    rewrite <- !app_assoc. constructor; auto.
Qed.

(** The text behind a value does not depend on what has been read *)
Lemma outer_index sx i i' l fs vs t : outer sx (InArray i l :: fs) vs t -> outer sx (InArray i' l :: fs) vs t.
Proof. intros H. inversion H; subst. constructor; auto. Qed.
Lemma outer_name sx n n' l fs vs t : outer sx (InObject (Some n) l :: fs) vs t -> outer sx (InObject (Some n') l :: fs) vs t.
Proof. intros H. inversion H; subst. constructor; auto. Qed.

(** ** Relations *)

Record rep (E : env) (fs : list frame) (vs : list json) (st : bool) (s : rstate) (r : bytes) : Prop := Rep {
  p_stack : stack s = map frame_kind fs;
  p_fits : fits E fs vs;
  p_active : string_reader_active s = false;
  p_names : names_ok fs st s;
  p_top : top_ok E fs vs st;
  p_text : text_ok (reader_syntax (cfg E)) fs vs s r
}.
Definition legible (E : env) (s : rstate) (r : bytes) : Prop := exists fs vs st, rep E fs vs st s r.

(** Behind a value, before its end has been noted *)
Definition behind (E : env) (s : rstate) (r : bytes) : Prop := exists fs vs,
  stack s = map frame_kind fs /\ fits E fs vs /\ (allow_multiple_top_level (cfg E) = false -> vs = []) /\
  outer (reader_syntax (cfg E)) fs vs r.

(** Inside a string *)
Definition in_string (E : env) (s : rstate) (r : bytes) : Prop := exists body v t',
  r = body ++ B_QUOTE :: t' /\ str_text body v /\ behind E s t'.

(** Inside a string with an active string reader, or not *)
Definition ready (E : env) (s : rstate) (r : bytes) : Prop :=
  if string_reader_active s then in_string E s r else legible E s r.

Definition back {A : Type} (E : env) (m : mres A) (s : rstate) (r : bytes) : Prop :=
  match m with
  | MOk _ s' r' | MErr _ s' r' => ready E s' r' -> ready E s r
  | _ => True
  end.

Lemma back_bind {A B : Type} E inp (m : D A) (f : A -> D B) s r Q : good E inp (m s r) Q -> back E (m s r) s r ->
  (forall x s' r', inv E inp s' r' -> Q x s' r' -> back E (f x s' r') s' r') -> back E (dbind m f s r) s r.
Proof.
  unfold dbind, back. intros Hg Hb Hf. destruct (m s r) as [x s' r'|e s' r'| | |]; auto. destruct Hg as [Hi Hq].
  specialize (Hf x s' r' Hi Hq). destruct (f x s' r'); auto.
Qed.
Lemma back_get {B : Type} E (f : rstate -> D B) s r : back E (f s s r) s r -> back E (dbind dget f s r) s r.
Proof. auto. Qed.
Lemma back_misuse_if {B : Type} E b (f : unit -> D B) s r : (b = false -> back E (f tt s r) s r) ->
  back E (dbind (dmisuse_if b) f s r) s r.
Proof. destruct b; cbn; auto. Qed.
Lemma back_ret {A : Type} E (x : A) s r : back E (dret x s r) s r.
Proof. cbn. auto. Qed.
Lemma back_err {A : Type} E e s r : back E (@derr A e s r) s r.
Proof. cbn. auto. Qed.

Lemma behind_same E s s' r : stack s' = stack s -> behind E s' r -> behind E s r.
Proof. intros Hs (fs & vs & H & H'). exists fs, vs. rewrite <- Hs. auto. Qed.

(** ** The end of a value *)

Lemma legible_behind E s s' r : legible E s' r -> stack s' = stack s -> peeked s' = None -> is_empty s' = false ->
  expects_member_name s' = is_in_object s' -> behind E s r.
Proof.
  intros (fs & vs & st & []) Hst Hpk Hem Hex. exists fs, vs. rewrite <- Hst. splits; auto.
  - unfold top_ok in p_top0. destruct st; [exact p_top0|]. destruct p_names0 as [_ Hn]. destruct p_top0 as (-> & _).
    rewrite Hem in Hn. discriminate.
  - unfold text_ok in p_text0. rewrite Hpk in p_text0. destruct p_names0 as [Hn1 Hn2].
    destruct fs as [|[i l|n l|n v l] fs].
    + constructor. apply cur_stream. exact p_text0.
    + apply cur_items in p_text0 as (t1 & t2 & -> & Hi & Ho). rewrite Hem in Hn2. rewrite <- Hn2 in Hi. constructor; auto.
    + apply cur_members in p_text0 as (t1 & t2 & -> & Hi & Ho). rewrite Hem in Hn2. destruct n; [|discriminate].
      constructor; auto.
    + unfold is_in_object in Hex. rewrite p_stack0 in Hex. cbn in Hex, Hn1. congruence.
Qed.

Lemma value_end_back E inp s r : inv E inp s r -> peeked s = None -> expects_member_name s = false ->
  string_reader_active s = false ->
  match d_on_value_end s r with MOk _ s' r' => ready E s' r' -> behind E s r | _ => True end.
Proof.
  intros Hi Hpk Hn Ha. pose proof (value_end_good E inp s r Hi Hpk Hn Ha) as Hg. pose proof (value_end_pure s r) as Hp.
  destruct (d_on_value_end s r) as [x s' r'| | | |]; auto. destruct Hp as (-> & _).
  destruct Hg as (_ & Hst & Hpk' & Ha' & Hem & Hex & _). intros H. unfold ready in H. rewrite Ha' in H.
  apply (legible_behind E s s' r H); auto. rewrite Hex. unfold is_in_object. rewrite Hst. reflexivity.
Qed.

(** ** Peeking *)

Lemma rep_same E fs vs st s s' r r' : rep E fs vs st s' r' -> same s s' ->
  text_ok (reader_syntax (cfg E)) fs vs s r -> rep E fs vs st s r.
Proof.
  intros [] Hs Ht. destruct Hs as (H1 & H2 & H3 & H4 & H5). split; auto; try congruence.
  unfold names_ok in *. rewrite H1, H2 in p_names0. exact p_names0.
Qed.

Lemma fresh_back E inp fs vs st s r s' r' op : (length inp < fuel E)%nat -> inv E inp s r -> peeked s = None ->
  d_fresh E TEof s r = MOk op s' r' -> peeked s' = op -> same s s' ->
  rep E fs vs st s' r' ->
  match fs with AtValue _ _ _ :: _ => True | _ => cur_text (reader_syntax (cfg E)) fs vs r end /\
  match fs with
  | AtValue _ _ _ :: _ => exists w b, r = w ++ b /\ ws_text (reader_syntax (cfg E)) w /\ body_text (reader_syntax (cfg E)) fs vs b
  | _ => True
  end.
Proof.
  intros Hf Hi Hpk He Hpk' Hs Hrep.
  assert (Hmu : (length r <= length inp)%nat).
  { pose proof (mu_bound _ _ _ _ Hi) as H. unfold mu, ahead, held in H. rewrite Hpk in H. exact H. }
  assert (Hcan : can_have_comma s = match fs with
    | InArray i _ :: _ => negb (i =? 0) | InObject n _ :: _ => negb (no_name n) | _ => false end).
  { destruct Hrep as [Hst _ _ [Hn1 Hn2] _ _]. destruct Hs as (H1 & H2 & H3 & _). unfold can_have_comma, is_in_array.
    rewrite <- H1, <- H2, <- H3, Hn1, Hst. destruct fs as [|[i l|n l|n v l] fs]; cbn.
    - apply andb_false_r.
    - rewrite Hn2. apply andb_true_r.
    - rewrite Hn2. apply andb_true_r.
    - apply andb_false_r. }
  assert (Hgen : forall w b, r = w ++ b ->
    match fs with AtValue _ _ _ :: _ => ws_text (reader_syntax (cfg E)) w | _ => lead_text (reader_syntax (cfg E)) fs w end ->
    body_text (reader_syntax (cfg E)) fs vs b ->
    match fs with AtValue _ _ _ :: _ => True | _ => cur_text (reader_syntax (cfg E)) fs vs r end /\
    match fs with
    | AtValue _ _ _ :: _ => exists w b, r = w ++ b /\ ws_text (reader_syntax (cfg E)) w /\ body_text (reader_syntax (cfg E)) fs vs b
    | _ => True
    end).
  { intros w b Hwb Hl Hb. destruct fs as [|[i l|n l|n v l] fs]; split; auto; try (left; exists w, b; auto). exists w, b. auto. }
  destruct Hrep as [_ _ _ _ _ Ht]. unfold text_ok in Ht. rewrite Hpk' in Ht.
  unfold d_fresh in He. pose proof (ws_scan_ok E TEof None r (i_bytes _ _ _ _ Hi) ltac:(lia)) as Hw.
  destruct (ws_scan E TEof None r) as [[w r1]| |]; try discriminate.
  destruct Hw as (Hr & Hstop & _ & Htext & _).
  destruct r1 as [|b r1].
  { injection He as <- <- <-. destruct Ht as [(w' & b' & Hnil & _ & Hb)|(-> & -> & _)].
    - symmetry in Hnil. apply app_eq_nil in Hnil as [_ ->]. apply body_start in Hb. contradiction.
    - split; auto. right. splits; auto. rewrite app_nil_r in Hr. subst w. destruct Htext as [H|[_ H]]; [left; exact H|exact H]. }
  assert (Hws : ws_text (reader_syntax (cfg E)) w) by (destruct Htext as [H|[H _]]; [exact H|discriminate]). clear Htext.
  destruct (N.eqb_spec b B_COMMA) as [->|Hb].
  - destruct (can_have_comma s) eqn:Ec; [|discriminate]. cbn [negb] in He.
    assert (Hr1 : Forall is_byte r1).
    { pose proof (i_bytes _ _ _ _ Hi) as H. rewrite Hr in H. apply Forall_app in H as [_ H]. inversion H; auto. }
    assert (Hl1 : (length r1 < fuel E)%nat) by (rewrite Hr in Hmu; rewrite app_length in Hmu; cbn in Hmu; lia).
    pose proof (ws_scan_ok E TEof (Some IncompleteDocument) r1 Hr1 Hl1) as Hw2.
    destruct (ws_scan E TEof (Some IncompleteDocument) r1) as [[w2 r2]| |]; try discriminate.
    destruct Hw2 as (Hr2 & _ & _ & Htext2 & Heof).
    destruct (token _ _ _ r2) as [[p r3]|] eqn:Et; [|discriminate].
    apply token_spec in Et as (Htok & _).
    destruct (is_end_token p && negb (allow_trailing_comma (cfg E))) eqn:Eend; [discriminate|]. injection He as <- _ <-.
    destruct Ht as [Hct Hbody]. rewrite <- Htok in Hbody.
    assert (Hws2 : ws_text (reader_syntax (cfg E)) w2).
    { destruct Htext2 as [H|[-> _]]; [exact H|]. apply body_start in Hbody. contradiction. }
    subst r1 r. apply (Hgen (w ++ [0x2C] ++ w2) r2); auto; [rewrite <- !app_assoc; reflexivity|].
    assert (Hlead : forall at_end, (at_end = true -> is_end_token p = true) ->
      comma_lead (reader_syntax (cfg E)) at_end (w ++ [0x2C] ++ w2)).
    { intros at_end Hend. left. exists w, w2. splits; auto. intros H. rewrite (Hend H) in Eend. cbn.
      destruct (allow_trailing_comma (cfg E)); [reflexivity|discriminate]. }
    destruct fs as [|[i l|n l|n v l] fs]; try discriminate.
    + symmetry in Hcan. apply negb_true_iff in Hcan. cbn. rewrite Hcan. apply Hlead. destruct l; [|discriminate].
      cbn in Hct. injection Hct as <-. reflexivity.
    + destruct n; [|discriminate]. cbn. apply Hlead. destruct l; [|discriminate].
      cbn in Hct. injection Hct as <-. reflexivity.
  - destruct (token _ _ _ (b :: r1)) as [[p r3]|] eqn:Et; [|discriminate]. apply token_spec in Et as (Htok & _).
    destruct (negb (is_end_token p) && can_have_comma s) eqn:Eend; [discriminate|]. injection He as <- _ <-.
    destruct Ht as [Hct Hbody]. rewrite <- Htok in Hbody. subst r. apply (Hgen w (b :: r1)); auto.
    rewrite Hcan in Eend.
    destruct fs as [|[i l|n l|n v l] fs]; auto.
    + cbn. destruct (i =? 0); [exact Hws|]. right. split; [|exact Hws].
      rewrite andb_true_r in Eend. apply negb_false_iff in Eend. apply cur_token_end in Hct; auto. destruct l; [reflexivity|contradiction].
    + destruct n; cbn; [|exact Hws]. right. split; [|exact Hws].
      rewrite andb_true_r in Eend. apply negb_false_iff in Eend. apply cur_token_end in Hct; auto. destruct l; [reflexivity|contradiction].
Qed.

Lemma peek_optional_rep E inp fs vs st s r s' r' op : (length inp < fuel E)%nat -> inv E inp s r ->
  d_peek_optional E TEof s r = MOk op s' r' -> rep E fs vs st s' r' -> rep E fs vs st s r.
Proof.
  intros Hf Hi He Hrep. pose proof (peek_optional_good E inp TEof s r Hf Hi) as Hg. rewrite He in Hg.
  destruct Hg as (Hi' & Hs & Ha & _ & Hpk').
  unfold d_peek_optional, dbind at 1, dget in He. rewrite Ha in He. unfold dmisuse_if at 1, dbind at 1, dret at 1 in He.
  destruct (peeked s) as [p|] eqn:Hpk.
  { injection He as <- <- <-. exact Hrep. }
  destruct (is_behind_top_level s && negb (allow_multiple_top_level (cfg E))) eqn:Eb; [discriminate|].
  unfold dmisuse_if, dbind at 1, dret at 1 in He.
  assert (Hb : is_behind_top_level s = true -> allow_multiple_top_level (cfg E) = true).
  { intros H. rewrite H in Eb. destruct (allow_multiple_top_level (cfg E)); [reflexivity|discriminate]. }
  assert (Hex : expects_member_value s = at_member_value fs).
  { destruct Hs as (_ & H2 & H3 & _). unfold expects_member_value, is_in_object. rewrite <- H2, <- H3.
    destruct Hrep as [-> _ _ [-> _] _ _]. destruct fs as [|[]]; reflexivity. }
  apply (rep_same E fs vs st s s' r r' Hrep Hs). unfold text_ok. rewrite Hpk. rewrite Hex in He.
  destruct (at_member_value fs) eqn:Eat.
  - unfold dbind in He. pose proof (after_name_good E inp TEof s r Hf Hi Hpk) as Hg.
    assert (Hmu : (length r <= length inp)%nat).
    { pose proof (mu_bound _ _ _ _ Hi) as H. unfold mu, ahead, held in H. rewrite Hpk in H. exact H. }
    unfold d_after_name in He, Hg.
    pose proof (ws_scan_ok E TEof (Some MissingColon) r (i_bytes _ _ _ _ Hi) ltac:(lia)) as Hw.
    destruct (ws_scan E TEof (Some MissingColon) r) as [[w [|b r1]]| |]; try discriminate.
    destruct (N.eqb_spec b B_COLON) as [->|]; [|discriminate].
    destruct Hg as (Hi1 & Hs1 & _ & Hpk1). set (s1 := advance 1 1 (move w s)) in *.
    destruct Hw as (-> & _ & _ & Hw & _).
    pose proof (fresh_good E inp TEof s1 r1 Hf Hi1 Hpk1) as Hg2.
    assert (Ha1 : string_reader_active s1 = false) by (destruct Hs1 as (_ & _ & _ & -> & _); exact Ha).
    assert (Hb1 : is_behind_top_level s1 = true -> allow_multiple_top_level (cfg E) = true).
    { unfold is_behind_top_level. destruct Hs1 as (-> & _ & -> & _). exact Hb. }
    specialize (Hg2 Ha1 Hb1). rewrite He in Hg2. destruct Hg2 as (_ & Hs2 & _ & _).
    destruct (fresh_back E inp fs vs st s1 r1 s' r' op Hf Hi1 Hpk1 He Hpk' Hs2 Hrep) as [_ H].
    destruct fs as [|[i l|n l|n v l] fs]; try discriminate. destruct H as (w2 & b2 & -> & Hw2 & Hbody).
    left. exists (w ++ [0x3A] ++ w2), b2. rewrite <- !app_assoc. splits; auto. cbn. exists w, w2. splits; auto.
    destruct Hw as [H|[H _]]; [exact H|discriminate].
  - unfold dbind, dret in He.
    destruct (fresh_back E inp fs vs st s r s' r' op Hf Hi Hpk He Hpk' Hs Hrep) as [H _].
    destruct fs as [|[i l|n l|n v l] fs]; try discriminate; exact H.
Qed.

Lemma peek_optional_back E inp s r : (length inp < fuel E)%nat -> inv E inp s r ->
  back E (d_peek_optional E TEof s r) s r.
Proof.
  intros Hf Hi. pose proof (peek_optional_good E inp TEof s r Hf Hi) as Hg.
  pose proof (fun fs vs st s' r' op => peek_optional_rep E inp fs vs st s r s' r' op Hf Hi) as Hrep.
  destruct (d_peek_optional E TEof s r) as [op s' r'|e s' r'| | |] eqn:He; cbn; auto.
  - destruct Hg as (_ & Hs & Ha & _). unfold ready. destruct Hs as (_ & _ & _ & -> & _). rewrite Ha.
    intros (fs & vs & st & H). exists fs, vs, st. eauto.
  - exfalso. unfold d_peek_optional, dbind, dget, dmisuse_if, dmisuse, dret in He.
    destruct (string_reader_active s); [discriminate|]. destruct (peeked s); [discriminate|].
    destruct (_ && _); [discriminate|]. destruct (expects_member_value s).
    + unfold d_after_name in He. destruct (ws_scan _ _ _ r) as [[w [|b r1]]| |]; try discriminate.
      destruct (b =? B_COLON); [|discriminate]. unfold d_fresh in He. destruct (ws_scan _ _ _ r1) as [[w1 [|b1 r2]]| |]; try discriminate.
      destruct (b1 =? B_COMMA).
      * destruct (negb _); [discriminate|]. destruct (ws_scan _ _ _ r2) as [[w2 r3]| |]; try discriminate.
        destruct (token _ _ _ r3) as [[p r4]|]; [|discriminate]. destruct (_ && _); discriminate.
      * destruct (token _ _ _ _) as [[p r4]|]; [|discriminate]. destruct (_ && _); discriminate.
    + unfold d_fresh in He. destruct (ws_scan _ _ _ r) as [[w1 [|b1 r2]]| |]; try discriminate.
      destruct (b1 =? B_COMMA).
      * destruct (negb _); [discriminate|]. destruct (ws_scan _ _ _ r2) as [[w2 r3]| |]; try discriminate.
        destruct (token _ _ _ r3) as [[p r4]|]; [|discriminate]. destruct (_ && _); discriminate.
      * destruct (token _ _ _ _) as [[p r4]|]; [|discriminate]. destruct (_ && _); discriminate.
Qed.

Lemma peek_internal_back E inp s r : (length inp < fuel E)%nat -> inv E inp s r ->
  back E (d_peek_internal E TEof s r) s r.
Proof.
  intros Hf Hi. eapply back_bind; [apply (peek_optional_good E inp TEof s r Hf Hi)|apply (peek_optional_back E inp); auto|].
  intros [p|] s' r' _ _; [apply back_ret|]. apply back_get. destruct (_ && _); [apply back_err|exact I].
Qed.

Lemma map_peeked_back E p s r : back E (d_map_peeked p s r) s r.
Proof. destruct p; cbn; auto. Qed.

Lemma peek_back E inp s r : (length inp < fuel E)%nat -> inv E inp s r -> back E (d_peek E TEof s r) s r.
Proof.
  intros Hf Hi. apply back_get, back_misuse_if. intros _.
  eapply back_bind; [apply (peek_internal_good E inp TEof s r Hf Hi)|apply (peek_internal_back E inp); auto|].
  intros p s' r' _ _. apply map_peeked_back.
Qed.

Lemma has_next_back E inp s r : (length inp < fuel E)%nat -> inv E inp s r -> back E (d_has_next E TEof s r) s r.
Proof.
  intros Hf Hi. apply back_get, back_misuse_if. intros _.
  apply (back_bind E inp _ _ s r (fun _ _ _ => True)).
  - destruct (stack s).
    + apply good_misuse_if. intros _. apply good_misuse_if. intros _.
      eapply good_impl; [apply (peek_optional_good E inp TEof s r Hf Hi)|]. auto.
    + eapply good_bind; [apply (peek_internal_good E inp TEof s r Hf Hi)|]. cbn. auto.
  - destruct (stack s).
    + apply back_misuse_if. intros _. apply back_misuse_if. intros _. apply (peek_optional_back E inp); auto.
    + eapply back_bind; [apply (peek_internal_good E inp TEof s r Hf Hi)|apply (peek_internal_back E inp); auto|].
      intros. apply back_ret.
  - intros [p|] s' r' _ _; [|apply back_ret]. apply back_get. destruct (_ || _); [apply back_ret|exact I].
Qed.

(** ** The start of a value *)

(** The text of a value of which the token [p] has been consumed, and what
    follows it *)
Definition value_rest (E : env) (p : peeked_value) (s : rstate) (r : bytes) : Prop := exists fs vs v tv t',
  tok p ++ r = tv ++ t' /\ value_text (reader_syntax (cfg E)) v tv /\ value_token v = p /\
  outer (reader_syntax (cfg E)) fs vs t' /\ (is_word v -> sep_text t') /\
  stack s = map frame_kind fs /\ fits E fs vs /\
  match max_nesting_depth (cfg E) with Some m => N.of_nat (length fs + nesting v) <= m | None => True end /\
  (allow_multiple_top_level (cfg E) = false -> vs = []).

(** The cursor before the value *)
Lemma value_rest_rep E inp p s r : inv E inp s r -> peeked s = Some p -> expects_member_name s = false ->
  string_reader_active s = false -> value_rest E p s r -> legible E s r.
Proof.
  intros Hi Hpk Hn Ha (fs & vs & v & tv & t' & Ht & Hv & Hp & Ho & Hsep & Hst & Hfit & Hm & Hmulti).
  assert (Hthen : value_then (reader_syntax (cfg E)) v fs vs (tok p ++ r)) by (exists tv, t'; auto).
  destruct fs as [|[i l|n l|n v0 l] fs].
  - exists [], (v :: vs), (negb (is_empty s)). split; auto.
    + unfold fits in *. destruct (max_nesting_depth (cfg E)); [|exact I]. destruct Hfit. split; [exact I|]. constructor; auto.
    + split; [exact Hn|]. rewrite negb_involutive. reflexivity.
    + unfold top_ok. destruct (is_empty s) eqn:Ee; cbn; [splits; auto; discriminate|].
      pose proof (i_peek _ _ _ _ Hi) as H. unfold peek_ok in H. rewrite Hpk in H. destruct H as (_ & _ & _ & _ & _ & H).
      unfold is_behind_top_level in H. rewrite Ee, Hst in H. intros Hf. rewrite H in Hf; [discriminate|reflexivity].
    + unfold text_ok. rewrite Hpk. split; [cbn; rewrite Hp; reflexivity|exact Hthen].
  - exists (InArray (if is_empty s then 0 else 1) (v :: l) :: fs), vs, true. split; auto.
    + unfold fits in *. destruct (max_nesting_depth (cfg E)); [|exact I]. destruct Hfit as [[H1 H2] H3].
      splits; auto. split; auto. cbn [frame_values] in *. constructor; auto.
    + split; [exact Hn|]. destruct (is_empty s); reflexivity.
    + unfold text_ok. rewrite Hpk. split; [cbn; rewrite Hp; reflexivity|]. cbn.
      destruct Hthen as (tv1 & t1 & H1 & H2 & H3 & H4). exists tv1, t1. splits; auto. eapply outer_index. exact H3.
  - destruct n as [n|]; [|inversion Ho].
    exists (AtValue n v l :: fs), vs, true. split; auto.
    + unfold fits in *. destruct (max_nesting_depth (cfg E)); [|exact I]. destruct Hfit as [[H1 H2] H3].
      splits; auto. split; auto. cbn [frame_values] in *. constructor; auto.
    + split; [exact Hn|]. exact I.
    + unfold text_ok. rewrite Hpk. split; [cbn; rewrite Hp; reflexivity|]. exact Hthen.
  - inversion Ho.
Qed.

Lemma value_rest_same E p s s' r : stack s' = stack s -> value_rest E p s' r -> value_rest E p s r.
Proof. intros Hs (fs & vs & v & tv & t' & H). exists fs, vs, v, tv, t'. rewrite <- Hs. exact H. Qed.

Lemma start_back E inp ty chk s r : (length inp < fuel E)%nat -> inv E inp s r ->
  match d_start E TEof ty chk s r with
  | MOk p s' r' => (is_literal p = true -> sep_text r') /\ (value_rest E p s' r' -> ready E s r)
  | MErr _ s' r' => ready E s' r' -> ready E s r
  | _ => True
  end.
Proof.
  intros Hf Hi. unfold d_start, dbind, dget, dmisuse_if.
  destruct (expects_member_name s) eqn:Hn; [exact I|]. unfold dret at 1.
  pose proof (peek_internal_good E inp TEof s r Hf Hi) as Hg. pose proof (peek_internal_back E inp s r Hf Hi) as Hb.
  destruct (d_peek_internal E TEof s r) as [p s1 r1|e s1 r1| | |]; auto. cbn in Hb.
  destruct Hg as (Hi1 & Hs1 & Ha & _ & Hpk1).
  pose proof (map_peeked_back E p s1 r1) as Hb2. pose proof Hs1 as (_ & Hn1 & _ & Ha1 & _). rewrite Hn in Hn1. rewrite Ha in Ha1.
  pose proof (map_peeked_good E inp s1 r1 p Hi1 Hpk1 Hn1) as Hg2.
  destruct (d_map_peeked p s1 r1) as [ty' s2 r2|e s2 r2| | |]; auto.
  destruct Hg2 as (_ & -> & -> & Hty).
  destruct (value_type_eqb ty' ty); [|auto].
  destruct (if chk then depth_exceeded E s1 else None); [auto|].
  destruct (consume_peeked_good E inp s1 r1 p Hi1 Hpk1) as (Hc & _ & Hs3 & _ & _). rewrite Hc. unfold dret.
  split. { pose proof (i_peek _ _ _ _ Hi1) as H. unfold peek_ok in H. rewrite Hpk1 in H. apply H. }
  intros Hv.
  apply Hb. unfold ready. rewrite Ha1. apply (value_rest_rep E inp p); auto.
  eapply value_rest_same; [|exact Hv]. apply Hs3.
Qed.

(** A scalar value: its text, followed by what is behind it *)
Lemma scalar_rest E inp v p s s' r tv r' : inv E inp s r -> stack s' = stack s -> nesting v = O ->
  value_text (reader_syntax (cfg E)) v tv -> value_token v = p ->
  tok p ++ r = tv ++ r' -> (is_word v -> sep_text r') -> behind E s' r' -> value_rest E p s r.
Proof.
  intros Hi Hst Hn Hv Hp Ht Hsep (fs & vs & H1 & H2 & H3 & H4). exists fs, vs, v, tv, r'. rewrite Hst in H1. splits; auto.
  pose proof (i_depth _ _ _ _ Hi) as Hd. unfold depth_ok in Hd. destruct (max_nesting_depth (cfg E)); auto.
  rewrite H1, map_length in Hd. rewrite Hn, Nat.add_0_r. exact Hd.
Qed.

Lemma next_null_back E inp s r : (length inp < fuel E)%nat -> inv E inp s r -> back E (d_next_null E TEof s r) s r.
Proof.
  intros Hf Hi. unfold d_next_null, dbind. pose proof (start_good E inp TEof TNull false s r Hf Hi) as Hg.
  pose proof (start_back E inp TNull false s r Hf Hi) as Hb.
  destruct (d_start E TEof TNull false s r) as [p s1 r1|e s1 r1| | |]; auto.
  destruct Hg as (Hi1 & Hs & Hn & Ha & Hpk & Hty & _ & _ & _). destruct Hb as [Hsep Hb].
  destruct Hs as (_ & Hs2 & Hs3 & Hs4 & _). rewrite Hn in Hs2. rewrite Ha in Hs4.
  pose proof (value_end_back E inp s1 r1 Hi1 Hpk Hs2 Hs4) as Hv. pose proof (value_end_pure s1 r1) as Hp.
  destruct (d_on_value_end s1 r1) as [x s2 r2|e s2 r2| | |]; try contradiction; try exact I. cbn. intros Hr.
  apply Hb. destruct p; try discriminate. apply (scalar_rest E inp JNull PkNull s1 s1 r1 lit_null r1); auto. constructor.
Qed.

Lemma next_bool_back E inp s r : (length inp < fuel E)%nat -> inv E inp s r -> back E (d_next_bool E TEof s r) s r.
Proof.
  intros Hf Hi. unfold d_next_bool, dbind. pose proof (start_good E inp TEof TBoolean false s r Hf Hi) as Hg.
  pose proof (start_back E inp TBoolean false s r Hf Hi) as Hb.
  destruct (d_start E TEof TBoolean false s r) as [p s1 r1|e s1 r1| | |]; auto.
  destruct Hg as (Hi1 & Hs & Hn & Ha & Hpk & Hty & _ & _ & _). destruct Hb as [Hsep Hb].
  destruct Hs as (_ & Hs2 & Hs3 & Hs4 & _). rewrite Hn in Hs2. rewrite Ha in Hs4.
  pose proof (value_end_back E inp s1 r1 Hi1 Hpk Hs2 Hs4) as Hv. pose proof (value_end_pure s1 r1) as Hp.
  destruct p; try discriminate; unfold dret;
  destruct (d_on_value_end s1 r1) as [x s2 r2|e s2 r2| | |]; try contradiction; auto; cbn; intros Hr; apply Hb.
  - apply (scalar_rest E inp (JBool true) PkTrue s1 s1 r1 lit_true r1); auto. constructor.
  - apply (scalar_rest E inp (JBool false) PkFalse s1 s1 r1 lit_false r1); auto. constructor.
Qed.

Lemma string_rest E inp s s' r body v r' : inv E inp s r -> stack s' = stack s -> r = (body ++ [B_QUOTE]) ++ r' ->
  str_text body v -> behind E s' r' -> value_rest E PkStringStart s r.
Proof.
  intros Hi Hs -> Hb H. apply (scalar_rest E inp (JStr v) PkStringStart s s' _ (0x22 :: body ++ [0x22]) r'); auto; [|cbn; contradiction].
  constructor. exists body. auto.
Qed.

Lemma next_string_back E inp s r : (length inp < fuel E)%nat -> inv E inp s r -> back E (d_next_string E TEof s r) s r.
Proof.
  intros Hf Hi. unfold d_next_string, dbind. pose proof (start_good E inp TEof TString false s r Hf Hi) as Hg.
  pose proof (start_back E inp TString false s r Hf Hi) as Hb.
  destruct (d_start E TEof TString false s r) as [p s1 r1|e s1 r1| | |]; auto.
  destruct Hg as (Hi1 & Hs & Hn & Ha & Hpk & Hty & _ & _ & _). destruct Hb as [Hsep Hb].
  destruct Hs as (_ & Hs2 & Hs3 & Hs4 & _). rewrite Hn in Hs2. rewrite Ha in Hs4.
  pose proof (string_good E inp s1 r1 Hf Hi1 Hpk) as Hg. unfold d_string in *.
  pose proof (mu_bound _ _ _ _ Hi1) as Hmu. unfold mu, ahead, held in Hmu. rewrite Hpk in Hmu. cbn [app] in Hmu.
  pose proof (scan_string_ok E r1 (i_bytes _ _ _ _ Hi1) ltac:(lia)) as Hss.
  destruct (scan_string (fuel E) r1) as [[[d w] r2]| |]; try exact I. destruct (from_utf8 d) as [v|]; try exact I.
  destruct Hg as (Hi2 & Hs' & Hpk2 & _). set (s2 := move w s1) in *. destruct Hs' as (_ & H2 & H3 & H4 & _).
  destruct Hss as (He & _ & _ & _ & body & v' & -> & Hbody & _).
  pose proof (value_end_back E inp s2 r2 Hi2 Hpk2 ltac:(congruence) ltac:(congruence)) as Hv. pose proof (value_end_pure s2 r2) as Hp.
  destruct (d_on_value_end s2 r2) as [x s3 r3|e s3 r3| | |]; try contradiction; try exact I. cbn. intros Hr.
  apply Hb. destruct p; try discriminate. apply (string_rest E inp s1 s2 r1 body v' r2); auto.
Qed.

Lemma skip_string_back E inp s r : (length inp < fuel E)%nat -> inv E inp s r ->
  back E ((d_start E TEof TString false ;; d_skip_string E ;; d_on_value_end ;; dret false)%dm s r) s r.
Proof.
  intros Hf Hi. unfold dbind. pose proof (start_good E inp TEof TString false s r Hf Hi) as Hg.
  pose proof (start_back E inp TString false s r Hf Hi) as Hb.
  destruct (d_start E TEof TString false s r) as [p s1 r1|e s1 r1| | |]; auto.
  destruct Hg as (Hi1 & Hs & Hn & Ha & Hpk & Hty & _ & _ & _). destruct Hb as [Hsep Hb].
  destruct Hs as (_ & Hs2 & Hs3 & Hs4 & _). rewrite Hn in Hs2. rewrite Ha in Hs4.
  pose proof (skip_string_good E inp s1 r1 Hf Hi1 Hpk) as Hg. unfold d_skip_string in *.
  pose proof (mu_bound _ _ _ _ Hi1) as Hmu. unfold mu, ahead, held in Hmu. rewrite Hpk in Hmu. cbn [app] in Hmu.
  pose proof (scan_string_ok E r1 (i_bytes _ _ _ _ Hi1) ltac:(lia)) as Hss.
  destruct (scan_string (fuel E) r1) as [[[d w] r2]| |]; try exact I.
  destruct Hg as (Hi2 & Hs' & Hpk2 & _). set (s2 := move w s1) in *. destruct Hs' as (_ & H2 & H3 & H4 & _).
  destruct Hss as (He & _ & _ & _ & body & v' & -> & Hbody & _).
  pose proof (value_end_back E inp s2 r2 Hi2 Hpk2 ltac:(congruence) ltac:(congruence)) as Hv. pose proof (value_end_pure s2 r2) as Hp.
  destruct (d_on_value_end s2 r2) as [x s3 r3|e s3 r3| | |]; try contradiction; try exact I. cbn. intros Hr.
  apply Hb. destruct p; try discriminate. apply (string_rest E inp s1 s2 r1 body v' r2); auto.
Qed.

Lemma number_back E inp restrict s r : (length inp < fuel E)%nat -> inv E inp s r -> back E (d_number E TEof restrict s r) s r.
Proof.
  intros Hf Hi. unfold d_number, dbind. pose proof (start_good E inp TEof TNumber false s r Hf Hi) as Hg.
  pose proof (start_back E inp TNumber false s r Hf Hi) as Hb.
  destruct (d_start E TEof TNumber false s r) as [p s1 r1|e s1 r1| | |]; auto.
  destruct Hg as (Hi1 & Hs & Hn & Ha & Hpk & Hty & _ & Hns & _). destruct Hb as [Hsep Hb].
  destruct Hs as (_ & Hs2 & Hs3 & Hs4 & _). rewrite Hn in Hs2. rewrite Ha in Hs4.
  pose proof (number_body_good E inp TEof restrict s1 r1 Hf Hi1 Hpk (Hns eq_refl)) as Hg. unfold d_number_body in *.
  destruct r1 as [|b l]; [contradiction|].
  destruct (number_scan E (b :: l)) as [[[res w] rest]| |] eqn:Es; try exact I.
  cbn [hits_error] in *. destruct (hits_error TEof rest); [exact I|]. destruct res as [n|]; try exact I.
  apply number_scan_sound in Es as (He & _ & m & Hm & _).
  destruct (from_utf8 w) as [v|]; try exact I. destruct (_ && _); try exact I. destruct (sep_ok (is_eof TEof) rest) eqn:Eo; try exact I.
  destruct Hg as (Hi2 & Hs' & Hpk2 & _). set (s2 := advance _ _ s1) in *. destruct Hs' as (_ & H2 & H3 & H4 & _).
  pose proof (value_end_back E inp s2 rest Hi2 Hpk2 ltac:(congruence) ltac:(congruence)) as Hv. pose proof (value_end_pure s2 rest) as Hp.
  destruct (d_on_value_end s2 rest) as [x s3 r3|e s3 r3| | |]; try contradiction; try exact I. cbn. intros Hr.
  apply Hb. destruct p; try discriminate. apply (scalar_rest E inp (JNum w) PkNumberStart s1 s2 _ w rest); auto.
  - constructor. exists m. exact Hm.
  - intros _. destruct rest; [exact I|exact Eo].
Qed.

(** ** Arrays and objects *)

Lemma list_max_fit m k (l : list nat) : N.of_nat (k + 1) <= m -> Forall (fun n => N.of_nat (S k + n) <= m) l ->
  N.of_nat (k + S (list_max l)) <= m.
Proof.
  intros Hk Hl. assert (list_max l <= N.to_nat m - S k)%nat; [|lia]. apply list_max_le.
  eapply Forall_impl; [|exact Hl]. cbn. lia.
Qed.

Lemma begin_array_back E inp s r : (length inp < fuel E)%nat -> inv E inp s r -> back E (d_begin_array E TEof s r) s r.
Proof.
  intros Hf Hi. pose proof (begin_array_good E inp TEof s r Hf Hi) as Hgood.
  unfold d_begin_array, d_on_container_start, dbind, dupdate in *.
  pose proof (start_good E inp TEof TArray true s r Hf Hi) as Hg.
  pose proof (start_back E inp TArray true s r Hf Hi) as Hb.
  destruct (d_start E TEof TArray true s r) as [p s1 r1|e s1 r1| | |]; auto.
  destruct Hg as (Hi1 & Hs & Hn & Ha & Hpk & Hty & _ & Hns & _). destruct Hb as [Hsep Hb].
  destruct Hs as (_ & Hs2 & Hs3 & Hs4 & _). rewrite Hn in Hs2. rewrite Ha in Hs4.
  cbn. unfold ready at 1. cbn [string_reader_active set_expects_name set_path set_empty set_stack]. rewrite Hs4.
  destruct Hgood as (Hi2 & _). pose proof (i_depth _ _ _ _ Hi2) as Hd. clear Hi2.
  intros (fs & vs & st & [Hst Hfit _ [Hn1 Hn2] Htop Htext]). apply Hb. destruct p; try discriminate.
  cbn in Hst. destruct fs as [|[i l|n l|n v l] fs]; try discriminate. cbn in Hst. injection Hst as Hst.
  cbn in Hn2. unfold text_ok in Htext. cbn [peeked set_expects_name set_path set_empty set_stack] in Htext. rewrite Hpk in Htext.
  apply cur_items in Htext as (t1 & t2 & -> & Hit & Ho). rewrite <- Hn2 in Hit.
  exists fs, vs, (JArr l), (0x5B :: t1), t2. splits; auto.
  - apply (VT_arr _ l t1). exact Hit.
  - cbn. contradiction.
  - unfold fits in *. destruct (max_nesting_depth (cfg E)); [|exact I]. destruct Hfit as [[_ H1] H2]. auto.
  - unfold fits, depth_ok in *. destruct (max_nesting_depth (cfg E)); [|exact I]. cbn in Hd. rewrite Hst, map_length in Hd.
    destruct Hfit as [[H1 _] _]. cbn [nesting frame_values length] in *. apply list_max_fit; [lia|].
    apply Forall_map. exact H1.
  - destruct st; [exact Htop|]. destruct Htop; discriminate.
Qed.

Lemma begin_object_back E inp s r : (length inp < fuel E)%nat -> inv E inp s r -> back E (d_begin_object E TEof s r) s r.
Proof.
  intros Hf Hi. pose proof (begin_object_good E inp TEof s r Hf Hi) as Hgood.
  unfold d_begin_object, d_on_container_start, dbind, dupdate in *.
  pose proof (start_good E inp TEof TObject true s r Hf Hi) as Hg.
  pose proof (start_back E inp TObject true s r Hf Hi) as Hb.
  destruct (d_start E TEof TObject true s r) as [p s1 r1|e s1 r1| | |]; auto.
  destruct Hg as (Hi1 & Hs & Hn & Ha & Hpk & Hty & _ & Hns & _). destruct Hb as [Hsep Hb].
  destruct Hs as (_ & Hs2 & Hs3 & Hs4 & _). rewrite Hn in Hs2. rewrite Ha in Hs4.
  cbn. unfold ready at 1. cbn [string_reader_active set_expects_name set_path set_empty set_stack]. rewrite Hs4.
  destruct Hgood as (Hi2 & _). pose proof (i_depth _ _ _ _ Hi2) as Hd. clear Hi2.
  intros (fs & vs & st & [Hst Hfit _ [Hn1 Hn2] Htop Htext]). apply Hb. destruct p; try discriminate.
  cbn in Hst, Hn1. destruct fs as [|[i l|n l|n v l] fs]; try discriminate. cbn in Hst. injection Hst as Hst.
  cbn in Hn2. unfold text_ok in Htext. cbn [peeked set_expects_name set_path set_empty set_stack] in Htext. rewrite Hpk in Htext.
  apply cur_members in Htext as (t1 & t2 & -> & Hit & Ho). destruct n; [discriminate|].
  exists fs, vs, (JObj l), (0x7B :: t1), t2. splits; auto.
  - apply (VT_obj _ l t1). exact Hit.
  - cbn. contradiction.
  - unfold fits in *. destruct (max_nesting_depth (cfg E)); [|exact I]. destruct Hfit as [[_ H1] H2]. auto.
  - unfold fits, depth_ok in *. destruct (max_nesting_depth (cfg E)); [|exact I]. cbn in Hd. rewrite Hst, map_length in Hd.
    destruct Hfit as [[H1 _] _]. cbn [nesting frame_values length] in *. apply list_max_fit; [lia|].
    apply Forall_map. rewrite Forall_map in H1. exact H1.
  - destruct st; [exact Htop|]. destruct Htop; discriminate.
Qed.

Lemma end_array_back E inp s r : (length inp < fuel E)%nat -> inv E inp s r -> back E (d_end_array E TEof s r) s r.
Proof.
  intros Hf Hi. unfold d_end_array. apply back_get, back_misuse_if. intros Harr. apply negb_false_iff in Harr.
  eapply back_bind; [apply (peek_internal_good E inp TEof s r Hf Hi)|apply (peek_internal_back E inp); auto|].
  intros p s1 r1 Hi1 (Hs & Ha & _ & Hpk). destruct p; try apply back_err.
  destruct (consume_peeked_good E inp s1 r1 _ Hi1 Hpk) as (Hc & Hi2 & Hs2 & Hpk2 & _).
  unfold dbind. rewrite Hc. set (s2 := move _ _) in *.
  rewrite <- (in_array_same _ _ Hs) in Harr. unfold is_in_array in Harr. destruct (stack s1) as [|[] stk] eqn:Est; try discriminate.
  assert (Hn1 : expects_member_name s1 = false).
  { destruct (expects_member_name s1) eqn:En; [|reflexivity]. apply (i_name _ _ _ _ Hi1) in En. unfold is_in_object in En. rewrite Est in En. discriminate. }
  assert (Ha1 : string_reader_active s1 = false) by (destruct Hs as (_ & _ & _ & -> & _); exact Ha).
  destruct Hs2 as (_ & H2 & H3 & H4 & _).
  pose proof (container_end_good E inp s2 r1 SArray stk Hi2 Hpk2 ltac:(congruence) ltac:(congruence) ltac:(congruence)) as Hg.
  assert (Hpure : match d_on_container_end s2 r1 with MOk _ s' r' => r' = r1 | MErr _ _ _ => False | _ => True end).
  { unfold d_on_container_end, dbind, dupdate. match goal with |- context[d_on_value_end ?a ?b] => pose proof (value_end_pure a b) as Hp; destruct (d_on_value_end a b) end; auto. apply Hp. }
  destruct (d_on_container_end s2 r1) as [x s3 r3|e s3 r3| | |]; try contradiction; try exact I.
  cbn. subst r3. destruct Hg as (_ & G1 & G2 & G3 & G4 & G5 & _). unfold ready. rewrite G3, Ha1. intros Hr.
  assert (Hbeh : behind E (set_stack stk s3) r1).
  { apply (legible_behind E _ s3 r1 Hr); auto. rewrite G5. unfold is_in_object. rewrite G1. reflexivity. }
  destruct Hbeh as (fs & vs & K1 & K2 & K3 & K4). cbn in K1.
  exists (InArray (if is_empty s1 then 0 else 1) [] :: fs), vs, true. split; auto.
  - cbn. rewrite Est, K1. reflexivity.
  - unfold fits in *. destruct (max_nesting_depth (cfg E)); [|exact I]. destruct K2. splits; auto. split; [constructor|auto].
  - split; [exact Hn1|]. destruct (is_empty s1); reflexivity.
  - unfold text_ok. rewrite Hpk. split; [reflexivity|]. cbn. exists r1. auto.
Qed.

Lemma end_object_back E inp s r : (length inp < fuel E)%nat -> inv E inp s r -> back E (d_end_object E TEof s r) s r.
Proof.
  intros Hf Hi. unfold d_end_object. apply back_get, back_misuse_if. intros Harr. apply negb_false_iff in Harr.
  apply back_misuse_if. intros _.
  eapply back_bind; [apply (peek_internal_good E inp TEof s r Hf Hi)|apply (peek_internal_back E inp); auto|].
  intros p s1 r1 Hi1 (Hs & Ha & _ & Hpk). destruct p; try apply back_err.
  destruct (consume_peeked_good E inp s1 r1 _ Hi1 Hpk) as (Hc & Hi2 & Hs2 & Hpk2 & _).
  unfold dbind. rewrite Hc. unfold dupdate at 1. set (s2 := move _ _) in *.
  rewrite <- (in_object_same _ _ Hs) in Harr. unfold is_in_object in Harr. destruct (stack s1) as [|[] stk] eqn:Est; try discriminate.
  assert (Hn1 : expects_member_name s1 = true).
  { pose proof (i_peek _ _ _ _ Hi1) as H. unfold peek_ok in H. rewrite Hpk in H. destruct H as (_ & H & _).
    destruct (expects_member_name s1); [reflexivity|]. destruct H; congruence. }
  assert (Ha1 : string_reader_active s1 = false) by (destruct Hs as (_ & _ & _ & -> & _); exact Ha).
  destruct Hs2 as (_ & H2 & H3 & H4 & _).
  pose proof (inv_expects_false E inp s2 r1 Hi2 Hpk2) as Hi3. set (s3 := set_expects_name false s2) in *.
  pose proof (container_end_good E inp s3 r1 SObject stk Hi3 Hpk2 eq_refl ltac:(cbn; congruence) ltac:(cbn; congruence)) as Hg.
  assert (Hpure : match d_on_container_end s3 r1 with MOk _ s' r' => r' = r1 | MErr _ _ _ => False | _ => True end).
  { unfold d_on_container_end, dbind, dupdate. match goal with |- context[d_on_value_end ?a ?b] => pose proof (value_end_pure a b) as Hp; destruct (d_on_value_end a b) end; auto. apply Hp. }
  destruct (d_on_container_end s3 r1) as [x s4 r4|e s4 r4| | |]; try contradiction; try exact I.
  cbn. subst r4. destruct Hg as (_ & G1 & G2 & G3 & G4 & G5 & _). unfold ready. rewrite G3, Ha1. intros Hr.
  assert (Hbeh : behind E (set_stack stk s4) r1).
  { apply (legible_behind E _ s4 r1 Hr); auto. rewrite G5. unfold is_in_object. rewrite G1. reflexivity. }
  destruct Hbeh as (fs & vs & K1 & K2 & K3 & K4). cbn in K1.
  exists (InObject (if is_empty s1 then None else Some []) [] :: fs), vs, true. split; auto.
  - cbn. rewrite Est, K1. reflexivity.
  - unfold fits in *. destruct (max_nesting_depth (cfg E)); [|exact I]. destruct K2. splits; auto. split; [constructor|auto].
  - split; [exact Hn1|]. destruct (is_empty s1); reflexivity.
  - unfold text_ok. rewrite Hpk. split; [reflexivity|]. cbn. exists r1. auto.
Qed.

(** ** Member names *)

(** At a member value, before the colon *)
Definition before_value (E : env) (s : rstate) (r : bytes) : Prop := exists fs vs n v l,
  stack s = map frame_kind (AtValue n v l :: fs) /\ fits E (AtValue n v l :: fs) vs /\
  (allow_multiple_top_level (cfg E) = false -> vs = []) /\ cur_text (reader_syntax (cfg E)) (AtValue n v l :: fs) vs r.

Lemma legible_before_value E s s' r : ready E s' r -> stack s' = stack s -> is_in_object s = true -> peeked s' = None ->
  expects_member_name s' = false -> string_reader_active s' = false -> before_value E s r.
Proof.
  intros Hr Hst Hobj Hpk Hn Ha. unfold ready in Hr. rewrite Ha in Hr. destruct Hr as (fs & vs & st & [P1 P2 _ [P3 _] P4 P5]).
  unfold is_in_object in Hobj. rewrite <- Hst, P1 in Hobj. destruct fs as [|[i l|n l|n v l] fs]; try discriminate.
  { cbn in P3. congruence. }
  exists fs, vs, n, v, l. rewrite <- Hst. splits; auto.
  - destruct st; [exact P4|]. destruct P4; discriminate.
  - unfold text_ok in P5. rewrite Hpk in P5. exact P5.
Qed.

Lemma before_name_back E inp s r : (length inp < fuel E)%nat -> inv E inp s r ->
  match d_before_name E TEof s r with
  | MOk _ s' r' => forall body nm t', r' = (body ++ [B_QUOTE]) ++ t' -> str_text body nm -> before_value E s' t' -> ready E s r
  | MErr _ s' r' => ready E s' r' -> ready E s r
  | _ => True
  end.
Proof.
  intros Hf Hi. unfold d_before_name, dbind at 1, dget. destruct (expects_member_name s) eqn:Hn; [|exact I].
  cbn [negb]. unfold dmisuse_if, dbind at 1, dret at 1. destruct (string_reader_active s) eqn:Ha; [exact I|].
  unfold dbind at 1, dret at 1. unfold dbind at 1.
  pose proof (has_next_good E inp TEof s r Hf Hi) as Hg. pose proof (has_next_back E inp s r Hf Hi) as Hb.
  destruct (d_has_next E TEof s r) as [h s1 r1|e s1 r1| | |]; auto.
  destruct Hg as (Hi1 & Hs & _ & _ & _ & Hh). cbn in Hb. destruct h; [|exact Hb]. cbn [negb].
  destruct (peeked s1) as [p|] eqn:Hpk; [|destruct Hh; discriminate].
  pose proof Hs as (_ & Hs2 & Hs3 & Hs4 & _). rewrite Hn in Hs2. rewrite Ha in Hs4.
  unfold dbind, dupdate, d_consume_peeked, dbind, dget, dupdate. cbn [peeked set_expects_name]. rewrite Hpk.
  intros body nm t' -> Hbody (fs & vs & n & v & l & K1 & K2 & K3 & K4).
  change (stack s1 = map frame_kind (AtValue n v l :: fs)) in K1. apply Hb. unfold ready. rewrite Hs4.
  assert (Hp : p = PkNameStart).
  { pose proof (i_peek _ _ _ _ Hi1) as H. unfold peek_ok in H. rewrite Hpk, Hs2 in H. destruct H as (_ & [H|H] & _); [exact H|].
    rewrite H in Hh. discriminate. }
  exists (InObject (if is_empty s1 then None else Some []) ((nm, v) :: l) :: fs), vs, true. split; auto.
  - split; [exact Hs2|]. destruct (is_empty s1); reflexivity.
  - unfold text_ok. rewrite Hpk, Hp. split; [reflexivity|]. cbn.
    destruct K4 as [(w & b & -> & Hw & Hbt)|(H & _)]; [|discriminate]. cbn in Hbt.
    exists (0x22 :: body ++ [0x22]), w, b. rewrite <- !app_assoc. splits; auto.
    + cbn. rewrite <- app_assoc. reflexivity.
    + exists body. auto.
    + destruct Hbt as (tv & t0 & B1 & B2 & B3 & B4). exists tv, t0. splits; auto. eapply outer_name. exact B3.
Qed.

Lemma before_value_same E s s' r : stack s' = stack s -> before_value E s' r -> before_value E s r.
Proof. intros Hs (fs & vs & n & v & l & H). exists fs, vs, n, v, l. rewrite <- Hs. exact H. Qed.

Lemma next_name_back E inp s r : (length inp < fuel E)%nat -> inv E inp s r -> back E (d_next_name E TEof s r) s r.
Proof.
  intros Hf Hi. pose proof (next_name_good E inp TEof s r Hf Hi) as Hgood. unfold d_next_name, dbind in *.
  pose proof (before_name_good E inp TEof s r Hf Hi) as Hg. pose proof (before_name_back E inp s r Hf Hi) as Hb.
  destruct (d_before_name E TEof s r) as [x s1 r1|e s1 r1| | |]; auto.
  destruct Hg as (Hi1 & G1 & G2 & G3 & G4 & G5 & _).
  unfold d_string in *. pose proof (mu_bound _ _ _ _ Hi1) as Hmu. unfold mu, ahead, held in Hmu. rewrite G3 in Hmu. cbn [app] in Hmu.
  pose proof (scan_string_ok E r1 (i_bytes _ _ _ _ Hi1) ltac:(lia)) as Hss.
  destruct (scan_string (fuel E) r1) as [[[d w] r2]| |]; try exact I. destruct (from_utf8 d) as [v|]; try exact I.
  destruct Hss as (He & _ & _ & _ & body & v' & -> & Hbody & _).
  assert (Hpure : match d_set_path_name v (move (body ++ [B_QUOTE]) s1) r2 with MOk _ s' r' => r' = r2 | MErr _ _ _ => False | _ => True end).
  { unfold d_set_path_name, dbind, dget, dret, dupdate, dbug. match goal with |- context[json_path ?a] => destruct (json_path a) as [[|[] ?]|] end; auto. }
  destruct (d_set_path_name v _ r2) as [y s3 r3|e s3 r3| | |]; try exact I; [|contradiction]. subst r3.
  destruct Hgood as (_ & K1 & K2 & K3 & K4 & K5 & _). cbn. intros Hr. apply (Hb body v' r2 He Hbody).
  apply (legible_before_value E s1 s3 r2 Hr); auto; [congruence|]. unfold is_in_object in *. rewrite G1. exact G2.
Qed.

Lemma skip_name_back E inp s r : (length inp < fuel E)%nat -> inv E inp s r -> back E (d_skip_name E TEof s r) s r.
Proof.
  intros Hf Hi. pose proof (skip_name_good E inp TEof s r Hf Hi) as Hgood. unfold d_skip_name, dbind, dget in *.
  pose proof (before_name_good E inp TEof s r Hf Hi) as Hg. pose proof (before_name_back E inp s r Hf Hi) as Hb.
  destruct (d_before_name E TEof s r) as [x s1 r1|e s1 r1| | |]; auto.
  destruct Hg as (Hi1 & G1 & G2 & G3 & G4 & G5 & _).
  unfold d_string, d_skip_string in *.
  pose proof (mu_bound _ _ _ _ Hi1) as Hmu. unfold mu, ahead, held in Hmu. rewrite G3 in Hmu. cbn [app] in Hmu.
  pose proof (scan_string_ok E r1 (i_bytes _ _ _ _ Hi1) ltac:(lia)) as Hss.
  destruct (json_path s1) as [pth|] eqn:Ejp.
  - destruct (scan_string (fuel E) r1) as [[[d w] r2]| |]; try exact I. destruct (from_utf8 d) as [v|]; try exact I.
    destruct Hss as (He & _ & _ & _ & body & v' & -> & Hbody & _).
    assert (Hpure : match d_set_path_name v (move (body ++ [B_QUOTE]) s1) r2 with MOk _ s' r' => r' = r2 | MErr _ _ _ => False | _ => True end).
    { unfold d_set_path_name, dbind, dget, dret, dupdate, dbug. match goal with |- context[json_path ?a] => destruct (json_path a) as [[|[] ?]|] end; auto. }
    destruct (d_set_path_name v _ r2) as [y s3 r3|e s3 r3| | |]; try exact I; [|contradiction]. subst r3.
    destruct Hgood as (_ & K1 & K2 & K3 & K4 & K5 & _). cbn. intros Hr. apply (Hb body v' r2 He Hbody).
    apply (legible_before_value E s1 s3 r2 Hr); auto; [congruence|]. unfold is_in_object in *. rewrite G1. exact G2.
  - destruct (scan_string (fuel E) r1) as [[[d w] r2]| |]; try exact I.
    destruct Hss as (He & _ & _ & _ & body & v' & -> & Hbody & _).
    destruct Hgood as (_ & K1 & K2 & K3 & K4 & K5 & _). cbn. intros Hr. apply (Hb body v' r2 He Hbody).
    apply (legible_before_value E s1 _ r2 Hr); auto; [congruence|]. unfold is_in_object in *. rewrite G1. exact G2.
Qed.

(** ** Skipping and seeking *)

Lemma skip_value_start_back E inp s r : (length inp < fuel E)%nat -> inv E inp s r -> back E (d_skip_value_start E TEof s r) s r.
Proof.
  intros Hf Hi. unfold d_skip_value_start.
  eapply back_bind; [apply (peek_good E inp TEof s r Hf Hi)|apply (peek_back E inp); auto|].
  intros ty s1 r1 Hi1 _. destruct ty.
  - eapply back_bind; [apply (begin_array_good E inp TEof s1 r1 Hf Hi1)|apply (begin_array_back E inp); auto|]. intros. apply back_ret.
  - eapply back_bind; [apply (begin_object_good E inp TEof s1 r1 Hf Hi1)|apply (begin_object_back E inp); auto|]. intros. apply back_ret.
  - apply (skip_string_back E inp); auto.
  - eapply back_bind; [apply (number_good E inp TEof false s1 r1 Hf Hi1)|apply (number_back E inp); auto|]. intros. apply back_ret.
  - eapply back_bind; [apply (next_bool_good E inp TEof s1 r1 Hf Hi1)|apply (next_bool_back E inp); auto|]. intros. apply back_ret.
  - eapply back_bind; [apply (next_null_good E inp TEof s1 r1 Hf Hi1)|apply (next_null_back E inp); auto|]. intros. apply back_ret.
Qed.

Lemma skip_step_back E inp depth s r : (length inp < fuel E)%nat -> inv E inp s r -> back E (d_skip_step E TEof depth s r) s r.
Proof.
  intros Hf Hi. unfold d_skip_step. apply (back_bind E inp _ _ s r (fun _ _ _ => True)).
  { destruct depth; [cbn; auto|]. eapply good_impl; [apply (has_next_good E inp TEof s r Hf Hi)|]. auto. }
  { destruct depth; [apply back_ret|]. apply (has_next_back E inp); auto. }
  intros h s1 r1 Hi1 _. destruct (negb h).
  - eapply back_bind; [apply (end_container_good E inp TEof s1 r1 Hf Hi1)| |intros; apply back_ret].
    apply back_get. destruct (is_in_array s1); [apply (end_array_back E inp)|apply (end_object_back E inp)]; auto.
  - apply back_get. apply (back_bind E inp _ _ s1 r1 (fun _ _ _ => True)).
    { destruct (expects_member_name s1); [|cbn; auto]. eapply good_impl; [apply (skip_name_good E inp TEof s1 r1 Hf Hi1)|]. auto. }
    { destruct (expects_member_name s1); [|apply back_ret]. apply (skip_name_back E inp); auto. }
    intros u2 s2 r2 Hi2 _.
    eapply back_bind; [apply (skip_value_start_good E inp TEof s2 r2 Hf Hi2)|apply (skip_value_start_back E inp); auto|].
    intros. apply back_ret.
Qed.

Lemma skip_value_loop_back E inp f : forall depth s r, (length inp < fuel E)%nat -> inv E inp s r ->
  back E (d_skip_value_loop E TEof f depth s r) s r.
Proof.
  induction f as [|f IH]; intros depth s r Hf Hi; [exact I|]. cbn [d_skip_value_loop].
  eapply back_bind; [apply (skip_step_good E inp TEof depth s r Hf Hi)|apply (skip_step_back E inp); auto|].
  intros depth' s1 r1 Hi1 _. destruct depth'; [apply back_ret|]. apply IH; auto.
Qed.

Lemma skip_value_back E inp s r : (length inp < fuel E)%nat -> inv E inp s r -> back E (d_skip_value E TEof s r) s r.
Proof.
  intros Hf Hi. unfold d_skip_value. apply back_get, back_misuse_if. intros _. apply (skip_value_loop_back E inp); auto.
Qed.

Lemma skip_items_back E inp f : forall s r, (length inp < fuel E)%nat -> inv E inp s r ->
  back E (d_skip_items E TEof f s r) s r.
Proof.
  induction f as [|f IH]; intros s r Hf Hi; [exact I|]. cbn [d_skip_items].
  eapply back_bind; [apply (has_next_good E inp TEof s r Hf Hi)|apply (has_next_back E inp); auto|]. intros h s1 r1 Hi1 _.
  destruct h; [|apply back_ret].
  eapply back_bind; [apply (skip_value_good E inp TEof s1 r1 Hf Hi1)|apply (skip_value_back E inp); auto|]. intros u2 s2 r2 Hi2 _.
  apply IH; auto.
Qed.

Lemma skip_members_back E inp f : forall s r, (length inp < fuel E)%nat -> inv E inp s r ->
  back E (d_skip_members E TEof f s r) s r.
Proof.
  induction f as [|f IH]; intros s r Hf Hi; [exact I|]. cbn [d_skip_members].
  eapply back_bind; [apply (has_next_good E inp TEof s r Hf Hi)|apply (has_next_back E inp); auto|]. intros h s1 r1 Hi1 _.
  destruct h; [|apply back_ret].
  eapply back_bind; [apply (skip_name_good E inp TEof s1 r1 Hf Hi1)|apply (skip_name_back E inp); auto|]. intros u2 s2 r2 Hi2 _.
  eapply back_bind; [apply (skip_value_good E inp TEof s2 r2 Hf Hi2)|apply (skip_value_back E inp); auto|]. intros u3 s3 r3 Hi3 _.
  apply IH; auto.
Qed.

Lemma skip_to_top_level_loop_back E inp f : forall s r, (length inp < fuel E)%nat -> inv E inp s r ->
  back E (d_skip_to_top_level_loop E TEof f s r) s r.
Proof.
  induction f as [|f IH]; intros s r Hf Hi; [exact I|]. cbn [d_skip_to_top_level_loop]. apply back_get.
  pose proof (mu_bound _ _ _ _ Hi) as Hb. destruct (stack s) as [|[] stk]; [apply back_ret| |].
  - eapply back_bind; [apply (skip_items_good E inp TEof (fuel E) s r Hf Hi); blia|apply (skip_items_back E inp); auto|]. intros u2 s2 r2 Hi2 _.
    eapply back_bind; [apply (end_array_good E inp TEof s2 r2 Hf Hi2)|apply (end_array_back E inp); auto|]. intros u3 s3 r3 Hi3 _.
    apply IH; auto.
  - eapply back_bind; [apply (skip_members_good E inp TEof (fuel E) s r Hf Hi); blia|apply (skip_members_back E inp); auto|]. intros u2 s2 r2 Hi2 _.
    eapply back_bind; [apply (end_object_good E inp TEof s2 r2 Hf Hi2)|apply (end_object_back E inp); auto|]. intros u3 s3 r3 Hi3 _.
    apply IH; auto.
Qed.

Lemma skip_to_top_level_back E inp s r : (length inp < fuel E)%nat -> inv E inp s r -> back E (d_skip_to_top_level E TEof s r) s r.
Proof.
  intros Hf Hi. unfold d_skip_to_top_level. apply back_get, back_misuse_if. intros _.
  apply (back_bind E inp _ _ s r (fun _ _ _ => True)).
  { destruct (expects_member_value s); [|cbn; auto]. eapply good_impl; [apply (skip_value_good E inp TEof s r Hf Hi)|]. auto. }
  { destruct (expects_member_value s); [|apply back_ret]. apply (skip_value_back E inp); auto. }
  intros u1 s1 r1 Hi1 _. apply (skip_to_top_level_loop_back E inp); auto.
Qed.

Lemma seek_item_back E inp f : forall i n s r, (length inp < fuel E)%nat -> inv E inp s r ->
  back E (d_seek_item E TEof f i n s r) s r.
Proof.
  induction f as [|f IH]; intros i n s r Hf Hi; [exact I|]. cbn [d_seek_item].
  eapply back_bind; [apply (has_next_good E inp TEof s r Hf Hi)|apply (has_next_back E inp); auto|]. intros h s1 r1 Hi1 _.
  destruct (negb h); [apply back_err|]. destruct (n =? 0); [apply back_ret|].
  eapply back_bind; [apply (skip_value_good E inp TEof s1 r1 Hf Hi1)|apply (skip_value_back E inp); auto|]. intros u2 s2 r2 Hi2 _.
  apply IH; auto.
Qed.

Lemma seek_member_back E inp f : forall n s r, (length inp < fuel E)%nat -> inv E inp s r ->
  back E (d_seek_member E TEof f n s r) s r.
Proof.
  induction f as [|f IH]; intros n s r Hf Hi; [exact I|]. cbn [d_seek_member].
  eapply back_bind; [apply (has_next_good E inp TEof s r Hf Hi)|apply (has_next_back E inp); auto|]. intros h s1 r1 Hi1 _.
  destruct (negb h); [apply back_err|].
  eapply back_bind; [apply (next_name_good E inp TEof s1 r1 Hf Hi1)|apply (next_name_back E inp); auto|]. intros m s2 r2 Hi2 _.
  destruct (str_eqb m n); [apply back_ret|].
  eapply back_bind; [apply (skip_value_good E inp TEof s2 r2 Hf Hi2)|apply (skip_value_back E inp); auto|]. intros u3 s3 r3 Hi3 _.
  apply IH; auto.
Qed.

Lemma seek_pieces_back E inp p : forall s r, (length inp < fuel E)%nat -> inv E inp s r ->
  back E (d_seek_pieces E TEof p s r) s r.
Proof.
  induction p as [|[i|n] p IH]; intros s r Hf Hi; cbn [d_seek_pieces]; [apply back_ret| |].
  - eapply back_bind; [apply (begin_array_good E inp TEof s r Hf Hi)|apply (begin_array_back E inp); auto|]. intros u1 s1 r1 Hi1 _.
    pose proof (mu_bound _ _ _ _ Hi1) as Hb.
    eapply back_bind; [apply (seek_item_good E inp TEof (fuel E) i i s1 r1 Hf Hi1); blia|apply (seek_item_back E inp); auto|].
    intros u2 s2 r2 Hi2 _. apply IH; auto.
  - eapply back_bind; [apply (begin_object_good E inp TEof s r Hf Hi)|apply (begin_object_back E inp); auto|]. intros u1 s1 r1 Hi1 _.
    pose proof (mu_bound _ _ _ _ Hi1) as Hb.
    eapply back_bind; [apply (seek_member_good E inp TEof (fuel E) n s1 r1 Hf Hi1); blia|apply (seek_member_back E inp); auto|].
    intros u2 s2 r2 Hi2 _. apply IH; auto.
Qed.

Lemma seek_to_back E inp p s r : (length inp < fuel E)%nat -> inv E inp s r -> back E (d_seek_to E TEof p s r) s r.
Proof.
  intros Hf Hi. unfold d_seek_to. eapply back_bind; [apply (peek_good E inp TEof s r Hf Hi)|apply (peek_back E inp); auto|].
  intros u1 s1 r1 Hi1 _. apply (seek_pieces_back E inp); auto.
Qed.

Lemma seek_back_pieces_back E inp p : forall s r, (length inp < fuel E)%nat -> inv E inp s r ->
  back E (d_seek_back_pieces E TEof p s r) s r.
Proof.
  induction p as [|[i|n] p IH]; intros s r Hf Hi; cbn [d_seek_back_pieces]; [apply back_ret| |].
  - pose proof (mu_bound _ _ _ _ Hi) as Hb.
    eapply back_bind; [apply (skip_items_good E inp TEof (fuel E) s r Hf Hi); blia|apply (skip_items_back E inp); auto|]. intros u1 s1 r1 Hi1 _.
    eapply back_bind; [apply (end_array_good E inp TEof s1 r1 Hf Hi1)|apply (end_array_back E inp); auto|]. intros u2 s2 r2 Hi2 _. apply IH; auto.
  - pose proof (mu_bound _ _ _ _ Hi) as Hb.
    eapply back_bind; [apply (skip_members_good E inp TEof (fuel E) s r Hf Hi); blia|apply (skip_members_back E inp); auto|]. intros u1 s1 r1 Hi1 _.
    eapply back_bind; [apply (end_object_good E inp TEof s1 r1 Hf Hi1)|apply (end_object_back E inp); auto|]. intros u2 s2 r2 Hi2 _. apply IH; auto.
Qed.

(** ** String readers *)

Lemma string_reader_back E inp s r : (length inp < fuel E)%nat -> inv E inp s r ->
  back E (d_next_string_reader E TEof s r) s r.
Proof.
  intros Hf Hi. unfold d_next_string_reader, dbind, dupdate, dret. pose proof (start_good E inp TEof TString false s r Hf Hi) as Hg.
  pose proof (start_back E inp TString false s r Hf Hi) as Hb.
  destruct (d_start E TEof TString false s r) as [p s1 r1|e s1 r1| | |]; auto.
  destruct Hg as (Hi1 & Hs & Hn & Ha & Hpk & Hty & _ & _ & _). destruct Hb as [Hsep Hb].
  cbn. unfold ready at 1. cbn [string_reader_active set_active]. intros (body & v & t' & -> & Hbody & Hbeh). apply Hb.
  destruct p; try discriminate. apply (string_rest E inp s1 (set_active true s1) _ body v t'); auto.
  rewrite <- app_assoc. reflexivity.
Qed.

Lemma sv_loop_back E inp f : forall len out sv s r, inv E inp s r -> string_reader_active s = true ->
  back E (d_sv_loop f len out sv s r) s r.
Proof.
  induction f as [|f IH]; intros len out sv s r Hi Ha; cbn [d_sv_loop]; [destruct (Nat.ltb _ _); [exact I|apply back_ret]|].
  destruct (Nat.ltb (length out) len); [|apply back_ret].
  destruct (negb _); [exact I|].
  assert (Hpk : peeked s = None).
  { pose proof (i_peek _ _ _ _ Hi) as Hp. unfold peek_ok in Hp. destruct (peeked s); [|reflexivity]. destruct Hp. congruence. }
  pose proof (scan_unit_sound r (i_bytes _ _ _ _ Hi)) as Hu.
  destruct (scan_unit r) as [r'|bs w r'|]; [| |exact I].
  - unfold dbind, dupdate.
    assert (Hi1 : inv E inp (set_active false (move [B_QUOTE] s)) r').
    { pose proof (inv_moved E inp s r [B_QUOTE] r' Hi Hpk Hu (tok_valid PkStringStart) ltac:(repeat constructor; lia)) as [].
      split; auto. unfold peek_ok in *. cbn. rewrite peeked_move, Hpk. exact I. }
    assert (Hn : expects_member_name (set_active false (move [B_QUOTE] s)) = false).
    { cbn. rewrite expects_name_move. exact (i_active _ _ _ _ Hi Ha). }
    assert (Hpk1 : peeked (set_active false (move [B_QUOTE] s)) = None) by (cbn; rewrite peeked_move; exact Hpk).
    pose proof (value_end_back E inp _ r' Hi1 Hpk1 Hn eq_refl) as Hv.
    pose proof (value_end_pure (set_active false (move [B_QUOTE] s)) r') as Hp.
    destruct (d_on_value_end _ r') as [x s2 r2|e s2 r2| | |]; try contradiction; try exact I. cbn. intros Hr.
    unfold ready. rewrite Ha. exists [], [], r'. split; [exact Hu|]. split; [constructor|].
    eapply behind_same; [|exact (Hv Hr)]. cbn. apply (same_move [B_QUOTE] s).
  - destruct Hu as (He & c & -> & Hu). destruct (unit_text_valid _ _ Hu) as [Hv Hg]. cbv zeta.
    destruct (Nat.ltb _ _); [exact I|].
    pose proof (inv_moved E inp s r w r' Hi Hpk He Hv Hg) as Hi1.
    assert (Ha1 : string_reader_active (move w s) = true) by (rewrite active_move; exact Ha).
    match goal with |- back E (d_sv_loop f len ?o ?v ?a ?b) s r => pose proof (IH len o v a b Hi1 Ha1) as H end.
    assert (Hstep : ready E (move w s) r' -> ready E s r).
    { unfold ready. rewrite Ha1, Ha. intros (body & v & t' & -> & Hbody & Hbeh).
      exists (w ++ body), (c :: v), t'. rewrite <- app_assoc. split; [exact He|]. split; [apply str_text_cons; assumption|].
      eapply behind_same; [|exact Hbeh]. apply (same_move w s). }
    match goal with |- back E ?m s r => destruct m; cbn in *; auto end.
Qed.

Lemma sv_read_back E inp len sv s r : inv E inp s r -> reader_ok s (Some sv) -> back E (d_sv_read E len sv s r) s r.
Proof.
  intros Hi (He & Ha). unfold d_sv_read. destruct (sv_reached_end sv) eqn:Er; [apply back_ret|].
  destruct (Nat.eqb len 0); [apply back_ret|]. cbn [orb]. cbv zeta. apply (sv_loop_back E inp); auto.
Qed.

(** ** Client programs *)

Definition dready (E : env) (d : dstate) : Prop := match d with DRun s _ r => ready E s r | _ => False end.

Lemma run_back {A : Type} E (m : D A) val s r : back E (m s r) s r -> dready E (snd (d_run m val s r)) -> ready E s r.
Proof. unfold d_run. destruct (m s r); cbn; tauto. Qed.

Lemma call_back E inp c d : (length inp < fuel E)%nat -> dinv E inp d -> dready E (snd (d_call E TEof c d)) -> dready E d.
Proof.
  intros Hf Hd. destruct d as [s rd r|held| | |]; cbn [d_call]; try exact (fun H => H).
  2: { destruct c; cbn; try contradiction; destruct held; cbn; try contradiction; destruct path; cbn; contradiction. }
  destruct Hd as [Hi Hrd]. cbn [dready].
  destruct c; cbn [d_call_run]; try (apply run_back;
      first [ apply (peek_back E inp s r Hf Hi) | apply (has_next_back E inp s r Hf Hi)
            | apply (begin_array_back E inp s r Hf Hi) | apply (end_array_back E inp s r Hf Hi)
            | apply (begin_object_back E inp s r Hf Hi) | apply (end_object_back E inp s r Hf Hi)
            | apply (next_name_back E inp s r Hf Hi) | apply (skip_name_back E inp s r Hf Hi)
            | apply (next_string_back E inp s r Hf Hi) | apply (number_back E inp _ s r Hf Hi)
            | apply (next_bool_back E inp s r Hf Hi) | apply (next_null_back E inp s r Hf Hi)
            | apply (skip_value_back E inp s r Hf Hi) | apply (seek_to_back E inp _ s r Hf Hi)
            | apply (seek_back_pieces_back E inp _ s r Hf Hi) | apply (skip_to_top_level_back E inp s r Hf Hi) ]; fail).
  - unfold d_run_reader. pose proof (string_reader_back E inp s r Hf Hi) as H. destruct (d_next_string_reader E TEof s r); cbn in *; tauto.
  - unfold d_run_read. destruct rd as [sv|]; [|cbn; auto]. pose proof (sv_read_back E inp len sv s r Hi Hrd) as H.
    destruct (d_sv_read E len sv s r) as [[]| |[]| |]; cbn in *; tauto.
  - cbn. auto.
  - unfold d_run_consume. destruct (d_consume_trailing E TEof s r); cbn; contradiction.
Qed.

Lemma calls_back E inp cs : (length inp < fuel E)%nat -> forall d, dinv E inp d ->
  dready E (snd (d_calls E TEof cs d)) -> dready E d.
Proof.
  intros Hf. induction cs as [|c cs IH]; intros d Hd; cbn [d_calls]; [auto|].
  pose proof (call_good E inp TEof c d Hf Hd) as Hc. pose proof (call_back E inp c d Hf Hd) as Hb.
  destruct (d_call E TEof c d) as [o d1]. cbn [snd] in *. specialize (IH d1 Hc).
  destruct (d_calls E TEof cs d1) as [os d2]. cbn [snd] in *. auto.
Qed.

Lemma start_document s f t : dready (Env s f) (DRun (rstate_new s) None t) ->
  exists vs, input_text s vs t /\ within_limit s vs.
Proof.
  cbn. unfold ready. cbn [string_reader_active rstate_new]. intros (fs & vs & st & [P1 P2 _ [P3 P4] P5 P6]).
  assert (fs = []) as -> by (destruct fs; [reflexivity|discriminate]).
  cbn in P4. destruct st; [discriminate|]. destruct P5 as (_ & Hne & Hsingle). cbn in Hsingle.
  unfold text_ok in P6. cbn [peeked rstate_new cfg] in P6. apply cur_stream in P6.
  exists vs. split.
  - unfold input_text. destruct (allow_multiple_top_level s); [split; assumption|].
    specialize (Hsingle eq_refl). destruct vs as [|v [|? ?]]; try contradiction; try discriminate.
    exists v. split; [reflexivity|]. inversion P6 as [|w v' tv vs' t' Hw Hv Hst Hg]; subst. inversion Hst; subst.
    exists w, tv, t'. auto.
  - unfold within_limit. unfold fits in P2. cbn [cfg] in P2. destruct (max_nesting_depth s); [apply P2|exact I].
Qed.

Lemma consume_ok E t s r s' r' : d_consume_trailing E t s r = MOk tt s' r' ->
  string_reader_active s = false /\ stack s = [] /\ is_empty s = false /\
  exists w, ws_scan E t None r = SOk (w, []).
Proof.
  unfold d_consume_trailing, dbind, dget, dmisuse_if, dmisuse, dret, dfail, d_ws.
  destruct (string_reader_active s); [discriminate|]. destruct (stack s); [|discriminate].
  destruct (is_empty s); [discriminate|]. destruct (ws_scan E t None r) as [[w [|b l]]| |]; try discriminate. intros _. eauto.
Qed.

Lemma consume_ready E inp s r s' r' : (length inp < fuel E)%nat -> inv E inp s r ->
  d_consume_trailing E TEof s r = MOk tt s' r' -> peeked s = None -> ready E s r.
Proof.
  intros Hf Hi Hc Hpk. apply consume_ok in Hc as (Ha & Hst & Hem & w & Hw). unfold ready. rewrite Ha.
  assert (Hmu : (length r <= length inp)%nat).
  { pose proof (mu_bound _ _ _ _ Hi) as H. unfold mu, ahead, held in H. rewrite Hpk in H. exact H. }
  pose proof (ws_scan_ok E TEof None r (i_bytes _ _ _ _ Hi) ltac:(lia)) as H. rewrite Hw in H.
  destruct H as (-> & _ & _ & Ht & _). rewrite app_nil_r in *.
  exists [], [], true. split; auto.
  - unfold fits. destruct (max_nesting_depth (cfg E)); [split; [exact I|constructor]|exact I].
  - split; [|exact Hem]. destruct (expects_member_name s) eqn:En; [|reflexivity].
    apply (i_name _ _ _ _ Hi) in En. unfold is_in_object in En. rewrite Hst in En. discriminate.
  - cbn. auto.
  - unfold text_ok. rewrite Hpk. right. splits; auto. destruct Ht as [H|[_ H]]; [left; exact H|exact H].
Qed.

Lemma d_calls_app E t cs1 : forall cs2 d, d_calls E t (cs1 ++ cs2) d =
  (fst (d_calls E t cs1 d) ++ fst (d_calls E t cs2 (snd (d_calls E t cs1 d))),
   snd (d_calls E t cs2 (snd (d_calls E t cs1 d)))).
Proof.
  induction cs1 as [|c cs1 IH]; intros cs2 d; cbn [app d_calls].
  - cbn [fst snd app]. apply surjective_pairing.
  - destruct (d_call E t c d) as [o d1]. rewrite IH. destruct (d_calls E t cs1 d1) as [os d2].
    cbn [fst snd]. reflexivity.
Qed.

Lemma d_session_length E t cs : forall d, length (fst (d_calls E t cs d)) = length cs.
Proof.
  induction cs as [|c cs IH]; intros d; cbn [d_calls]; [reflexivity|]. destruct (d_call E t c d) as [o d1].
  specialize (IH d1). destruct (d_calls E t cs d1). cbn in *. congruence.
Qed.

(** From the results of a session to the states of the reader *)
Lemma session_split s evs cs1 cs2 os : Forall is_byte (fst (supplied evs)) ->
  read_session s evs (cs1 ++ cs2) = os ->
  let E := Env s (enough_fuel (fst (supplied evs))) in
  let d := snd (d_calls E (snd (supplied evs)) cs1 (DRun (rstate_new s) None (fst (supplied evs)))) in
  dinv E (fst (supplied evs)) d /\
  Forall2 matches (skipn (length cs1) os) (fst (d_calls E (snd (supplied evs)) cs2 d)) /\
  length os = length (cs1 ++ cs2).
Proof.
  intros Hb Hos. cbv zeta. set (E := Env _ _). set (d0 := DRun _ _ _).
  destruct (session_agree s evs (cs1 ++ cs2) (session_no_bug s evs _ Hb)) as (os' & st' & a' & _ & Hos' & Hm).
  rewrite Hos in Hos'. subst os'.
  assert (Hd : d_session s evs (cs1 ++ cs2) = d_calls E (snd (supplied evs)) (cs1 ++ cs2) d0) by reflexivity.
  rewrite Hd, d_calls_app in Hm. cbn [fst] in Hm. split.
  - apply calls_good; [cbn; unfold enough_fuel; lia|]. split; [apply inv_start; exact Hb|exact I].
  - pose proof (d_session_length E (snd (supplied evs)) cs1 d0) as Hl.
    apply Forall2_app_inv_r in Hm as (l1 & l2 & H1 & H2 & ->).
    assert (Hl1 : length l1 = length cs1).
    { rewrite <- Hl. clear - H1. induction H1; cbn; congruence. }
    rewrite skipn_app, <- Hl1, skipn_all, Nat.sub_diag. split; [exact H2|].
    rewrite !app_length, Hl1. f_equal. rewrite <- (d_session_length E (snd (supplied evs)) cs2 (snd (d_calls E (snd (supplied evs)) cs1 d0))).
    clear - H2. induction H2; cbn; congruence.
Qed.

Lemma consume_eof E t s r x s' r' : d_consume_trailing E t s r = MOk x s' r' ->
  Forall is_byte r -> (length r < fuel E)%nat -> is_eof t = true.
Proof.
  destruct x. intros H Hb Hl. apply consume_ok in H as (_ & _ & _ & w & Hw).
  pose proof (ws_scan_ok E t None r Hb Hl) as H. rewrite Hw in H. apply H. reflexivity.
Qed.

(** A session which ends with a successful [consume_trailing_whitespace] *)
Lemma consumed_document s evs cs : Forall is_byte (fst (supplied evs)) ->
  (allow_multiple_top_level s = false \/ exists cs', cs = cs' ++ [CHasNext] /\
     nth_error (read_session s evs (cs ++ [CConsumeTrailingWhitespace])) (length cs') = Some (OOk (RBool false))) ->
  nth_error (read_session s evs (cs ++ [CConsumeTrailingWhitespace])) (length cs) = Some (OOk RUnit) ->
  exists vs, snd (supplied evs) = TEof /\ input_text s vs (fst (supplied evs)) /\ within_limit s vs.
Proof.
  intros Hb Hmode Hlast. destruct (session_split s evs cs [CConsumeTrailingWhitespace] _ Hb eq_refl) as (Hd & Hm & Hlen).
  set (E := Env s (enough_fuel (fst (supplied evs)))) in *. set (inp := fst (supplied evs)) in *.
  set (t := snd (supplied evs)) in *. set (d0 := DRun (rstate_new s) None inp) in *.
  assert (Hf : (length inp < fuel E)%nat) by (cbn; unfold enough_fuel; lia).
  set (os := read_session s evs (cs ++ [CConsumeTrailingWhitespace])) in *.
  assert (Hsk : skipn (length cs) os = [OOk RUnit]).
  { rewrite app_length in Hlen. cbn in Hlen. clear - Hlen Hlast. revert Hlen Hlast. generalize (length cs). induction os as [|o os IH]; intros n Hlen Hl.
    - destruct n; discriminate.
    - destruct n; cbn in *; [destruct os; [congruence|cbn in Hlen; lia]|]. apply IH; auto; lia. }
  rewrite Hsk in Hm.
  destruct (snd (d_calls E t cs d0)) as [s1 rd r1|held| | |] eqn:Ed; cbn [d_calls d_call d_call_run d_call_dead] in Hm;
    try (inversion Hm as [|? ? ? ? H1 _]; subst; cbn in H1; discriminate H1).
  2: { inversion Hm as [|? ? ? ? H1 _]; subst. cbn in H1. contradiction. }
  destruct Hd as [Hi Hrd]. unfold d_run_consume in Hm.
  assert (Hl1 : (length r1 < fuel E)%nat).
  { pose proof (mu_bound _ _ _ _ Hi) as H. unfold mu, ahead in H. rewrite app_length in H. lia. }
  destruct (d_consume_trailing E t s1 r1) as [x s2 r2|e s2 r2|n| |] eqn:Ec;
    try (inversion Hm as [|? ? ? ? H1 _]; subst; cbn in H1; try contradiction; discriminate H1).
  2: { inversion Hm as [|? ? ? ? H1 _]; subst. cbn in H1. destruct n; [destruct H1; discriminate|]. destruct H1 as (? & ? & _). discriminate. }
  pose proof (consume_eof E t s1 r1 _ _ _ Ec (i_bytes _ _ _ _ Hi) Hl1) as He.
  assert (Ht : t = TEof) by (destruct t; [reflexivity|discriminate]). rewrite Ht in *.
  destruct x. pose proof (consume_ok _ _ _ _ _ _ Ec) as (_ & Hst & Hem & _).
  assert (Hpk : peeked s1 = None).
  { destruct Hmode as [Hs|(cs' & -> & Hn)].
    - destruct (peeked s1) as [p|] eqn:Ep; [|reflexivity]. pose proof (i_peek _ _ _ _ Hi) as H. unfold peek_ok in H. rewrite Ep in H.
      destruct H as (_ & _ & _ & _ & _ & H). unfold is_behind_top_level in H. rewrite Hst, Hem in H. specialize (H eq_refl).
      cbn in H. congruence.
    - rewrite d_calls_app in Ed. cbn [snd] in Ed.
      destruct (session_split s evs (cs' ++ [CHasNext]) [CConsumeTrailingWhitespace] _ Hb eq_refl) as (_ & _ & Hlen2).
      assert (Hos : read_session s evs (cs' ++ [CHasNext; CConsumeTrailingWhitespace]) = os).
      { unfold os. rewrite <- app_assoc. reflexivity. }
      destruct (session_split s evs cs' [CHasNext; CConsumeTrailingWhitespace] _ Hb Hos) as (Hd2 & Hm2 & Hlen3).
      cbv zeta in Hd2, Hm2. fold inp in Hd2, Hm2. fold E in Hd2, Hm2. fold t in Hd2, Hm2. rewrite Ht in Hd2, Hm2. fold d0 in Hd2, Hm2.
      assert (Hsk2 : hd_error (skipn (length cs') os) = Some (OOk (RBool false))).
      { rewrite <- Hn. clear. generalize (length cs'). induction os as [|o os IH]; intros [|n]; cbn; auto. }
      destruct (snd (d_calls E TEof cs' d0)) as [s0 rd0 r0|held| | |] eqn:Ed0; clear Hm; cbn [d_calls d_call d_call_run snd] in Ed;
        try discriminate Ed.
      destruct Hd2 as [Hi0 _].
      pose proof (has_next_good E inp TEof s0 r0 Hf Hi0) as Hg. cbn [d_calls d_call d_call_run] in Hm2. unfold d_run in Ed, Hm2.
      destruct (d_has_next E TEof s0 r0) as [h s3 r3|e s3 r3|n| |]; cbn [snd] in Ed; try discriminate Ed;
        injection Ed as -> _ ->.
      + destruct Hg as (_ & _ & _ & _ & _ & Hg). destruct (skipn (length cs') os) as [|o l]; [discriminate|].
        cbn in Hsk2. injection Hsk2 as ->. destruct (d_call E TEof CConsumeTrailingWhitespace _) as [? ?].
        inversion Hm2 as [|? ? ? ? H1 _]; subst. cbn in H1. injection H1 as <-.
        destruct (peeked s1) as [p|] eqn:Ep; [|reflexivity].
        (* an end token at the top level *)
        pose proof (i_peek _ _ _ _ Hi) as H. unfold peek_ok in H. rewrite Ep in H. destruct H as (_ & H1 & H2 & _).
        assert (En : expects_member_name s1 = false).
        { destruct (expects_member_name s1) eqn:En; [|reflexivity]. apply (i_name _ _ _ _ Hi) in En. unfold is_in_object in En. rewrite Hst in En. discriminate. }
        rewrite En in H1. destruct H1 as [H1 H1']. destruct p; try discriminate Hg; try congruence.
        unfold is_in_array in H2. rewrite Hst in H2. discriminate H2. reflexivity.
      + destruct (skipn (length cs') os) as [|o l]; [discriminate|].
        cbn in Hsk2. injection Hsk2 as ->. destruct (d_call E TEof CConsumeTrailingWhitespace _) as [? ?].
        inversion Hm2 as [|? ? ? ? H1 _]; subst. cbn in H1. discriminate H1. }
  pose proof (consume_ready E inp s1 r1 s2 r2 Hf Hi Ec Hpk) as Hr.
  assert (Hd0 : dinv E inp d0) by (split; [apply inv_start; exact Hb|exact I]).
  pose proof (calls_back E inp cs Hf d0 Hd0) as Hback. rewrite Ed in Hback. specialize (Hback Hr).
  destruct (start_document s _ inp Hback) as (vs & H1 & H2). exists vs. auto.
Qed.
