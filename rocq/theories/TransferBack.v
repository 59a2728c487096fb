(** * Copying from any input

    Auxiliary: whatever the input is, [transfer_to] ends, it does not cause an
    internal panic, and if it succeeds then it has read the text of a value. *)

From Verif Require Import Base Utf8Model Utf8Proofs NumberModel SpecJson WriterModel SourceModel SourceProofs ReaderModel
  ReaderScan ReaderLex ReaderLexStr ReaderMid ReaderAgree ReaderSess ReaderGrammar ReaderSafe SpecCursor ReaderFits SpecRead TransferModel SpecTransfer SpecReformat
  TransferProofs ReaderBack.

(** [m] ends, not with an internal panic, and if it succeeds then [Q] holds *)
Definition tgood {F W A : Type} (h : handler F W) (E : env) (inp : bytes) (t : tail_end) (m : T F W A) (s : rstate) (r : bytes)
  (Q : A -> rstate -> bytes -> Prop) : Prop :=
  forall w kn, exists o s' w' a', arun (m s w) (At r t kn) = Some ((o, s', w'), a') /\ (tame h -> settled o) /\
  match o with
  | Ok x => exists r' kn', a' = At r' t kn' /\ inv E inp s' r' /\ Q x s' r'
  | _ => True
  end.

Lemma tgood_bind {F W A B : Type} (h : handler F W) E inp t (m : T F W A) (f : A -> T F W B) s r Q Q2 : tgood h E inp t m s r Q ->
  (forall x s' r', inv E inp s' r' -> Q x s' r' -> tgood h E inp t (f x) s' r' Q2) -> tgood h E inp t (tbind m f) s r Q2.
Proof.
  intros H Hf w kn. destruct (H w kn) as (o & s' & w' & a' & He & Hs & Ho). rewrite (tbind_run _ _ _ _ _ _ He).
  destruct o as [x|e|k|]; try (eexists _, _, _, _; split; [reflexivity|]; split; [exact Hs|exact I]; fail).
  destruct Ho as (r' & kn' & -> & Hi & Hq). exact (Hf x s' r' Hi Hq w' kn').
Qed.

Lemma tgood_impl {F W A : Type} (h : handler F W) E inp t (m : T F W A) s r (Q Q2 : A -> rstate -> bytes -> Prop) : tgood h E inp t m s r Q ->
  (forall x s' r', inv E inp s' r' -> Q x s' r' -> Q2 x s' r') -> tgood h E inp t m s r Q2.
Proof.
  intros H Hq w kn. destruct (H w kn) as (o & s' & w' & a' & He & Hs & Ho). exists o, s', w', a'. splits; auto.
  destruct o; auto. destruct Ho as (r' & kn' & -> & Hi & Hx). eauto 10.
Qed.

Lemma tgood_ret {F W A : Type} (h : handler F W) E inp t (x : A) s r (Q : A -> rstate -> bytes -> Prop) : inv E inp s r -> Q x s r -> tgood h E inp t (@tret F W A x) s r Q.
Proof. intros Hi Hq w kn. exists (Ok x), s, w, (At r t kn). splits; [reflexivity|intros _; exact I|]. eauto. Qed.

Lemma tgood_state {F W B : Type} (h : handler F W) E inp t (f : rstate -> T F W B) s r Q : tgood h E inp t (f s) s r Q ->
  tgood h E inp t (tbind (on_reader get_state) f) s r Q.
Proof. intros H w kn. destruct (H w kn) as (o & s' & w' & a' & He & Ho). exists o, s', w', a'. split; [exact He|exact Ho]. Qed.

Lemma tgood_writer {F W : Type} (h : handler F W) E inp t p s r (Q : unit -> rstate -> bytes -> Prop) : inv E inp s r -> Q tt s r ->
  tgood h E inp t (on_writer h p) s r Q.
Proof.
  intros Hi Hq w kn. assert (H : tame h -> settled (fst (h p w))) by (intros Ht; exact (Ht p w)). unfold on_writer. destruct (h p w) as [[[]|e|k|] w']; cbn [fst] in H;
    (eexists _, _, _, _; split; [reflexivity|]; split; [exact H|]); auto. eauto.
Qed.

Lemma tgood_reader {F W A : Type} (h : handler F W) E inp t (m : M A) d s r Q : agree t m d -> good E inp (d s r) Q ->
  tgood h E inp t (@on_reader F W A m) s r (fun x s' r' => Q x s' r' /\ d s r = MOk x s' r').
Proof.
  intros Ha Hg w kn. specialize (Ha s r kn). unfold on_reader. destruct (d s r) as [x s' r'|e s' r'|[n|]| |]; cbn in Ha, Hg.
  - destruct Ha as (kn' & Ha). exists (Ok x), s', w, (At r' t kn'). rewrite arun_bind. unfold exec in Ha. rewrite Ha. splits; [reflexivity|intros _; exact I|].
    destruct Hg. eauto 10.
  - destruct Ha as (_ & kn' & Ha). eexists _, _, _, _. rewrite arun_bind. unfold exec in Ha. rewrite Ha. split; [reflexivity|]. split; [intros _|]; exact I.
  - destruct Ha as (l & s' & a' & Ha). eexists _, _, _, _. rewrite arun_bind. unfold exec in Ha. rewrite Ha. split; [reflexivity|]. split; [intros _|]; exact I.
  - destruct Ha as (l & s' & a' & Ha & _). eexists _, _, _, _. rewrite arun_bind. unfold exec in Ha. rewrite Ha. split; [reflexivity|]. split; [intros _|]; exact I.
  - destruct Ha as (s' & a' & Ha). eexists _, _, _, _. rewrite arun_bind. unfold exec in Ha. rewrite Ha. split; [reflexivity|]. split; [intros _|]; exact I.
  - contradiction.
Qed.

(** ** Strings *)

(** Inside a string value: nothing has been peeked *)
Definition within (s : rstate) : Prop := peeked s = None /\ expects_member_name s = false /\ string_reader_active s = false.

Lemma within_move w s : within s -> within (move w s).
Proof. unfold within. autorewrite with mv. auto. Qed.

Lemma in_string_end_back E s r r' : r = B_QUOTE :: r' -> behind E (move [B_QUOTE] s) r' -> in_string E s r.
Proof.
  intros -> H. exists [], [], r'. splits; [reflexivity|constructor|]. eapply behind_same; [|exact H]. apply (same_move [B_QUOTE] s).
Qed.
Lemma in_string_char_back E s w c r' : unit_text w c -> in_string E (move w s) r' -> in_string E s (w ++ r').
Proof.
  intros Hu (body & v & t' & -> & Hb & H). exists (w ++ body), (c :: v), t'. rewrite <- app_assoc. splits; [reflexivity|apply str_text_cons; assumption|].
  eapply behind_same; [|exact H]. apply (same_move w s).
Qed.

Lemma fill_good E inp t f : forall p s r kn, inv E inp s r -> within s -> (length (encode_utf8 p) + f >= 64)%nat ->
  (length (encode_utf8 p) <= 64)%nat -> Forall is_char p ->
  exists o s' a', exec (fill_buffer f (encode_utf8 p)) s (At r t kn) = Some ((o, s'), a') /\ settled o /\
  match o with
  | Ok (e, bs) => exists q r' kn', a' = At r' t kn' /\ bs = encode_utf8 q /\ Forall is_char q /\ inv E inp s' r' /\ within s' /\ stack s' = stack s /\
      (length r' <= length r)%nat /\ ((length (encode_utf8 p) <= 60)%nat -> (length r' < length r)%nat) /\
      ((if e : bool then behind E s' r' else in_string E s' r') -> in_string E s r)
  | _ => True
  end.
Proof.
  assert (Hstop : forall p s r kn, inv E inp s r -> within s -> (60 < length (encode_utf8 p))%nat -> Forall is_char p ->
    exists o s' a', exec (ret (false, encode_utf8 p)) s (At r t kn) = Some ((o, s'), a') /\ settled o /\
    match o with
    | Ok (e, bs) => exists q r' kn', a' = At r' t kn' /\ bs = encode_utf8 q /\ Forall is_char q /\ inv E inp s' r' /\ within s' /\ stack s' = stack s /\
        (length r' <= length r)%nat /\ ((length (encode_utf8 p) <= 60)%nat -> (length r' < length r)%nat) /\
        ((if e : bool then behind E s' r' else in_string E s' r') -> in_string E s r)
    | _ => True
    end).
  { intros p s r kn Hi Hw Hx Hc. eexists _, _, _. split; [reflexivity|]. split; [exact I|]. exists p, r, kn. splits; auto. lia. }
  induction f as [|f IH]; intros p s r kn Hi Hw Hf Hp Hc; cbn [fill_buffer]; unfold MAX_BYTES_PER_CHAR, TRANSFER_BUF_SIZE.
  - destruct (Nat.leb_spec 4 (64 - length (encode_utf8 p))) as [Hx|Hx]; [lia|]. apply Hstop; auto. lia.
  - destruct (Nat.leb_spec 4 (64 - length (encode_utf8 p))) as [Hx|Hx]; [|apply Hstop; auto; lia].
    pose proof (read_string_bytes_ex s r t kn) as He. pose proof (scan_unit_sound r (i_bytes _ _ _ _ Hi)) as Hu.
    destruct (scan_unit r) as [r'|bs w r'|].
    + rewrite (exec_bind_ok _ _ _ _ _ _ _ He). cbn [fst snd]. rewrite !app_nil_r.
      destruct (Nat.ltb_spec 64 (length (encode_utf8 p))) as [Hy|_]; [lia|]. eexists _, _, _. split; [reflexivity|]. split; [exact I|].
      destruct Hw as (Hw1 & Hw2 & Hw3).
      pose proof (inv_moved E inp s r [B_QUOTE] r' Hi Hw1 Hu (tok_valid PkStringStart) ltac:(repeat constructor; lia)) as Hi1.
      exists p, r', false. splits; auto.
      * apply within_move. unfold within. auto.
      * subst r. cbn. lia.
      * intros _. subst r. cbn. lia.
      * apply in_string_end_back. exact Hu.
    + destruct Hu as (-> & c & -> & Hu). destruct (unit_text_valid _ _ Hu) as [Hv Hg].
      rewrite (exec_bind_ok _ _ _ _ _ _ _ He). cbn [fst snd].
      pose proof (encode_char_max c) as Hmax.
      assert (Hmin : (1 <= length (encode_char c))%nat).
      { unfold encode_char. repeat match goal with |- context [if ?b then _ else _] => destruct b end; cbn; lia. }
      assert (Happ : encode_utf8 p ++ encode_char c = encode_utf8 (p ++ [c])).
      { unfold encode_utf8. rewrite flat_map_app. cbn. rewrite app_nil_r. reflexivity. }
      rewrite Happ.
      assert (Hlen : length (encode_utf8 (p ++ [c])) = (length (encode_utf8 p) + length (encode_char c))%nat) by (rewrite <- Happ, app_length; reflexivity).
      destruct (Nat.ltb_spec 64 (length (encode_utf8 (p ++ [c])))) as [Hy|_]; [lia|].
      destruct Hw as (Hw1 & Hw2 & Hw3).
      pose proof (inv_moved E inp s _ w r' Hi Hw1 eq_refl Hv Hg) as Hi1.
      destruct (IH (p ++ [c]) (move w s) r' false Hi1) as (o & s2 & a2 & He2 & Hs2 & Ho).
      { apply within_move. unfold within. auto. }
      { lia. }
      { lia. }
      { apply Forall_app. split; [exact Hc|]. constructor; [|constructor]. exact (unit_text_char _ _ Hu). }
      exists o, s2, a2. splits; auto. destruct o as [[e bs]|e|k|]; auto.
      destruct Ho as (q & r2 & kn2 & -> & -> & Hq & Hi2 & Hw' & Hst & Hl & _ & Hb). exists q, r2, kn2.
      pose proof (unit_text_nonempty _ _ Hu) as Hne.
      assert (Hwl : (1 <= length w)%nat) by (destruct w; [contradiction|cbn; lia]).
      rewrite app_length. splits; auto; [|lia|lia|].
      * rewrite Hst. apply (same_move w s).
      * intros H. eapply in_string_char_back; [exact Hu|]. apply Hb. exact H.
    + destruct He as (e & s' & a' & He & _). rewrite exec_bind, He. eexists _, _, _. split; [reflexivity|]. split; exact I.
Qed.

Lemma transfer_string_good {F W : Type} (h : handler F W) E inp t f : forall s r, inv E inp s r -> within s -> (length r < f)%nat ->
  tgood h E inp t (transfer_string h f) s r (fun _ s' r' => within s' /\ stack s' = stack s /\ (length r' <= length r)%nat /\ (behind E s' r' -> in_string E s r)).
Proof.
  induction f as [|f IH]; intros s r Hi Hw Hf; [lia|]. cbn [transfer_string].
  apply (tgood_bind h E inp t _ _ s r (fun x s' r' => exists q, snd x = encode_utf8 q /\ Forall is_char q /\ within s' /\ stack s' = stack s /\
    (length r' < length r)%nat /\ ((if fst x : bool then behind E s' r' else in_string E s' r') -> in_string E s r))).
  { intros w kn. destruct (fill_good E inp t 64 [] s r kn Hi Hw ltac:(cbn; lia) ltac:(cbn; lia) ltac:(constructor)) as (o & s1 & a1 & He & Hs & Ho).
    cbn [encode_utf8 flat_map] in He. unfold on_reader. rewrite arun_bind. unfold exec in He. unfold TRANSFER_BUF_SIZE. rewrite He.
    destruct o as [[e bs]|e|k|]; try (eexists _, _, _, _; split; [reflexivity|]; split; [intros _; exact Hs|exact I]; fail).
    eexists _, _, _, _. split; [reflexivity|]. split; [intros _; exact I|].
    destruct Ho as (q & r1 & kn1 & -> & -> & Hq & Hi1 & Hw1 & Hst & Hl & Hl2 & Hb). exists r1, kn1. splits; auto. exists q. splits; auto. apply Hl2. cbn. lia. }
  intros [e bs] s1 r1 Hi1 (q & Hbs & Hq & Hw1 & Hst1 & Hl1 & Hb1). cbn [fst snd] in *. subst bs.
  apply (tgood_bind h E inp t _ _ s1 r1 (fun _ s' r' => s' = s1 /\ r' = r1)).
  { intros w kn. unfold to_str_unchecked. rewrite from_utf8_encode by exact Hq. eexists _, _, _, _. split; [reflexivity|]. split; [intros _; exact I|]. eauto 10. }
  intros x s2 r2 _ (-> & ->).
  eapply tgood_bind; [apply (tgood_writer h E inp t _ s1 r1 (fun _ s' r' => s' = s1 /\ r' = r1)); auto|].
  intros [] s2 r2 _ (-> & ->). destruct e.
  - apply tgood_ret; auto. splits; auto. lia.
  - eapply tgood_impl; [apply (IH s1 r1 Hi1 Hw1); lia|]. intros [] s2 r2 Hi2 (H1 & H2 & H3 & H4). splits; auto; [congruence|lia].
Qed.

(** ** Values *)

Definition brel (E : env) (t : tail_end) (s : rstate) (r : bytes) (s' : rstate) (r' : bytes) : Prop := t = TEof -> ready E s' r' -> ready E s r.

Lemma brel_refl E t s r : brel E t s r s r.
Proof. intros _ H. exact H. Qed.
Lemma brel_trans E t s r s1 r1 s2 r2 : brel E t s r s1 r1 -> brel E t s1 r1 s2 r2 -> brel E t s r s2 r2.
Proof. intros H1 H2 Ht H. auto. Qed.

Lemma tgood_step {F W A : Type} (h : handler F W) E inp t (m : M A) d s r Q : agree t m d -> good E inp (d s r) Q -> (t = TEof -> back E (d s r) s r) ->
  tgood h E inp t (@on_reader F W A m) s r (fun x s' r' => Q x s' r' /\ brel E t s r s' r').
Proof.
  intros Ha Hg Hb. eapply tgood_impl; [exact (tgood_reader h E inp t m d s r Q Ha Hg)|]. intros x s' r' _ [Hq He]. split; [exact Hq|].
  intros Ht. specialize (Hb Ht). rewrite He in Hb. exact Hb.
Qed.

(** A value has been read and passed on *)
Lemma tgood_put {F W A : Type} (h : handler F W) E inp t (m : M A) d p s r (x : bool) : agree t m d ->
  good E inp (d s r) (fun _ s' r' => (mu s' r' < mu s r)%nat) -> (t = TEof -> back E (d s r) s r) ->
  tgood h E inp t (a <- on_reader m ;; on_writer h (p a) ;; tret x)%tm s r (fun _ s' r' => (mu s' r' < mu s r)%nat /\ brel E t s r s' r').
Proof.
  intros Ha Hg Hb. eapply tgood_bind; [exact (tgood_step h E inp t m d s r _ Ha Hg Hb)|].
  intros a s1 r1 Hi1 H1. cbn beta in H1. eapply tgood_bind; [apply (tgood_writer h E inp t (p a) s1 r1 (fun _ s' r' => s' = s1 /\ r' = r1)); auto|].
  intros [] s2 r2 _ (-> & ->). apply tgood_ret; auto.
Qed.

Lemma good_mu {A : Type} E inp (m : mres A) Q s r : good E inp m Q -> (forall x s' r', Q x s' r' -> (mu s' r' < mu s r)%nat) ->
  good E inp m (fun _ s' r' => (mu s' r' < mu s r)%nat).
Proof. intros H HQ. eapply good_impl; [exact H|]. intros x s' r' _ Hq. eauto. Qed.

Lemma transfer_start_good {F W : Type} (h : handler F W) E inp t s r : (length inp < fuel E)%nat -> inv E inp s r ->
  tgood h E inp t (transfer_start E h) s r (fun _ s' r' => (mu s' r' < mu s r)%nat /\ brel E t s r s' r').
Proof.
  intros Hf Hi. unfold transfer_start.
  eapply tgood_bind.
  { apply (tgood_step h E inp t (peek E) (d_peek E t) s r _ (agree_peek E t) (peek_good E inp t s r Hf Hi)). intros ->. exact (peek_back E inp s r Hf Hi). }
  intros ty s1 r1 Hi1 ((_ & _ & _ & Hm & _) & Hb).
  assert (Hdone : forall m : T F W bool, tgood h E inp t m s1 r1 (fun _ s' r' => (mu s' r' < mu s1 r1)%nat /\ brel E t s1 r1 s' r') ->
    tgood h E inp t m s1 r1 (fun _ s' r' => (mu s' r' < mu s r)%nat /\ brel E t s r s' r')).
  { intros m H. eapply tgood_impl; [exact H|]. intros x s2 r2 _ [H1 H2]. split; [lia|]. eapply brel_trans; eassumption. }
  apply Hdone. destruct ty.
  - apply (tgood_put h E inp t (begin_array E) (d_begin_array E t) (fun _ => PutBeginArray)); auto; [apply agree_begin_array| |intros ->; apply (begin_array_back E inp); auto].
    eapply good_mu; [apply begin_array_good; auto|]. cbn. tauto.
  - apply (tgood_put h E inp t (begin_object E) (d_begin_object E t) (fun _ => PutBeginObject)); auto; [apply agree_begin_object| |intros ->; apply (begin_object_back E inp); auto].
    eapply good_mu; [apply begin_object_good; auto|]. cbn. tauto.
  - eapply tgood_bind; [apply (tgood_reader h E inp t _ _ s1 r1 _ (agree_start E t TString false) (start_good E inp t TString false s1 r1 Hf Hi1))|].
    intros p s2 r2 Hi2 ((Hs & Hn & Ha & Hpk & Hty & Hm2 & _) & Hd).
    assert (Hw : within s2). { destruct Hs as (_ & H2 & _ & H4 & _). unfold within. splits; congruence. }
    eapply tgood_bind; [apply (tgood_writer h E inp t _ s2 r2 (fun _ s' r' => s' = s2 /\ r' = r2)); auto|].
    intros [] s3 r3 _ (-> & ->).
    assert (Hmu2 : mu s2 r2 = length r2) by (unfold mu, ahead, held; rewrite Hpk; reflexivity).
    pose proof (mu_bound _ _ _ _ Hi2) as Hbd.
    eapply tgood_bind; [apply (transfer_string_good h E inp t (fuel E) s2 r2 Hi2 Hw); lia|].
    intros [] s3 r3 Hi3 (Hw3 & Hst3 & Hl3 & Hb3).
    eapply tgood_bind; [apply (tgood_writer h E inp t _ s3 r3 (fun _ s' r' => s' = s3 /\ r' = r3)); auto|].
    intros [] s4 r4 _ (-> & ->). destruct Hw3 as (W1 & W2 & W3).
    eapply tgood_bind; [apply (tgood_reader h E inp t _ _ s3 r3 _ (agree_value_end t) (value_end_good E inp s3 r3 Hi3 W1 W2 W3))|].
    intros [] s5 r5 Hi5 ((_ & _ & _ & _ & _ & Hm5) & Hd5). apply tgood_ret; auto.
    assert (Hmu3 : mu s3 r3 = length r3) by (unfold mu, ahead, held; rewrite W1; reflexivity).
    assert (Htok : (1 <= length (tok p))%nat) by (destruct p; try discriminate; cbn; lia).
    split; [lia|]. intros -> Hready.
    pose proof (start_back E inp TString false s1 r1 Hf Hi1) as Hsb. rewrite Hd in Hsb. destruct Hsb as [_ Hsb]. apply Hsb.
    pose proof (value_end_back E inp s3 r3 Hi3 W1 W2 W3) as Hve. rewrite Hd5 in Hve.
    destruct (Hb3 (Hve Hready)) as (body & v & t' & Ht' & Hbody & Hbeh).
    destruct p; try discriminate. apply (string_rest E inp s2 s2 r2 body v t'); auto. rewrite <- app_assoc. exact Ht'.
  - apply (tgood_put h E inp t (next_number_as_str E) (d_next_number E t) PutNumber); auto; [apply agree_next_number_str| |intros ->; apply (number_back E inp); auto].
    eapply good_mu; [apply number_good; auto|]. unfold value_read. cbn. tauto.
  - apply (tgood_put h E inp t (next_bool E) (d_next_bool E t) PutBool); auto; [apply agree_next_bool| |intros ->; apply (next_bool_back E inp); auto].
    eapply good_mu; [apply next_bool_good; auto|]. unfold value_read. cbn. tauto.
  - apply (tgood_put h E inp t (next_null E) (d_next_null E t) (fun _ => PutNull)); auto; [apply agree_next_null| |intros ->; apply (next_null_back E inp); auto].
    eapply good_mu; [apply next_null_good; auto|]. unfold value_read. cbn. tauto.
Qed.

Lemma transfer_end_good {F W : Type} (h : handler F W) E inp t s r : (length inp < fuel E)%nat -> inv E inp s r ->
  tgood h E inp t (transfer_end E h) s r (fun _ s' r' => (mu s' r' < mu s r)%nat /\ brel E t s r s' r').
Proof.
  intros Hf Hi. apply tgood_state. destruct (is_in_array s).
  - eapply tgood_bind; [apply (tgood_step h E inp t _ _ s r _ (agree_end_array E t) (end_array_good E inp t s r Hf Hi)); intros ->; apply (end_array_back E inp); auto|].
    intros x s1 r1 Hi1 ((_ & H1) & H2). apply tgood_writer; auto.
  - eapply tgood_bind; [apply (tgood_step h E inp t _ _ s r _ (agree_end_object E t) (end_object_good E inp t s r Hf Hi)); intros ->; apply (end_object_back E inp); auto|].
    intros x s1 r1 Hi1 ((_ & H1) & H2). apply tgood_writer; auto.
Qed.

Lemma transfer_name_good {F W : Type} (h : handler F W) E inp t s r : (length inp < fuel E)%nat -> inv E inp s r ->
  tgood h E inp t (transfer_name E h) s r (fun _ s' r' => (mu s' r' <= mu s r)%nat /\ brel E t s r s' r').
Proof.
  intros Hf Hi. apply tgood_state. destruct (expects_member_name s).
  - eapply tgood_bind; [apply (tgood_step h E inp t _ _ s r _ (agree_next_name E t) (next_name_good E inp t s r Hf Hi)); intros ->; apply (next_name_back E inp); auto|].
    intros x s1 r1 Hi1 ((_ & _ & _ & _ & _ & H1) & H2). apply tgood_writer; auto. split; [lia|exact H2].
  - apply tgood_ret; auto. split; [lia|apply brel_refl].
Qed.

Lemma transfer_loop_good {F W : Type} (h : handler F W) E inp t f : (length inp < fuel E)%nat -> forall depth s r, inv E inp s r -> (mu s r < f)%nat ->
  tgood h E inp t (transfer_loop E h f depth) s r (fun _ s' r' => brel E t s r s' r').
Proof.
  intros Hf. induction f as [|f IH]; intros depth s r Hi Hmu; [lia|]. cbn [transfer_loop].
  eapply tgood_bind.
  { instantiate (1 := fun _ s' r' => (mu s' r' <= mu s r)%nat /\ brel E t s r s' r'). destruct depth.
    - apply tgood_ret; auto. split; [lia|apply brel_refl].
    - eapply tgood_impl; [apply (tgood_step h E inp t _ _ s r _ (agree_has_next E t) (has_next_good E inp t s r Hf Hi)); intros ->; apply (has_next_back E inp); auto|].
      cbn. intros x s' r' _ ((_ & _ & _ & H1 & _) & H2). auto. }
  intros more s1 r1 Hi1 (Hm1 & Hb1).
  apply (tgood_bind h E inp t _ _ s1 r1 (fun _ s' r' => (mu s' r' < mu s1 r1)%nat /\ brel E t s1 r1 s' r')).
  - destruct (negb more).
    + eapply tgood_bind; [apply (transfer_end_good h E inp t s1 r1 Hf Hi1)|]. intros [] s2 r2 Hi2 H2. apply tgood_ret; auto.
    + eapply tgood_bind; [apply (transfer_name_good h E inp t s1 r1 Hf Hi1)|]. intros [] s2 r2 Hi2 (H2 & Hb2).
      eapply tgood_bind; [apply (transfer_start_good h E inp t s2 r2 Hf Hi2)|]. intros st s3 r3 Hi3 (H3 & Hb3). apply tgood_ret; auto.
      split; [lia|]. eapply brel_trans; eassumption.
  - intros d' s2 r2 Hi2 (H2 & Hb2). destruct d'.
    + apply tgood_ret; auto. eapply brel_trans; eassumption.
    + eapply tgood_impl; [apply IH; auto; lia|]. intros x s3 r3 _ Hb3. cbn in Hb3. eapply brel_trans; [exact Hb1|]. eapply brel_trans; eassumption.
Qed.

Lemma transfer_to_good {F W : Type} (h : handler F W) E inp t s r : (length inp < fuel E)%nat -> inv E inp s r ->
  tgood h E inp t (transfer_to E h) s r (fun _ s' r' => brel E t s r s' r').
Proof.
  intros Hf Hi. apply tgood_state.
  eapply tgood_bind; [apply (tgood_reader h E inp t _ (dmisuse_if (expects_member_name s)) s r (fun _ s' r' => s' = s /\ r' = r) (agree_misuse_if t _))|].
  - destruct (expects_member_name s); [exact I|]. split; auto.
  - intros [] s1 r1 _ ((-> & ->) & _). apply transfer_loop_good; auto. pose proof (mu_bound _ _ _ _ Hi). lia.
Qed.
