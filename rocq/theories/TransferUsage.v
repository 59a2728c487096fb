(** * Copying uses the reader and the writer correctly

    Auxiliary: for every input, [transfer_to] calls the methods of the reader and
    of the writer only where they are allowed. *)

From Verif Require Import Base Utf8Model Utf8Proofs NumberModel SpecJson WriterModel SourceModel SourceProofs ReaderModel
  ReaderScan ReaderLex ReaderLexStr ReaderMid ReaderAgree ReaderSess ReaderGrammar ReaderSafe ReaderText ReaderFits TransferModel
  TransferProofs TransferWriter TransferBack ReaderUsage SpecWriter.

(** [Pm] holds for the writer after a panic because of incorrect usage, [Er]
    after an error of the writer, [Bad] after any other failure *)
Definition tfine {F W A : Type} (E : env) (inp : bytes) (t : tail_end) (Pm Er Bad : W -> Prop) (m : T F W A) (s : rstate) (r : bytes) (w : W)
  (Q : A -> rstate -> bytes -> W -> Prop) : Prop :=
  forall kn,
  match arun (m s w) (At r t kn) with
  | Some ((Ok x, s', w'), a') => exists r' kn', a' = At r' t kn' /\ inv E inp s' r' /\ Q x s' r' w'
  | Some ((Panic Misuse, _, w'), _) => Pm w'
  | Some ((Err (inr _), _, w'), _) => Er w'
  | Some ((_, _, w'), _) => Bad w'
  | None => True
  end.

(** The writer accepts the calls which are allowed; [R d]: the document written
    so far is [d] *)
Definition accepts {F W : Type} (multi : bool) (h : handler F W) (R : wdoc -> W -> Prop) (Pm Er Bad : W -> Prop) : Prop :=
  (forall d w, R d w -> Bad w) /\
  forall d p d' w, R d w -> good_put p -> describes multi d (put_call p) d' ->
    match h p w with
    | (Ok _, w') => R d' w'
    | (Panic Misuse, w') => Pm w'
    | (Err _, w') => Er w'
    | (_, w') => Bad w'
    end.

Lemma tfine_bind {F W A B : Type} E inp t Pm Er Bad (m : T F W A) (f : A -> T F W B) s r w Q Q2 : tfine E inp t Pm Er Bad m s r w Q ->
  (forall x s' r' w', inv E inp s' r' -> Q x s' r' w' -> tfine E inp t Pm Er Bad (f x) s' r' w' Q2) -> tfine E inp t Pm Er Bad (tbind m f) s r w Q2.
Proof.
  intros H Hf kn. specialize (H kn). unfold tbind. rewrite arun_bind. destruct (arun (m s w) (At r t kn)) as [[[[o s'] w'] a']|]; [|exact I].
  destruct o as [x|[e|e]|[]|]; cbn [arun]; auto. destruct H as (r' & kn' & -> & Hi & Hq). exact (Hf x s' r' w' Hi Hq kn').
Qed.

Lemma tfine_impl {F W A : Type} E inp t Pm Er Bad (m : T F W A) s r w (Q Q2 : A -> rstate -> bytes -> W -> Prop) : tfine E inp t Pm Er Bad m s r w Q ->
  (forall x s' r' w', inv E inp s' r' -> Q x s' r' w' -> Q2 x s' r' w') -> tfine E inp t Pm Er Bad m s r w Q2.
Proof.
  intros H Hq kn. specialize (H kn). destruct (arun (m s w) (At r t kn)) as [[[[o s'] w'] a']|]; [|exact I].
  destruct o as [x|[e|e]|[]|]; auto. destruct H as (r' & kn' & -> & Hi & Hx). eauto 10.
Qed.

Lemma tfine_ret {F W A : Type} E inp t (Pm Er Bad : W -> Prop) (x : A) s r w (Q : A -> rstate -> bytes -> W -> Prop) : inv E inp s r -> Q x s r w ->
  tfine E inp t Pm Er Bad (@tret F W A x) s r w Q.
Proof. intros Hi Hq kn. cbn. eauto. Qed.

Lemma tfine_state {F W B : Type} E inp t Pm Er Bad (f : rstate -> T F W B) s r w Q : tfine E inp t Pm Er Bad (f s) s r w Q ->
  tfine E inp t Pm Er Bad (tbind (on_reader get_state) f) s r w Q.
Proof. intros H kn. exact (H kn). Qed.

Lemma tfine_reader {F W A : Type} E inp t (Pm Er Bad : W -> Prop) (m : M A) d s r w Q0 Q Qe : agree t m d -> good E inp (d s r) Q0 -> fine E inp (d s r) Q Qe ->
  Bad w -> tfine E inp t Pm Er Bad (@on_reader F W A m) s r w (fun x s' r' w' => Q x s' r' /\ w' = w /\ d s r = MOk x s' r').
Proof.
  intros Ha Hg Hfi Hb kn. specialize (Ha s r kn). unfold on_reader. rewrite arun_bind.
  destruct (d s r) as [x s' r'|e s' r'|[n|]| |]; cbn in Ha, Hg, Hfi.
  - destruct Ha as (kn' & Ha). unfold exec in Ha. rewrite Ha. cbn [arun]. destruct Hfi. eauto 10.
  - destruct Ha as (_ & kn' & Ha). unfold exec in Ha. rewrite Ha. exact Hb.
  - destruct Ha as (l & s' & a' & Ha). unfold exec in Ha. rewrite Ha. exact Hb.
  - destruct Ha as (l & s' & a' & Ha & _). unfold exec in Ha. rewrite Ha. exact Hb.
  - contradiction.
  - contradiction.
Qed.

Lemma tfine_writer {F W : Type} E inp t multi (h : handler F W) R Pm Er Bad p d d' s r w : accepts multi h R Pm Er Bad -> inv E inp s r ->
  R d w -> good_put p -> describes multi d (put_call p) d' ->
  tfine E inp t Pm Er Bad (on_writer h p) s r w (fun _ s' r' w' => s' = s /\ r' = r /\ R d' w').
Proof.
  intros [_ Hh] Hi HR Hg Hd kn. specialize (Hh d p d' w HR Hg Hd). unfold on_writer. destruct (h p w) as [[[]|e|[]|] w']; cbn [arun]; auto. eauto 10.
Qed.

(** ** The document *)

(** An open container whose next element may be written, and one which contains
    another one *)
Definition idle (v : stack_value) (o : open_container) : Prop :=
  match v, o with SArray, OpenArr _ => True | SObject, OpenObj _ None => True | _, _ => False end.
Definition around (v : stack_value) (o : open_container) : Prop :=
  match v, o with SArray, OpenArr _ => True | SObject, OpenObj _ (Some _) => True | _, _ => False end.

(** The containers [cs] have been opened since the document was [d0]; a value may
    be written *)
Definition wpos (d0 : wdoc) (cs : list stack_value) (d : wdoc) : Prop :=
  d_string d = None /\ d_top d = d_top d0 /\ exists os, d_open d = os ++ d_open d0 /\ Forall2 around cs os.
(** The same, behind a value or the start of a container *)
Definition wdone (d0 : wdoc) (cs : list stack_value) (d : wdoc) : Prop :=
  match cs with
  | [] => exists v, d = add_value v d0
  | c :: cs' => d_string d = None /\ d_top d = d_top d0 /\ exists o os, d_open d = o :: os ++ d_open d0 /\ idle c o /\ Forall2 around cs' os
  end.

Lemma wpos_start d0 : d_string d0 = None -> wpos d0 [] d0.
Proof. intros H. unfold wpos. splits; auto. exists []. split; [reflexivity|constructor]. Qed.
Lemma wpos_nil d0 d : d_string d0 = None -> wpos d0 [] d -> d = d0.
Proof.
  intros H0 (H1 & H2 & os & H3 & H4). inversion H4; subst. destruct d, d0; cbn in *. subst. reflexivity.
Qed.
Lemma wpos_allowed multi d0 cs d : value_allowed multi d0 -> wpos d0 cs d -> value_allowed multi d.
Proof.
  intros [H0 H] (H1 & H2 & os & H3 & H4). split; [exact H1|]. inversion H4 as [|v o cs' os' Ho Hos]; subst; cbn in H3; rewrite H3.
  - rewrite H2. exact H.
  - destruct v, o as [|ms [n|]]; cbn in *; try contradiction; auto. discriminate.
Qed.
Lemma wpos_add d0 cs d v : d_string d0 = None -> wpos d0 cs d -> wdone d0 cs (add_value v d).
Proof.
  intros H0 Hp. destruct cs as [|c cs].
  - rewrite (wpos_nil _ _ H0 Hp). exists v. reflexivity.
  - destruct Hp as (H1 & H2 & os & H3 & H4). inversion H4 as [|? o ? os' Ho Hos]; subst. cbn in H3. unfold wdone, add_value. rewrite H3.
    destruct c, o as [items|ms [n|]]; cbn in Ho; try contradiction; cbn; splits; auto; eexists _, _; (split; [reflexivity|]); auto.
Qed.
Lemma wpos_open d0 cs d c o : wpos d0 cs d -> idle c o -> wdone d0 (c :: cs) (open_container_in o d).
Proof. intros (H1 & H2 & os & H3 & H4) Hi. cbn. splits; auto. exists o, os. rewrite H3. auto. Qed.
Lemma wdone_array d0 cs d : wdone d0 (SArray :: cs) d -> wpos d0 (SArray :: cs) d /\
  exists items o, d_string d = None /\ d_open d = OpenArr items :: o /\ wpos d0 cs (Wdoc (d_top d) o None).
Proof.
  intros (H1 & H2 & o & os & H3 & H4 & H5). destruct o as [items|]; [|contradiction]. split.
  - unfold wpos. splits; auto. exists (OpenArr items :: os). split; [exact H3|]. constructor; [exact I|exact H5].
  - exists items, (os ++ d_open d0). unfold wpos. splits; auto. exists os. auto.
Qed.
Lemma wdone_object d0 cs d : wdone d0 (SObject :: cs) d ->
  exists ms o, d_string d = None /\ d_open d = OpenObj ms None :: o /\ wpos d0 cs (Wdoc (d_top d) o None) /\
    forall n, wpos d0 (SObject :: cs) (Wdoc (d_top d) (OpenObj ms (Some n) :: o) None).
Proof.
  intros (H1 & H2 & o & os & H3 & H4 & H5). destruct o as [|ms [n|]]; try contradiction.
  exists ms, (os ++ d_open d0). splits; auto.
  - unfold wpos. splits; auto. exists os. auto.
  - intros n. unfold wpos. splits; auto. exists (OpenObj ms (Some n) :: os). split; [reflexivity|]. constructor; [exact I|exact H5].
Qed.

(** ** Strings *)

Lemma utf8_app a b : encode_utf8 (a ++ b) = encode_utf8 a ++ encode_utf8 b.
Proof. unfold encode_utf8. apply flat_map_app. Qed.

Lemma fill_no_misuse t f : forall buf s r kn o s' a', exec (fill_buffer f buf) s (At r t kn) = Some ((o, s'), a') -> o <> Panic Misuse.
Proof.
  induction f as [|f IH]; intros buf s r kn o s' a' He; cbn [fill_buffer] in He; unfold MAX_BYTES_PER_CHAR, TRANSFER_BUF_SIZE in He;
    destruct (Nat.leb 4 (64 - length buf)); try (injection He as <- _ _; discriminate).
  pose proof (read_string_bytes_ex s r t kn) as Hr. destruct (scan_unit r) as [r'|bs w r'|].
  - rewrite (exec_bind_ok _ _ _ _ _ _ _ Hr) in He. cbn [fst snd] in He. destruct (Nat.ltb _ _); injection He as <- _ _; discriminate.
  - rewrite (exec_bind_ok _ _ _ _ _ _ _ Hr) in He. cbn [fst snd] in He. destruct (Nat.ltb _ _); [injection He as <- _ _; discriminate|].
    exact (IH _ _ _ _ _ _ _ He).
  - destruct Hr as (e & s1 & a1 & Hr & _). rewrite exec_bind, Hr in He. injection He as <- _ _. discriminate.
Qed.

Lemma tfine_string {F W : Type} multi (h : handler F W) R Pm Er Bad E inp t top open f : accepts multi h R Pm Er Bad ->
  forall s r w text, inv E inp s r -> within s -> Forall is_char text -> R (Wdoc top open (Some (encode_utf8 text))) w ->
  tfine E inp t Pm Er Bad (transfer_string h f) s r w (fun _ s' r' w' => within s' /\ stack s' = stack s /\
    exists text', Forall is_char text' /\ R (Wdoc top open (Some (encode_utf8 text'))) w').
Proof.
  intros Hacc. induction f as [|f IH]; intros s r w text Hi Hw Ht HR; [intros kn; exact (proj1 Hacc _ _ HR)|]. cbn [transfer_string].
  apply (tfine_bind E inp t Pm Er Bad _ _ s r w (fun x s' r' w' => w' = w /\ exists q, snd x = encode_utf8 q /\ Forall is_char q /\ within s' /\ stack s' = stack s)).
  { intros kn. destruct (fill_good E inp t 64 [] s r kn Hi Hw ltac:(cbn; lia) ltac:(cbn; lia) ltac:(constructor)) as (o & s1 & a1 & He & Hs & Ho).
    cbn [encode_utf8 flat_map] in He. pose proof (fill_no_misuse _ _ _ _ _ _ _ _ _ He) as Hno.
    unfold on_reader. rewrite arun_bind. unfold exec in He. unfold TRANSFER_BUF_SIZE. rewrite He.
    destruct o as [[e bs]|e|[]|]; cbn [arun]; try (exact (proj1 Hacc _ _ HR)); [|destruct (Hno eq_refl)].
    destruct Ho as (q & r1 & kn1 & -> & -> & Hq & Hi1 & Hw1 & Hst & _). exists r1, kn1. splits; auto. exists q. auto. }
  intros [e bs] s1 r1 w1 Hi1 (-> & q & Hbs & Hq & Hw1 & Hst1). cbn [fst snd] in *. subst bs.
  apply (tfine_bind E inp t Pm Er Bad _ _ s1 r1 w (fun x s' r' w' => x = q /\ s' = s1 /\ r' = r1 /\ w' = w)).
  { intros kn. unfold to_str_unchecked. rewrite from_utf8_encode by exact Hq. cbn [arun]. eauto 10. }
  intros x s2 r2 w2 _ (-> & -> & -> & ->).
  eapply tfine_bind.
  { eapply (tfine_writer E inp t multi h R Pm Er Bad _ _ _ s1 r1 w Hacc Hi1 HR); [exact Hq|].
    cbn [put_call]. eapply D_write_str; [reflexivity|]. cbn. rewrite from_utf8_encode by exact Ht. discriminate. }
  intros [] s2 r2 w2 _ (-> & -> & HR2). cbn [d_top d_open] in HR2. rewrite <- utf8_app in HR2.
  assert (Htq : Forall is_char (text ++ q)) by (apply Forall_app; auto).
  destruct e.
  - apply tfine_ret; [exact Hi1|]. splits; eauto.
  - eapply tfine_impl; [apply (IH s1 r1 w2 (text ++ q) Hi1 Hw1 Htq HR2)|]. intros [] s3 r3 w3 _ (G1 & G2 & G3). splits; auto. congruence.
Qed.

(** ** Values *)

Lemma tfine_value {F W A : Type} multi (h : handler F W) R Pm Er Bad E inp t d0 cs d (m : M A) dm (p : A -> put) (v : A -> json) s r w Q0 Qe :
  accepts multi h R Pm Er Bad -> d_string d0 = None -> wpos d0 cs d -> R d w ->
  agree t m dm -> good E inp (dm s r) Q0 -> fine E inp (dm s r) (fun _ s' _ => finished s s') Qe ->
  (forall x s' r', dm s r = MOk x s' r' -> good_put (p x) /\ describes multi d (put_call (p x)) (add_value (v x) d)) ->
  tfine E inp t Pm Er Bad (a <- on_reader m ;; on_writer h (p a) ;; tret false)%tm s r w
    (fun started s' r' w' => exists d', R d' w' /\ started = false /\ finished s s' /\ wdone d0 cs d').
Proof.
  intros Hacc H0 Hp HR Ha Hg Hfi Hv.
  eapply tfine_bind; [exact (tfine_reader E inp t Pm Er Bad m dm s r w _ _ _ Ha Hg Hfi (proj1 Hacc _ _ HR))|].
  intros x s1 r1 w1 Hi1 (Hfin & -> & He). cbv beta in Hfin. destruct (Hv x s1 r1 He) as [Hgood Hdes].
  eapply tfine_bind; [exact (tfine_writer E inp t multi h R Pm Er Bad _ _ _ s1 r1 w Hacc Hi1 HR Hgood Hdes)|].
  intros [] s2 r2 w2 Hi2 (-> & -> & HR2). apply tfine_ret; [exact Hi2|]. eexists. splits; eauto. apply wpos_add; assumption.
Qed.

Lemma tfine_begin {F W A : Type} multi (h : handler F W) R Pm Er Bad E inp t d0 cs d (m : M A) dm p c o s r w Q0 Qe :
  accepts multi h R Pm Er Bad -> wpos d0 cs d -> R d w ->
  agree t m dm -> good E inp (dm s r) Q0 -> fine E inp (dm s r) (fun _ s' _ => opened c s s') Qe -> idle c o ->
  good_put p -> describes multi d (put_call p) (open_container_in o d) ->
  tfine E inp t Pm Er Bad (on_reader m ;; on_writer h p ;; tret true)%tm s r w
    (fun started s' r' w' => exists d', R d' w' /\ started = true /\ exists v, opened v s s' /\ wdone d0 (v :: cs) d').
Proof.
  intros Hacc Hp HR Ha Hg Hfi Hid Hgood Hdes.
  eapply tfine_bind; [exact (tfine_reader E inp t Pm Er Bad m dm s r w _ _ _ Ha Hg Hfi (proj1 Hacc _ _ HR))|].
  intros x s1 r1 w1 Hi1 (Hop & -> & He). cbv beta in Hop.
  eapply tfine_bind; [exact (tfine_writer E inp t multi h R Pm Er Bad _ _ _ s1 r1 w Hacc Hi1 HR Hgood Hdes)|].
  intros [] s2 r2 w2 Hi2 (-> & -> & HR2). apply tfine_ret; [exact Hi2|]. eexists. splits; eauto. exists c. split; [exact Hop|]. apply wpos_open; assumption.
Qed.

(** A value or the start of a container has been read and written *)
Definition started_or_done {W : Type} (R : wdoc -> W -> Prop) (d0 : wdoc) (cs : list stack_value) (s : rstate) (started : bool) (s' : rstate) (w' : W) : Prop :=
  exists d', R d' w' /\ if started then exists v, opened v s s' /\ wdone d0 (v :: cs) d' else finished s s' /\ wdone d0 cs d'.

Lemma opened_same v s s1 s2 : same s s1 -> opened v s1 s2 -> opened v s s2.
Proof. unfold opened. intros (_ & _ & -> & _). auto. Qed.

Lemma tfine_start {F W : Type} multi (h : handler F W) R Pm Er Bad E inp t d0 cs d s r w : (length inp < fuel E)%nat -> inv E inp s r ->
  accepts multi h R Pm Er Bad -> value_allowed multi d0 -> ready E s -> wpos d0 cs d -> R d w ->
  tfine E inp t Pm Er Bad (transfer_start E h) s r w (fun started s' r' w' => started_or_done R d0 cs s started s' w').
Proof.
  intros Hf Hi Hacc Ha Hready Hp HR. unfold transfer_start.
  pose proof (proj1 Hacc d w HR) as Hbad. pose proof (wpos_allowed _ _ _ _ Ha Hp) as Hal. pose proof (proj1 Ha) as H0.
  eapply tfine_bind; [exact (tfine_reader E inp t Pm Er Bad _ _ s r w _ _ _ (agree_peek E t) (peek_good E inp t s r Hf Hi) (peek_fine E inp t s r Hf Hi Hready) Hbad)|].
  intros ty s1 r1 w1 Hi1 (Hsame & -> & _). cbv beta in Hsame. pose proof (ready_same _ _ _ Hsame Hready) as Hr1.
  apply (tfine_impl E inp t Pm Er Bad _ s1 r1 w (fun started s' r' w' => started_or_done R d0 cs s1 started s' w')).
  2: { intros [] s2 r2 w2 _ (d' & G1 & G2); exists d'; (split; [exact G1|]).
       - destruct G2 as (v & G2 & G3). exists v. split; [exact (opened_same _ _ _ _ Hsame G2)|exact G3].
       - destruct G2 as [G2 G3]. split; [exact (finished_same _ _ _ Hsame G2)|exact G3]. }
  destruct ty.
  - eapply tfine_impl; [eapply (tfine_begin multi h R Pm Er Bad E inp t d0 cs d (begin_array E) (d_begin_array E t) PutBeginArray SArray (OpenArr []));
      eauto using agree_begin_array, begin_array_good, begin_array_fine|]; [exact I|exact I|cbn; constructor; exact Hal|].
    intros x s2 r2 w2 _ (d' & G1 & -> & G2). exists d'. auto.
  - eapply tfine_impl; [eapply (tfine_begin multi h R Pm Er Bad E inp t d0 cs d (begin_object E) (d_begin_object E t) PutBeginObject SObject (OpenObj [] None));
      eauto using agree_begin_object, begin_object_good, begin_object_fine|]; [exact I|exact I|cbn; constructor; exact Hal|].
    intros x s2 r2 w2 _ (d' & G1 & -> & G2). exists d'. auto.
  - eapply tfine_bind; [exact (tfine_reader E inp t Pm Er Bad _ _ s1 r1 w _ _ _ (agree_start E t TString false) (start_good E inp t TString false s1 r1 Hf Hi1) (start_fine E inp t TString false s1 r1 Hf Hi1 Hr1) Hbad)|].
    intros pk s2 r2 w2 Hi2 ((Hs & Hpk & _ & _) & -> & _).
    assert (Hw : within s2). { destruct (ready_parts E s1 s2 Hs Hr1). unfold within. auto. }
    eapply tfine_bind; [eapply (tfine_writer E inp t multi h R Pm Er Bad PutStringWriter d _ s2 r2 w Hacc Hi2 HR I); cbn; constructor; exact Hal|].
    intros [] s3 r3 w3 _ (-> & -> & HR3).
    eapply tfine_bind; [apply (tfine_string multi h R Pm Er Bad E inp t (d_top d) (d_open d) (fuel E) Hacc s2 r2 w3 [] Hi2 Hw); [constructor|exact HR3]|].
    intros [] s4 r4 w4 Hi4 (Hw4 & Hst4 & text & Htext & HR4).
    eapply tfine_bind.
    { eapply (tfine_writer E inp t multi h R Pm Er Bad PutFinishValue _ _ s4 r4 w4 Hacc Hi4 HR4 I). cbn.
      eapply D_finish_value; [reflexivity|]. apply from_utf8_encode. exact Htext. }
    intros [] s5 r5 w5 _ (-> & -> & HR5). destruct Hw4 as (W1 & W2 & W3).
    eapply tfine_bind; [exact (tfine_reader E inp t Pm Er Bad _ _ s4 r4 w5 _ _ (fun _ => True) (agree_value_end t) (value_end_good E inp s4 r4 Hi4 W1 W2 W3) (value_end_fine E inp s4 r4 _ Hi4 W1 W2 W3) (proj1 Hacc _ _ HR5))|].
    intros [] s6 r6 w6 Hi6 ((Hfin & _) & -> & _). apply tfine_ret; [exact Hi6|].
    eexists. split; [exact HR5|]. split.
    + destruct Hfin as (G1 & G2 & G3). destruct Hs as (_ & _ & G4 & _). unfold finished. splits; auto. congruence.
    + apply wpos_add; [exact H0|]. destruct Hp as (P1 & P2 & P3). unfold wpos. splits; auto.
  - eapply tfine_impl; [apply (tfine_value multi h R Pm Er Bad E inp t d0 cs d (next_number_as_str E) (d_next_number E t) PutNumber (fun n => JNum n) s1 r1 w _ _ Hacc H0 Hp HR
      (agree_next_number_str E t) (number_good E inp t (restrict_number_values (cfg E)) s1 r1 Hf Hi1) (number_fine E inp t (restrict_number_values (cfg E)) s1 r1 Hf Hi1 Hr1))|].
    + intros n s2 r2 He. pose proof (next_number_text _ _ _ _ _ _ _ He) as Hn. split; [exact Hn|]. cbn [put_call].
      destruct (number_ascii n Hn) as [_ Hen]. rewrite <- Hen at 2. constructor; [exact Hal|]. rewrite Hen. exact Hn.
    + intros x s2 r2 w2 _ (d' & G1 & -> & G2). exists d'. auto.
  - eapply tfine_impl; [apply (tfine_value multi h R Pm Er Bad E inp t d0 cs d (next_bool E) (d_next_bool E t) PutBool JBool s1 r1 w _ _ Hacc H0 Hp HR
      (agree_next_bool E t) (next_bool_good E inp t s1 r1 Hf Hi1) (next_bool_fine E inp t s1 r1 Hf Hi1 Hr1))|].
    + intros n s2 r2 He. split; [exact I|]. cbn. constructor. exact Hal.
    + intros x s2 r2 w2 _ (d' & G1 & -> & G2). exists d'. auto.
  - eapply tfine_impl; [apply (tfine_value multi h R Pm Er Bad E inp t d0 cs d (next_null E) (d_next_null E t) (fun _ => PutNull) (fun _ => JNull) s1 r1 w _ _ Hacc H0 Hp HR
      (agree_next_null E t) (next_null_good E inp t s1 r1 Hf Hi1) (next_null_fine E inp t s1 r1 Hf Hi1 Hr1))|].
    + intros n s2 r2 He. split; [exact I|]. cbn. constructor. exact Hal.
    + intros x s2 r2 w2 _ (d' & G1 & -> & G2). exists d'. auto.
Qed.

(** ** The loop *)

Definition copy_at (E : env) (d0 : wdoc) (st : list stack_value) (depth : nat) (s : rstate) (d : wdoc) : Prop :=
  match depth with
  | O => stack s = st /\ ready E s /\ wpos d0 [] d
  | S _ => exists cs, length cs = depth /\ stack s = cs ++ st /\ inside s /\ wdone d0 cs d
  end.
Definition copy_after (d0 : wdoc) (st : list stack_value) (depth : nat) (s : rstate) (d : wdoc) : Prop :=
  exists cs, length cs = depth /\ stack s = cs ++ st /\ inside s /\ wdone d0 cs d /\ (depth = O -> is_empty s = false).

Lemma tfine_end {F W : Type} multi (h : handler F W) R Pm Er Bad E inp t d0 v cs st d s r w : (length inp < fuel E)%nat -> inv E inp s r ->
  accepts multi h R Pm Er Bad -> d_string d0 = None -> stack s = v :: cs ++ st -> inside s -> wdone d0 (v :: cs) d -> R d w ->
  tfine E inp t Pm Er Bad (transfer_end E h) s r w (fun _ s' r' w' => exists d', R d' w' /\ stack s' = cs ++ st /\ inside s' /\ is_empty s' = false /\ wdone d0 cs d').
Proof.
  intros Hf Hi Hacc H0 Hs [Hact Hname] Hd HR. unfold transfer_end. apply tfine_state. pose proof (proj1 Hacc d w HR) as Hbad.
  unfold is_in_array. rewrite Hs. destruct v.
  - destruct (wdone_array _ _ _ Hd) as (_ & items & o & K1 & K2 & K3).
    eapply tfine_bind; [exact (tfine_reader E inp t Pm Er Bad _ _ s r w _ _ _ (agree_end_array E t) (end_array_good E inp t s r Hf Hi) (end_array_fine E inp t s r _ Hf Hi Hact Hs) Hbad)|].
    intros x s1 r1 w1 Hi1 ((G1 & G2 & G3) & -> & _).
    eapply tfine_impl; [eapply (tfine_writer E inp t multi h R Pm Er Bad PutEndArray d _ s1 r1 w Hacc Hi1 HR I); cbn; econstructor; eassumption|].
    intros _ s2 r2 w2 _ (-> & -> & HR2). eexists. splits; eauto. apply wpos_add; assumption.
  - destruct (wdone_object _ _ _ Hd) as (items & o & K1 & K2 & K3 & _).
    assert (Hn : expects_member_name s = true) by (rewrite Hname; unfold is_in_object; rewrite Hs; reflexivity).
    eapply tfine_bind; [exact (tfine_reader E inp t Pm Er Bad _ _ s r w _ _ _ (agree_end_object E t) (end_object_good E inp t s r Hf Hi) (end_object_fine E inp t s r _ Hf Hi Hact Hs Hn) Hbad)|].
    intros x s1 r1 w1 Hi1 ((G1 & G2 & G3) & -> & _).
    eapply tfine_impl; [eapply (tfine_writer E inp t multi h R Pm Er Bad PutEndObject d _ s1 r1 w Hacc Hi1 HR I); cbn; econstructor; eassumption|].
    intros _ s2 r2 w2 _ (-> & -> & HR2). eexists. splits; eauto. apply wpos_add; assumption.
Qed.

Lemma tfine_name {F W : Type} multi (h : handler F W) R Pm Er Bad E inp t d0 v cs st d s r w : (length inp < fuel E)%nat -> inv E inp s r ->
  accepts multi h R Pm Er Bad -> stack s = v :: cs ++ st -> inside s -> wdone d0 (v :: cs) d -> R d w ->
  tfine E inp t Pm Er Bad (transfer_name E h) s r w (fun _ s' r' w' => exists d', R d' w' /\ stack s' = stack s /\ ready E s' /\ wpos d0 (v :: cs) d').
Proof.
  intros Hf Hi Hacc Hs Hin Hd HR. unfold transfer_name. apply tfine_state. pose proof (proj1 Hacc d w HR) as Hbad.
  pose proof Hin as [Hact Hname]. rewrite Hname. unfold is_in_object. rewrite Hs. destruct v.
  - apply tfine_ret; [exact Hi|]. exists d. splits; auto; [|exact (proj1 (wdone_array _ _ _ Hd))].
    apply (inside_ready E s SArray _ Hs Hin). rewrite Hname. unfold is_in_object. rewrite Hs. reflexivity.
  - destruct (wdone_object _ _ _ Hd) as (items & o & K1 & K2 & _ & K3).
    assert (Hn : expects_member_name s = true) by (rewrite Hname; unfold is_in_object; rewrite Hs; reflexivity).
    eapply tfine_bind; [exact (tfine_reader E inp t Pm Er Bad _ _ s r w _ _ _ (agree_next_name E t) (next_name_good E inp t s r Hf Hi) (next_name_fine E inp t s r Hf Hi Hact Hn) Hbad)|].
    intros n s1 r1 w1 Hi1 ((G1 & _ & G2 & G3) & -> & He).
    assert (Hch : Forall is_char n).
    { destruct (next_name_text E inp t s r n s1 r1 Hf Hi He) as (g & x & _ & _ & (body & _ & Hb)). exact (str_text_chars _ _ Hb). }
    eapply tfine_impl; [eapply (tfine_writer E inp t multi h R Pm Er Bad (PutName n) d _ s1 r1 w Hacc Hi1 HR Hch); cbn; econstructor; eassumption|].
    intros _ s2 r2 w2 _ (-> & -> & HR2). eexists. splits; eauto; [congruence|]. split; [|exact G2].
    rewrite Hs in G1. exact (quiet_nested _ _ _ _ G1 G3).
Qed.

Lemma tfine_loop {F W : Type} multi (h : handler F W) R Pm Er Bad E inp t d0 st f : (length inp < fuel E)%nat -> accepts multi h R Pm Er Bad -> value_allowed multi d0 ->
  forall depth s r w d, inv E inp s r -> copy_at E d0 st depth s d -> R d w ->
  tfine E inp t Pm Er Bad (transfer_loop E h f depth) s r w (fun _ s' r' w' => exists d', R d' w' /\ stack s' = st /\ inside s' /\ is_empty s' = false /\ wdone d0 [] d').
Proof.
  intros Hf Hacc Ha. pose proof (proj1 Ha) as H0. induction f as [|f IH]; intros depth s r w d Hi Hat HR; [intros kn; exact (proj1 Hacc _ _ HR)|].
  cbn [transfer_loop].
  assert (Hnext : forall (m : T F W nat), tfine E inp t Pm Er Bad m s r w (fun depth' s' r' w' => exists d', R d' w' /\ copy_after d0 st depth' s' d') ->
    tfine E inp t Pm Er Bad (depth' <- m ;; match depth' with O => tret tt | _ => transfer_loop E h f depth' end)%tm s r w
      (fun _ s' r' w' => exists d', R d' w' /\ stack s' = st /\ inside s' /\ is_empty s' = false /\ wdone d0 [] d')).
  { intros m Hm. eapply tfine_bind; [exact Hm|]. intros depth' s1 r1 w1 Hi1 (d1 & HR1 & cs & Hl & Hs & Hin & Hd1 & He).
    destruct depth' as [|depth'].
    - destruct cs; [|discriminate]. apply tfine_ret; [exact Hi1|]. exists d1. splits; auto.
    - apply (IH (S depth') s1 r1 w1 d1 Hi1); [|exact HR1]. exists cs. auto. }
  destruct depth as [|depth].
  - destruct Hat as (Hs & Hr & Hp).
    eapply tfine_bind; [apply (tfine_ret E inp t Pm Er Bad true s r w (fun x s' r' w' => x = true /\ s' = s /\ r' = r /\ w' = w) Hi); auto|].
    intros more s1 r1 w1 _ (-> & -> & -> & ->). cbn [negb]. apply Hnext.
    eapply tfine_bind.
    { instantiate (1 := fun _ s' r' w' => s' = s /\ r' = r /\ w' = w). apply tfine_state. rewrite (proj2 Hr). apply tfine_ret; auto. }
    intros _ s1 r1 w1 _ (-> & -> & ->).
    eapply tfine_bind; [apply (tfine_start multi h R Pm Er Bad E inp t d0 [] d s r w Hf Hi Hacc Ha Hr Hp HR)|].
    intros started s1 r1 w1 Hi1 (d1 & HR1 & G). apply tfine_ret; [exact Hi1|]. exists d1. split; [exact HR1|]. destruct started.
    + destruct G as (v & (G1 & G2 & G3) & G4). exists [v]. rewrite G1, Hs. refine (conj eq_refl (conj eq_refl (conj G2 (conj G4 _)))). discriminate.
    + destruct G as ((G1 & G2 & G3) & G4). exists []. rewrite G1, Hs. exact (conj eq_refl (conj eq_refl (conj G2 (conj G4 (fun _ => G3))))).
  - destruct Hat as (cs & Hl & Hs & Hin & Hd). destruct cs as [|v cs]; [discriminate|]. cbn [app] in Hs. injection Hl as Hl.
    eapply tfine_bind; [exact (tfine_reader E inp t Pm Er Bad _ _ s r w _ _ _ (agree_has_next E t) (has_next_good E inp t s r Hf Hi) (has_next_fine E inp t s r Hf Hi (inside_countable E s v _ Hs Hin)) (proj1 Hacc _ _ HR))|].
    intros more s1 r1 w1 Hi1 (H1 & -> & _). cbv beta in H1. pose proof (inside_same _ _ H1 Hin) as Hin1.
    assert (Hs1 : stack s1 = v :: cs ++ st) by (destruct H1 as (_ & _ & -> & _); exact Hs).
    clear Hnext. eapply tfine_bind.
    { instantiate (1 := fun depth' s' r' w' => exists d', R d' w' /\ copy_after d0 st depth' s' d'). destruct more; cbn [negb].
      - eapply tfine_bind; [apply (tfine_name multi h R Pm Er Bad E inp t d0 v cs st d s1 r1 w Hf Hi1 Hacc Hs1 Hin1 Hd HR)|].
        intros _ s2 r2 w2 Hi2 (d2 & HR2 & K1 & K2 & K3).
        eapply tfine_bind; [apply (tfine_start multi h R Pm Er Bad E inp t d0 (v :: cs) d2 s2 r2 w2 Hf Hi2 Hacc Ha K2 K3 HR2)|].
        intros started s3 r3 w3 Hi3 (d3 & HR3 & G). apply tfine_ret; [exact Hi3|]. exists d3. split; [exact HR3|]. destruct started.
        + destruct G as (v' & (G1 & G2 & G3) & G4). exists (v' :: v :: cs). rewrite G1, K1, Hs1. cbn [length]. rewrite Hl. refine (conj eq_refl (conj eq_refl (conj G2 (conj G4 _)))). discriminate.
        + destruct G as ((G1 & G2 & G3) & G4). exists (v :: cs). rewrite G1, K1, Hs1. cbn [length]. rewrite Hl. exact (conj eq_refl (conj eq_refl (conj G2 (conj G4 (fun _ => G3))))).
      - eapply tfine_bind; [apply (tfine_end multi h R Pm Er Bad E inp t d0 v cs st d s1 r1 w Hf Hi1 Hacc H0 Hs1 Hin1 Hd HR)|].
        intros _ s2 r2 w2 Hi2 (d2 & HR2 & K1 & K2 & K3 & K4). apply tfine_ret; [exact Hi2|]. exists d2. split; [exact HR2|]. exists cs. exact (conj Hl (conj K1 (conj K2 (conj K4 (fun _ => K3))))). }
    intros depth' s2 r2 w2 Hi2 (d1 & HR1 & cs1 & Hl1 & Hs2 & Hin2 & Hd1 & He).
    destruct depth' as [|depth'].
    + destruct cs1; [|discriminate]. apply tfine_ret; [exact Hi2|]. exists d1. splits; auto.
    + apply (IH (S depth') s2 r2 w2 d1 Hi2); [|exact HR1]. exists cs1. auto.
Qed.

Lemma tfine_transfer {F W : Type} multi (h : handler F W) R Pm Er Bad E inp t d0 s r w : (length inp < fuel E)%nat -> inv E inp s r ->
  accepts multi h R Pm Er Bad -> value_allowed multi d0 -> ready E s -> R d0 w ->
  tfine E inp t Pm Er Bad (transfer_to E h) s r w (fun _ s' r' w' => finished s s' /\ exists v, R (add_value v d0) w').
Proof.
  intros Hf Hi Hacc Ha Hr HR. unfold transfer_to. apply tfine_state.
  eapply tfine_bind.
  { instantiate (1 := fun _ s' r' w' => s' = s /\ r' = r /\ w' = w). rewrite (proj2 Hr). intros kn. cbn. eauto 10. }
  intros [] s1 r1 w1 _ (-> & -> & ->).
  eapply tfine_impl; [apply (tfine_loop multi h R Pm Er Bad E inp t d0 (stack s) (fuel E) Hf Hacc Ha 0 s r w d0 Hi); [|exact HR]|].
  - cbn. splits; auto. apply wpos_start. apply Ha.
  - intros _ s2 r2 w2 _ (d' & HR2 & G1 & G2 & G3 & v & ->). split; [unfold finished; auto|]. exists v. exact HR2.
Qed.
