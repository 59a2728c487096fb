(** * Copying a value with an unsupported number

    Auxiliary: [transfer_to] copies a value up to its first number which the
    settings do not permit. *)

From Verif Require Import Base Utf8Model Utf8Proofs NumberModel SpecNumber NumberProofs SpecJson WriterModel SourceModel SourceProofs ReaderModel
  ReaderScan ReaderLex ReaderLexStr ReaderMid ReaderAgree ReaderSess ReaderGrammar ReaderSafe SpecCursor ReaderRepr ReaderForward
  ReaderSkip ReaderSeek ReaderWalk SpecRead TransferModel SpecTransfer TransferProofs.

(** [m] makes the calls [ps] on the writer, and if all of them succeed it ends
    because of the number [n] *)
Definition halting {F W A : Type} (h : handler F W) (m : T F W A) (s : rstate) (r : bytes) (ps : list put) (n : str) : Prop :=
  forall w kn,
  match feed h ps w with
  | (Ok _, w') => exists loc s2 a2, arun (m s w) (At r TEof kn) = Some ((Err (inl (EUnsupportedNumber n loc)), s2, w'), a2)
  | (Err e, w') => exists s2 a2, arun (m s w) (At r TEof kn) = Some ((Err (inr e), s2, w'), a2)
  | (Panic k, w') => exists s2 a2, arun (m s w) (At r TEof kn) = Some ((Panic k, s2, w'), a2)
  | (OutOfFuel, w') => exists s2 a2, arun (m s w) (At r TEof kn) = Some ((OutOfFuel, s2, w'), a2)
  end.

Lemma halting_first {F W A B : Type} (h : handler F W) (m : T F W A) (f : A -> T F W B) s r ps n :
  halting h m s r ps n -> halting h (tbind m f) s r ps n.
Proof.
  intros H w kn. specialize (H w kn). destruct (feed h ps w) as [[u|e|k|] w1].
  - destruct H as (loc & s2 & a2 & H). exists loc, s2, a2. rewrite (tbind_run _ _ _ _ _ _ H). reflexivity.
  - destruct H as (s2 & a2 & H). exists s2, a2. rewrite (tbind_run _ _ _ _ _ _ H). reflexivity.
  - destruct H as (s2 & a2 & H). exists s2, a2. rewrite (tbind_run _ _ _ _ _ _ H). reflexivity.
  - destruct H as (s2 & a2 & H). exists s2, a2. rewrite (tbind_run _ _ _ _ _ _ H). reflexivity.
Qed.

Lemma halting_bind {F W A B : Type} (h : handler F W) (m : T F W A) (f : A -> T F W B) s r ps x s1 r1 qs n :
  copying h m s r ps x s1 r1 -> halting h (f x) s1 r1 qs n -> halting h (tbind m f) s r (ps ++ qs) n.
Proof.
  intros H1 H2 w kn. specialize (H1 w kn). rewrite feed_app. destruct (feed h ps w) as [[u|e|k|] w1].
  - destruct H1 as (kn1 & H1). specialize (H2 w1 kn1). rewrite (tbind_run _ _ _ _ _ _ H1). exact H2.
  - destruct H1 as (s' & a' & H1). exists s', a'. rewrite (tbind_run _ _ _ _ _ _ H1). reflexivity.
  - destruct H1 as (s' & a' & H1). exists s', a'. rewrite (tbind_run _ _ _ _ _ _ H1). reflexivity.
  - destruct H1 as (s' & a' & H1). exists s', a'. rewrite (tbind_run _ _ _ _ _ _ H1). reflexivity.
Qed.
Lemma halting_bind0 {F W A B : Type} (h : handler F W) (m : T F W A) (f : A -> T F W B) s r x s1 r1 qs n :
  copying h m s r [] x s1 r1 -> halting h (f x) s1 r1 qs n -> halting h (tbind m f) s r qs n.
Proof. exact (halting_bind h m f s r [] x s1 r1 qs n). Qed.

Lemma halting_state {F W A : Type} (h : handler F W) (f : rstate -> T F W A) s r ps n :
  halting h (f s) s r ps n -> halting h (tbind (on_reader get_state) f) s r ps n.
Proof. apply halting_bind0. apply copying_exec. intros kn. exists kn. reflexivity. Qed.

Lemma halting_number {F W : Type} (h : handler F W) E inp fs vs st s r n : (length inp < fuel E)%nat -> repr E inp fs vs st s r ->
  at_val E fs vs st = inr (JNum n) -> restrict_number_values (cfg E) = true -> unsupported_number n = true ->
  halting h (transfer_start E h) s r [] n.
Proof.
  intros Hf Hr Ev Hres Hn. pose proof (peek_forward E inp fs vs st s r Hf Hr) as H. rewrite Ev in H.
  destruct H as (s1 & r1 & He & Hr1 & _). eapply halting_bind0; [exact (copying_reader h _ _ _ _ _ _ _ (agree_peek E TEof) He)|].
  cbn [json_type]. apply halting_first. intros w kn. cbn [feed].
  pose proof (number_forward E inp fs vs st s1 r1 true Hf Hr1) as H. rewrite Ev in H. cbn [andb] in H. rewrite Hn in H.
  pose proof (agree_next_number_str E TEof s1 r1 kn) as Ha. unfold d_next_number in Ha. rewrite Hres, H in Ha.
  destruct Ha as (l & s' & a' & Ha). exists l, s', a'. unfold on_reader. rewrite arun_bind. unfold exec in Ha. rewrite Ha. reflexivity.
Qed.

(** ** Every value can be copied *)
Lemma copies_total : forall v, exists ps, copies v ps.
Proof.
  fix IH 1. intros [|b|t|x|l|l].
  - eexists. constructor.
  - eexists. constructor.
  - eexists. constructor.
  - eexists. apply (CopyString x [x]). cbn. apply app_nil_r.
  - assert (H : exists ps, copies_items l ps).
    { induction l as [|v l [qs Hl]]; [eexists; constructor|]. destruct (IH v) as [ps Hv]. eexists. constructor; eassumption. }
    destruct H as [ps H]. eexists. constructor. exact H.
  - assert (H : exists ps, copies_members l ps).
    { induction l as [|[n v] l [qs Hl]]; [eexists; constructor|]. destruct (IH v) as [ps Hv]. eexists. constructor; eassumption. }
    destruct H as [ps H]. eexists. constructor. exact H.
Qed.
Lemma items_total l : exists ps, copies_items l ps.
Proof. induction l as [|v l [qs Hl]]; [eexists; constructor|]. destruct (copies_total v) as [ps Hv]. eexists. constructor; eassumption. Qed.
Lemma members_total l : exists ps, copies_members l ps.
Proof. induction l as [|[n v] l [qs Hl]]; [eexists; constructor|]. destruct (copies_total v) as [ps Hv]. eexists. constructor; eassumption. Qed.

(** Not before the value of a member *)
Definition enclosing (g : frame) : Prop := match g with AtValue _ _ _ => False | _ => True end.

Lemma rest_total gs : Forall enclosing gs -> exists qs, copies_rest gs qs.
Proof.
  induction 1 as [|g gs Hg Hgs [qs IH]]; [eexists; constructor|]. destruct g as [i l|n l|n v l]; [| |contradiction].
  - destruct (items_total l) as [ps H]. eexists. constructor; eassumption.
  - destruct (members_total l) as [ps H]. eexists. constructor; eassumption.
Qed.

(** ** The loop *)
Definition frame_numbers (g : frame) : list str := flat_map numbers (frame_values g).
Definition rest_numbers (gs : list frame) : list str := flat_map frame_numbers gs.

Lemma find_app {A : Type} (p : A -> bool) (l1 l2 : list A) : find p (l1 ++ l2) = match find p l1 with Some x => Some x | None => find p l2 end.
Proof. induction l1 as [|a l1 IH]; [reflexivity|]. cbn. destruct (p a); auto. Qed.

Lemma opened_numbers v : is_container (json_type v) = true -> frame_numbers (opened v) = numbers v.
Proof.
  destruct v as [| | | |l|l]; try discriminate; intros _; unfold frame_numbers; cbn; [reflexivity|].
  induction l as [|m l IH]; [reflexivity|]. cbn. rewrite IH. reflexivity.
Qed.

Lemma none_readable c v : find unsupported_number (numbers v) = None -> readable c v.
Proof.
  intros H _. apply Forall_forall. intros n Hn. apply (find_none _ _ H n Hn).
Qed.

(** The next value of the innermost container *)
Lemma next_step {F W : Type} (h : handler F W) E inp g gs fs vs s r v l : (length inp < fuel E)%nat -> repr E inp (g :: gs ++ fs) vs true s r ->
  enclosing g -> frame_values g = v :: l ->
  exists nm s2 r2 g2 g' g4, copying h (transfer_name E h) s r nm tt s2 r2 /\ repr E inp (g2 :: gs ++ fs) vs true s2 r2 /\ (mu s2 r2 <= mu s r)%nat /\
    at_val E (g2 :: gs ++ fs) vs true = inr v /\ ent_f (g2 :: gs ++ fs) = g' :: gs ++ fs /\ frames_done (g' :: gs ++ fs) = g4 :: gs ++ fs /\
    enclosing g' /\ enclosing g4 /\ frame_values g' = l /\ frame_values g4 = l /\
    (forall p q, copies v p -> copies_rest (g4 :: gs) q -> copies_rest (g :: gs) (nm ++ p ++ q)) /\
    (forall p q, copies v p -> copies_rest (g' :: gs) q -> copies_rest (g :: gs) (nm ++ p ++ q)).
Proof.
  intros Hf Hr Hg Efv. destruct g as [i [|x y]|n [|[m x] y]|n x y]; try discriminate; cbn [frame_values map snd] in Efv; injection Efv as -> <-.
  - exists [], s, r, (InArray i (v :: y)), (InArray i y), (InArray (i + 1) y). splits; auto; try exact I.
    + apply (transfer_no_name h E inp _ _ _ _ _ Hr). reflexivity.
    + intros p q Hp Hq. exact (rest_item _ _ _ _ _ _ _ Hp Hq).
    + intros p q Hp Hq. exact (rest_item _ _ _ _ _ _ _ Hp Hq).
  - destruct (transfer_name_forward h E inp n m v y (gs ++ fs) vs s r Hf Hr) as (s2 & r2 & Hc & Hr2 & Hm).
    exists [PutName m], s2, r2, (AtValue m v y), (InObject (Some m) y), (InObject (Some m) y). splits; auto; try exact I; [lia| |].
    + intros p q Hp Hq. exact (rest_member _ _ _ _ _ _ _ _ Hp Hq).
    + intros p q Hp Hq. exact (rest_member _ _ _ _ _ _ _ _ Hp Hq).
  - contradiction.
Qed.

Lemma enclosing_done g : enclosing g -> exists g3, (forall fs, frames_done (g :: fs) = g3 :: fs) /\ enclosing g3 /\ frame_values g3 = frame_values g /\
  forall gs q, copies_rest (g3 :: gs) q -> copies_rest (g :: gs) q.
Proof.
  destruct g as [i l|n l|n v l]; intros H; [| |contradiction]; eexists; (split; [intros fs; reflexivity|]); splits; auto; try exact I;
    intros gs q Hq; inversion Hq; subst; constructor; assumption.
Qed.

Lemma transfer_loop_halts {F W : Type} (h : handler F W) E inp fs vs n f : (length inp < fuel E)%nat -> restrict_number_values (cfg E) = true ->
  forall gs s r, repr E inp (gs ++ fs) vs true s r -> Forall enclosing gs -> find unsupported_number (rest_numbers gs) = Some n -> (mu s r < f)%nat ->
  exists ps qs, copies_rest gs (ps ++ PutNumber n :: qs) /\ halting h (transfer_loop E h f (length gs)) s r ps n.
Proof.
  intros Hf Hres. induction f as [|f IH]; intros gs s r Hr Hen Hfind Hmu; [lia|]. destruct gs as [|g gs]; [discriminate|].
  cbn [transfer_loop length app] in *. inversion Hen as [|g0 gs0 Hg Hgs]; subst.
  assert (Hav : at_member_value (g :: gs ++ fs) = false) by (destruct g; auto; contradiction).
  destruct (has_next_copying h E inp g (gs ++ fs) vs s r (length gs) _ Hf Hr Hav eq_refl) as (s1 & r1 & Hh & Hr1 & Hm1).
  destruct (frame_values g) as [|v l] eqn:Efv.
  - destruct (transfer_end_forward h E inp g (gs ++ fs) vs s1 r1 Hf Hr1 Hav Efv) as (s2 & r2 & Hc2 & Hr2 & _ & Hm2).
    pose proof (copying_bind h _ (fun _ => tret (pred (S (length gs)))) _ _ _ _ _ _ _ _ _ _ Hc2 (copying_ret h _ _ _)) as Hc3. rewrite app_nil_r in Hc3.
    unfold rest_numbers in Hfind. cbn [flat_map] in Hfind. unfold frame_numbers at 1 in Hfind. rewrite Efv in Hfind. cbn [flat_map app] in Hfind.
    assert (Hend : forall q, copies_rest gs q -> copies_rest (g :: gs) ([end_call g] ++ q)).
    { intros q Hq. destruct g as [i [|x y]|k [|x y]|k x y]; try discriminate; cbn [end_call].
      - exact (RestArray i [] gs [] q CopyNoItem Hq).
      - exact (RestObject k [] gs [] q CopyNoMember Hq). }
    destruct gs as [|g2 gs]; [discriminate|]. inversion Hgs as [|g0 gs0 Hg2 Hgs2]; subst.
    destruct (enclosing_done g2 Hg2) as (g3 & Hd3 & He3 & Hv3 & Hq3). cbn [app] in Hr2. rewrite Hd3 in Hr2.
    destruct (IH (g3 :: gs) s2 r2 Hr2) as (ps & qs & Hq & Hc).
    { constructor; assumption. }
    { cbn [flat_map] in Hfind. unfold rest_numbers. cbn [flat_map]. unfold frame_numbers at 1. rewrite Hv3. exact Hfind. }
    { lia. }
    exists ([end_call g] ++ ps), qs. split.
    + rewrite <- app_assoc. apply Hend, Hq3. exact Hq.
    + eapply halting_bind0; [exact Hh|]. cbn [negb]. eapply halting_bind; [exact Hc3|]. exact Hc.
  - destruct (next_step h E inp g gs fs vs s1 r1 v l Hf Hr1 Hg Efv) as (nm & s2 & r2 & g2 & g' & g4 & Hcn & Hr2 & Hm2 & Ev & Hent & Hd4 & He' & He4 & Hv' & Hv4 & Hcp4 & Hcp').
    assert (Hnum : rest_numbers (g :: gs) = numbers v ++ rest_numbers (g' :: gs)).
    { unfold rest_numbers. cbn [flat_map]. unfold frame_numbers at 1 3. rewrite Efv, Hv'. cbn [flat_map]. rewrite <- app_assoc. reflexivity. }
    assert (Hnum4 : rest_numbers (g4 :: gs) = rest_numbers (g' :: gs)).
    { unfold rest_numbers. cbn [flat_map]. unfold frame_numbers at 1 3. rewrite Hv', Hv4. reflexivity. }
    destruct (is_container (json_type v)) eqn:Ec.
    + destruct (step_after h E inp _ vs true s2 r2 v (S (length gs)) Hf Hr2 Ev ltac:(intros H; congruence)) as (ps & s3 & r3 & Hc3 & Hm3 & Hres3).
      rewrite Ec in Hc3, Hres3. destruct Hres3 as (Hr3 & Hsplit). rewrite Hent in Hr3.
      pose proof (copying_bind h _ (fun _ => (started <- transfer_start E h ;; tret (if started : bool then S (S (length gs)) else S (length gs)))%tm)
        _ _ _ _ _ _ _ _ _ _ Hcn Hc3) as Hc4.
      destruct (IH (opened v :: g' :: gs) s3 r3 Hr3) as (ps2 & qs & Hq & Hc).
      { constructor; [destruct v; exact I|]. constructor; assumption. }
      { change (rest_numbers (opened v :: g' :: gs)) with (frame_numbers (opened v) ++ rest_numbers (g' :: gs)). rewrite (opened_numbers v Ec), <- Hnum. exact Hfind. }
      { lia. }
      destruct (Hsplit _ _ Hq) as (q1 & q2 & Heq & Hcx & Hq2).
      exists ((nm ++ ps) ++ ps2), qs. split.
      * replace (((nm ++ ps) ++ ps2) ++ PutNumber n :: qs) with (nm ++ (ps ++ q1) ++ q2); [apply Hcp'; assumption|].
        rewrite <- !app_assoc. rewrite <- Heq. reflexivity.
      * eapply halting_bind0; [exact Hh|]. cbn [negb]. eapply halting_bind; [exact Hc4|]. exact Hc.
    + rewrite Hnum, find_app in Hfind. destruct (find unsupported_number (numbers v)) as [n'|] eqn:En.
      * injection Hfind as ->. destruct v as [|b|t|x|y|y]; try discriminate. cbn [numbers find] in En.
        destruct (unsupported_number t) eqn:Et; [|discriminate]. injection En as ->.
        destruct (rest_total (g' :: gs) ltac:(constructor; assumption)) as [q Hq].
        exists nm, q. split; [exact (Hcp' _ _ (CopyNumber n) Hq)|].
        eapply halting_bind0; [exact Hh|]. cbn [negb]. apply halting_first.
        pose proof (halting_number h E inp _ vs true s2 r2 n Hf Hr2 Ev Hres Et) as Hn.
        pose proof (halting_first h _ (fun started : bool => tret (if started then S (S (length gs)) else S (length gs))) _ _ _ _ Hn) as Hn2.
        pose proof (halting_bind h _ (fun _ => (started <- transfer_start E h ;; tret (if started : bool then S (S (length gs)) else S (length gs)))%tm) _ _ _ _ _ _ _ _ Hcn Hn2) as Hn3.
        rewrite app_nil_r in Hn3. exact Hn3.
      * destruct (step_after h E inp _ vs true s2 r2 v (S (length gs)) Hf Hr2 Ev (fun _ => none_readable _ _ En)) as (ps & s3 & r3 & Hc3 & Hm3 & Hres3).
        rewrite Ec in Hc3, Hres3. destruct Hres3 as (Hr3 & Hcx). unfold behind in Hr3. rewrite Hent, Hd4 in Hr3.
        pose proof (copying_bind h _ (fun _ => (started <- transfer_start E h ;; tret (if started : bool then S (S (length gs)) else S (length gs)))%tm)
          _ _ _ _ _ _ _ _ _ _ Hcn Hc3) as Hc4.
        destruct (IH (g4 :: gs) s3 r3 Hr3) as (ps2 & qs & Hq & Hc).
        { constructor; assumption. }
        { rewrite Hnum4. exact Hfind. }
        { lia. }
        exists ((nm ++ ps) ++ ps2), qs. split.
        -- rewrite <- !app_assoc. apply Hcp4; assumption.
        -- eapply halting_bind0; [exact Hh|]. cbn [negb]. eapply halting_bind; [exact Hc4|]. exact Hc.
Qed.

Lemma transfer_halts {F W : Type} (h : handler F W) E inp fs vs st s r v n : (length inp < fuel E)%nat -> repr E inp fs vs st s r ->
  at_val E fs vs st = inr v -> restrict_number_values (cfg E) = true -> find unsupported_number (numbers v) = Some n ->
  exists ps qs, copies v (ps ++ PutNumber n :: qs) /\ halting h (transfer_to E h) s r ps n.
Proof.
  intros Hf Hr Ev Hres Hfind. destruct (nextv_val _ _ _ _ _ Ev) as [_ Hio].
  pose proof (repr_names _ _ _ _ _ _ _ Hr) as Hnames. rewrite Hio in Hnames.
  pose proof (mu_bound _ _ _ _ (repr_inv _ _ _ _ _ _ _ Hr)) as Hmb.
  assert (Hto : forall ps, halting h (transfer_loop E h (fuel E) 0) s r ps n -> halting h (transfer_to E h) s r ps n).
  { intros ps H. apply halting_state. rewrite Hnames. eapply halting_bind0; [|exact H]. apply copying_exec. intros kn. exists kn. reflexivity. }
  assert (Hno : copying h (transfer_name E h) s r [] tt s r) by exact (transfer_no_name h E inp _ _ _ _ _ Hr Hio).
  destruct (fuel E) as [|f] eqn:Ef; [lia|]. rewrite <- Ef in Hf.
  destruct (is_container (json_type v)) eqn:Ec.
  - destruct (step_after h E inp fs vs st s r v 0 Hf Hr Ev ltac:(intros H; congruence)) as (ps & s1 & r1 & Hc & Hm & Hres1).
    rewrite Ec in Hc, Hres1. destruct Hres1 as (Hr1 & Hsplit).
    destruct (transfer_loop_halts h E inp (ent_f fs) (ent_v fs vs) n f Hf Hres [opened v] s1 r1 Hr1) as (ps2 & qs & Hq & Hcl).
    { constructor; [destruct v; exact I|constructor]. }
    { unfold rest_numbers. cbn [flat_map]. rewrite app_nil_r, (opened_numbers v Ec). exact Hfind. }
    { lia. }
    destruct (Hsplit _ _ Hq) as (q1 & q2 & Heq & Hcx & Hq2). inversion Hq2; subst. rewrite app_nil_r in *.
    exists (ps ++ ps2), qs. split; [rewrite <- app_assoc, Heq; exact Hcx|]. apply Hto. cbn [transfer_loop].
    eapply halting_bind0; [apply copying_ret|]. cbn [negb].
    apply (halting_bind h _ _ s r ps 1%nat s1 r1); [|exact Hcl].
    eapply copying_bind0; [exact Hno|]. exact Hc.
  - destruct v as [|b|t|x|y|y]; try discriminate. cbn [numbers find] in Hfind.
    destruct (unsupported_number t) eqn:Et; [|discriminate]. injection Hfind as ->.
    exists [], []. split; [constructor|]. apply Hto. cbn [transfer_loop].
    eapply halting_bind0; [apply copying_ret|]. cbn [negb]. apply halting_first. eapply halting_bind0; [exact Hno|]. apply halting_first.
    exact (halting_number h E inp _ vs st s r n Hf Hr Ev Hres Et).
Qed.
