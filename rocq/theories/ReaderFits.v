(** * Proofs: every call returns a value of its type *)

From Verif Require Import Base Utf8Model NumberModel SpecNumber NumberProofs SourceModel SourceProofs ReaderModel ReaderScan ReaderLex ReaderLexStr
  ReaderMid ReaderAgree ReaderSess ReaderGrammar ReaderSafe.

Definition fits (c : rcall) (o : outcome) : Prop :=
  match o with
  | OOk v =>
    match c with
    | CPeek => exists t, v = RType t
    | CHasNext | CNextBool => exists b, v = RBool b
    | CNextName | CNextNameOwned | CNextString | CNextStr => exists t, v = RStr t
    | CNextNumberStr | CNextNumberString => exists t, v = RStr t /\ number_text t
    | _ => True
    end
  | OReadErr _ => exists n, c = CRead n
  | OPanic Bug | OFuel => False
  | _ => True
  end.

Lemma run_fits A (m : D A) val s r c o : (exists n, c = CRead n) \/ (forall x s' r', m s r = MOk x s' r' -> fits c (OOk (val x))) ->
  (exists n, c = CRead n) \/ (forall e, fits c (OErr e)) ->
  matches o (fst (d_run m val s r)) -> (forall n, c <> CRead n) -> fits c o.
Proof.
  intros [(n & ->)|H] He Hm Hn; [destruct (Hn n eq_refl)|]. unfold d_run in Hm.
  destruct (m s r) as [x s' r'|e s' r'|[n|]| |]; cbn in Hm.
  - subst o. eapply H. reflexivity.
  - subst o. exact I.
  - destruct Hm as (l & ->). exact I.
  - destruct Hm as (e & -> & _). exact I.
  - subst o. exact I.
  - contradiction.
Qed.

Lemma number_body_text E t b s r v s' r' : d_number_body E t b s r = MOk v s' r' -> number_text v.
Proof.
  unfold d_number_body. destruct r as [|x r]; [discriminate|].
  destruct (number_scan E (x :: r)) as [[[res w] rest]| |] eqn:Es; try discriminate.
  destruct (hits_error t rest); [discriminate|]. destruct res as [n|]; [|discriminate].
  apply number_scan_sound in Es as (_ & _ & m & Hm & ->). rewrite (number_utf8 _ _ Hm).
  destruct (_ && _); [discriminate|]. destruct (sep_ok _ _); [|discriminate]. intros [= <- _ _]. exists m. exact Hm.
Qed.

Lemma next_number_text E t s r v s' r' : d_next_number E t s r = MOk v s' r' -> number_text v.
Proof.
  unfold d_next_number, d_number, dbind. destruct (d_start E t TNumber false s r) as [p s1 r1| | | |]; try discriminate.
  destruct (d_number_body E t _ s1 r1) as [v1 s2 r2| | | |] eqn:Eb; try discriminate.
  destruct (d_on_value_end s2 r2) as [u s3 r3| | | |]; try discriminate. intros [= <- _ _].
  exact (number_body_text _ _ _ _ _ _ _ _ Eb).
Qed.

Lemma call_fits E t c d o : matches o (fst (d_call E t c d)) -> fits c o.
Proof.
  destruct d as [s rd r|held| | |]; cbn [d_call].
  - destruct c; cbn [d_call_run];
      try (intros H; refine (run_fits _ _ _ _ _ _ _ _ _ H _); [right; intros; cbn; solve [eauto]|right; intros; exact I|discriminate]).
    + intros H. unfold d_run_reader in H.
      destruct (d_next_string_reader E t s r) as [x s' r'|e s' r'|[n|]| |]; cbn in H; try (subst o; exact I); try contradiction.
      * destruct H as (l & ->). exact I.
      * destruct H as (e & -> & _). exact I.
    + intros H. unfold d_run_read in H. destruct rd as [sv|]; [|cbn in H; subst o; exact I].
      destruct (d_sv_read E len sv s r) as [[bs sv'] s' r'|e s' r'|[n|]| |]; cbn in H; try contradiction.
      * subst o. exact I.
      * destruct H as (e & -> & _). cbn. eauto.
    + intros H. refine (run_fits _ _ _ _ _ _ _ _ _ H _); [right; intros x s' r' Hx; cbn; exists x; split; [reflexivity|exact (next_number_text _ _ _ _ _ _ _ Hx)]|right; intros; exact I|discriminate].
    + intros H. refine (run_fits _ _ _ _ _ _ _ _ _ H _); [right; intros x s' r' Hx; cbn; exists x; split; [reflexivity|exact (next_number_text _ _ _ _ _ _ _ Hx)]|right; intros; exact I|discriminate].
    + cbn. intros ->. exact I.
    + intros H. unfold d_run_consume in H.
      destruct (d_consume_trailing E t s r) as [x s' r'|e s' r'|[n|]| |]; cbn in H; try (subst o; exact I); try contradiction.
      * destruct H as (l & ->). exact I.
      * destruct H as (e & -> & _). exact I.
  - destruct c; cbn; try (intros ->; exact I).
    + destruct held; cbn; intros ->; cbn; eauto.
    + destruct path; cbn; intros ->; exact I.
    + intros (p & ->). exact I.
  - cbn. intros ->. exact I.
  - cbn. intros ->. exact I.
  - cbn. contradiction.
Qed.

Lemma calls_fit E t cs : forall d os, Forall2 matches os (fst (d_calls E t cs d)) -> Forall2 fits cs os.
Proof.
  induction cs as [|c cs IH]; intros d os H; cbn [d_calls] in H.
  - inversion H; subst. constructor.
  - destruct (d_call E t c d) as [o1 d1] eqn:Ec. destruct (d_calls E t cs d1) as [os1 d2] eqn:Ecs. cbn in H.
    inversion H as [|o ? os' ? Ho Hos]; subst. constructor.
    + apply (call_fits E t c d). rewrite Ec. exact Ho.
    + apply (IH d1). rewrite Ecs. exact Hos.
Qed.

Lemma session_fits s evs cs : Forall is_byte (fst (supplied evs)) -> Forall2 fits cs (read_session s evs cs).
Proof.
  intros Hb. destruct (session_agree s evs cs (session_no_bug s evs cs Hb)) as (os & st' & a' & _ & -> & Hm).
  unfold d_session in Hm. exact (calls_fit _ _ _ _ _ Hm).
Qed.
