(** * Proofs: programs using the reader API, run on known data *)

From Verif Require Import Base Utf8Model Utf8Proofs NumberModel SpecNumber NumberProofs SpecJson
  SourceModel SourceProofs ReaderModel ReaderScan ReaderLex ReaderLexStr ReaderMid ReaderAgree ReaderSess ReaderGrammar
  ReaderSafe SpecCursor ReaderRepr ReaderForward ReaderSkip ReaderWalk SpecRead GrammarFacts ReaderCursor
  SimpleModel SpecSimple SimpleErrors.
From Verif Require TransferWriter TransferFinal.

(** The value at which the reader is occurs in a document *)
Definition walk_sound (s : settings) (w : walk) : Prop :=
  match w with
  | AtCursor c => forall v, at_value s (drop_reader c) = inr v -> TransferWriter.sound v
  | _ => True
  end.

(** Whatever the details of the outcomes are, the program ends in [Q] *)
Fixpoint wp {A : Type} (s : settings) (m : client A) (w : walk) (Q : A -> walk -> Prop) : Prop :=
  match m with
  | Done a => Q a w
  | Call c k => forall o, is_result s (fst (walk_call s c w)) o -> walk_sound s w -> wp s (k o) (snd (walk_call s c w)) Q
  end.

Lemma wp_weaken A s (m : client A) : forall w (Q Q' : A -> walk -> Prop),
  (forall a w', Q a w' -> Q' a w') -> wp s m w Q -> wp s m w Q'.
Proof. induction m as [a|c k IH]; intros w Q Q' H Hm; cbn in *; eauto. Qed.

Lemma wp_true A s (m : client A) : forall w (Q : A -> walk -> Prop), (forall a w', Q a w') -> wp s m w Q.
Proof. induction m as [a|c k IH]; intros w Q H; cbn; auto. Qed.

Lemma wp_cbind A B s (m : client A) (f : A -> client B) : forall w Q,
  wp s m w (fun a w' => wp s (f a) w' Q) -> wp s (cbind m f) w Q.
Proof. induction m as [a|c k IH]; intros w Q H; cbn in *; auto. Qed.

(** Before the first call it is known that the value occurs in a document *)
Lemma wp_sound A s (m : client A) w (Q : A -> walk -> Prop) : match m with Call _ _ => True | Done _ => False end ->
  (walk_sound s w -> wp s m w Q) -> wp s m w Q.
Proof. destruct m as [a|c k]; intros Hm H; [contradiction|]. cbn in *. intros o Ho Hs. exact (H Hs o Ho Hs). Qed.

(** ** The reader *)

Lemma wrep_bug E inp w d : wrep E inp w d -> d <> DBug.
Proof. destruct w; cbn; [intros (s & rd & r & -> & _)|intros ->|intros ->]; discriminate. Qed.

Lemma wp_run A E inp (m : client A) : (length inp < fuel E)%nat -> forall w d st a Q,
  wrep E inp w d -> srel TEof st a d -> wp (cfg E) m w Q ->
  exists x st' a' w', arun (client_run E m st) a = Some ((x, st'), a') /\ Q x w'.
Proof.
  intros Hf. induction m as [x|c k IH]; intros w d st a Q Hw Hs Hm; cbn [client_run wp] in *.
  - exists x, st, a, w. split; [reflexivity|exact Hm].
  - pose proof (walk_step E inp c w d Hf Hw) as Hstep.
    pose proof (client_call_agree E TEof c st a d ltac:(lia) Hs) as Hc. unfold call_ok in Hc.
    destruct Hstep as [Hres Hw'].
    destruct (Hc (wrep_bug _ _ _ _ Hw')) as (o & st' & a' & Hrun & Hmatch & Hs').
    destruct (IH o _ _ st' a' Q Hw' Hs') as (x & st2 & a2 & w2 & Hrun2 & HQ).
    { apply Hm; [exact (Hres o Hmatch)|]. destruct w as [c0| |]; cbn [walk_sound]; auto. intros v Hv.
      destruct Hw as (s1 & rd & r & -> & Hw). destruct (TransferFinal.at_value_repr E inp c0 s1 rd r _ Hw Hv) as [(Hr & _ & Hat)|(Hx & _)]; [|discriminate].
      exact (TransferFinal.repr_sound E inp _ _ _ s1 r v Hf Hr Hat). }
    exists x, st2, a2, w2. split; [|exact HQ]. rewrite arun_bind, Hrun. exact Hrun2.
Qed.

Lemma wp_session A s vs evs (m : client A) Q : document_input s vs evs ->
  wp s m (AtCursor (cursor_start vs)) Q ->
  exists x w', (exists c', crun (client_run (Env s (enough_fuel (fst (supplied evs)))) m (session_new s)) (csrc_new evs) = Some (x, c')) /\ Q (fst x) w'.
Proof.
  intros Hd Hm. destruct (Hd) as (Ht & Hi & Hl). set (inp := fst (supplied evs)) in *.
  set (E := Env s (enough_fuel inp)).
  assert (Hf : (length inp < fuel E)%nat) by (cbn; unfold enough_fuel; lia).
  assert (Hb : Forall is_byte inp) by (eapply input_bytes; eassumption).
  destruct (wp_run A E inp m Hf (AtCursor (cursor_start vs)) (DRun (rstate_new s) None inp) (session_new s) (asrc_new inp TEof) Q)
    as (x & st' & a' & w' & Hrun & HQ).
  { exists (rstate_new s), None, inp. split; [reflexivity|]. split; [|reflexivity]. apply repr_start; auto. }
  { cbn [srel]. splits; [reflexivity| |exact I]. exists false. reflexivity. }
  { exact Hm. }
  pose proof (rel_new evs) as Hrel. rewrite Ht in Hrel. fold inp in Hrel.
  destruct (refines _ _ _ _ _ Hrel Hrun) as (c' & Hcr & _).
  exists (x, st'), w'. split; [exists c'; exact Hcr|exact HQ].
Qed.

(** ** Programs which keep the error *)

(** The cursor of the client, which may still hold a string reader *)
Definition at_ (c : cursor) (w : walk) : Prop :=
  reading c = NotReading /\ exists c', w = AtCursor c' /\ drop_reader c' = c.

Lemma at_refl c : reading c = NotReading -> at_ c (AtCursor c).
Proof. intros H. split; [exact H|]. exists c. split; [reflexivity|]. apply drop_none; exact H. Qed.

Lemma at_call s call c w : at_ c w -> match call with CRead _ => False | _ => True end ->
  walk_call s call w = call_at s call c.
Proof.
  intros (Hr & c' & -> & Hd) Hc. unfold walk_call, before_call. destruct call; try rewrite Hd; tauto || reflexivity.
Qed.

Definition no_bug {A : Type} (r : sres A) : Prop := match r with SPanic Bug | SFuel => False | _ => True end.

(** The state after an error of the reader *)
Definition broken {A : Type} (re : sres A * option kept_error) : Prop := snd re <> None /\ no_bug (fst re).

(** In that state the program stays there *)
Fixpoint quiet {A : Type} (m : client (sres A * option kept_error)) : Prop :=
  match m with
  | Done re => broken re
  | Call c k => position_call c /\ forall o, quiet (k o)
  end.
Definition tame {A : Type} (m : simple A) : Prop := forall e, quiet (m (Some e)).

Lemma quiet_wp A s (m : client (sres A * option kept_error)) : quiet m -> forall w (Q : _ -> walk -> Prop),
  (forall re w', broken re -> Q re w') -> wp s m w Q.
Proof.
  induction m as [re|c k IH]; intros Hq w Q H; cbn in *; [auto|].
  intros o _ _. apply IH; auto. apply Hq.
Qed.

Lemma tame_wp A s (m : simple A) e w (Q : _ -> walk -> Prop) : tame m -> (forall re w', broken re -> Q re w') -> wp s (m (Some e)) w Q.
Proof. intros Hm H. apply quiet_wp; auto. Qed.

Lemma quiet_bind A B (m : client (sres A * option kept_error)) (f : sres A * option kept_error -> client (sres B * option kept_error)) :
  quiet m -> (forall re, broken re -> quiet (f re)) -> quiet (cbind m f).
Proof. induction m as [re|c k IH]; intros Hm Hf; cbn in *; [auto|]. destruct Hm. split; auto. Qed.

Lemma tame_bind A B (m : simple A) (f : A -> simple B) : tame m -> (forall a, tame (f a)) -> tame (sbind m f).
Proof.
  intros Hm Hf e. unfold sbind. apply quiet_bind; [apply Hm|]. intros [r err] [H1 H2]. cbn in *.
  destruct err as [e'|]; [|congruence]. destruct r as [a|x|k| |]; try (cbn; split; cbn; auto; discriminate).
  apply Hf.
Qed.

Lemma tame_done A (r : sres A) : no_bug r -> tame (fun err => Done (r, err)).
Proof. intros H e. cbn. split; [discriminate|exact H]. Qed.
Lemma tame_ret A (a : A) : tame (sret a). Proof. apply tame_done. exact I. Qed.
Lemma tame_fail A e : tame (@sfail A e). Proof. apply tame_done. exact I. Qed.
Lemma tame_of_result A (r : simple_error + A) : tame (of_result r).
Proof. destruct r; [apply tame_fail|apply tame_ret]. Qed.

Lemma tame_capture A (m : simple A) : tame m -> tame (capture m).
Proof.
  intros Hm e. unfold capture. apply quiet_bind; [apply Hm|]. intros [r err] [H1 H2]. cbn in *.
  destruct r; cbn; split; auto.
Qed.

(** The program starts with a call which fails if there is an error *)
Definition mute {A : Type} (m : simple A) : Prop := forall e, m (Some e) = Done (SErr (SPrevious e), Some e).
Lemma mute_tame A (m : simple A) : mute m -> tame m.
Proof. intros H e. rewrite H. cbn. split; [discriminate|exact I]. Qed.
Lemma mute_bind A B (m : simple A) (f : A -> simple B) : mute m -> mute (sbind m f).
Proof. intros H e. unfold sbind. rewrite H. reflexivity. Qed.
Lemma mute_delegate c : mute (delegate c). Proof. intros e. reflexivity. Qed.
Lemma mute_unit c : mute (d_unit c). Proof. intros e. reflexivity. Qed.
Lemma mute_has_next : mute d_has_next. Proof. intros e. reflexivity. Qed.
Lemma mute_peek : mute d_peek. Proof. intros e. reflexivity. Qed.
Lemma mute_bool : mute d_bool. Proof. intros e. reflexivity. Qed.
Lemma mute_str c : mute (d_str c). Proof. intros e. reflexivity. Qed.

Lemma tame_position : tame d_position.
Proof.
  intros e. cbn. split; [exists true; reflexivity|]. intros o.
  destruct o as [v|?|?|?| | |]; [destruct v|..]; (split; [discriminate|exact I]).
Qed.

(** Sequential composition *)
Lemma wp_bind A B s (m : simple A) (f : A -> simple B) err w Q :
  wp s (m err) w (fun re w' =>
    match re with
    | (SOk a, err') => wp s (f a err') w' Q
    | (SErr e, err') => Q (SErr e, err') w'
    | (SPanic k, err') => Q (SPanic k, err') w'
    | (SFuel, err') => Q (SFuel, err') w'
    | (SInvalid, err') => Q (SInvalid, err') w'
    end) -> wp s (sbind m f err) w Q.
Proof.
  intros H. unfold sbind. apply wp_cbind. eapply wp_weaken; [|exact H].
  intros [r err'] w' Hx. destruct r; exact Hx.
Qed.

(** [m] ends as the verdict [x] says, and [P] describes success *)
Definition follows {A B : Type} (x : verdict A) (P : A -> B -> walk -> Prop) (re : sres B * option kept_error) (w : walk) : Prop :=
  match x with
  | Gives a => exists b, re = (SOk b, None) /\ P a b w
  | Fails => broken re
  | Aborts e _ => re = (SErr e, None)
  | Unspecified => True
  end.

Definition vbind {A B : Type} (x : verdict A) (f : A -> verdict B) : verdict B :=
  match x with
  | Gives a => f a
  | Fails => Fails
  | Aborts e _ => Aborts e false
  | Unspecified => Unspecified
  end.

Lemma wp_follow A A' B B' s (m : simple B) (f : B -> simple B') (x : verdict A) (g : A -> verdict A') P P' w :
  wp s (m None) w (follows x P) -> (forall b, tame (f b)) ->
  (forall a b w', x = Gives a -> P a b w' -> wp s (f b None) w' (follows (g a) P')) ->
  wp s (sbind m f None) w (follows (vbind x g) P').
Proof.
  intros Hm Ht Hf. apply wp_bind. eapply wp_weaken; [|exact Hm]. intros [r err] w' H.
  destruct x as [a| |e c|]; cbn [follows vbind] in *.
  - destruct H as (b & [= -> ->] & HP). exact (Hf a b w' eq_refl HP).
  - destruct H as [H1 H2]. cbn in H1, H2. destruct err as [e|]; [|congruence].
    destruct r as [b|e'|k| |]; try (split; assumption). apply tame_wp; auto.
  - injection H as -> ->. reflexivity.
  - destruct r; auto. apply wp_true. intros; exact I.
Qed.

Lemma follows_weaken A B (x : verdict A) (P P' : A -> B -> walk -> Prop) re w :
  (forall a b w', x = Gives a -> P a b w' -> P' a b w') -> follows x P re w -> follows x P' re w.
Proof.
  intros H. destruct x; cbn; auto. intros (b & E & HP). exists b. auto.
Qed.

(** ** Single calls *)

Lemma wp_delegate s c w (Q : _ -> walk -> Prop) :
  (forall o, is_result s (fst (walk_call s c w)) o ->
     let w' := snd (walk_call s c w) in
     match o with
     | OOk v => Q (SOk v, None) w'
     | OErr e => Q (SErr (SError e), Some (keep e)) w'
     | OReadErr _ => Q (SPanic Bug, None) w'
     | OPanic k => Q (SPanic k, None) w'
     | OFuel => Q (SFuel, None) w'
     | ONotPossible | OStopped => Q (SInvalid, None) w'
     end) -> wp s (delegate c None) w Q.
Proof. intros H. cbn. intros o Ho _. specialize (H o Ho). destruct o; exact H. Qed.

(** The verdict of a call *)
Definition call_verdict (x : expected) : verdict rvalue :=
  match x with
  | XOk v => Gives v
  | XType _ _ _ | XStructure _ _ | XUnsupportedNumber _ => Fails
  | _ => Unspecified
  end.

Lemma call_follows s call c w x w1 : at_ c w -> match call with CRead _ | CPosition _ | CConsumeTrailingWhitespace => False | _ => True end ->
  call_at s call c = (x, w1) ->
  wp s (delegate call None) w (follows (call_verdict x) (fun a b w' => a = b /\ w' = w1)).
Proof.
  intros Hat Hc Hx. apply wp_delegate. intros o Ho.
  rewrite (at_call s call c w Hat) in * by (destruct call; tauto). rewrite Hx in *. cbn [fst snd] in *. cbn zeta.
  destruct x as [v|p|e a p|k p|t| | | |]; cbn [is_result call_verdict follows] in *.
  - subst o. eauto.
  - destruct o; exact I.
  - destruct Ho as (loc & -> & _). split; [discriminate|exact I].
  - destruct Ho as (loc & -> & _). split; [discriminate|exact I].
  - destruct Ho as (loc & ->). split; [discriminate|exact I].
  - subst o. exact I.
  - subst o. exact I.
  - subst o. exact I.
  - destruct o; exact I.
Qed.
