(** * Proofs: the serde deserializer on known data *)

From Verif Require Import Base Utf8Model Utf8Proofs NumberModel SpecNumber NumberProofs SpecJson SourceModel ReaderModel ReaderGrammar SpecCursor SpecRead ReaderCursor
  SimpleModel SimpleWp SimpleRun SimpleRun2 TransferWriter DeModel SpecDe.

Ltac splits := repeat match goal with |- _ /\ _ => split end.

(** ** Integers *)

Lemma parse_digits_decimal ds : forall acc,
  parse_digits acc ds = option_map (fun n => (acc * 10 ^ Z.of_nat (length ds) + Z.of_N n)%Z) (decimal ds).
Proof.
  induction ds as [|c ds IH]; intros acc; [cbn; f_equal; lia|].
  cbn [parse_digits decimal]. unfold is_digit. destruct ((0x30 <=? c) && (c <=? 0x39)); [|reflexivity].
  rewrite IH. destruct (decimal ds) as [n|]; [|reflexivity]. cbn [option_map length]. f_equal.
  rewrite Nat2Z.inj_succ, Z.pow_succ_r by lia. rewrite N2Z.inj_add, N2Z.inj_mul, N2Z.inj_pow, nat_N_Z. lia.
Qed.

Lemma in_range_limits t z : in_range t z = ((min_int t <=? z) && (z <=? max_int t))%Z.
Proof.
  unfold in_range. destruct t; cbn [int_signed int_bits min_int max_int]; cbn; lia.
Qed.

Lemma int_signed_signed t : int_signed t = signed t.
Proof. destruct t; reflexivity. Qed.

Lemma number_start_not_plus t : number_text t -> exists c r, t = c :: r /\ c <> 0x2B /\ (c = 0x2D -> r <> []).
Proof.
  intros (n & minus & int & frac & exp & -> & Hm & Hi & _ & _).
  assert (Hint : exists c r, int = c :: r /\ digit c).
  { destruct Hi as [->|(d & ds & -> & Hd & _)]; do 2 eexists; (split; [reflexivity|]); unfold digit; lia. }
  destruct Hint as (c & r & -> & Hc). unfold digit in Hc.
  destruct Hm as [-> | ->]; cbn; do 2 eexists; (split; [reflexivity|]); split; try lia; try discriminate.
Qed.

Lemma parse_int_integer t text : number_text text -> parse_int t text = integer t text.
Proof.
  intros Hn. destruct (number_start_not_plus _ Hn) as (c & r & -> & Hp & Hm).
  unfold parse_int, integer. rewrite (proj2 (N.eqb_neq c 0x2B) Hp).
  destruct (N.eqb_spec c 0x2D) as [->|Hc]; cbn [andb].
  - rewrite int_signed_signed. destruct (signed t) eqn:Es.
    + destruct r as [|c' r']; [destruct (Hm eq_refl eq_refl)|]. rewrite parse_digits_decimal.
      destruct (decimal (c' :: r')) as [n|]; [|reflexivity]. cbn [option_map].
      rewrite in_range_limits. replace (-1 * (0 * 10 ^ Z.of_nat (length (c' :: r')) + Z.of_N n))%Z with (- Z.of_N n)%Z by lia.
      reflexivity.
    + cbn [parse_digits]. reflexivity.
  - rewrite parse_digits_decimal.
    assert (E : match decimal (c :: r) with Some n => if ((min_int t <=? Z.of_N n) && (Z.of_N n <=? max_int t))%Z then Some (Z.of_N n) else None | None => None end =
      (match c with
      | 45 => if signed t then match decimal r with Some n => if ((min_int t <=? - Z.of_N n) && (- Z.of_N n <=? max_int t))%Z then Some (- Z.of_N n)%Z else None | None => None end else None
      | _ => match decimal (c :: r) with Some n => if ((min_int t <=? Z.of_N n) && (Z.of_N n <=? max_int t))%Z then Some (Z.of_N n) else None | None => None end
      end)).
    { clear -Hc. repeat (destruct c as [|c]; try reflexivity; try congruence; repeat (destruct c as [c|c|]; try reflexivity; try congruence)). }
    rewrite <- E. destruct (decimal (c :: r)) as [n|]; [|reflexivity]. cbn [option_map].
    rewrite in_range_limits.
    replace (1 * (0 * 10 ^ Z.of_nat (length (c :: r)) + Z.of_N n))%Z with (Z.of_N n) by lia. reflexivity.
Qed.

Lemma no_letters t : existsb (fun c => (c =? 0x2E) || (c =? 0x65) || (c =? 0x45)) t = false ->
  ~ In 0x2E t /\ ~ In 0x65 t /\ ~ In 0x45 t.
Proof.
  intros H. splits; intros Hi;
    (assert (E : existsb (fun c => (c =? 0x2E) || (c =? 0x65) || (c =? 0x45)) t = true)
      by (apply existsb_exists; eexists; split; [exact Hi|reflexivity])); congruence.
Qed.

Lemma visit_number_ok V S (C : code V S) vis t : number_text t ->
  visit_number C vis t =
  match number_visit t with
  | Some y => dend_now (DRet (visit_data C vis y))
  | None => dfail DeInvalidNumber
  end.
Proof.
  intros Hn. unfold visit_number, number_visit.
  destruct (existsb _ t) eqn:E.
  - apply existsb_exists in E as (c & Hc & E).
    destruct (in_dec N.eq_dec 0x2E t); [reflexivity|]. destruct (in_dec N.eq_dec 0x65 t); [reflexivity|].
    destruct (in_dec N.eq_dec 0x45 t); [reflexivity|]. exfalso.
    apply orb_true_iff in E as [E|E]; [apply orb_true_iff in E as [E|E]|]; apply N.eqb_eq in E; subst c; contradiction.
  - apply no_letters in E as (H1 & H2 & H3).
    destruct (in_dec N.eq_dec 0x2E t); [contradiction|]. destruct (in_dec N.eq_dec 0x65 t); [contradiction|].
    destruct (in_dec N.eq_dec 0x45 t); [contradiction|].
    rewrite !(parse_int_integer _ t Hn).
    destruct (number_start_not_plus _ Hn) as (c & r & -> & _ & _).
    destruct (N.eqb_spec c 0x2D) as [->|Hc].
    + destruct (integer I64 _); [reflexivity|]. destruct (integer I128 _); reflexivity.
    + assert (E : forall A (x y : A), match c with 45 => x | _ => y end = y).
      { clear -Hc. intros. repeat (destruct c as [|c]; try reflexivity; try congruence; repeat (destruct c as [c|c|]; try reflexivity; try congruence)). }
      rewrite E. destruct (integer U64 _); [reflexivity|]. destruct (integer U128 _); reflexivity.
Qed.

(** ** Names *)

Definition settled {V : Type} (x : verdict V) (r : dend V) : Prop :=
  match x with
  | Gives a => r = DRet (inr a)
  | Fails (FError e) => r = DRet (inl e)
  | Unfinished => r = DFuel
  | _ => False
  end.

Lemma settled_given V (r : derr + V) : settled (given r) (DRet r).
Proof. destruct r; reflexivity. Qed.

Lemma settled_then V (x : verdict V) r (after : derr + V -> derr + V) : (forall e, after (inl e) = inl e) -> settled x r ->
  settled (then_code x (fun a => after (inr a))) (match r with DRet r => DRet (after r) | DPanic k => DPanic k | DFuel => DFuel | DInvalid => DInvalid end).
Proof.
  intros He. destruct x as [a|a|[| | |e]| |]; cbn; try tauto; intros ->.
  - destruct (after (inr a)); reflexivity.
  - rewrite He. reflexivity.
  - reflexivity.
Qed.

Lemma text_settled V S (C : code V S) : returns_errors C -> forall n t,
  (forall seed, settled (sem_text C n t seed) (str_seed C n t seed)) /\
  (forall vis, settled (sem_text_enum C n t vis) (str_enum C n t vis)).
Proof.
  intros (H1 & _ & _ & _ & H5 & H6). induction n as [|n IH]; intros t; [split; reflexivity|].
  destruct (IH t) as [IH1 IH2]. split.
  - intros seed. cbn [sem_text str_seed]. destruct (deserialize C seed) as [r|m vis after] eqn:E; [apply settled_given|].
    pose proof (fun e => H1 _ _ _ _ e E) as He.
    destruct m; try exact (settled_then V _ (DRet _) after He (settled_given V _)).
    exact (settled_then V _ _ after He (IH2 vis)).
  - intros vis. cbn [sem_text_enum str_enum]. destruct (visit_enum C vis) as [r|seed k failed] eqn:E; [apply settled_given|].
    specialize (IH1 seed). destruct (sem_text C n t seed) as [a|a|[| | |e]| |]; cbn [settled] in IH1; try tauto; rewrite IH1.
    + specialize (H6 (k a)). destruct (with_variant C (k a)) as [r|after|seed' after|len vis' after|vis' after]; cbn [unit_variant_only fst sem_unit_variant].
      * apply settled_given.
      * apply settled_given.
      * rewrite H6. reflexivity.
      * rewrite H6. reflexivity.
      * rewrite H6. reflexivity.
    + rewrite (H5 _ _ _ _ e E). reflexivity.
    + reflexivity.
Qed.

Lemma encode_ascii key : Forall (fun b => b < 0x80) (encode_utf8 key) -> encode_utf8 key = key.
Proof.
  induction key as [|c key IH]; [reflexivity|]. rewrite encode_utf8_cons. intros H. apply Forall_app in H as [H1 H2].
  rewrite (IH H2). replace (encode_char c) with [c]; [reflexivity|].
  unfold encode_char in *. destruct (c <? 0x80); [reflexivity|]. exfalso.
  destruct (c <? 0x800); [|destruct (c <? 0x10000)]; inversion H1; subst; lia.
Qed.

Lemma key_number_text key : is_valid_json_number key = true -> number_text key.
Proof.
  intros H. apply is_valid_json_number_spec in H. rewrite <- (encode_ascii key); [exact H|].
  destruct H as (m & H). eapply Forall_impl; [|exact (number_chars _ _ H)].
  cbn. intros b Hb. unfold number_char, digit in Hb. lia.
Qed.

Lemma key_settled V S (C : code V S) : returns_errors C -> forall n key seed,
  settled (sem_key C n key seed) (key_seed C n key seed).
Proof.
  intros HC. induction n as [|n IH]; intros key seed; [reflexivity|]. cbn [sem_key key_seed].
  destruct (deserialize C seed) as [r|m vis after] eqn:E; [apply settled_given|].
  pose proof (fun e => proj1 HC _ _ _ _ e E) as He.
  assert (Hd : forall x r, x = given r -> settled (then_code x (fun a => after (inr a))) (DRet (after r))).
  { intros x r ->. exact (settled_then V _ (DRet r) after He (settled_given V r)). }
  assert (Hs : forall x r, settled x r -> settled (then_code x (fun a => after (inr a))) (match r with DRet r => DRet (after r) | x => x end)).
  { intros x r H. pose proof (settled_then V x r after He H) as H'. destruct r; exact H'. }
  destruct m; try exact (Hd _ _ eq_refl).
  - destruct (list_eq_dec N.eq_dec key lit_true); [exact (Hd _ _ eq_refl)|].
    destruct (list_eq_dec N.eq_dec key lit_false); apply Hd; reflexivity.
  - apply Hd. unfold key_number. destruct (is_valid_json_number key) eqn:Ev; [|reflexivity].
    rewrite (parse_int_integer _ _ (key_number_text _ Ev)). destruct (integer t key); reflexivity.
  - apply Hd. unfold key_number. destruct (is_valid_json_number key); reflexivity.
  - exact (Hs _ _ (IH key _)).
  - exact (Hs _ _ (IH key _)).
  - exact (Hs _ _ (proj2 (text_settled V S C HC n key) vis)).
Qed.

(** ** Programs *)

Lemma wp_dthen A B s (m : de A) (f : derr + A -> de B) d w Q :
  wp s (m d) w (fun re w' =>
    match re with
    | (DRet r, d') => wp s (f r d') w' Q
    | (DPanic k, d') => Q (DPanic k, d') w'
    | (DFuel, d') => Q (DFuel, d') w'
    | (DInvalid, d') => Q (DInvalid, d') w'
    end) -> wp s (dthen m f d) w Q.
Proof.
  intros H. unfold dthen. apply wp_cbind. eapply wp_weaken; [|exact H]. intros [[r|k| |] d'] w' Hx; exact Hx.
Qed.

Lemma wp_dbind A B s (m : de A) (f : A -> de B) d w Q :
  wp s (m d) w (fun re w' =>
    match re with
    | (DRet (inr a), d') => wp s (f a d') w' Q
    | (DRet (inl e), d') => Q (DRet (inl e), d') w'
    | (DPanic k, d') => Q (DPanic k, d') w'
    | (DFuel, d') => Q (DFuel, d') w'
    | (DInvalid, d') => Q (DInvalid, d') w'
    end) -> wp s (dbind m f d) w Q.
Proof.
  intros H. unfold dbind. apply wp_dthen. eapply wp_weaken; [|exact H]. intros [[[e|a]|k| |] d'] w' Hx; exact Hx.
Qed.

(** The program ends as the verdict says; [P] describes success *)
Definition ends {A B : Type} (x : verdict A) (d : N) (P : bool -> A -> B -> walk -> Prop) (re : dend B * N) (w : walk) : Prop :=
  match x with
  | Gives a => exists b, re = (DRet (inr b), d) /\ P false a b w
  | Keeps a => exists b, re = (DRet (inr b), d) /\ P true a b w
  | Fails y => exists e, fst re = DRet (inl e) /\ is_failure y e
  | Panics => fst re = DPanic Misuse
  | Unfinished => fst re = DFuel
  end.

Definition failing (x : expected) : option failure :=
  match x with
  | XType t u _ => Some (FType t u)
  | XStructure k _ => Some (FStructure k)
  | XUnsupportedNumber t => Some (FUnsupportedNumber t)
  | _ => None
  end.

Lemma use_gives A s call (g : rvalue -> de A) c w v c1 b d (Q : dend A * N -> walk -> Prop) :
  at_ c w -> calm call -> call_at s call c = (XOk v, AtCursor c1) -> reading c1 = NotReading -> g v = dret b ->
  (forall w', at_ c1 w' -> Q (DRet (inr b), d) w') ->
  wp s (dbind (duse call) g d) w Q.
Proof.
  intros Hat Hc Hx Hr Hg HQ. apply wp_dbind. cbn [duse wp]. intros o Ho _.
  rewrite (at_call s call c w Hat) in * by (destruct call; tauto). rewrite Hx in *. cbn [fst snd is_result] in *. subst o.
  cbn [wp]. rewrite Hg. cbn. apply HQ. apply at_refl. exact Hr.
Qed.

Lemma use_fails A s call (g : rvalue -> de A) c w y d (Q : dend A * N -> walk -> Prop) :
  at_ c w -> calm call -> failing (fst (call_at s call c)) = Some y ->
  (forall w' e, is_failure y e -> Q (DRet (inl e), d) w') ->
  wp s (dbind (duse call) g d) w Q.
Proof.
  intros Hat Hc Hx HQ. apply wp_dbind. cbn [duse wp]. intros o Ho _.
  rewrite (at_call s call c w Hat) in * by (destruct call; tauto).
  destruct (call_at s call c) as [x w1]. cbn [fst snd] in *.
  destruct x; try discriminate; cbn in Hx; injection Hx as <-; cbn [is_result] in Ho; destruct Ho as (loc & Ho).
  - destruct Ho as [-> _]. cbn. apply HQ. exists loc. reflexivity.
  - destruct Ho as [-> _]. cbn. apply HQ. exists loc. reflexivity.
  - subst o. cbn. apply HQ. exists loc. reflexivity.
Qed.

Lemma use_panics A s call (g : rvalue -> de A) c w d (Q : dend A * N -> walk -> Prop) :
  at_ c w -> calm call -> fst (call_at s call c) = XMisuse ->
  (forall w', Q (DPanic Misuse, d) w') ->
  wp s (dbind (duse call) g d) w Q.
Proof.
  intros Hat Hc Hx HQ. apply wp_dbind. cbn [duse wp]. intros o Ho _.
  rewrite (at_call s call c w Hat) in * by (destruct call; tauto).
  destruct (call_at s call c) as [x w1]. cbn [fst snd] in *. subst x. cbn in Ho. subst o. cbn. apply HQ.
Qed.

(** Reading a value [v] *)
Definition reads (call : rcall) (v : json) : option rvalue :=
  match call, v with
  | CPeek, _ => Some (RType (json_type v))
  | CNextBool, JBool b => Some (RBool b)
  | CNextNull, JNull => Some RUnit
  | (CNextStr | CNextString), JStr t => Some (RStr t)
  | CSkipValue, _ => Some RUnit
  | _, _ => None
  end.

Lemma read_call s call c v r : at_value s c = inr v -> reads call v = Some r ->
  call_at s call c = (XOk r, AtCursor (match call with CPeek => c | _ => behind_value c end)).
Proof.
  intros Hv Hr. destruct call; try discriminate; cbn [call_at]; unfold on_value; rewrite Hv; destruct v; try discriminate;
    cbn [reads] in Hr; injection Hr as <-; reflexivity.
Qed.

Definition wants (call : rcall) : option value_type :=
  match call with
  | CNextBool => Some TBoolean
  | CNextNull => Some TNull
  | CNextStr | CNextString => Some TString
  | CNextNumberStr => Some TNumber
  | CBeginArray => Some TArray
  | CBeginObject => Some TObject
  | _ => None
  end.

Lemma wrong_call s call c v ty : at_value s c = inr v -> wants call = Some ty -> json_type v <> ty ->
  failing (fst (call_at s call c)) = Some (FType ty (json_type v)).
Proof.
  intros Hv Hw Ht. destruct call; try discriminate; injection Hw as <-; cbn [call_at]; unfold on_value; rewrite Hv;
    (destruct (value_type_dec _ _); [contradiction|reflexivity]).
Qed.

(** ** Containers *)

Definition value_end {V : Type} (c : cursor) (kept : bool) (a b : V) (w : walk) : Prop :=
  a = b /\ at_ (if kept then c else behind_value c) w.

Lemma wp_given V s (c : cursor) (r : derr + V) w d : at_ (behind_value c) w ->
  wp s (dend_now (DRet r) d) w (ends (given r) d (value_end c)).
Proof.
  intros H. cbn. destruct r as [e|a]; cbn.
  - exists e. split; reflexivity.
  - exists a. split; [reflexivity|]. split; [reflexivity|exact H].
Qed.

Lemma wp_check A B s limit (body : de B) (x : verdict A) d P w :
  wp s (body (d + 1)) w (ends x (d + 1) P) -> wp s (check_nesting limit body d) w (ends (enter limit d x) d P).
Proof.
  intros H. unfold check_nesting, enter. rewrite N.ltb_antisym. destruct (limit <=? d); cbn [negb].
  - cbn. eexists. split; reflexivity.
  - apply wp_cbind. eapply wp_weaken; [|exact H]. intros re w' He. clear H.
    destruct x as [a|a|y| |]; cbn in He |- *.
    + destruct He as (b & -> & HP). replace (d + 1 =? 0) with false by (symmetry; apply N.eqb_neq; lia).
      cbn. exists b. split; [|exact HP]. f_equal. lia.
    + destruct He as (b & -> & HP). replace (d + 1 =? 0) with false by (symmetry; apply N.eqb_neq; lia).
      cbn. exists b. split; [|exact HP]. f_equal. lia.
    + destruct He as (e & Hre & Hy). destruct re as [re d']. cbn in Hre. subst re. cbn. exists e. auto.
    + destruct re as [re d']. cbn in He. subst re. reflexivity.
    + destruct re as [re d']. cbn in He. subst re. reflexivity.
Qed.


Definition items_ok {V S : Type} (C : code V S) (s : settings) (limit : N) (n : nat) : Prop :=
  forall expected len st c w i items fs d, at_ c w -> frames c = InArray i items :: fs -> Forall sound items ->
  wp s (run_seq C limit n expected len st d) w
    (ends (sem_items C s limit n expected len st items d) d
       (fun _ x b w' => fst x = b /\ exists i', at_ (set_frames (InArray i' (snd x) :: fs) c) w')).

Lemma end_array_call s c i rest fs : reading c = NotReading -> frames c = InArray i rest :: fs ->
  call_at s CEndArray c = match rest with [] => (XOk RUnit, AtCursor (close_frame c)) | _ => (XStructure MoreElementsThanExpected (cursor_path c), AtCursor c) end.
Proof. intros Hr Hf. cbn [call_at]. rewrite (not_reading c Hr), Hf. destruct rest; reflexivity. Qed.

Lemma end_object_call s c nm rest fs : reading c = NotReading -> frames c = InObject nm rest :: fs ->
  call_at s CEndObject c = match rest with [] => (XOk RUnit, AtCursor (close_frame c)) | _ => (XStructure MoreElementsThanExpected (cursor_path c), AtCursor c) end.
Proof. intros Hr Hf. cbn [call_at]. rewrite (not_reading c Hr), Hf. destruct rest; reflexivity. Qed.

Lemma wp_leave V s (a : V) c w i rest fs c0 d : at_ c w -> frames c = InArray i rest :: fs -> close_frame c = c0 ->
  wp s (dbind (use_unit CEndArray) (fun _ => dret a) d) w
    (ends (leave rest a) d (fun kept x b w' => kept = false /\ x = b /\ at_ c0 w')).
Proof.
  intros Hat Hf Hc. apply wp_dbind. pose proof (end_array_call s c i rest fs (proj1 Hat) Hf) as Hx.
  destruct rest as [|v rest].
  - eapply use_gives; [exact Hat|exact I|exact Hx|rewrite close_reading; apply Hat|reflexivity|].
    intros w' Hw'. cbn. exists a. splits; auto. rewrite <- Hc. exact Hw'.
  - eapply use_fails with (y := FStructure MoreElementsThanExpected); [exact Hat|exact I|rewrite Hx; reflexivity|].
    intros w' e He. cbn. exists e. auto.
Qed.

Lemma enter_frames_reading f c : reading (open_frame f (enter_value c)) = reading c.
Proof. cbn. apply enter_reading. Qed.

Lemma wp_array V S (C : code V S) s limit n expected vis c w items d :
  items_ok C s limit n -> at_ c w -> at_value s c = inr (JArr items) -> Forall sound items ->
  wp s (de_array limit expected (run_seq C limit n expected 0 vis) d) w
    (ends (enter limit d
        match sem_items C s limit n expected 0 vis items (d + 1) with
        | Gives (a, len, rest) | Keeps (a, len, rest) =>
          match expected with
          | Some m => if len <? m then Fails (FError (DeInvalidLength len m)) else leave rest a
          | None => leave rest a
          end
        | Fails x => Fails x
        | Panics => Panics
        | Unfinished => Unfinished
        end) d (value_end c)).
Proof.
  intros Hok Hat Hv Hs. unfold de_array. apply wp_check. apply wp_dbind.
  set (c1 := open_frame (InArray 0 items) (enter_value c)).
  assert (Hr1 : reading c1 = NotReading) by (unfold c1; rewrite enter_frames_reading; apply Hat).
  eapply use_gives with (c1 := c1); [exact Hat|exact I| |exact Hr1|reflexivity|].
  { cbn [call_at]. unfold on_value. rewrite Hv. reflexivity. }
  intros w1 Hw1. apply wp_dbind. eapply wp_weaken; [|exact (Hok expected 0 vis c1 w1 0 items (frames (enter_value c)) (d + 1) Hw1 eq_refl Hs)].
  intros re w' H.
  assert (Hgo : forall a len rest, (exists b, re = (DRet (inr b), d + 1) /\ (a, len) = b /\ exists i', at_ (set_frames (InArray i' rest :: frames (enter_value c)) c1) w') ->
    wp s match re with
      | (DRet (inr a), d') => dbind (match expected with
            | Some n => if snd a <? n then dfail (DeInvalidLength (snd a) n) else dret tt
            | None => dret tt
            end) (fun _ => dbind (use_unit CEndArray) (fun _ => dret (fst a))) d'
      | (DRet (inl e), d') => Done (DRet (inl e), d')
      | (DPanic k, d') => Done (DPanic k, d')
      | (DFuel, d') => Done (DFuel, d')
      | (DInvalid, d') => Done (DInvalid, d')
      end w' (ends match expected with
          | Some m => if len <? m then Fails (FError (DeInvalidLength len m)) else leave rest a
          | None => leave rest a
          end (d + 1) (value_end c))).
  { intros a len rest (b & -> & <- & i' & Hw'). cbn [fst snd].
    set (c2 := set_frames (InArray i' rest :: frames (enter_value c)) c1) in *.
    assert (Hclose : close_frame c2 = behind_value c).
    { unfold c2. rewrite (close_set _ (InArray 0 items)) by reflexivity. unfold c1. rewrite close_open. reflexivity. }
    assert (Hl : wp s (dbind (use_unit CEndArray) (fun _ => dret a) (d + 1)) w' (ends (leave rest a) (d + 1) (value_end c))).
    { eapply wp_weaken; [|exact (wp_leave V s a c2 w' i' rest (frames (enter_value c)) (behind_value c) (d + 1) Hw' eq_refl Hclose)].
      intros re w2. unfold leave. destruct rest; cbn; [|auto].
      intros (b & -> & _ & -> & H2). exists b. split; [reflexivity|]. split; [reflexivity|exact H2]. }
    destruct expected as [m|].
    - destruct (len <? m) eqn:El.
      + apply wp_dbind. cbn. eexists. split; reflexivity.
      + apply wp_dbind. cbn [dret dend_now wp]. exact Hl.
    - apply wp_dbind. cbn [dret dend_now wp]. exact Hl. }
  destruct (sem_items C s limit n expected 0 vis items (d + 1)) as [[[a len] rest]|[[a len] rest]|y| |]; cbn [ends] in H.
  - specialize (Hgo a len rest H). destruct re as [[[|]| | |] ?]; exact Hgo.
  - specialize (Hgo a len rest H). destruct re as [[[|]| | |] ?]; exact Hgo.
  - destruct H as (e & Hre & Hy). destruct re as [re d']. cbn in Hre. subst re. cbn. exists e. auto.
  - destruct re as [re d']. cbn in H. subst re. reflexivity.
  - destruct re as [re d']. cbn in H. subst re. reflexivity.
Qed.

Lemma wp_wrong_array V s limit expected (body : de (V * N)) c w v d : at_ c w -> at_value s c = inr v -> json_type v <> TArray ->
  wp s (de_array limit expected body d) w (ends (enter limit d (Fails (FType TArray (json_type v)))) d (value_end c)).
Proof.
  intros Hat Hv Ht. unfold de_array. apply wp_check. apply wp_dbind.
  eapply use_fails; [exact Hat|exact I|exact (wrong_call s CBeginArray c v TArray Hv eq_refl Ht)|].
  intros w' e He. cbn. exists e. auto.
Qed.

Lemma wp_wrong_object V s limit (body : de (V * bool)) c w v d : at_ c w -> at_value s c = inr v -> json_type v <> TObject ->
  wp s (de_object limit body d) w (ends (enter limit d (Fails (FType TObject (json_type v)))) d (value_end c)).
Proof.
  intros Hat Hv Ht. unfold de_object. apply wp_check. apply wp_dbind.
  eapply use_fails; [exact Hat|exact I|exact (wrong_call s CBeginObject c v TObject Hv eq_refl Ht)|].
  intros w' e He. cbn. exists e. auto.
Qed.

(** What happens behind [visit_map] and [visit_enum] *)
Definition finish_object {V : Type} (ab : V * bool) : de V :=
  dbind (if snd ab then dpanic Misuse else dret tt) (fun _ =>
  dbind (use_unit CEndObject) (fun _ => dret (fst ab))).

Definition object_post {V : Type} (s : settings) (c : cursor) (x : verdict V) (d : N) (re : dend (V * bool) * N) (w : walk) : Prop :=
  wp s (match re with
        | (DRet (inr ab), d') => finish_object ab d'
        | (DRet (inl e), d') => Done (DRet (inl e), d')
        | (DPanic k, d') => Done (DPanic k, d')
        | (DFuel, d') => Done (DFuel, d')
        | (DInvalid, d') => Done (DInvalid, d')
        end) w (ends x d (fun kept a b w' => kept = false /\ a = b /\ at_ (close_frame c) w')).

Lemma wp_object V s limit (body : de (V * bool)) x c w ms d : at_ c w -> at_value s c = inr (JObj ms) ->
  (forall w1, at_ (open_frame (InObject None ms) (enter_value c)) w1 ->
     wp s (body (d + 1)) w1 (object_post s (open_frame (InObject None ms) (enter_value c)) x (d + 1))) ->
  wp s (de_object limit body d) w (ends (enter limit d x) d (value_end c)).
Proof.
  intros Hat Hv Hb. unfold de_object. apply wp_check. apply wp_dbind.
  set (c1 := open_frame (InObject None ms) (enter_value c)) in *.
  assert (Hr1 : reading c1 = NotReading) by (unfold c1; rewrite enter_frames_reading; apply Hat).
  eapply use_gives with (c1 := c1); [exact Hat|exact I| |exact Hr1|reflexivity|].
  { cbn [call_at]. unfold on_value. rewrite Hv. reflexivity. }
  intros w1 Hw1. apply wp_dbind. eapply wp_weaken; [|exact (Hb w1 Hw1)].
  intros re w' H. unfold object_post in H.
  assert (H' : wp s match re with
        | (DRet (inr ab), d') => finish_object ab d'
        | (DRet (inl e), d') => Done (DRet (inl e), d')
        | (DPanic k, d') => Done (DPanic k, d')
        | (DFuel, d') => Done (DFuel, d')
        | (DInvalid, d') => Done (DInvalid, d')
        end w' (ends x (d + 1) (value_end c))).
  { eapply wp_weaken; [|exact H]. intros re' w2. destruct x; cbn; auto.
    - intros (b & -> & _ & -> & H2). exists b. split; [reflexivity|]. split; [reflexivity|].
      unfold c1 in H2. rewrite close_open in H2. exact H2.
    - intros (b & _ & E & _). discriminate. }
  destruct re as [[[|]| | |] ?]; exact H'.
Qed.
