(** * Proofs: the serde deserializer on arbitrary input *)

From Verif Require Import Base Utf8Model NumberModel SpecNumber NumberProofs SpecJson SourceModel SourceProofs ReaderModel ReaderGrammar
  ReaderLex ReaderSess ReaderSafe ReaderFits SimpleModel SpecSimple SimpleFinal DeModel.
From Verif Require DeRun.

Local Ltac splits := repeat match goal with |- _ /\ _ => split end.

(** ** Sessions *)

Lemma plays_bind A B (m : client A) (f : A -> client B) : forall log b, plays (cbind m f) log b ->
  exists a l1 l2, log = l1 ++ l2 /\ plays m l1 a /\ plays (f a) l2 b.
Proof.
  induction m as [a|c k IH]; intros log b H; cbn [cbind] in H.
  - exists a, [], log. splits; auto. constructor.
  - inversion H as [|? ? o ? ? Hk]; subst. destruct (IH _ _ _ Hk) as (a & l1 & l2 & -> & H1 & H2).
    exists a, ((c, o) :: l1), l2. splits; auto. constructor. exact H1.
Qed.

Lemma client_run_log A E (m : client A) : forall st c a st' c',
  crun (client_run E m st) c = Some (a, st', c') ->
  exists log st2 c2, plays m log a /\ crun (client_calls E (map fst log) st) c = Some (map snd log, st2, c2).
Proof.
  induction m as [a0|call k IH]; intros st c a st' c' H; cbn [client_run] in H.
  - cbn in H. injection H as <- _ _. exists [], st, c. split; [constructor|reflexivity].
  - rewrite crun_pbind in H. destruct (crun (client_call E call st) c) as [[[o st1] c1]|] eqn:Ec; [|discriminate].
    cbn [fst snd] in H. destruct (IH o _ _ _ _ _ H) as (log & st2 & c2 & Hl & Hr). exists ((call, o) :: log), st2, c2. split; [constructor; exact Hl|].
    cbn [map client_calls fst snd]. rewrite crun_pbind, Ec. cbn [fst snd]. rewrite crun_pbind, Hr. reflexivity.
Qed.

Lemma session_log A s evs (m : client A) a : client_session s evs m = Some a ->
  exists log, plays m log a /\ read_session s evs (map fst log) = map snd log.
Proof.
  unfold client_session. destruct (crun _ _) as [[[a' st'] c']|] eqn:E; [|discriminate]. intros [= ->].
  destruct (client_run_log _ _ _ _ _ _ _ _ E) as (log & st2 & c2 & H1 & H2). exists log. split; [exact H1|].
  unfold read_session. rewrite H2. reflexivity.
Qed.

(** ** The nesting limit, and panics

    [strict]: the outcomes of the calls are those of a reader. *)

Definition delta (c : rcall) (o : outcome) : Z :=
  match c, o with
  | (CBeginArray | CBeginObject), OOk _ => 1
  | (CEndArray | CEndObject), OOk _ => -1
  | _, _ => 0
  end.

Fixpoint track {A : Type} (strict : bool) (limit : N) (m : client A) (b : Z) (Q : A -> Z -> Prop) : Prop :=
  match m with
  | Done a => Q a b
  | Call c k => forall o, (strict = true -> fits c o) ->
      (b + delta c o <= Z.of_N limit)%Z /\ track strict limit (k o) (b + delta c o) Q
  end.

Lemma track_weaken A strict limit (m : client A) : forall b (Q R : A -> Z -> Prop),
  (forall a b', Q a b' -> R a b') -> track strict limit m b Q -> track strict limit m b R.
Proof.
  induction m as [a|c k IH]; intros b Q R HQ H; cbn [track] in *; [auto|].
  intros o Ho. destruct (H o Ho). split; [assumption|]. exact (IH o _ Q R HQ H1).
Qed.

Lemma track_cbind A B strict limit (m : client A) (f : A -> client B) : forall b Q,
  track strict limit m b (fun a b' => track strict limit (f a) b' Q) -> track strict limit (cbind m f) b Q.
Proof.
  induction m as [a|c k IH]; intros b Q H; cbn [track cbind] in *; [auto|].
  intros o Ho. destruct (H o Ho). split; auto.
Qed.

Definition post {A : Type} (strict : bool) (limit d0 : N) (V : A -> Prop) (x : dend A * N) (b : Z) : Prop :=
  (b <= Z.of_N (snd x))%Z /\ snd x <= limit /\ d0 <= snd x /\
  (strict = true -> fst x <> DPanic Bug /\ forall a, fst x = DRet (inr a) -> V a).

Definition kept {A : Type} (strict : bool) (limit : N) (V : A -> Prop) (m : de A) : Prop :=
  forall d b, (b <= Z.of_N d)%Z -> d <= limit -> track strict limit (m d) b (post strict limit d V).

Definition any {A : Type} (a : A) : Prop := True.

Lemma kept_now A strict limit (V : A -> Prop) x : x <> DPanic Bug -> (forall a, x = DRet (inr a) -> V a) ->
  kept strict limit V (dend_now x).
Proof. intros H H2 d b Hb Hd. cbn. unfold post. cbn. splits; auto; lia. Qed.

Lemma kept_ret A strict limit (r : derr + A) : kept strict limit any (dend_now (DRet r)).
Proof. apply kept_now; [discriminate|]. intros; exact I. Qed.

Lemma kept_dthen A B strict limit (V : A -> Prop) (W : B -> Prop) (m : de A) (f : derr + A -> de B) :
  kept strict limit V m -> (forall r, (forall a, strict = true -> r = inr a -> V a) -> kept strict limit W (f r)) ->
  kept strict limit W (dthen m f).
Proof.
  intros Hm Hf d b Hb Hd. unfold dthen. apply track_cbind. eapply track_weaken; [|exact (Hm d b Hb Hd)].
  intros [x d'] b' (H1 & H2 & H3 & H4). cbn [fst snd] in *. destruct x as [r|k| |].
  - eapply track_weaken; [|apply (Hf r); [|exact H1|exact H2]].
    + intros [y d2] b2 (G1 & G2 & G3 & G4). cbn [fst snd] in *. unfold post. cbn. splits; auto; lia.
    + intros a Hs ->. apply (proj2 (H4 Hs) a eq_refl).
  - cbn. unfold post. cbn. splits; auto. intros Hs. split; [intros [= ->]; exact (proj1 (H4 Hs) eq_refl)|discriminate].
  - cbn. unfold post. cbn. splits; auto. intros Hs. split; discriminate.
  - cbn. unfold post. cbn. splits; auto. intros Hs. split; discriminate.
Qed.

Lemma kept_dbind A B strict limit (V : A -> Prop) (W : B -> Prop) (m : de A) (f : A -> de B) :
  kept strict limit V m -> (forall a, (strict = true -> V a) -> kept strict limit W (f a)) ->
  kept strict limit W (dbind m f).
Proof.
  intros Hm Hf. unfold dbind. apply (kept_dthen _ _ _ _ V); [exact Hm|]. intros [e|a] Hr.
  - apply kept_now; discriminate.
  - apply Hf. intros Hs. exact (Hr a Hs eq_refl).
Qed.

Lemma kept_duse strict limit c : (forall o, delta c o = 0%Z) -> (forall n, c <> CRead n) ->
  kept strict limit (fun v => fits c (OOk v)) (duse c).
Proof.
  intros Hd0 Hc d b Hb Hd. cbn. intros o Ho. rewrite Hd0, Z.add_0_r. split; [lia|].
  destruct o; cbn; unfold post; cbn; splits; auto; try lia; intros Hs; split; try discriminate; specialize (Ho Hs).
  - intros a [= <-]. exact Ho.
  - cbn in Ho. destruct Ho as (n & ->). destruct (Hc n eq_refl).
  - cbn in Ho. intros [= ->]. exact Ho.
Qed.

Lemma kept_bool strict limit c : c = CHasNext \/ c = CNextBool -> kept strict limit any (use_bool c).
Proof.
  intros Hc. unfold use_bool. apply (kept_dbind _ _ _ _ (fun v => fits c (OOk v))).
  - apply kept_duse; destruct Hc as [-> | ->]; intros; try reflexivity; discriminate.
  - intros v Hv d b Hb Hd. destruct v; cbn; unfold post, any; cbn; splits; auto; try lia; intros Hs; split; try discriminate; auto;
      destruct Hc as [-> | ->]; destruct (Hv Hs) as (x & E); discriminate.
Qed.

Lemma kept_str strict limit c : c = CNextName \/ c = CNextStr \/ c = CNextString -> kept strict limit any (use_str c).
Proof.
  intros Hc. unfold use_str. apply (kept_dbind _ _ _ _ (fun v => fits c (OOk v))).
  - apply kept_duse; destruct Hc as [-> |[-> | ->]]; intros; try reflexivity; discriminate.
  - intros v Hv d b Hb Hd. destruct v; cbn; unfold post, any; cbn; splits; auto; try lia; intros Hs; split; try discriminate; auto;
      destruct Hc as [-> |[-> | ->]]; destruct (Hv Hs) as (x & E); discriminate.
Qed.

Lemma kept_number strict limit : kept strict limit number_text (use_str CNextNumberStr).
Proof.
  unfold use_str. apply (kept_dbind _ _ _ _ (fun v => fits CNextNumberStr (OOk v))).
  - apply kept_duse; intros; try reflexivity; discriminate.
  - intros v Hv d b Hb Hd. destruct v; cbn; unfold post; cbn; splits; auto; try lia; intros Hs; split; try discriminate;
      destruct (Hv Hs) as (x & E & Hx); try discriminate. intros a [= <-]. injection E as <-. exact Hx.
Qed.

Lemma kept_peek strict limit : kept strict limit any use_peek.
Proof.
  unfold use_peek. apply (kept_dbind _ _ _ _ (fun v => fits CPeek (OOk v))).
  - apply kept_duse; intros; try reflexivity; discriminate.
  - intros v Hv d b Hb Hd. destruct v; cbn; unfold post, any; cbn; splits; auto; try lia; intros Hs; split; try discriminate; auto;
      destruct (Hv Hs) as (x & E); discriminate.
Qed.

Lemma kept_unit strict limit c : c = CNextNull \/ c = CSkipValue -> kept strict limit any (use_unit c).
Proof.
  intros Hc. unfold use_unit. apply (kept_dbind _ _ _ _ (fun v => fits c (OOk v))).
  - apply kept_duse; destruct Hc as [-> | ->]; intros; try reflexivity; discriminate.
  - intros v _. apply kept_ret.
Qed.

Lemma kept_flag V B strict limit (b : B) (r : derr + V) : kept strict limit any (with_flag b r).
Proof. apply kept_ret. Qed.

(** *** Containers *)

Definition closing {A : Type} (strict : bool) (limit d0 : N) (m : de A) : Prop :=
  forall d b, (b <= Z.of_N d)%Z -> d <= limit -> d0 < d ->
  track strict limit (m d) b (fun x b' => post strict limit (d0 + 1) any x b' /\
    forall a, fst x = DRet (inr a) -> (b' <= Z.of_N (snd x) - 1)%Z).

Lemma closing_bind A B strict limit d0 (m : de A) (f : A -> de B) :
  kept strict limit any m -> (forall a, closing strict limit d0 (f a)) -> closing strict limit d0 (dbind m f).
Proof.
  intros Hm Hf d b Hb Hd H0. unfold dbind, dthen. apply track_cbind. eapply track_weaken; [|exact (Hm d b Hb Hd)].
  intros [x d'] b' (H1 & H2 & H3 & H4). cbn [fst snd] in *. unfold any. destruct x as [[e|a]|k| |]; cbn.
  - unfold post. cbn. splits; auto; try lia; try discriminate. intros _. split; [discriminate|auto].
  - eapply track_weaken; [|apply (Hf a); [exact H1|exact H2|lia]]. intros y b2 G. exact G.
  - unfold post. cbn. splits; auto; try lia; try discriminate. intros Hs. split; [intros [= ->]; exact (proj1 (H4 Hs) eq_refl)|discriminate].
  - unfold post. cbn. splits; auto; try lia; try discriminate. intros Hs. split; discriminate.
  - unfold post. cbn. splits; auto; try lia; try discriminate. intros Hs. split; discriminate.
Qed.

Lemma closing_end A strict limit d0 c (a : A) : c = CEndArray \/ c = CEndObject ->
  closing strict limit d0 (dbind (use_unit c) (fun _ => dret a)).
Proof.
  intros Hc d b Hb Hd H0. cbn. intros o Ho.
  assert (Hx : ((delta c o = -1 /\ exists v, o = OOk v) \/ (delta c o = 0 /\ forall v, o <> OOk v))%Z).
  { destruct Hc as [-> | ->]; destruct o; cbn; eauto; right; split; congruence. }
  assert (Hr : forall e, o <> OReadErr e \/ strict = false).
  { intros e. destruct strict; [left|auto]. intros ->. destruct (Ho eq_refl) as (n & ->). destruct Hc; discriminate. }
  split; [lia|]. unfold any. destruct Hx as [[-> (v & ->)]|[-> Hn]].
  - cbn. unfold post. cbn. splits; auto; try lia. intros _. split; [discriminate|auto].
  - destruct o; cbn; unfold post; cbn; splits; auto; try lia; try discriminate; try (intros Hs; split; [|auto]; try discriminate).
    + destruct (Hn v eq_refl).
    + destruct (Hr e); congruence.
    + specialize (Ho Hs). cbn in Ho. intros [= ->]. exact Ho.
Qed.

Lemma kept_container A strict limit c (m : de A) : c = CBeginArray \/ c = CBeginObject ->
  (forall d0, closing strict limit d0 m) ->
  kept strict limit any (check_nesting limit (dbind (use_unit c) (fun _ => m))).
Proof.
  intros Hc Hm d b Hb Hd. unfold check_nesting. destruct (N.leb_spec limit d) as [Hl|Hl].
  { cbn. unfold post, any. cbn. splits; auto; try lia. intros _. split; [discriminate|auto]. }
  apply track_cbind.
  assert (H : track strict limit (dbind (use_unit c) (fun _ => m) (d + 1)) b (fun x b' => post strict limit (d + 1) any x b' /\
    forall a, fst x = DRet (inr a) -> (b' <= Z.of_N (snd x) - 1)%Z)).
  { cbn. intros o Ho.
    assert (Hx : ((delta c o = 1 /\ exists v, o = OOk v) \/ (delta c o = 0 /\ forall v, o <> OOk v))%Z).
    { destruct Hc as [-> | ->]; destruct o; cbn; eauto; right; split; congruence. }
    assert (Hr : forall e, o <> OReadErr e \/ strict = false).
    { intros e. destruct strict; [left|auto]. intros ->. destruct (Ho eq_refl) as (n & ->). destruct Hc; discriminate. }
    split; [lia|]. destruct Hx as [[-> (v & ->)]|[-> Hn]].
    - cbn. eapply track_weaken; [|apply (Hm d (d + 1)); lia]. intros y b2 G. exact G.
    - destruct o; cbn; unfold post, any; cbn; splits; auto; try lia; try discriminate; try (intros Hs; split; [|auto]; try discriminate).
      + destruct (Hn v eq_refl).
      + destruct (Hr e); congruence.
      + specialize (Ho Hs). cbn in Ho. intros [= ->]. exact Ho. }
  eapply track_weaken; [|exact H]. intros [x d'] b' ((H1 & H2 & H3 & H4) & H5). cbn [fst snd] in *. unfold any in *.
  destruct x as [[e|a]|k| |]; cbn.
  - unfold post. cbn. splits; auto; lia.
  - destruct (N.eqb_spec d' 0); [lia|]. specialize (H5 a eq_refl). cbn. unfold post. cbn. splits; auto; try lia.
  - unfold post. cbn. splits; auto; lia.
  - unfold post. cbn. splits; auto; lia.
  - unfold post. cbn. splits; auto; lia.
Qed.

Lemma kept_array V strict limit expected (body : de (V * N)) : kept strict limit any body ->
  kept strict limit any (de_array limit expected body).
Proof.
  intros H. unfold de_array. apply kept_container; [auto|]. intros d0. apply closing_bind; [exact H|]. intros al.
  apply closing_bind.
  - destruct expected as [n|]; [destruct (_ <? _)|]; apply kept_ret.
  - intros _. apply closing_end. auto.
Qed.

Lemma kept_object V strict limit (body : de (V * bool)) : kept strict limit any body ->
  kept strict limit any (de_object limit body).
Proof.
  intros H. unfold de_object. apply kept_container; [auto|]. intros d0. apply closing_bind; [exact H|]. intros ab.
  apply closing_bind.
  - destruct (snd ab); [apply kept_now; discriminate|apply kept_ret].
  - intros _. apply closing_end. auto.
Qed.

(** *** Names *)

Definition no_bug {V : Type} (x : dend V) : Prop := x <> DPanic Bug.

Lemma text_no_bug V S (C : code V S) n : (forall s seed, no_bug (str_seed C n s seed)) /\ (forall s vis, no_bug (str_enum C n s vis)).
Proof.
  induction n as [|n [IH1 IH2]]; split; intros s st; try discriminate; cbn [str_seed str_enum].
  - destruct (deserialize C st) as [r|m vis after]; [discriminate|].
    destruct m; try discriminate. specialize (IH2 s vis). destruct (str_enum C n s vis); try discriminate; exact IH2.
  - destruct (visit_enum C st) as [r|seed k failed]; [discriminate|]. specialize (IH1 s seed).
    destruct (str_seed C n s seed) as [[e|v]|p| |]; try discriminate; exact IH1.
Qed.

Lemma key_no_bug V S (C : code V S) n : forall key seed, no_bug (key_seed C n key seed).
Proof.
  induction n as [|n IH]; intros key seed; try discriminate; cbn [key_seed].
  destruct (deserialize C seed) as [r|m vis after]; [discriminate|].
  destruct m; cbv zeta; try discriminate.
  - destruct (list_eq_dec _ _ _); [discriminate|]. destruct (list_eq_dec _ _ _); discriminate.
  - specialize (IH key (visit_some C vis)). destruct (key_seed C n key _); try discriminate; exact IH.
  - specialize (IH key (visit_newtype C vis)). destruct (key_seed C n key _); try discriminate; exact IH.
  - pose proof (proj2 (text_no_bug V S C n) key vis) as H. destruct (str_enum C n key vis); try discriminate; exact H.
Qed.

(** *** The deserializer *)

Lemma kept_visit_number V S strict limit (C : code V S) vis t : (strict = true -> number_text t) ->
  kept strict limit any (visit_number C vis t).
Proof.
  intros Ht. unfold visit_number. destruct (existsb _ t); [apply kept_ret|]. destruct t as [|c t].
  - intros d b Hb Hd. cbn. unfold post, any. cbn. splits; auto; try lia. intros Hs.
    destruct (DeRun.number_start_not_plus [] (Ht Hs)) as (c & r & E & _). discriminate.
  - destruct (c =? _); destruct (parse_int _ _); try apply kept_ret; destruct (parse_int _ _); apply kept_ret.
Qed.

Lemma all_kept V S strict limit (C : code V S) : forall n,
  (forall seed, kept strict limit any (run_seed C limit n seed)) /\
  (forall m vis, kept strict limit any (run_method C limit n m vis)) /\
  (forall expected len st, kept strict limit any (run_seq C limit n expected len st)) /\
  (forall b st, kept strict limit any (run_map C limit n b st)) /\
  (forall b vis, kept strict limit any (run_enum C limit n b vis)).
Proof.
  assert (Hfuel : forall A, kept strict limit any (dend_now (@DFuel A))) by (intros A; apply kept_now; discriminate).
  assert (Hmisuse : forall A, kept strict limit any (@dpanic A Misuse)) by (intros A; apply kept_now; discriminate).
  assert (Hbool : forall c, c = CHasNext \/ c = CNextBool -> kept strict limit any (use_bool c)) by (apply kept_bool).
  induction n as [|n (IHs & IHm & IHq & IHp & IHe)].
  - splits.
    + intros seed. apply Hfuel.
    + intros m vis. apply Hfuel.
    + intros expected len st. cbn. destruct (visit_seq C st); [apply kept_flag|apply Hfuel].
    + intros b st. cbn. destruct (visit_map C st); [apply kept_flag| |]; destruct b; cbn; try apply Hfuel; apply Hmisuse.
    + intros b vis. apply Hfuel.
  - splits.
    + intros seed. cbn [run_seed]. destruct (deserialize C seed); [apply kept_ret|].
      apply (kept_dthen _ _ _ _ any); [apply IHm|]. intros; apply kept_ret.
    + intros m vis. cbn [run_method]. cbv zeta.
      assert (Ha : forall x, kept strict limit any (de_array limit x (run_seq C limit n x 0 vis))) by (intros; apply kept_array; apply IHq).
      assert (Ho : kept strict limit any (de_object limit (run_map C limit n false vis))) by (apply kept_object; apply IHp).
      destruct m; try apply Ha; try exact Ho; try apply IHs;
        try (apply (kept_dbind _ _ _ _ any); [first [apply kept_bool; auto|apply kept_unit; auto|apply kept_str; auto]|intros; apply kept_ret]; fail);
        try (apply (kept_dbind _ _ _ _ number_text); [apply kept_number|intros; try destruct (parse_int _ _); apply kept_ret]);
        apply (kept_dbind _ _ _ _ any); try apply kept_peek; intros [] _; try apply Ha; try exact Ho; try apply IHs; try apply kept_ret;
        try (apply (kept_dbind _ _ _ _ any); [first [apply kept_bool; auto|apply kept_unit; auto|apply kept_str; auto]|intros; apply kept_ret]; fail).
      * apply (kept_dbind _ _ _ _ number_text); [apply kept_number|]. intros; apply kept_visit_number; auto.
      * apply kept_object. apply IHe.
      * apply (kept_dbind _ _ _ _ any); [apply IHe|]. intros [a [|]] _; cbn; [apply Hmisuse|apply kept_ret].
    + intros expected len st. cbn [run_seq]. destruct (visit_seq C st) as [r|seed k]; [apply kept_flag|].
      apply (kept_dthen _ _ _ _ any); [apply kept_bool; auto|]. intros [e|[|]] _; try apply IHq.
      cbv zeta. destruct expected as [m|]; [destruct (_ <=? _); [apply IHq|]|];
        (apply (kept_dthen _ _ _ _ any); [apply IHs|intros; apply IHq]).
    + intros b st. cbn [run_map]. destruct (visit_map C st) as [r|seed k|seed k]; [apply kept_flag| |].
      * destruct b; [apply Hmisuse|]. apply (kept_dthen _ _ _ _ any); [apply kept_bool; auto|].
        intros [e|[|]] _; try apply IHp. apply (kept_dthen _ _ _ _ any).
        -- apply (kept_dbind _ _ _ _ any); [apply kept_str; auto|]. intros key _. apply kept_now; [apply key_no_bug|intros; exact I].
        -- intros [e|v] _; apply IHp.
      * destruct b; cbn [negb]; [|apply Hmisuse]. apply (kept_dthen _ _ _ _ any); [apply IHs|intros; apply IHp].
    + intros b vis. cbn [run_enum]. destruct (visit_enum C vis) as [r|seed k failed]; [apply kept_flag|].
      apply (kept_dthen _ _ _ _ any).
      * destruct b; [apply IHs|]. apply (kept_dbind _ _ _ _ any); [apply kept_str; auto|]. intros name _.
        apply kept_now; [apply text_no_bug|intros; exact I].
      * intros [e|v] _; [apply kept_flag|]. destruct b.
        { destruct (unit_variant_only _). apply kept_flag. }
        destruct (with_variant C (k v)) as [r|after|seed' after|len vis' after|vis' after]; [apply kept_flag| | | |].
        -- apply (kept_dthen _ _ _ _ any); [apply kept_unit; auto|intros; apply kept_flag].
        -- apply (kept_dthen _ _ _ _ any); [apply IHs|intros; apply kept_flag].
        -- apply (kept_dthen _ _ _ _ any); [apply IHm|intros; apply kept_flag].
        -- apply (kept_dthen _ _ _ _ any); [apply IHm|intros; apply kept_flag].
Qed.

(** *** Runs *)

Lemma track_plays A strict limit (m : client A) : forall b Q log a, track strict limit m b Q -> plays m log a ->
  (strict = true -> Forall (fun co => fits (fst co) (snd co)) log) ->
  (exists b', Q a b') /\ forall l1 l2, log = l1 ++ l2 -> (b <= Z.of_N limit)%Z ->
    (fold_left (fun n co => n + delta (fst co) (snd co)) l1 b <= Z.of_N limit)%Z.
Proof.
  induction m as [a0|c k IH]; intros b Q log a Ht Hp Hf; inversion Hp as [|? ? o log' ? Hk]; subst; cbn [track] in Ht.
  - split; [eauto|]. intros [|] l2 E Hb; [exact Hb|discriminate].
  - assert (Ho : strict = true -> fits c o) by (intros Hs; specialize (Hf Hs); inversion Hf; assumption).
    destruct (Ht o Ho) as [Hd Hk']. destruct (IH o _ Q _ _ Hk' Hk) as [H1 H2].
    { intros Hs. specialize (Hf Hs). inversion Hf; assumption. }
    split; [exact H1|]. intros [|co l1] l2 E Hb; [exact Hb|]. injection E as <- ->. cbn [fold_left fst snd]. exact (H2 l1 l2 eq_refl Hd).
Qed.

Lemma tracked V S (C : code V S) strict limit fuel seed :
  track strict limit (deserialize_with_limit C fuel limit seed) 0 (fun r _ => strict = true -> r <> DPanic Bug).
Proof.
  unfold deserialize_with_limit. apply track_cbind.
  eapply track_weaken; [|apply (proj1 (all_kept V S strict limit C fuel) seed 0 0%Z); lia].
  intros [r d] b (_ & _ & _ & H). cbn. intros Hs. exact (proj1 (H Hs)).
Qed.

Lemma tracked_next V S (C : code V S) strict fuel seed :
  track strict 128 (deserialize_next C fuel seed) 0 (fun r _ => strict = true -> r <> DPanic Bug).
Proof.
  unfold deserialize_next. apply track_cbind.
  assert (H : kept strict 128 any (dbind use_peek (fun _ => run_seed C 128 fuel seed))).
  { apply (kept_dbind _ _ _ _ any); [apply kept_peek|]. intros t _. apply all_kept. }
  eapply track_weaken; [|apply (H 0 0%Z); lia].
  intros [r d] b (_ & _ & _ & Hr). cbn. intros Hs. exact (proj1 (Hr Hs)).
Qed.

(** Every client gets through its session *)
Lemma client_total A E inp t (m : client A) : (length inp < fuel E)%nat -> forall st a d, srel t st a d -> dinv E inp d ->
  exists x st' a', arun (client_run E m st) a = Some ((x, st'), a').
Proof.
  intros Hf. induction m as [x|c k IH]; intros st a d Hr Hd; cbn [client_run].
  - eexists _, _, _. reflexivity.
  - destruct (client_call_agree E t c st a d ltac:(lia) Hr) as (o & st1 & a1 & Hrun & _ & Hr1).
    { pose proof (call_good E inp t c d Hf Hd) as Hg. intros Hx. rewrite Hx in Hg. exact Hg. }
    rewrite arun_bind, Hrun. cbn [fst snd]. exact (IH o st1 a1 _ Hr1 (call_good E inp t c d Hf Hd)).
Qed.

Lemma session_total A s evs (m : client A) : Forall is_byte (fst (supplied evs)) -> exists a, client_session s evs m = Some a.
Proof.
  intros Hb. set (E := Env s (enough_fuel (fst (supplied evs)))).
  destruct (client_total A E (fst (supplied evs)) (snd (supplied evs)) m ltac:(cbn; unfold enough_fuel; lia)
    (session_new s) (asrc_new (fst (supplied evs)) (snd (supplied evs))) (DRun (rstate_new s) None (fst (supplied evs)))) as (x & st' & a' & Hrun).
  - cbn [fst snd srel]. splits; [reflexivity| |exact I]. exists false. reflexivity.
  - cbn. split; [|exact I]. apply inv_start. exact Hb.
  - exists x. unfold client_session. fold E. destruct (refines _ _ _ _ _ (rel_new evs) Hrun) as (c' & -> & _). reflexivity.
Qed.

(** The part of a session in which a value is deserialized *)
Lemma around_log A s evs before after (m : client A) os1 r os2 : Forall is_byte (fst (supplied evs)) ->
  client_session s evs (around before m after) = Some (os1, r, os2) ->
  exists log, plays m log r /\ Forall (fun co => fits (fst co) (snd co)) log.
Proof.
  intros Hb H. destruct (session_log _ s evs _ _ H) as (log & Hp & Hl).
  pose proof (session_fits s evs (map fst log) Hb) as Hf. rewrite Hl in Hf.
  assert (Hall : Forall (fun co => fits (fst co) (snd co)) log).
  { clear - Hf. induction log as [|[c o] log IH]; [constructor|]. cbn in Hf. inversion Hf; subst. constructor; auto. }
  apply plays_bind in Hp as (x1 & l0 & l1 & -> & _ & Hp). apply plays_bind in Hp as (x2 & l2 & l3 & -> & Hm & Hp).
  apply plays_bind in Hp as (x3 & l4 & l5 & -> & _ & Hp). inversion Hp; subst.
  exists l2. split; [exact Hm|]. apply Forall_app in Hall as [_ Hall]. apply Forall_app in Hall as [Hall _]. exact Hall.
Qed.
