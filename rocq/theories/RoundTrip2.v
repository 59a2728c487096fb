(** * Deserializing the data of a value gives the value *)

From Verif Require Import Base Utf8Model Utf8Proofs NumberModel SpecNumber NumberProofs SpecJson WriterModel SpecWriter
  WClientModel SerModel SpecSer WriterSession SourceModel ReaderModel SpecCursor SimpleModel DeModel SpecDe DeRun SpecTypes RoundTrip.

Lemma seed_call_after t f m vis after e : seed_call t f = SaCall m vis after -> after (inl e) = inl e.
Proof. destruct t; cbn; intros H; try discriminate; injection H as <- <- <-; reflexivity. Qed.

Lemma derived_returns_errors types : returns_errors (derived types).
Proof.
  unfold returns_errors. splits.
  - intros st m vis after e H. destruct st; cbn [deserialize derived] in H; try discriminate;
      try (injection H as <- <- <-; reflexivity); eapply seed_call_after; exact H.
  - intros st seed k e H. destruct st as [| | | | |t| | |sh ts l| | |sh fs l| | | |]; cbn [visit_seq derived] in H; try discriminate;
      try (injection H as <- <-; reflexivity).
    + destruct t; try discriminate; injection H as <- <-; reflexivity.
    + destruct ts; try discriminate; injection H as <- <-; reflexivity.
    + destruct (nth_error fs (length l)) as [[n t]|]; try discriminate; injection H as <- <-; reflexivity.
  - intros st seed k e H. destruct st as [| | | | |t| | |sh ts l| | |sh fs l| | | |]; cbn [visit_map derived] in H; try discriminate;
      try (injection H as <- <-; reflexivity).
    destruct t; try discriminate; injection H as <- <-; reflexivity.
  - intros st seed k e H. destruct st as [| | | | |t| | |sh ts l| | |sh fs l| | | |]; cbn [visit_map derived] in H; try discriminate;
      try (injection H as <- <-; reflexivity).
    destruct t; discriminate.
  - intros st seed k failed e H. destruct st as [| | | | |t| | |sh ts l| | |sh fs l| | | |]; cbn [visit_enum derived] in H; try discriminate.
    destruct t; try discriminate; injection H as <- <- <-; reflexivity.
  - intros st. destruct st as [| | | | |t| | |sh ts l| | |sh fs l| | |name vs variant|[e|v]]; cbn [with_variant derived]; auto.
    destruct (find_variant variant 0 vs) as [[i []]|]; auto.
Qed.

(** ** Eventually *)

Definition ev {A} (F : nat -> verdict A) (a : A) : Prop := exists n0, forall n, (n0 <= n)%nat -> F n = Gives a.

Lemma ev_now {A} (F : nat -> verdict A) a k : (forall n, F (k + n)%nat = Gives a) -> ev F a.
Proof. intros H. exists k. intros n Hn. replace n with (k + (n - k))%nat by lia. apply H. Qed.

Lemma ev_after {A B} (F : nat -> verdict A) (G : nat -> verdict B) a b k : ev F a -> (forall n, F n = Gives a -> G (k + n)%nat = Gives b) -> ev G b.
Proof.
  intros [n0 HF] H. exists (k + n0)%nat. intros n Hn. replace n with (k + (n - k))%nat by lia. apply H, HF. lia.
Qed.

Lemma ev_after2 {A B C} (F : nat -> verdict A) (G : nat -> verdict B) (K : nat -> verdict C) a b c k : ev F a -> ev G b ->
  (forall n, F n = Gives a -> G n = Gives b -> K (k + n)%nat = Gives c) -> ev K c.
Proof.
  intros [n0 HF] [n1 HG] H. exists (k + (n0 + n1))%nat. intros n Hn. replace n with (k + (n - k))%nat by lia.
  apply H; [apply HF|apply HG]; lia.
Qed.

(** ** Keys *)

Lemma in_names {A} variant i0 (vs : list (str * rvariant)) (x : A) r : find_variant variant i0 vs = Some r -> In variant (map fst vs).
Proof.
  revert i0. induction vs as [|[n t] vs IH]; intros i0; cbn [find_variant map fst]; [discriminate|].
  destruct (list_eq_dec N.eq_dec variant n) as [->|]; [left; reflexivity|]. intros H. right. eapply IH, H.
Qed.

Lemma enum_text types name vs variant i : find_variant variant 0 vs = Some (i, VrUnit) ->
  ev (fun n => sem_text_enum (derived types) n variant (Vis (TyEnum name vs))) (RvUnitVariant name i variant).
Proof.
  intros H. apply (ev_now _ _ 2). intros n. cbn [Nat.add sem_text_enum visit_enum derived sem_text deserialize visit_data].
  pose proof (in_names variant 0 vs tt _ H) as Hin.
  destruct (in_dec (list_eq_dec N.eq_dec) variant (map fst vs)) as [_|Hn]; [|contradiction].
  cbn [given then_code with_variant derived]. rewrite H. reflexivity.
Qed.

Lemma key_read types v : is_key v = true -> forall t, has_type types t v -> forall st f,
  deserialize (derived types) st = seed_call (resolve types t) f ->
  ev (fun n => sem_key (derived types) n (key_of v) st) (f v).
Proof.
  induction v; cbn [is_key]; intros Hk ty Ht0 st f Hst; try discriminate;
    destruct (resolved _ _ _ Ht0) as [Ht Hres]; clear Ht0; inversion Ht as
      [b0 E|t0 z0 Hz E|ft t0 Hn E|c0 Hc E|s0 Hs E|bs0 Hb E|E|t0 E|t0 v0 Hv E|t0 l0 Hl E|ts0 l0 Hl E|tk tv es0 He E|n0 E|n0 t0 v0 Hv E
      |n0 ts0 l0 Hl E|n0 fs0 l0 Hl E|n0 vs i0 var0 Hch Hf E|n0 vs i0 var0 t0 v0 Hch Hf Hv E|n0 vs i0 var0 ts0 l0 Hch Hf Hl E|n0 vs i0 var0 fs0 l0 Hch Hf Hl E|n0 v0 Hnn Hv E];
    subst; try (exfalso; eapply Hres; eauto; fail); rewrite <- E in Hst; cbn [seed_call] in Hst; cbn [key_of].
  - apply (ev_now _ _ 1). intros n. cbn [Nat.add sem_key]. rewrite Hst. destruct b; reflexivity.
  - apply (ev_now _ _ 1). intros n. cbn [Nat.add sem_key]. rewrite Hst.
    destruct (int_to_string_spec z) as (Hd & _ & Hv). rewrite Hv, (decimal_integer _ _ _ Hd Hz). cbn [option_map visit_data derived].
    rewrite (proj2 (Z.leb_le _ _) (proj1 Hz)), (proj2 (Z.leb_le _ _) (proj2 Hz)). reflexivity.
  - apply (ev_now _ _ 1). intros n. cbn [Nat.add sem_key]. rewrite Hst.
    assert (Hv : is_valid_json_number t = true) by (apply is_valid_json_number_spec; rewrite (proj2 (number_chars _ Hn)); exact Hn).
    rewrite Hv. reflexivity.
  - apply (ev_now _ _ 1). intros n. cbn [Nat.add sem_key]. rewrite Hst. reflexivity.
  - apply (ev_now _ _ 1). intros n. cbn [Nat.add sem_key]. rewrite Hst. reflexivity.
  - eapply (ev_after _ _ _ _ 1); [apply (IHv Hk t0 Hv (Wrap RvSome t0) RvSome eq_refl)|].
    intros n Hn. cbn [Nat.add sem_key]. rewrite Hst. cbn [visit_some derived]. rewrite Hn. reflexivity.
  - eapply (ev_after _ _ _ _ 1); [apply (IHv Hk t0 Hv (Wrap (RvNewtype name) t0) (RvNewtype name) eq_refl)|].
    intros n Hn. cbn [Nat.add sem_key]. rewrite Hst. cbn [visit_newtype derived]. rewrite Hn. reflexivity.
  - eapply (ev_after _ _ _ _ 1); [apply (enum_text types name vs variant i Hf)|].
    intros n Hn. cbn [Nat.add sem_key]. rewrite Hst. rewrite Hn. reflexivity.
Qed.

(** ** Values *)

Definition reads types s limit (v : rval) : Prop := forall t, has_type types t v -> representable v = true -> floats_readable s v ->
  forall st f open, deserialize (derived types) st = seed_call (resolve types t) f ->
  open + N.of_nat (nesting (json_of v)) <= limit ->
  ev (fun n => sem_seed (derived types) s limit n st (json_of v) open) (f v).

(** The parts of a value *)
Definition fine s limit open (v : rval) : Prop :=
  representable v = true /\ floats_readable s v /\ open + N.of_nat (nesting (json_of v)) <= limit.

Lemma reads_seed types s limit v t open : reads types s limit v -> has_type types t v -> fine s limit open v ->
  ev (fun n => sem_seed (derived types) s limit n (Seed t) (json_of v) open) v.
Proof. intros H Ht (H1 & H2 & H3). apply (H t Ht H1 H2 (Seed t) (fun v => v) open eq_refl H3). Qed.

Lemma floats_part {A} (g : A -> rval) s l : (restrict_number_values s = true -> Forall (fun t => unsupported_number t = false) (flat_map (fun a => floats (g a)) l)) ->
  Forall (fun a => floats_readable s (g a)) l.
Proof.
  intros H. apply Forall_forall. intros a Ha Hr. specialize (H Hr). rewrite Forall_forall in *. intros t Ht. apply H, in_flat_map. eauto.
Qed.

Lemma nesting_part {A} (g : A -> json) (l : list A) limit open : open + N.of_nat (S (list_max (map (fun a => nesting (g a)) l))) <= limit ->
  Forall (fun a => open + 1 + N.of_nat (nesting (g a)) <= limit) l.
Proof.
  intros H. apply Forall_forall. intros a Ha.
  assert (Hle : (nesting (g a) <= list_max (map (fun a => nesting (g a)) l))%nat).
  { pose proof (proj1 (list_max_le (map (fun a => nesting (g a)) l) _) (le_n _)) as Hx. rewrite Forall_forall in Hx. apply Hx, in_map_iff. eauto. }
  lia.
Qed.

Lemma fine_list s limit open l : forallb representable l = true ->
  (restrict_number_values s = true -> Forall (fun t => unsupported_number t = false) (flat_map floats l)) ->
  open + N.of_nat (nesting (JArr (map json_of l))) <= limit ->
  open <? limit = true /\ Forall (fine s limit (open + 1)) l.
Proof.
  intros H1 H2 H3. split; [apply N.ltb_lt; cbn [nesting] in H3; lia|].
  assert (H2' := floats_part (fun v => v) s l H2). cbn [nesting] in H3. rewrite map_map in H3. apply (nesting_part json_of) in H3.
  rewrite forallb_forall in H1. rewrite Forall_forall in *. intros v Hv. unfold fine. auto.
Qed.

Lemma fine_fields s limit open (fs : list (str * rval)) : forallb (fun f => representable (snd f)) fs = true ->
  (restrict_number_values s = true -> Forall (fun t => unsupported_number t = false) (flat_map (fun f => floats (snd f)) fs)) ->
  open + N.of_nat (nesting (JObj (map (fun f => (fst f, json_of (snd f))) fs))) <= limit ->
  open <? limit = true /\ Forall (fun f => fine s limit (open + 1) (snd f)) fs.
Proof.
  intros H1 H2 H3. split; [apply N.ltb_lt; cbn [nesting] in H3; lia|].
  assert (H2' := floats_part (fun f => snd f) s fs H2). cbn [nesting] in H3. rewrite map_map in H3. apply (nesting_part (fun f => json_of (snd f))) in H3.
  rewrite forallb_forall in H1. rewrite Forall_forall in *. intros v Hv. unfold fine. auto.
Qed.

Lemma read_int types s limit ty z st f open : (min_int ty <= z <= max_int ty)%Z ->
  deserialize (derived types) st = seed_call (TyInt ty) f ->
  ev (fun n => sem_seed (derived types) s limit n st (JNum (int_to_string z)) open) (f (RvInt z)).
Proof.
  intros Hz Hst. apply (ev_now _ _ 2). intros n. cbn [Nat.add sem_seed sem_method]. rewrite Hst. cbn [seed_call].
  destruct (int_to_string_spec z) as (Hd & _ & Hv). rewrite (decimal_supported _ _ _ Hd Hz), andb_false_r, (decimal_integer _ _ _ Hd Hz).
  cbn [option_map visit_data derived].
  rewrite (proj2 (Z.leb_le _ _) (proj1 Hz)), (proj2 (Z.leb_le _ _) (proj2 Hz)). reflexivity.
Qed.

Lemma read_vec types s limit t open l : Forall (reads types s limit) l -> Forall (has_type types t) l -> Forall (fine s limit open) l -> forall acc,
  ev (fun n => sem_items (derived types) s limit n None 0 (InVec t acc) (map json_of l) open) (RvVec (acc ++ l), 0, []).
Proof.
  induction l as [|v l IH]; intros Hr Ht Hf acc.
  - apply (ev_now _ _ 1). intros n. cbn [Nat.add sem_items visit_seq derived map]. rewrite app_nil_r. destruct n; reflexivity.
  - apply Forall_cons_iff in Hr as [Hr1 Hr]. apply Forall_cons_iff in Ht as [Ht1 Ht]. apply Forall_cons_iff in Hf as [Hf1 Hf].
    eapply (ev_after2 _ _ _ _ _ _ 1); [apply (reads_seed _ _ _ _ _ _ Hr1 Ht1 Hf1)|apply (IH Hr Ht Hf (acc ++ [v]))|].
    intros n H1 H2. cbn [Nat.add sem_items visit_seq derived map]. rewrite H1. rewrite <- app_assoc in H2. exact H2.
Qed.

Lemma read_bytes types s limit open bs : Forall is_byte bs -> forall acc,
  ev (fun n => sem_items (derived types) s limit n None 0 (InBytes acc) (map (fun b => JNum (int_to_string (Z.of_N b))) bs) open) (RvBytes (acc ++ bs), 0, []).
Proof.
  induction bs as [|b bs IH]; intros Hb acc.
  - apply (ev_now _ _ 1). intros n. cbn [Nat.add sem_items visit_seq derived map]. rewrite app_nil_r. destruct n; reflexivity.
  - apply Forall_cons_iff in Hb as [Hb1 Hb].
    eapply (ev_after2 _ _ _ _ _ _ 1); [apply (read_int types s limit U8 (Z.of_N b) (Seed (TyInt U8)) (fun v => v) open); [cbn; unfold is_byte in Hb1; lia|reflexivity]|apply (IH Hb (acc ++ [b]))|].
    intros n H1 H2. cbn [Nat.add sem_items visit_seq derived map]. rewrite H1, N2Z.id. rewrite <- app_assoc in H2. exact H2.
Qed.

Lemma read_tuple types s limit sh open l : Forall (reads types s limit) l -> forall ts, Forall2 (has_type types) ts l -> Forall (fine s limit open) l -> forall acc m len,
  len + N.of_nat (length l) = m ->
  ev (fun n => sem_items (derived types) s limit n (Some m) len (InTuple sh ts acc) (map json_of l) open) (build_tuple sh (acc ++ l), m, []).
Proof.
  induction l as [|v l IH]; intros Hr ts Ht Hf acc m len Hm; inversion Ht as [|t v' ts' l' Ht1 Ht2]; subst.
  - apply (ev_now _ _ 1). intros n. cbn [Nat.add sem_items visit_seq derived map length]. rewrite app_nil_r, N.add_0_r. reflexivity.
  - apply Forall_cons_iff in Hr as [Hr1 Hr]. apply Forall_cons_iff in Hf as [Hf1 Hf].
    eapply (ev_after2 _ _ _ _ _ _ 1); [apply (reads_seed _ _ _ _ _ _ Hr1 Ht1 Hf1)|apply (IH Hr ts' Ht2 Hf (acc ++ [v]) (len + N.of_nat (length (v :: l))) (len + 1))|].
    { cbn [length]. lia. }
    intros n H1 H2. cbn [Nat.add sem_items visit_seq derived map]. rewrite (proj2 (N.ltb_lt len _)) by (cbn [length]; lia).
    rewrite H1. rewrite <- app_assoc in H2. exact H2.
Qed.

Lemma read_map types s limit tk tv open es : Forall (fun e => reads types s limit (snd e)) es ->
  Forall (fun e => has_type types tk (fst e) /\ has_type types tv (snd e)) es -> Forall (fun e => is_key (fst e) = true /\ fine s limit open (snd e)) es -> forall acc,
  ev (fun n => sem_members (derived types) s limit n (AtNames (map (fun e => (key_of (fst e), json_of (snd e))) es)) (InMap tk tv acc) open) (RvMap (acc ++ es)).
Proof.
  induction es as [|[k v] es IH]; intros Hr Ht Hf acc.
  - apply (ev_now _ _ 1). intros n. cbn [Nat.add sem_members visit_map derived map]. rewrite app_nil_r. destruct n; reflexivity.
  - apply Forall_cons_iff in Hr as [Hr1 Hr]. apply Forall_cons_iff in Ht as [[Ht1 Ht1'] Ht]. apply Forall_cons_iff in Hf as [[Hk Hf1] Hf]. cbn [fst snd] in *.
    destruct (key_read types k Hk tk Ht1 (Seed tk) (fun v => v) eq_refl) as [n1 H1].
    destruct (reads_seed _ _ _ _ _ _ Hr1 Ht1' Hf1) as [n2 H2]. destruct (IH Hr Ht Hf (acc ++ [(k, v)])) as [n3 H3].
    exists (2 + (n1 + n2 + n3))%nat. intros n Hn. replace n with (2 + (n - 2))%nat by lia. remember (n - 2)%nat as m.
    cbn [Nat.add sem_members visit_map derived map fst snd]. rewrite H1 by lia. cbn [Nat.add sem_members visit_map derived map fst snd]. rewrite H2 by lia.
    rewrite <- app_assoc in H3. apply H3. lia.
Qed.

Lemma assoc_app {A} n (l1 l2 : list (str * A)) : ~ In n (map fst l1) -> assoc n (l1 ++ l2) = assoc n l2.
Proof.
  induction l1 as [|[m a] l1 IH]; intros H; [reflexivity|]. cbn [app assoc]. cbn in H.
  destruct (list_eq_dec N.eq_dec n m) as [->|]; [destruct H; auto|]. apply IH. auto.
Qed.

Lemma assoc_none {A} n (l : list (str * A)) : ~ In n (map fst l) -> assoc n l = None.
Proof. intros H. rewrite <- (app_nil_r l). rewrite assoc_app by exact H. reflexivity. Qed.

Definition field_ok types (f : str * rty) (x : str * rval) : Prop := fst x = fst f /\ has_type types (snd f) (snd x).

Lemma fields_names types fs l : Forall2 (field_ok types) fs l -> map fst l = map fst fs.
Proof. induction 1 as [|f x fs l [H _] _ IH]; [reflexivity|]. cbn. rewrite H, IH. reflexivity. Qed.

Lemma collected types fs l : Forall2 (field_ok types) fs l -> NoDup (map fst fs) -> forall l0, (forall n, In n (map fst fs) -> ~ In n (map fst l0)) ->
  collect_fields types fs (l0 ++ l) = inr l.
Proof.
  induction 1 as [|[n t] [n' v] fs l [Hn Ht] Hl IH]; intros Hd l0 H0; [reflexivity|]. cbn in Hn. subst n'. cbn [map fst] in *.
  apply NoDup_cons_iff in Hd as [Hd1 Hd]. cbn [collect_fields]. rewrite assoc_app by (apply H0; left; reflexivity).
  cbn [assoc]. destruct (list_eq_dec N.eq_dec n n) as [_|Hx]; [|congruence].
  change ((n, v) :: l) with ([(n, v)] ++ l). rewrite app_assoc, IH; [reflexivity|exact Hd|].
  intros m Hm Hx. rewrite map_app in Hx. apply in_app_or in Hx as [Hx|[Hx|[]]]; [apply (H0 m); [right; exact Hm|exact Hx]|]. cbn in Hx. subst m. contradiction.
Qed.

Lemma read_fields types s limit sh open fs2 l2 : Forall2 (field_ok types) fs2 l2 -> Forall (fun f => reads types s limit (snd f)) l2 ->
  Forall (fun f => fine s limit open (snd f)) l2 -> forall fs1 l1, Forall2 (field_ok types) fs1 l1 -> NoDup (map fst (fs1 ++ fs2)) ->
  ev (fun n => sem_members (derived types) s limit n (AtNames (map (fun f => (fst f, json_of (snd f))) l2)) (InFields sh (fs1 ++ fs2) l1) open) (build_fields sh (l1 ++ l2)).
Proof.
  induction 1 as [|[name t] [name' v] fs2 l2 [Hn Ht] H2 IH]; intros Hr Hf fs1 l1 H1 Hd.
  - apply (ev_now _ _ 1). intros n. cbn [Nat.add sem_members visit_map derived map]. rewrite !app_nil_r. rewrite app_nil_r in Hd.
    pose proof (collected types fs1 l1 H1 Hd [] (fun _ _ x => x)) as Hc. cbn [app] in Hc. rewrite Hc. destruct n; reflexivity.
  - cbn in Hn. subst name'. apply Forall_cons_iff in Hr as [Hr1 Hr]. apply Forall_cons_iff in Hf as [Hf1 Hf]. cbn [fst snd] in *.
    destruct (reads_seed _ _ _ _ _ _ Hr1 Ht Hf1) as [n2 E2].
    destruct (IH Hr Hf (fs1 ++ [(name, t)]) (l1 ++ [(name, v)])) as [n3 E3].
    { apply Forall2_app; [exact H1|]. constructor; [split; auto|constructor]. }
    { rewrite <- app_assoc. exact Hd. }
    exists (2 + (n2 + n3))%nat. intros n Hn. replace n with (2 + (n - 2))%nat by lia. remember (n - 2)%nat as m.
    cbn [Nat.add sem_members visit_map derived map fst snd sem_key deserialize visit_data].
    assert (Hnot : ~ In name (map fst fs1)).
    { rewrite map_app in Hd. cbn in Hd. apply NoDup_remove_2 in Hd. intros Hx. apply Hd. apply in_or_app. left. exact Hx. }
    destruct (in_dec (list_eq_dec N.eq_dec) name (map fst (fs1 ++ (name, t) :: fs2))) as [_|Hx];
      [|destruct Hx; rewrite map_app; apply in_or_app; right; left; reflexivity].
    cbn [given then_code]. rewrite (assoc_none name l1) by (rewrite (fields_names _ _ _ H1); exact Hnot).
    rewrite (assoc_app name fs1) by exact Hnot. cbn [assoc]. destruct (list_eq_dec N.eq_dec name name) as [_|Hx]; [|congruence].
    cbn [sem_members visit_map derived]. rewrite E2 by lia. rewrite <- !app_assoc in E3. apply E3. lia.
Qed.

Lemma null_of v : json_of v = JNull -> writes_null v = true.
Proof. induction v; cbn; try discriminate; auto. Qed.


Lemma variant_read types s limit name vs variant i r j open st f v :
  find_variant variant 0 vs = Some (i, r) -> deserialize (derived types) st = seed_call (TyEnum name vs) f -> open <? limit = true ->
  ev (fun n => match with_variant (derived types) (VariantOf name vs variant) with
             | VaNewtype seed' after => then_code (sem_seed (derived types) s limit n seed' j (open + 1)) (fun b => after (inr b))
             | VaTuple len vis' after => then_code (sem_method (derived types) s limit n (MTuple len) vis' j (open + 1)) (fun b => after (inr b))
             | VaStruct vis' after => then_code (sem_method (derived types) s limit n MStruct vis' j (open + 1)) (fun b => after (inr b))
             | _ => Panics
             end) v ->
  ev (fun n => sem_seed (derived types) s limit n st (JObj [(variant, j)]) open) (f v).
Proof.
  intros Hf Hst Hlt [n0 Hv]. exists (4 + n0)%nat. intros n Hn. replace n with (3 + (1 + (n - 4)))%nat by lia. specialize (Hv (1 + (n - 4))%nat ltac:(lia)).
  remember (1 + (n - 4))%nat as m eqn:Em. cbn [Nat.add sem_seed sem_method]. rewrite Hst. cbn [seed_call sem_method]. unfold enter. rewrite Hlt.
  cbn [sem_variant visit_enum derived]. rewrite Em at 1. cbn [Nat.add sem_text deserialize derived visit_data].
  pose proof (in_names variant 0 vs tt _ Hf) as Hin.
  destruct (in_dec (list_eq_dec N.eq_dec) variant (map fst vs)) as [_|Hx]; [|contradiction].
  cbn [given then_code]. destruct (with_variant (derived types) (VariantOf name vs variant)) eqn:Ew; try discriminate Hv.
  all: rewrite Hv; reflexivity.
Qed.

Lemma reads_all types s limit : forall v, reads types s limit v.
Proof.
  assert (Htup : forall sh m vis l ts st f open, Forall (reads types s limit) l -> Forall2 (has_type types) ts l ->
    forallb representable l = true -> (restrict_number_values s = true -> Forall (fun t => unsupported_number t = false) (flat_map floats l)) ->
    open + N.of_nat (nesting (JArr (map json_of l))) <= limit ->
    (m = MTuple (N.of_nat (length ts)) \/ m = MTupleStruct (N.of_nat (length ts))) -> vis = InTuple sh ts [] ->
    (deserialize (derived types) st = SaCall m vis (map_ok f) ->
     ev (fun n => sem_seed (derived types) s limit n st (JArr (map json_of l)) open) (f (build_tuple sh l))) /\
    ev (fun n => sem_method (derived types) s limit n m vis (JArr (map json_of l)) open) (build_tuple sh l)).
  { intros sh m vis l ts st f open Hl Ht Hr Hfl Hn Hm ->. destruct (fine_list s limit open l Hr Hfl Hn) as [Hlt Hf].
    assert (Hmeth : ev (fun n => sem_method (derived types) s limit n m (InTuple sh ts []) (JArr (map json_of l)) open) (build_tuple sh l)).
    { assert (Elen : length ts = length l) by (clear -Ht; induction Ht; cbn; congruence).
      eapply (ev_after _ _ _ _ 1); [apply (read_tuple types s limit sh (open + 1) l Hl ts Ht Hf [] (N.of_nat (length ts)) 0); lia|].
      intros n H. destruct Hm as [->| ->]; cbn [Nat.add sem_method]; unfold enter; rewrite Hlt, H, N.ltb_irrefl; reflexivity. }
    split; [|exact Hmeth]. intros Hst. eapply (ev_after _ _ _ _ 1 Hmeth). intros n H. cbn [Nat.add sem_seed]. rewrite Hst, H. reflexivity. }
  assert (Hfld : forall sh l fs st f open, Forall (fun f => reads types s limit (snd f)) l -> fields_type types fs l ->
    forallb (fun f => representable (snd f)) l = true -> (restrict_number_values s = true -> Forall (fun t => unsupported_number t = false) (flat_map (fun f => floats (snd f)) l)) ->
    open + N.of_nat (nesting (JObj (map (fun f => (fst f, json_of (snd f))) l))) <= limit ->
    (deserialize (derived types) st = SaCall MStruct (InFields sh fs []) (map_ok f) ->
     ev (fun n => sem_seed (derived types) s limit n st (JObj (map (fun f => (fst f, json_of (snd f))) l)) open) (f (build_fields sh l))) /\
    ev (fun n => sem_method (derived types) s limit n MStruct (InFields sh fs []) (JObj (map (fun f => (fst f, json_of (snd f))) l)) open) (build_fields sh l)).
  { intros sh l fs st f open Hl Ht Hr Hfl Hn. inversion Ht as [fs' l' Hd Hc H2]; subst. destruct (fine_fields s limit open l Hr Hfl Hn) as [Hlt Hf].
    assert (Hmeth : ev (fun n => sem_method (derived types) s limit n MStruct (InFields sh fs []) (JObj (map (fun f => (fst f, json_of (snd f))) l)) open) (build_fields sh l)).
    { eapply (ev_after _ _ _ _ 1); [apply (read_fields types s limit sh (open + 1) fs l H2 Hl Hf [] [] (Forall2_nil _) Hd)|].
      intros n H. cbn [Nat.add sem_method]; unfold enter; rewrite Hlt. exact H. }
    split; [|exact Hmeth]. intros Hst. eapply (ev_after _ _ _ _ 1 Hmeth). intros n H. cbn [Nat.add sem_seed]. rewrite Hst, H. reflexivity. }
  intros v; induction v using rval_ind'; intros ty Ht0 Hr Hfl st f open Hst Hn;
    destruct (resolved _ _ _ Ht0) as [Ht Hres]; clear Ht0; inversion Ht as
      [b0 E|t0 z0 Hz E|ft t0 Hnum E|c0 Hc E|s9 Hs E|bs0 Hb E|E|t0 E|t0 v0 Hv E|t0 l0 Hl E|ts0 l0 Hl E|tk tv es0 He E|n0 E|n0 t0 v0 Hv E
      |n0 ts0 l0 Hl E|n0 fs0 l0 Hl E|n0 vs i0 var0 Hch Hf E|n0 vs i0 var0 t0 v0 Hch Hf Hv E|n0 vs i0 var0 ts0 l0 Hch Hf Hl E|n0 vs i0 var0 fs0 l0 Hch Hf Hl E|n0 v0 Hnn Hv E];
    subst; try (exfalso; eapply Hres; eauto; fail); rewrite <- E in Hst; cbn [json_of representable] in *.
  - apply (ev_now _ _ 2). intros n. cbn [Nat.add sem_seed]. rewrite Hst. reflexivity.
  - eapply read_int; eassumption.
  - apply (ev_now _ _ 2). intros n. cbn [Nat.add sem_seed sem_method]. rewrite Hst. cbn [seed_call sem_method].
    rewrite (proj2 (number_chars _ Hnum)).
    destruct (restrict_number_values s) eqn:Er; cbn [andb].
    + specialize (Hfl Er). cbn in Hfl. apply Forall_cons_iff in Hfl as [Hu _]. rewrite Hu. reflexivity.
    + reflexivity.
  - apply (ev_now _ _ 2). intros n. cbn [Nat.add sem_seed]. rewrite Hst. reflexivity.
  - apply (ev_now _ _ 2). intros n. cbn [Nat.add sem_seed]. rewrite Hst. reflexivity.
  - eapply (ev_after _ _ _ _ 2); [apply (read_bytes types s limit (open + 1) bs Hb [])|].
    intros n H. cbn [Nat.add sem_seed]. rewrite Hst. cbn [seed_call sem_method]. unfold enter.
    rewrite (proj2 (N.ltb_lt open limit)) by (cbn [nesting] in Hn; lia).
    replace (sem_items (derived types) s limit n None 0 (Vis TyBytes)) with (sem_items (derived types) s limit n None 0 (InBytes [])) by (destruct n; reflexivity).
    rewrite H. reflexivity.
  - apply (ev_now _ _ 2). intros n. cbn [Nat.add sem_seed]. rewrite Hst. reflexivity.
  - apply (ev_now _ _ 2). intros n. cbn [Nat.add sem_seed]. rewrite Hst. reflexivity.
  - apply andb_prop in Hr as [Hnull Hr].
    eapply (ev_after _ _ _ _ 2); [apply (IHv t0 Hv Hr Hfl (Wrap RvSome t0) RvSome open eq_refl Hn)|].
    intros n H. cbn [Nat.add sem_seed]. rewrite Hst. cbn [seed_call sem_method visit_some derived].
    destruct (json_of v) eqn:Ej; try (rewrite H; reflexivity). rewrite (null_of v Ej) in Hnull. discriminate.
  - destruct (fine_list s limit open l Hr Hfl Hn) as [Hlt Hf].
    eapply (ev_after _ _ _ _ 2); [apply (read_vec types s limit t0 (open + 1) l H Hl Hf [])|].
    intros n H1. cbn [Nat.add sem_seed]. rewrite Hst. cbn [seed_call sem_method]. unfold enter. rewrite Hlt.
    replace (sem_items (derived types) s limit n None 0 (Vis (TyVec t0))) with (sem_items (derived types) s limit n None 0 (InVec t0 [])) by (destruct n; reflexivity).
    rewrite H1. reflexivity.
  - eapply (proj1 (Htup ShTuple _ _ l ts0 st f open H Hl Hr Hfl Hn (or_introl eq_refl) eq_refl)). exact Hst.
  - assert (Hlt : open <? limit = true) by (apply N.ltb_lt; cbn [nesting] in Hn; lia).
    assert (Hf : Forall (fun e => is_key (fst e) = true /\ fine s limit (open + 1) (snd e)) es).
    { assert (Hfl' := floats_part (fun e => snd e) s es Hfl). cbn [nesting] in Hn. rewrite map_map in Hn. cbn [snd] in Hn.
      apply (nesting_part (fun e => json_of (snd e))) in Hn. rewrite forallb_forall in Hr. rewrite Forall_forall in *. intros e Hin.
      specialize (Hr e Hin). apply andb_prop in Hr as [Hk Hr]. unfold fine. auto. }
    eapply (ev_after _ _ _ _ 2); [apply (read_map types s limit tk tv (open + 1) es)|].
    + eapply Forall_impl; [|exact H]. cbn. tauto.
    + exact He.
    + exact Hf.
    + intros n H1. cbn [Nat.add sem_seed]. rewrite Hst. cbn [seed_call sem_method]. unfold enter. rewrite Hlt.
      replace (sem_members (derived types) s limit n (AtNames (map (fun e => (key_of (fst e), json_of (snd e))) es)) (Vis (TyMap tk tv)))
        with (sem_members (derived types) s limit n (AtNames (map (fun e => (key_of (fst e), json_of (snd e))) es)) (InMap tk tv [])) by (destruct n; reflexivity).
      rewrite H1. reflexivity.
  - apply (ev_now _ _ 2). intros n. cbn [Nat.add sem_seed]. rewrite Hst. reflexivity.
  - eapply (ev_after _ _ _ _ 2); [apply (IHv t0 Hv Hr Hfl (Wrap (RvNewtype name) t0) (RvNewtype name) open eq_refl Hn)|].
    intros n H. cbn [Nat.add sem_seed]. rewrite Hst. cbn [seed_call sem_method visit_newtype derived]. rewrite H. reflexivity.
  - eapply (proj1 (Htup (ShNamed name) _ _ l ts0 st f open H Hl Hr Hfl Hn (or_intror eq_refl) eq_refl)). exact Hst.
  - eapply (proj1 (Hfld (ShNamed name) fs fs0 st f open H Hl Hr Hfl Hn)). exact Hst.
  - apply (ev_now _ _ 5). intros n. cbn [Nat.add sem_seed]. rewrite Hst. cbn [seed_call sem_method visit_enum derived sem_seed deserialize visit_data].
    pose proof (in_names variant 0 vs tt _ Hf) as Hin.
    destruct (in_dec (list_eq_dec N.eq_dec) variant (map fst vs)) as [_|Hx]; [|contradiction].
    cbn [given then_code with_variant derived]. rewrite Hf. reflexivity.
  - assert (Hlt : open <? limit = true) by (apply N.ltb_lt; cbn [nesting] in Hn; lia).
    apply (variant_read types s limit name vs variant i (VrNewtype t0) _ open st f _ Hf Hst Hlt).
    cbn [with_variant derived]. rewrite Hf.
    eapply (ev_after _ _ _ _ 0); [apply (IHv t0 Hv Hr Hfl (Seed t0) (fun v => v) (open + 1) eq_refl)|].
    { cbn [nesting map list_max fold_right snd] in Hn. rewrite Nat.max_0_r in Hn. lia. }
    intros n H. cbn [Nat.add]. rewrite H. reflexivity.
  - assert (Hlt : open <? limit = true) by (apply N.ltb_lt; cbn [nesting] in Hn; lia).
    apply (variant_read types s limit name vs variant i (VrTuple ts0) _ open st f _ Hf Hst Hlt).
    cbn [with_variant derived]. rewrite Hf.
    eapply (ev_after _ _ _ _ 0); [apply (proj2 (Htup (ShVariant name i variant) (MTuple (N.of_nat (length ts0))) _ l ts0 st f (open + 1) H Hl Hr Hfl ltac:(cbn [nesting map list_max fold_right snd] in Hn |- *; rewrite Nat.max_0_r in Hn; lia) (or_introl eq_refl) eq_refl))|].
    intros n H1. cbn [Nat.add]. rewrite H1. reflexivity.
  - assert (Hlt : open <? limit = true) by (apply N.ltb_lt; cbn [nesting] in Hn; lia).
    apply (variant_read types s limit name vs variant i (VrStruct fs0) _ open st f _ Hf Hst Hlt).
    cbn [with_variant derived]. rewrite Hf.
    eapply (ev_after _ _ _ _ 0); [apply (proj2 (Hfld (ShVariant name i variant) fs fs0 st f (open + 1) H Hl Hr Hfl ltac:(cbn [nesting map list_max fold_right snd] in Hn |- *; rewrite Nat.max_0_r in Hn; lia)))|].
    intros n H1. cbn [Nat.add]. rewrite H1. reflexivity.
Qed.
