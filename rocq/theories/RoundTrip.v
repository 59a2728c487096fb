(** * Serializing and deserializing: proofs about data *)

From Verif Require Import Base Utf8Model Utf8Proofs NumberModel SpecNumber NumberProofs SpecJson WriterModel SpecWriter
  WClientModel SerModel SpecSer WriterSession WriterMore SerRun SerFinal SourceModel ReaderModel SpecCursor SimpleModel DeModel SpecDe DeRun SpecTypes.

Ltac splits := repeat match goal with |- _ /\ _ => split end.

(** ** Induction on values *)

Definition rval_ind' (P : rval -> Prop)
  (Hbool : forall b, P (RvBool b)) (Hint : forall z, P (RvInt z)) (Hfloat : forall t, P (RvFloat t))
  (Hchar : forall c, P (RvChar c)) (Hstr : forall s, P (RvStr s)) (Hbytes : forall bs, P (RvBytes bs))
  (Hunit : P RvUnit) (Hnone : P RvNone) (Hsome : forall v, P v -> P (RvSome v))
  (Hvec : forall l, Forall P l -> P (RvVec l)) (Htuple : forall l, Forall P l -> P (RvTuple l))
  (Hmap : forall es, Forall (fun e => P (fst e) /\ P (snd e)) es -> P (RvMap es))
  (Hus : forall name, P (RvUnitStruct name)) (Hnt : forall name v, P v -> P (RvNewtype name v))
  (Hts : forall name l, Forall P l -> P (RvTupleStruct name l))
  (Hst : forall name fs, Forall (fun f => P (snd f)) fs -> P (RvStruct name fs))
  (Huv : forall name i variant, P (RvUnitVariant name i variant))
  (Hnv : forall name i variant v, P v -> P (RvNewtypeVariant name i variant v))
  (Htv : forall name i variant l, Forall P l -> P (RvTupleVariant name i variant l))
  (Hsv : forall name i variant fs, Forall (fun f => P (snd f)) fs -> P (RvStructVariant name i variant fs)) :
  forall v, P v :=
  fix F v : P v :=
    let list := fix list l : Forall P l := match l with [] => Forall_nil _ | x :: l' => Forall_cons _ (F x) (list l') end in
    let flds := fix flds fs : Forall (fun f : str * rval => P (snd f)) fs :=
      match fs with [] => Forall_nil _ | f :: fs' => Forall_cons f (F (snd f)) (flds fs') end in
    match v with
    | RvBool b => Hbool b
    | RvInt z => Hint z
    | RvFloat t => Hfloat t
    | RvChar c => Hchar c
    | RvStr s => Hstr s
    | RvBytes bs => Hbytes bs
    | RvUnit => Hunit
    | RvNone => Hnone
    | RvSome v => Hsome v (F v)
    | RvVec l => Hvec l (list l)
    | RvTuple l => Htuple l (list l)
    | RvMap es => Hmap es ((fix ents es : Forall (fun e => P (fst e) /\ P (snd e)) es :=
        match es with [] => Forall_nil _ | e :: es' => Forall_cons e (conj (F (fst e)) (F (snd e))) (ents es') end) es)
    | RvUnitStruct name => Hus name
    | RvNewtype name v => Hnt name v (F v)
    | RvTupleStruct name l => Hts name l (list l)
    | RvStruct name fs => Hst name fs (flds fs)
    | RvUnitVariant name i variant => Huv name i variant
    | RvNewtypeVariant name i variant v => Hnv name i variant v (F v)
    | RvTupleVariant name i variant l => Htv name i variant l (list l)
    | RvStructVariant name i variant fs => Hsv name i variant fs (flds fs)
    end.

(** ** The data of a value *)

Fixpoint key_of (v : rval) : str :=
  match v with
  | RvBool b => if b then lit_true else lit_false
  | RvInt z => int_to_string z
  | RvFloat t => t
  | RvChar c => [c]
  | RvStr s => s
  | RvUnitVariant _ _ variant => variant
  | RvSome v | RvNewtype _ v => key_of v
  | _ => []
  end.

Fixpoint json_of (v : rval) : json :=
  match v with
  | RvBool b => JBool b
  | RvInt z => JNum (int_to_string z)
  | RvFloat t => JNum (encode_utf8 t)
  | RvChar c => JStr [c]
  | RvStr s => JStr s
  | RvBytes bs => JArr (map (fun b => JNum (int_to_string (Z.of_N b))) bs)
  | RvUnit | RvNone | RvUnitStruct _ => JNull
  | RvSome v | RvNewtype _ v => json_of v
  | RvVec l | RvTuple l | RvTupleStruct _ l => JArr (map json_of l)
  | RvMap es => JObj (map (fun e => (key_of (fst e), json_of (snd e))) es)
  | RvStruct _ fs => JObj (map (fun f => (fst f, json_of (snd f))) fs)
  | RvUnitVariant _ _ variant => JStr variant
  | RvNewtypeVariant _ _ variant v => JObj [(variant, json_of v)]
  | RvTupleVariant _ _ variant l => JObj [(variant, JArr (map json_of l))]
  | RvStructVariant _ _ variant fs => JObj [(variant, JObj (map (fun f => (fst f, json_of (snd f))) fs))]
  end.

Lemma key_of_means v : is_key v = true -> key_means (to_sval v) (SpecSer.Gives (key_of v)).
Proof.
  induction v; cbn [is_key]; intros H; try discriminate; cbn [to_sval key_of]; try constructor; auto.
  apply (proj1 (int_to_string_spec z)).
Qed.

Lemma counted_exact {A} n (a : A) : counted_from 0 n n a = SpecSer.Gives a.
Proof. unfold counted_from. rewrite N.add_0_l, !N.ltb_irrefl. reflexivity. Qed.

Lemma elems_exactly vs js : Forall2 (fun v j => value_means v (SpecSer.Gives j)) vs js ->
  elems_mean (Some (N.of_nat (length vs))) 0 (elems_of vs) (SpecSer.Gives js).
Proof.
  intros H. pose proof (elems_given vs js H (N.of_nat (length vs)) 0 (N.le_0_l _)) as H1.
  rewrite counted_exact in H1. exact H1.
Qed.

Lemma Forall2_map_both {A B C D} (R : C -> D -> Prop) (f : A -> C) (g : B -> D) l1 l2 :
  Forall2 (fun a b => R (f a) (g b)) l1 l2 -> Forall2 R (map f l1) (map g l2).
Proof. induction 1; constructor; auto. Qed.

Lemma Forall2_same {A} (R : A -> A -> Prop) l : Forall (fun a => R a a) l -> Forall2 R l l.
Proof. induction 1; constructor; auto. Qed.

Lemma json_of_means : forall v, representable v = true -> value_means (to_sval v) (SpecSer.Gives (json_of v)).
Proof.
  assert (Hl : forall l, Forall (fun v => representable v = true -> value_means (to_sval v) (SpecSer.Gives (json_of v))) l ->
    forallb representable l = true ->
    elems_mean (Some (N.of_nat (length l))) 0 (elems_of (map to_sval l)) (SpecSer.Gives (map json_of l))).
  { intros l Hl Hr. rewrite <- (map_length to_sval). apply elems_exactly, Forall2_map_both, Forall2_same.
    rewrite forallb_forall in Hr. rewrite Forall_forall in *. auto. }
  assert (Hf : forall fs, Forall (fun f : str * rval => representable (snd f) = true -> value_means (to_sval (snd f)) (SpecSer.Gives (json_of (snd f)))) fs ->
    forallb (fun f => representable (snd f)) fs = true ->
    fields_mean (N.of_nat (length fs)) 0 (fields_of (map (fun f => (fst f, to_sval (snd f))) fs)) (SpecSer.Gives (map (fun f => (fst f, json_of (snd f))) fs))).
  { intros fs Hl' Hr. rewrite <- (map_length (fun f => (fst f, to_sval (snd f))) fs).
    assert (H1 : Forall2 (fun f m => fst m = fst f /\ value_means (snd f) (SpecSer.Gives (snd m))) (map (fun f => (fst f, to_sval (snd f))) fs) (map (fun f => (fst f, json_of (snd f))) fs)).
    { apply Forall2_map_both, Forall2_same. rewrite forallb_forall in Hr. rewrite Forall_forall in *. cbn. auto. }
    pose proof (fields_given _ _ H1 (N.of_nat (length (map (fun f => (fst f, to_sval (snd f))) fs))) 0 (N.le_0_l _)) as H2.
    rewrite counted_exact in H2. exact H2. }
  intros v; induction v using rval_ind'; cbn [representable]; intros Hr; cbn [to_sval json_of]; try (constructor; auto; fail).
  - apply VM_int. apply (proj1 (int_to_string_spec z)).
  - rewrite <- (map_map (fun b => int_to_string (Z.of_N b)) JNum). apply VM_bytes.
    rewrite <- (map_id bs) at 1. apply Forall2_map_both, Forall2_same, Forall_forall. intros b _. apply (proj1 (int_to_string_spec _)).
  - apply andb_prop in Hr as [_ Hr]. constructor; auto.
  - apply (VM_seq _ _ (SpecSer.Gives _)). auto.
  - apply (VM_tuple _ _ (SpecSer.Gives _)). auto.
  - apply (VM_map _ _ (SpecSer.Gives _)).
    assert (H1 : Forall2 (fun e m => key_means (fst e) (SpecSer.Gives (fst m)) /\ value_means (snd e) (SpecSer.Gives (snd m)))
      (map (fun e => (to_sval (fst e), to_sval (snd e))) es) (map (fun e => (key_of (fst e), json_of (snd e))) es)).
    { apply Forall2_map_both, Forall2_same. rewrite forallb_forall in Hr. rewrite Forall_forall in *. intros e He. cbn.
      specialize (Hr e He). apply andb_prop in Hr as [Hk Hr]. split; [apply key_of_means, Hk|apply H; auto]. }
    rewrite <- (map_length (fun e => (to_sval (fst e), to_sval (snd e))) es).
    pose proof (entries_given _ _ H1 (N.of_nat (length (map (fun e => (to_sval (fst e), to_sval (snd e))) es))) 0 (N.le_0_l _)) as H2.
    rewrite counted_exact in H2. exact H2.
  - apply (VM_tuple_struct _ _ _ (SpecSer.Gives _)). auto.
  - apply (VM_struct _ _ _ (SpecSer.Gives _)). auto.
  - apply (VM_newtype_variant _ _ _ _ (SpecSer.Gives _)). auto.
  - apply (VM_tuple_variant _ _ _ _ _ (SpecSer.Gives _)). auto.
  - apply (VM_struct_variant _ _ _ _ _ (SpecSer.Gives _)). auto.
Qed.

(** ** Serialized values are valid *)

Lemma valid_elems_of vs : Forall valid_sval vs -> valid_elems (elems_of vs).
Proof.
  induction 1 as [|v vs Hv _ IH]; cbn; [exact I|]. split; [exact Hv|]. intros [e|]; [exact I|exact IH].
Qed.
Lemma valid_entries_of (es : list (sval * sval)) : Forall (fun e => valid_sval (fst e) /\ valid_sval (snd e)) es -> valid_entries (entries_then es EnEnd).
Proof.
  induction 1 as [|[k v] es [Hk Hv] _ IH]; [exact I|]. change (entries_then ((k, v) :: es) EnEnd) with
    (EnKey k (fun r => match r with None => EnValue v (fun r => match r with None => entries_then es EnEnd | Some e => EnAbort e end) | Some e => EnAbort e end)).
  split; [exact Hk|]. intros [e|]; [exact I|]. split; [exact Hv|]. intros [e|]; [exact I|exact IH].
Qed.
Lemma valid_fields_of (fs : list (str * sval)) : Forall (fun f => Forall is_char (fst f) /\ valid_sval (snd f)) fs -> valid_fields (fields_of fs).
Proof.
  induction 1 as [|[k v] fs [Hk Hv] _ IH]; [exact I|]. cbn. splits; [exact Hk|exact Hv|]. intros [e|]; [exact I|exact IH].
Qed.

Lemma resolved types t v : has_type types t v -> has_type types (resolve types t) v /\ forall n, resolve types t <> TyNamed n.
Proof.
  intros H. destruct t; cbn [resolve]; try (split; [exact H|discriminate]). inversion H; subst. auto.
Qed.

Lemma number_ascii t : number_text t -> Forall (fun b => b < 0x80) t.
Proof.
  intros (n & minus & int & frac & exp & -> & Hm & Hi & Hf & He).
  assert (Hd : forall ds, Forall digit ds -> Forall (fun b => b < 0x80) ds).
  { intros ds. apply Forall_impl. unfold digit. intros; lia. }
  repeat (apply Forall_app; split).
  - destruct Hm as [->| ->]; repeat constructor.
  - apply int_text_ascii, Hi.
  - destruct Hf as [->|(ds & -> & _ & H)]; [constructor|]. constructor; [reflexivity|auto].
  - destruct He as [[-> _]|(e & sign & ds & -> & He & Hs & [_ H] & _)]; [constructor|].
    constructor; [destruct He as [->| ->]; reflexivity|]. apply Forall_app. split; [|auto].
    destruct Hs as [->|[->| ->]]; repeat constructor.
Qed.

Lemma number_chars t : number_text t -> Forall is_char t /\ encode_utf8 t = t.
Proof.
  intros H. apply number_ascii in H. split; [|apply ascii_encode, H].
  eapply Forall_impl; [|exact H]. intros b Hb. cbv beta in Hb. left. eapply N.lt_trans; [exact Hb|reflexivity].
Qed.

Lemma typed_valid types : forall v t, has_type types t v -> valid_sval (to_sval v).
Proof.
  assert (H2 : forall l, Forall (fun v => forall t, has_type types t v -> valid_sval (to_sval v)) l -> forall ts, Forall2 (has_type types) ts l ->
    Forall valid_sval (map to_sval l)).
  { induction 1 as [|v l Hv _ IH]; intros ts Ht; inversion Ht; subst; cbn; constructor; eauto. }
  assert (Hf : forall l, Forall (fun f : str * rval => forall t, has_type types t (snd f) -> valid_sval (to_sval (snd f))) l -> forall fs, fields_type types fs l ->
    Forall (fun f => Forall is_char (fst f) /\ valid_sval (snd f)) (map (fun f => (fst f, to_sval (snd f))) l)).
  { intros l Hl fs Ht. inversion Ht as [fs' l' _ Hc Hx]; subst. clear Ht. revert Hl Hc. induction Hx as [|[n t] [n' v] fs l [Hn Ht] _ IH]; intros Hl Hc; [constructor|].
    cbn in Hn. subst n'. apply Forall_cons_iff in Hl as [Hv Hl]. apply Forall_cons_iff in Hc as [Hc1 Hc]. cbn [map]. constructor; [|auto].
    cbn in *. eauto. }
  intros v; induction v using rval_ind'; intros ty Ht0; destruct (resolved _ _ _ Ht0) as [Ht Hres]; clear Ht0; inversion Ht; subst;
    try (exfalso; eapply Hres; eauto; fail); cbn [to_sval valid_sval]; auto.
  - match goal with H : number_text _ |- _ => destruct (number_chars _ H) as [Ha Hb]; rewrite Hb; auto end.
  - eauto.
  - apply valid_elems_of. apply Forall_map. rewrite Forall_forall in *. eauto.
  - apply valid_elems_of. eauto.
  - apply valid_entries_of. apply Forall_map. rewrite Forall_forall in *. intros e He. cbn.
    match goal with H1 : forall x, In x es -> has_type _ _ _ /\ _ |- _ => destruct (H1 e He) end.
    match goal with H1 : forall x, In x es -> (forall t, _) /\ _ |- _ => destruct (H1 e He) end. eauto.
  - eauto.
  - apply valid_elems_of. eauto.
  - apply valid_fields_of. eauto.
  - eauto.
  - split; [assumption|]. apply valid_elems_of. eauto.
  - split; [assumption|]. apply valid_fields_of. eauto.
Qed.

(** ** Integers *)

Lemma digits_value_fold ds : forall acc, Forall digit ds ->
  fold_left (fun acc d => acc * 10 + (d - 0x30)) ds acc = acc * 10 ^ N.of_nat (length ds) + digits_value ds.
Proof.
  unfold digits_value. induction ds as [|d ds IH]; intros acc H; cbn [fold_left length].
  - cbn. lia.
  - apply Forall_cons_iff in H as [_ H]. rewrite (IH _ H), (IH (0 * 10 + (d - 48)) H). rewrite Nat2N.inj_succ, N.pow_succ_r by lia. lia.
Qed.

Lemma decimal_value ds : Forall digit ds -> decimal ds = Some (digits_value ds).
Proof.
  induction ds as [|d ds IH]; intros H; [reflexivity|]. apply Forall_cons_iff in H as [Hd H]. cbn [decimal].
  unfold digit in Hd. rewrite (proj2 (N.leb_le 0x30 d)) by lia. rewrite (proj2 (N.leb_le d 0x39)) by lia. cbn [andb].
  rewrite (IH H). cbn [option_map]. f_equal. unfold digits_value at 2. cbn [fold_left]. rewrite (digits_value_fold ds _ H). lia.
Qed.

Lemma int_text_digits t : int_text t -> Forall digit t /\ exists c r, t = c :: r /\ digit c.
Proof.
  intros [->|(d & ds & -> & Hd & Hds)]; unfold digit in *.
  - split; [constructor; [lia|constructor]|]. do 2 eexists. split; [reflexivity|]. lia.
  - split; [constructor; [lia|assumption]|]. do 2 eexists. split; [reflexivity|]. lia.
Qed.

Lemma decimal_integer ty z t : decimal_text z t -> (min_int ty <= z <= max_int ty)%Z -> integer ty t = Some z.
Proof.
  intros H Hr. assert (E : ((min_int ty <=? z) && (z <=? max_int ty))%Z = true).
  { apply andb_true_intro. split; apply Z.leb_le; lia. }
  destruct H as [[Hi Hz]|(ds & -> & Hi & Hne & Hz)].
  - destruct (int_text_digits _ Hi) as (Hd & c & r & -> & Hc). pose proof (decimal_value _ Hd) as Hv. rewrite <- Hz in Hv || idtac.
    unfold integer. rewrite Hv, <- Hz, E. unfold digit in Hc.
    do 48 (try (destruct c as [|c]; try lia)); repeat (destruct c as [c|c|]; try reflexivity; try lia).
  - destruct (int_text_digits _ Hi) as (Hd & _). unfold integer. rewrite (decimal_value _ Hd).
    assert (Hs : signed ty = true) by (unfold signed; apply Z.ltb_lt; lia). rewrite Hs, <- Hz, E. reflexivity.
Qed.

Lemma no_exponent t : (forall b, In b t -> digit b \/ b = 0x2D) -> SpecCursor.exponent_digits t = 0%nat.
Proof.
  intros H. unfold SpecCursor.exponent_digits.
  assert (E : SpecCursor.exponent_part t = []).
  { induction t as [|b t IH]; [reflexivity|]. cbn [SpecCursor.exponent_part].
    destruct (H b (or_introl eq_refl)) as [Hd|Hd]; unfold digit in Hd.
    - destruct (N.eqb_spec b 0x65); [lia|]. destruct (N.eqb_spec b 0x45); [lia|]. cbn. apply IH. intros x Hx. apply H. right. exact Hx.
    - destruct (N.eqb_spec b 0x65); [lia|]. destruct (N.eqb_spec b 0x45); [lia|]. cbn. apply IH. intros x Hx. apply H. right. exact Hx. }
  rewrite E. reflexivity.
Qed.

Lemma int_text_length t n : int_text t -> digits_value t < 10 ^ N.of_nat n -> (length t <= S n)%nat.
Proof.
  intros [->|(d & ds & -> & Hd & Hds)] H; [cbn; lia|]. cbn [length]. apply le_n_S.
  assert (Hle : N.of_nat (length ds) <= N.of_nat n); [|lia].
  destruct (N.le_gt_cases (N.of_nat (length ds)) (N.of_nat n)) as [|Hgt]; [assumption|].
  unfold digits_value in H. cbn [fold_left] in H. rewrite (digits_value_fold ds _ Hds) in H.
  assert (10 ^ N.of_nat n <= 10 ^ N.of_nat (length ds)) by (apply N.pow_le_mono_r; lia). nia.
Qed.

Lemma decimal_supported ty z t : decimal_text z t -> (min_int ty <= z <= max_int ty)%Z -> unsupported_number t = false.
Proof.
  intros H Hr. assert (Hb : (-170141183460469231731687303715884105728 <= z <= 340282366920938463463374607431768211455)%Z)
    by (destruct ty; cbn [min_int max_int] in Hr; lia). clear Hr.
  assert (Hl : forall n, n < 10 ^ N.of_nat 39 <-> n < 1000000000000000000000000000000000000000) by (intros n; reflexivity).
  unfold unsupported_number. destruct H as [[Hi ->]|(ds & -> & Hi & Hne & ->)].
  - destruct (int_text_digits _ Hi) as (Hd & _). rewrite no_exponent by (intros b Hx; left; rewrite Forall_forall in Hd; auto).
    assert (length t <= 40)%nat by (apply (int_text_length t 39 Hi), Hl; lia).
    cbn [Nat.ltb Nat.leb orb]. apply N.ltb_ge. lia.
  - destruct (int_text_digits _ Hi) as (Hd & _).
    rewrite no_exponent by (intros b [Hx|Hx]; [right; auto|left; rewrite Forall_forall in Hd; auto]).
    assert (length ds <= 40)%nat by (apply (int_text_length ds 39 Hi), Hl; lia).
    cbn [Nat.ltb Nat.leb orb length]. apply N.ltb_ge. lia.
Qed.
