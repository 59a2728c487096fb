(** * Proofs: after an error the deserializer does not use the reader, if the code
    returns errors *)

From Verif Require Import Base Utf8Model SourceModel ReaderModel.
From Verif Require Import SpecSimple ClientErrors DeModel SpecDe.

Ltac splits := repeat match goal with |- _ /\ _ => split end.

Definition unsuccessful {A : Type} (x : dend A) : Prop := match x with DRet (inr _) => False | _ => True end.

(** [stops]: no calls, and no success; [clean]: after a failed call there are no further
    ones, and no success *)
Definition stops {A : Type} (m : de A) : Prop := forall d, exists x d', m d = Done (x, d') /\ unsuccessful x.
Definition clean {A : Type} (m : de A) : Prop := forall d,
  obeys false (m d) (fun failed re => failed = true -> unsuccessful (fst re)).

Lemma clean_now A (x : dend A) : clean (dend_now x).
Proof. intros d. cbn. discriminate. Qed.
Lemma stops_fail A e : stops (@dfail A e).
Proof. intros d. exists (DRet (inl e)), d. split; [reflexivity|exact I]. Qed.
Lemma clean_fail A e : clean (@dfail A e). Proof. apply clean_now. Qed.

Lemma clean_then A B (m : de A) (f : derr + A -> de B) : clean m ->
  (forall e, stops (f (inl e))) -> (forall r, clean (f r)) -> clean (dthen m f).
Proof.
  intros Hm Hs Hf d. unfold dthen. apply obeys_bind. eapply obeys_weaken; [|exact (Hm d)].
  intros failed [x d'] H. cbn [fst] in H. destruct x as [r|k| |]; try (cbn; intros _; exact I).
  destruct failed; [|apply Hf].
  destruct r as [e|a]; [|destruct (H eq_refl)].
  destruct (Hs e d') as (x & d'' & -> & Hx). cbn. intros _. exact Hx.
Qed.

Lemma clean_bind A B (m : de A) (f : A -> de B) : clean m -> (forall a, clean (f a)) -> clean (dbind m f).
Proof.
  intros Hm Hf. apply clean_then; [exact Hm|intros e; apply stops_fail|].
  intros [e|a]; [apply clean_fail|apply Hf].
Qed.

Lemma clean_use c : clean (duse c).
Proof.
  intros d. cbn. split; [discriminate|]. intros o. destruct o; cbn; auto. intros H. destruct c; discriminate H.
Qed.

Lemma clean_unit c : clean (use_unit c).
Proof. apply clean_bind; [apply clean_use|]. intros v. apply clean_now. Qed.
Lemma clean_bool c : clean (use_bool c).
Proof. apply clean_bind; [apply clean_use|]. intros v. destruct v; apply clean_now. Qed.
Lemma clean_str c : clean (use_str c).
Proof. apply clean_bind; [apply clean_use|]. intros v. destruct v; apply clean_now. Qed.
Lemma clean_peek : clean use_peek.
Proof. apply clean_bind; [apply clean_use|]. intros v. destruct v; apply clean_now. Qed.

#[local] Hint Resolve clean_now clean_fail clean_unit clean_bool clean_str clean_peek : core.

Lemma clean_nesting A limit (m : de A) : clean m -> clean (check_nesting limit m).
Proof.
  intros Hm d. unfold check_nesting. destruct (limit <=? d); [cbn; discriminate|].
  apply obeys_bind. eapply obeys_weaken; [|exact (Hm (d + 1))].
  intros failed [x d'] H. cbn [fst] in H. destruct x as [[e|a]|k| |]; try (cbn; intros _; exact I).
  destruct failed; [destruct (H eq_refl)|]. destruct (d' =? 0); cbn; discriminate.
Qed.

Lemma clean_array V limit expected (m : de (V * N)) : clean m -> clean (de_array limit expected m).
Proof.
  intros Hm. apply clean_nesting. apply clean_bind; [auto|]. intros _. apply clean_bind; [exact Hm|]. intros al.
  apply clean_bind; [destruct expected as [n|]; [destruct (_ <? _)|]; apply clean_now|]. intros _.
  apply clean_bind; [auto|]. intros _. apply clean_now.
Qed.

Lemma clean_object V limit (m : de (V * bool)) : clean m -> clean (de_object limit m).
Proof.
  intros Hm. apply clean_nesting. apply clean_bind; [auto|]. intros _. apply clean_bind; [exact Hm|]. intros ab.
  apply clean_bind; [destruct (snd ab); apply clean_now|]. intros _.
  apply clean_bind; [auto|]. intros _. apply clean_now.
Qed.

Lemma clean_number V S (C : code V S) vis t : clean (visit_number C vis t).
Proof.
  unfold visit_number. destruct (existsb _ t); [apply clean_now|]. destruct t as [|c t]; [apply clean_now|].
  destruct (c =? 0x2D).
  - destruct (parse_int I64 _); [apply clean_now|]. destruct (parse_int I128 _); apply clean_now.
  - destruct (parse_int U64 _); [apply clean_now|]. destruct (parse_int U128 _); apply clean_now.
Qed.

Lemma flag_stops V B (b : B) e : stops (@with_flag V B b (inl e)).
Proof. intros d. do 2 eexists. split; [reflexivity|exact I]. Qed.
Lemma flag_clean V B (b : B) (r : derr + V) : clean (with_flag b r). Proof. apply clean_now. Qed.
#[local] Hint Resolve flag_stops flag_clean : core.

Lemma run_clean V S (C : code V S) limit : returns_errors C -> forall fuel,
  (forall seed, clean (run_seed C limit fuel seed)) /\
  (forall m vis, clean (run_method C limit fuel m vis)) /\
  (forall expected len st, clean (run_seq C limit fuel expected len st)) /\
  (forall ev st, clean (run_map C limit fuel ev st)) /\
  (forall is_string vis, clean (run_enum C limit fuel is_string vis)).
Proof.
  intros (H1 & H2 & H3 & H4 & H5 & H6).
  assert (Hseq : forall fuel expected len st seed k e, visit_seq C st = SqNext seed k ->
    run_seq C limit fuel expected len (k (inl e)) = with_flag len (inl e)).
  { intros fuel expected len st seed k e E. pose proof (H2 _ _ _ e E) as E'. destruct fuel; cbn [run_seq]; rewrite E'; reflexivity. }
  assert (Hkey : forall fuel ev st seed k e, visit_map C st = MpKey seed k ->
    run_map C limit fuel ev (k (inl e)) = with_flag ev (inl e)).
  { intros fuel ev st seed k e E. pose proof (H3 _ _ _ e E) as E'. destruct fuel; cbn [run_map]; rewrite E'; reflexivity. }
  assert (Hval : forall fuel ev st seed k e, visit_map C st = MpValue seed k ->
    run_map C limit fuel ev (k (inl e)) = with_flag ev (inl e)).
  { intros fuel ev st seed k e E. pose proof (H4 _ _ _ e E) as E'. destruct fuel; cbn [run_map]; rewrite E'; reflexivity. }
  induction fuel as [|n (I1 & I2 & I3 & I4 & I5)].
  - splits; intros; cbn [run_seed run_method run_seq run_map run_enum]; auto.
    + destruct (visit_seq C st); auto.
    + destruct (visit_map C st); [auto|destruct ev|destruct (negb ev)]; apply clean_now.
  - splits.
    + intros seed. cbn [run_seed]. destruct (deserialize C seed) as [r|m vis after] eqn:E; [auto|].
      apply clean_then; [apply I2| |auto]. intros e. rewrite (H1 _ _ _ _ e E). apply stops_fail.
    + intros m vis.
      assert (Ha : forall expected, clean (de_array limit expected (run_seq C limit n expected 0 vis))) by (intros; apply clean_array, I3).
      assert (Ho : clean (de_object limit (run_map C limit n false vis))) by apply clean_object, I4.
      cbn [run_method]. destruct m; auto.
      * apply clean_bind; [auto|]. intros t. destruct t; auto.
        -- apply clean_bind; auto.
        -- apply clean_bind; [auto|]. intros x. apply clean_number.
        -- apply clean_bind; auto.
        -- apply clean_bind; auto.
      * apply clean_bind; auto.
      * apply clean_bind; [auto|]. intros x. destruct (parse_int t x); auto.
      * apply clean_bind; auto.
      * apply clean_bind; auto.
      * apply clean_bind; auto.
      * apply clean_bind; auto.
      * apply clean_bind; [auto|]. intros t. destruct t; auto. apply clean_bind; auto.
      * apply clean_bind; [auto|]. intros t. destruct t; auto. apply clean_bind; auto.
      * apply clean_bind; [auto|]. intros t. destruct t; auto. apply clean_bind; auto.
      * apply clean_bind; auto.
      * apply clean_bind; auto.
      * apply clean_bind; [auto|]. intros t. destruct t; auto.
      * apply clean_bind; [auto|]. intros t. destruct t; auto.
        -- apply clean_object, I5.
        -- apply clean_bind; [apply I5|]. intros ab. destruct (snd ab); apply clean_now.
      * apply clean_bind; auto.
      * apply clean_bind; auto.
    + intros expected len st. cbn [run_seq]. destruct (visit_seq C st) as [r|seed k] eqn:E; [auto|].
      apply clean_then; [auto| |].
      * intros e. rewrite (Hseq _ _ _ _ _ _ _ E). auto.
      * intros [e|b]; [rewrite (Hseq _ _ _ _ _ _ _ E); auto|]. destruct b; [|auto].
        assert (Hel : forall len', clean (dthen (run_seed C limit n seed) (fun r => run_seq C limit n expected len' (k (as_option r))))).
        { intros len'. apply clean_then; [apply I1| |].
          - intros e. cbn [as_option]. rewrite (Hseq _ _ _ _ _ _ _ E). auto.
          - intros r. apply I3. }
        destruct expected as [m|]; [|apply Hel]. destruct (m <=? len); [rewrite (Hseq _ _ _ _ _ _ _ E); auto|apply Hel].
    + intros ev st. cbn [run_map]. destruct (visit_map C st) as [r|seed k|seed k] eqn:E; [auto| |].
      * destruct ev; [apply clean_now|]. apply clean_then; [auto| |].
        -- intros e. rewrite (Hkey _ _ _ _ _ _ E). auto.
        -- intros [e|b]; [rewrite (Hkey _ _ _ _ _ _ E); auto|]. destruct b; [|auto].
           apply clean_then.
           ++ apply clean_bind; auto.
           ++ intros e. rewrite (Hkey _ _ _ _ _ _ E). auto.
           ++ intros [e|v]; [rewrite (Hkey _ _ _ _ _ _ E); auto|]. apply I4.
      * destruct (negb ev); [apply clean_now|]. apply clean_then; [apply I1| |].
        -- intros e. rewrite (Hval _ _ _ _ _ _ E). auto.
        -- intros r. apply I4.
    + intros is_string vis. cbn [run_enum]. destruct (visit_enum C vis) as [r|seed k failed] eqn:E; [auto|].
      apply clean_then.
      * destruct is_string; [apply I1|]. apply clean_bind; auto.
      * intros e. rewrite (H5 _ _ _ _ e E). auto.
      * intros [e|v]; [auto|]. destruct is_string.
        -- destruct (unit_variant_only _). auto.
        -- pose proof (H6 (k v)) as Hv. destruct (with_variant C (k v)) as [r|after|sd after|len vis' after|vis' after]; [auto| | | |].
           ++ apply clean_then; [auto| |auto]. intros e. rewrite Hv. auto.
           ++ apply clean_then; [apply I1| |auto]. intros e. rewrite Hv. auto.
           ++ apply clean_then; [apply I2| |auto]. intros e. rewrite Hv. auto.
           ++ apply clean_then; [apply I2| |auto]. intros e. rewrite Hv. auto.
Qed.

Lemma deserialize_next_clean V S (C : code V S) steps seed : returns_errors C ->
  obeys false (deserialize_next C steps seed) (fun failed x => failed = true -> unsuccessful x).
Proof.
  intros HC. unfold deserialize_next. apply obeys_bind.
  assert (H : clean (dbind use_peek (fun _ => run_seed C 128 steps seed))).
  { apply clean_bind; [auto|]. intros _. apply run_clean, HC. }
  eapply obeys_weaken; [|exact (H 0)]. intros f [x d] Hx. exact Hx.
Qed.
