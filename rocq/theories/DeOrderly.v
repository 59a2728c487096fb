(** * Proofs: the serde deserializer does not panic if the rules of Serde are followed *)

From Verif Require Import Base Utf8Model NumberModel SpecNumber SourceModel ReaderModel ReaderFits SpecUsage ClientUsage ClientModel DeModel SpecOrderly.
From Verif Require SpecDe DeRun.

Local Ltac splits := repeat match goal with |- _ /\ _ => split end.

(** A value, a name is next; a value of [o] has been read *)
Definition vu (o : list stack_value) (b : bool) : usage := Usage o false b false.
Definition nu (o : list stack_value) (b : bool) : usage := Usage (SObject :: o) true b false.
Definition fin (o : list stack_value) (b : bool) : usage := Usage o (name_next o) (match o with [] => true | _ => b end) false.

Lemma fin_array o b : fin (SArray :: o) b = vu (SArray :: o) b.
Proof. reflexivity. Qed.
Lemma fin_object o b : fin (SObject :: o) b = nu o b.
Proof. reflexivity. Qed.
Lemma inner_allowed s x o b : value_allowed s (vu (x :: o) b) = true.
Proof. reflexivity. Qed.

Definition dpost {A : Type} (d : N) (Q : A -> usage -> Prop) (x : dend A * N) (u' : option usage) : Prop :=
  d <= snd x /\
  match fst x with
  | DPanic _ => False
  | DRet (inr a) => exists v, u' = Some v /\ Q a v
  | _ => True
  end.

Definition dok {A : Type} (s : settings) (u : usage) (m : de A) (Q : A -> usage -> Prop) : Prop :=
  forall d e, uses s (m d) (Some u) e (dpost d Q).

Lemma dok_impl A s u (m : de A) (Q R : A -> usage -> Prop) : (forall a v, Q a v -> R a v) -> dok s u m Q -> dok s u m R.
Proof.
  intros H Hm d e. eapply uses_weaken; [|apply Hm]. intros [x d'] u' [H1 H2]. split; [exact H1|]. cbn in *.
  destruct x as [[er|a]|k| |]; auto. destruct H2 as (v & -> & H2). eauto.
Qed.

Lemma dok_ret A s u (a : A) (Q : A -> usage -> Prop) : Q a u -> dok s u (dret a) Q.
Proof. intros H d e. cbn. split; cbn; [lia|eauto]. Qed.
Lemma dok_now A s u (x : dend A) (Q : A -> usage -> Prop) : (forall k, x <> DPanic k) -> (forall a, x = DRet (inr a) -> Q a u) -> dok s u (dend_now x) Q.
Proof. intros H1 H2 d e. cbn. split; cbn; [lia|]. destruct x as [[er|a]|k| |]; auto; [eauto|exact (H1 k eq_refl)]. Qed.
Lemma dok_result A s u (r : derr + A) (Q : A -> usage -> Prop) : (forall a, r = inr a -> Q a u) -> dok s u (dend_now (DRet r)) Q.
Proof. intros H. apply dok_now; [discriminate|]. intros a [= ->]. auto. Qed.

Lemma dok_then A B s u (m : de A) (f : derr + A -> de B) Q R : dok s u m Q ->
  (forall a v, Q a v -> dok s v (f (inr a)) R) -> (forall e d, exists e' : derr, f (inl e) d = Done (DRet (inl e'), d)) -> dok s u (dthen m f) R.
Proof.
  intros Hm Hf He d e. unfold dthen. apply uses_cbind. eapply uses_weaken; [|apply Hm].
  intros [x d'] u' [H1 H2]. cbn [fst snd] in *. destruct x as [[er|a]|k| |]; cbn [uses].
  - destruct (He er d') as (e' & ->). cbn. split; [exact H1|exact I].
  - destruct H2 as (v & -> & H2). eapply uses_weaken; [|apply (Hf a v H2)].
    intros [y d2] u2 [G1 G2]. split; [cbn in *; lia|exact G2].
  - contradiction.
  - split; [exact H1|exact I].
  - split; [exact H1|exact I].
Qed.

Lemma dok_bind A B s u (m : de A) (f : A -> de B) Q R : dok s u m Q -> (forall a v, Q a v -> dok s v (f a) R) -> dok s u (dbind m f) R.
Proof. intros Hm Hf. unfold dbind. eapply dok_then; [exact Hm|exact Hf|]. intros e d. exists e. reflexivity. Qed.

(** Calls which have a known effect *)
Definition simple_effect (c : rcall) : bool := match c with CRead _ | CConsumeTrailingWhitespace => false | _ => true end.
Lemma dok_call s u c w : allowed s u c = true -> simple_effect c = true -> usage_after c (OOk RUnit) u = Some w ->
  dok s u (duse c) (fun v w' => fits c (OOk v) /\ w' = w).
Proof.
  intros Ha Hc E d e. cbn [duse uses]. split; [exact Ha|]. intros o (H1 & H2 & _).
  destruct o as [v|er|er|k| | |]; cbn [uses]; unfold dpost; cbn [fst snd]; (split; [lia|]); auto.
  - exists w. split; [|split; [exact H1|reflexivity]]. destruct c; try exact E; discriminate.
  - cbn in H1. destruct H1 as (n & ->). discriminate.
  - exact (H2 k eq_refl).
Qed.

Lemma dok_unit s u c w : allowed s u c = true -> simple_effect c = true -> usage_after c (OOk RUnit) u = Some w ->
  dok s u (use_unit c) (fun _ w' => w' = w).
Proof. intros H1 H2 H3. unfold use_unit. eapply dok_bind; [apply (dok_call s u c w); auto|]. intros v w' [_ ->]. apply dok_ret. reflexivity. Qed.
Lemma dok_bool s u c w : allowed s u c = true -> c = CHasNext \/ c = CNextBool -> usage_after c (OOk RUnit) u = Some w ->
  dok s u (use_bool c) (fun _ w' => w' = w).
Proof.
  intros H1 H2 H3. unfold use_bool. eapply dok_bind; [apply (dok_call s u c w); auto; destruct H2 as [-> | ->]; reflexivity|].
  intros v w' [Hv ->]. assert (exists b, v = RBool b) as (b & ->) by (destruct H2 as [-> | ->]; exact Hv). apply dok_ret. reflexivity.
Qed.
Lemma dok_str s u c w : allowed s u c = true -> c = CNextName \/ c = CNextStr \/ c = CNextString -> usage_after c (OOk RUnit) u = Some w ->
  dok s u (use_str c) (fun _ w' => w' = w).
Proof.
  intros H1 H2 H3. unfold use_str. eapply dok_bind; [apply (dok_call s u c w); auto; destruct H2 as [-> |[-> | ->]]; reflexivity|].
  intros v w' [Hv ->]. assert (exists b, v = RStr b) as (b & ->) by (destruct H2 as [-> |[-> | ->]]; exact Hv). apply dok_ret. reflexivity.
Qed.
Lemma dok_number s u w : allowed s u CNextNumberStr = true -> usage_after CNextNumberStr (OOk RUnit) u = Some w ->
  dok s u (use_str CNextNumberStr) (fun t w' => number_text t /\ w' = w).
Proof.
  intros H1 H3. unfold use_str. eapply dok_bind; [apply (dok_call s u CNextNumberStr w); auto|].
  intros v w' [(t & -> & Ht) ->]. apply dok_ret. auto.
Qed.
Lemma dok_peek s u : allowed s u CPeek = true -> dok s u use_peek (fun _ w' => w' = u).
Proof.
  intros H1. unfold use_peek. eapply dok_bind; [apply (dok_call s u CPeek u); auto|]. intros v w' [(t & ->) ->]. apply dok_ret. reflexivity.
Qed.

Lemma dok_nesting A s u limit (m : de A) Q : dok s u m Q -> dok s u (check_nesting limit m) Q.
Proof.
  intros H d e. unfold check_nesting. destruct (limit <=? d); [cbn; split; [cbn; lia|exact I]|].
  apply uses_cbind. eapply uses_weaken; [|apply (H (d + 1))]. intros [x d'] u' [H1 H2]. cbn [fst snd] in *.
  destruct x as [[er|a]|k| |]; cbn [uses]; unfold dpost; cbn [fst snd]; try (split; [lia|auto]); auto.
  destruct (d' =? 0) eqn:Ez; [apply N.eqb_eq in Ez; lia|]. cbn [uses fst snd]. split; [lia|exact H2].
Qed.

Lemma dok_array V s o b limit expected (body : de (V * N)) : value_allowed s (vu o b) = true ->
  dok s (vu (SArray :: o) b) body (fun _ v => v = vu (SArray :: o) b) ->
  dok s (vu o b) (de_array limit expected body) (fun _ v => v = fin o b).
Proof.
  intros Ha Hb. unfold de_array. apply dok_nesting. eapply dok_bind; [apply dok_unit; [exact Ha|reflexivity|reflexivity]|].
  intros _ v ->. eapply dok_bind; [exact Hb|]. intros al v ->.
  eapply (dok_bind _ _ _ _ _ _ (fun _ v => v = vu (SArray :: o) b)).
  - destruct expected as [n|]; [destruct (_ <? _)|]; [apply dok_result; discriminate|apply dok_ret; reflexivity|apply dok_ret; reflexivity].
  - intros _ v ->. eapply dok_bind; [apply dok_unit; [reflexivity|reflexivity|reflexivity]|]. intros _ v ->. apply dok_ret. reflexivity.
Qed.
Lemma dok_object V s o b limit (body : de (V * bool)) : value_allowed s (vu o b) = true ->
  dok s (nu o b) body (fun ab v => v = nu o b /\ snd ab = false) ->
  dok s (vu o b) (de_object limit body) (fun _ v => v = fin o b).
Proof.
  intros Ha Hb. unfold de_object. apply dok_nesting. eapply dok_bind; [apply dok_unit; [exact Ha|reflexivity|reflexivity]|].
  intros _ v ->. eapply dok_bind; [exact Hb|]. intros ab v [-> ->].
  eapply dok_bind; [apply (dok_ret _ _ _ _ (fun _ v => v = nu o b)); reflexivity|].
  intros _ v ->. eapply dok_bind; [apply dok_unit; [reflexivity|reflexivity|reflexivity]|]. intros _ v ->. apply dok_ret. reflexivity.
Qed.

(** *** Names *)

Definition no_panic {V : Type} (x : dend V) : Prop := forall k, x <> DPanic k.

Lemma text_no_panic V S (C : code V S) n : (forall s seed, no_panic (str_seed C n s seed)) /\ (forall s vis, no_panic (str_enum C n s vis)).
Proof.
  induction n as [|n [IH1 IH2]]; split; intros s st kk; try discriminate; cbn [str_seed str_enum].
  - destruct (deserialize C st) as [r|m vis after]; [discriminate|].
    destruct m; try discriminate. specialize (IH2 s vis kk). destruct (str_enum C n s vis); try discriminate; exact IH2.
  - destruct (visit_enum C st) as [r|seed k failed]; [discriminate|]. specialize (IH1 s seed kk).
    destruct (str_seed C n s seed) as [[e|v]|p| |]; try discriminate; exact IH1.
Qed.
Lemma key_no_panic V S (C : code V S) n : forall key seed, no_panic (key_seed C n key seed).
Proof.
  induction n as [|n IH]; intros key seed kk; try discriminate; cbn [key_seed].
  destruct (deserialize C seed) as [r|m vis after]; [discriminate|].
  destruct m; cbv zeta; try discriminate.
  - destruct (list_eq_dec _ _ _); [discriminate|]. destruct (list_eq_dec _ _ _); discriminate.
  - specialize (IH key (visit_some C vis) kk). destruct (key_seed C n key _); try discriminate; exact IH.
  - specialize (IH key (visit_newtype C vis) kk). destruct (key_seed C n key _); try discriminate; exact IH.
  - pose proof (proj2 (text_no_panic V S C n) key vis kk) as H. destruct (str_enum C n key vis); try discriminate; exact H.
Qed.

Lemma dok_visit_number V S s u (C : code V S) vis t : number_text t -> dok s u (visit_number C vis t) (fun _ v => v = u).
Proof.
  intros Ht. unfold visit_number. destruct (existsb _ t); [apply dok_result; auto|]. destruct t as [|c t].
  - destruct (DeRun.number_start_not_plus [] Ht) as (c & r & E & _). discriminate.
  - destruct (c =? _); destruct (parse_int _ _); try (apply dok_result; auto); destruct (parse_int _ _); apply dok_result; auto; discriminate.
Qed.

Lemma dok_flag V B s u (b : B) (r : derr + V) (Q : V * B -> usage -> Prop) : (forall a, r = inr a -> Q (a, b) u) -> dok s u (with_flag b r) Q.
Proof. intros H. unfold with_flag. apply dok_result. destruct r; [discriminate|]. intros a [= <-]. auto. Qed.

(** *** The deserializer *)

Lemma seq_error V S limit (C : code V S) n expected len st e : visit_seq C st = SqDone (inl e) ->
  forall d, run_seq C limit n expected len st d = Done (DRet (inl e), d).
Proof. intros H d. destruct n; cbn [run_seq]; rewrite H; reflexivity. Qed.
Lemma map_error V S limit (C : code V S) n b st e : visit_map C st = MpDone (inl e) ->
  forall d, run_map C limit n b st d = Done (DRet (inl e), d).
Proof. intros H d. destruct n; cbn [run_map]; rewrite H; reflexivity. Qed.


Lemma all_orderly V S s limit (C : code V S) seeds visitors elements members :
  SpecDe.returns_errors C -> orderly_states C seeds visitors elements members -> forall n,
  (forall seed o b, seeds seed -> value_allowed s (vu o b) = true -> dok s (vu o b) (run_seed C limit n seed) (fun _ v => v = fin o b)) /\
  (forall m vis o b, visitors vis -> value_allowed s (vu o b) = true -> dok s (vu o b) (run_method C limit n m vis) (fun _ v => v = fin o b)) /\
  (forall expected len st o b, elements st -> dok s (vu (SArray :: o) b) (run_seq C limit n expected len st) (fun _ v => v = vu (SArray :: o) b)) /\
  (forall x st o b, members x st ->
     dok s (if x : bool then vu (SObject :: o) b else nu o b) (run_map C limit n x st) (fun ab v => v = nu o b /\ snd ab = false)) /\
  (forall vis o b, visitors vis -> dok s (nu o b) (run_enum C limit n false vis) (fun ab v => v = nu o b /\ snd ab = false)) /\
  (forall vis o b, visitors vis -> value_allowed s (vu o b) = true ->
     dok s (vu o b) (run_enum C limit n true vis) (fun ab v => v = fin o b /\ snd ab = false)).
Proof.
  intros (R1 & R2 & R3 & R4 & R5 & R6) HO.
  assert (Hfuel : forall A u Q, dok s u (dend_now (@DFuel A)) Q) by (intros A u Q; apply dok_now; discriminate).
  assert (Hkey : forall st x, members x st ->
    match visit_map C st with
    | MpDone r => x = true -> exists e, r = inl e
    | MpKey seed k => x = false /\ members false (k (inr None)) /\ forall a, members true (k (inr (Some a)))
    | MpValue seed k => x = true /\ seeds seed /\ forall a, members false (k (inr a))
    end).
  { intros st [|] Hm.
    - pose proof (os_value _ _ _ _ _ HO st Hm) as H. destruct (visit_map C st); auto. contradiction.
    - pose proof (os_key _ _ _ _ _ HO st Hm) as H. destruct (visit_map C st); auto; [discriminate|contradiction]. }
  induction n as [|n (IHs & IHm & IHq & IHp & IHe & IHt)].
  - splits.
    + intros; apply Hfuel.
    + intros; apply Hfuel.
    + intros expected len st o b Hst. cbn. destruct (visit_seq C st); [apply dok_flag; auto|apply Hfuel].
    + intros x st o b Hst. cbn. specialize (Hkey st x Hst). destruct (visit_map C st) as [r|seed k|seed k].
      * apply dok_flag. intros a ->. destruct x; [|auto]. destruct (Hkey eq_refl). discriminate.
      * destruct Hkey as [-> _]. apply Hfuel.
      * destruct Hkey as [-> _]. apply Hfuel.
    + intros; apply Hfuel.
    + intros; apply Hfuel.
  - splits.
    + intros seed o b Hs Ha. cbn [run_seed]. pose proof (os_seed _ _ _ _ _ HO seed Hs) as H.
      destruct (deserialize C seed) as [r|m vis after] eqn:Ed.
      * destruct H as (e & ->). apply dok_result. discriminate.
      * eapply dok_then; [apply (IHm m vis o b H Ha)| |].
        -- intros a v ->. apply dok_result. auto.
        -- intros e d. rewrite (R1 _ _ _ _ e Ed). exists e. reflexivity.
    + intros m vis o b Hv Ha. cbn [run_method]. cbv zeta.
      destruct (os_visitor _ _ _ _ _ HO vis Hv) as (V1 & V2 & V3 & V4 & V5).
      assert (Harr : forall x, dok s (vu o b) (de_array limit x (run_seq C limit n x 0 vis)) (fun _ v => v = fin o b)).
      { intros x. apply dok_array; [exact Ha|]. apply IHq. exact V3. }
      assert (Hobj : dok s (vu o b) (de_object limit (run_map C limit n false vis)) (fun _ v => v = fin o b)).
      { apply dok_object; [exact Ha|]. apply (IHp false). exact V4. }
      assert (Hun : forall A x (f : unit -> dend A), dok s (vu o b) (dfail x) (fun (_ : A) v => v = fin o b)).
      { intros A x _. apply dok_result. discriminate. }
      assert (Hu : forall (x : visit), dok s (vu o b) (dbind (use_unit CNextNull) (fun _ => dend_now (DRet (visit_data C vis x)))) (fun _ v => v = fin o b)).
      { intros x. eapply dok_bind; [apply dok_unit; [exact Ha|reflexivity|reflexivity]|]. intros _ v ->. apply dok_result. auto. }
      assert (Hst : forall c (f : str -> visit), c = CNextStr \/ c = CNextString ->
        dok s (vu o b) (dbind (use_str c) (fun t => dend_now (DRet (visit_data C vis (f t))))) (fun _ v => v = fin o b)).
      { intros c f Hc. eapply dok_bind; [apply (dok_str s (vu o b) c (fin o b)); destruct Hc as [-> | ->]; auto|]. intros t v ->. apply dok_result. auto. }
      assert (Hbo : dok s (vu o b) (dbind (use_bool CNextBool) (fun x => dend_now (DRet (visit_data C vis (ViBool x))))) (fun _ v => v = fin o b)).
      { eapply dok_bind; [apply (dok_bool s (vu o b) CNextBool (fin o b)); auto|]. intros t v ->. apply dok_result. auto. }
      assert (Hpk : forall (f : value_type -> de V), (forall t, dok s (vu o b) (f t) (fun _ v => v = fin o b)) ->
        dok s (vu o b) (dbind use_peek f) (fun _ v => v = fin o b)).
      { intros f Hf. eapply dok_bind; [apply dok_peek; exact Ha|]. intros t v ->. apply Hf. }
      destruct m as [| |ty|ty| | | | | | | | | | |len|len| | | | |]; try apply Harr; try exact Hobj; try exact Hbo; try apply Hu; try (apply Hst; auto; fail);
        try (apply Hpk; intros []; try apply Harr; try exact Hobj; try exact Hbo; try apply Hu; try (apply Hst; auto; fail);
             try (apply dok_result; discriminate)).
      * eapply dok_bind; [apply (dok_number s (vu o b) (fin o b)); auto|]. intros t v [Ht ->]. apply dok_visit_number. exact Ht.
      * eapply dok_bind; [apply (dok_number s (vu o b) (fin o b)); auto|]. intros t v [Ht ->]. destruct (parse_int ty t); apply dok_result; auto; discriminate.
      * eapply dok_bind; [apply (dok_number s (vu o b) (fin o b)); auto|]. intros t v [Ht ->]. apply dok_result; auto.
      * apply IHs; assumption.
      * apply IHs; assumption.
      * apply IHs; assumption.
      * apply IHs; assumption.
      * apply IHs; assumption.
      * apply IHs; assumption.
      * apply dok_object; [exact Ha|]. apply IHe. exact Hv.
      * eapply dok_bind; [apply (IHt vis o b Hv Ha)|]. intros ab v [-> ->]. apply dok_ret. reflexivity.
      * eapply dok_bind; [apply (dok_unit s (vu o b) CSkipValue (fin o b)); auto|]. intros _ v ->. apply dok_result. auto.
    + intros expected len st o b Hst. cbn [run_seq]. pose proof (os_element _ _ _ _ _ HO st Hst) as H.
      destruct (visit_seq C st) as [r|seed k] eqn:Ev; [apply dok_flag; auto|]. destruct H as [Hseed Hk].
      eapply dok_then; [apply (dok_bool s _ CHasNext (vu (SArray :: o) b)); auto| |].
      * intros h v ->. destruct h; [|apply IHq; apply Hk]. cbv zeta.
        assert (Hel : forall len', dok s (vu (SArray :: o) b) (dthen (run_seed C limit n seed) (fun r => run_seq C limit n expected len' (k (as_option r))))
          (fun _ v => v = vu (SArray :: o) b)).
        { intros len'. eapply dok_then; [apply (IHs seed (SArray :: o) b Hseed (inner_allowed s SArray o b))| |].
          - intros a v ->. rewrite fin_array. apply IHq. cbn. apply Hk.
          - intros e d. exists e. apply seq_error. cbn. exact (R2 _ _ _ e Ev). }
        destruct expected as [m|]; [destruct (m <=? len)|]; try apply Hel.
        intros d e. rewrite (seq_error V S limit C n (Some m) len (k (inl (DeInvalidLength (len + 1) m))) _ (R2 _ _ _ _ Ev)). cbn. split; [cbn; lia|exact I].
      * intros e d. exists e. apply seq_error. exact (R2 _ _ _ e Ev).
    + intros x st o b Hst. cbn [run_map]. pose proof (Hkey st x Hst) as H.
      destruct (visit_map C st) as [r|seed k|seed k] eqn:Ev.
      * apply dok_flag. intros a ->. destruct x; [|auto]. destruct (H eq_refl). discriminate.
      * destruct H as (-> & Hn & Hs). eapply dok_then; [apply (dok_bool s _ CHasNext (nu o b)); auto| |].
        -- intros h v ->. destruct h; [|apply (IHp false); exact Hn].
           eapply (dok_then _ _ _ _ _ _ (fun _ v => v = vu (SObject :: o) b)).
           ++ eapply dok_bind; [apply (dok_str s _ CNextName (vu (SObject :: o) b)); auto|]. intros key v ->.
              apply dok_now; [apply key_no_panic|reflexivity].
           ++ intros a v ->. apply (IHp true). apply Hs.
           ++ intros e d. exists e. apply map_error. exact (R3 _ _ _ e Ev).
        -- intros e d. exists e. apply map_error. exact (R3 _ _ _ e Ev).
      * destruct H as (-> & Hs & Hn). cbn [negb]. eapply dok_then; [apply (IHs seed (SObject :: o) b Hs (inner_allowed s SObject o b))| |].
        -- intros a v ->. rewrite fin_object. apply (IHp false). apply Hn.
        -- intros e d. exists e. apply map_error. exact (R4 _ _ _ e Ev).
    + intros vis o b Hv. cbn [run_enum]. destruct (os_visitor _ _ _ _ _ HO vis Hv) as (_ & _ & _ & _ & V5).
      destruct (visit_enum C vis) as [r|seed k failed] eqn:Ev.
      * destruct V5 as (e & ->). apply dok_flag. discriminate.
      * destruct V5 as [Hs Hk]. eapply (dok_then _ _ _ _ _ _ (fun _ v => v = vu (SObject :: o) b)).
        -- eapply dok_bind; [apply (dok_str s _ CNextName (vu (SObject :: o) b)); auto|]. intros name v ->.
           apply dok_now; [apply text_no_panic|reflexivity].
        -- intros a v ->. specialize (Hk a). pose proof (R6 (k a)) as Ha6. destruct (with_variant C (k a)) as [r|after|seed' after|len vis' after|vis' after].
           ++ destruct Hk as (e & ->). apply dok_flag. discriminate.
           ++ eapply dok_then; [apply (dok_unit s _ CNextNull (nu o b)); auto| |].
              ** intros x v ->. apply dok_flag. auto.
              ** intros e d. unfold with_flag. rewrite Ha6. exists e. reflexivity.
           ++ eapply dok_then; [apply (IHs seed' (SObject :: o) b Hk (inner_allowed s SObject o b))| |].
              ** intros x v ->. apply dok_flag. auto.
              ** intros e d. unfold with_flag. rewrite Ha6. exists e. reflexivity.
           ++ eapply dok_then; [apply (IHm (MTuple len) vis' (SObject :: o) b Hk (inner_allowed s SObject o b))| |].
              ** intros x v ->. apply dok_flag. auto.
              ** intros e d. unfold with_flag. rewrite Ha6. exists e. reflexivity.
           ++ eapply dok_then; [apply (IHm MStruct vis' (SObject :: o) b Hk (inner_allowed s SObject o b))| |].
              ** intros x v ->. apply dok_flag. auto.
              ** intros e d. unfold with_flag. rewrite Ha6. exists e. reflexivity.
        -- intros e d. rewrite (R5 _ _ _ _ e Ev). exists e. reflexivity.
    + intros vis o b Hv Ha. cbn [run_enum]. destruct (os_visitor _ _ _ _ _ HO vis Hv) as (_ & _ & _ & _ & V5).
      destruct (visit_enum C vis) as [r|seed k failed] eqn:Ev.
      * destruct V5 as (e & ->). apply dok_flag. discriminate.
      * destruct V5 as [Hs Hk]. eapply dok_then; [apply (IHs seed o b Hs Ha)| |].
        -- intros a v ->. specialize (Hk a). pose proof (R6 (k a)) as Ha6.
           destruct (with_variant C (k a)) as [r|after|seed' after|len vis' after|vis' after]; cbn [unit_variant_only negb].
           ++ destruct Hk as (e & ->). apply dok_flag. discriminate.
           ++ apply dok_flag. auto.
           ++ rewrite Ha6. apply dok_flag. discriminate.
           ++ rewrite Ha6. apply dok_flag. discriminate.
           ++ rewrite Ha6. apply dok_flag. discriminate.
        -- intros e d. rewrite (R5 _ _ _ _ e Ev). exists e. reflexivity.
Qed.
