(** * Simple writer: errors are kept *)

From Verif Require Import Base Utf8Model WriterModel SimpleWriterModel SpecSimpleWriter.
From Verif Require SerModel SpecSer SerRun.

Ltac splits := repeat match goal with |- _ /\ _ => split end.

Lemma calls_done {A} (a : A) log b : calls (PDone a) log b -> log = [] /\ a = b.
Proof. intros H. inversion H. auto. Qed.
Lemma calls_bind {A B} (m : prog A) (f : A -> prog B) : forall log b, calls (pbind m f) log b ->
  exists log1 a log2, calls m log1 a /\ calls (f a) log2 b /\ log = log1 ++ log2.
Proof.
  induction m as [a|c k IH]; intros log b H.
  - exists [], a, log. splits; auto. constructor.
  - cbn in H. inversion H as [|? ? r log' ? H']; subst. destruct (IH _ _ _ H') as (l1 & a & l2 & H1 & H2 & ->).
    exists ((c, r) :: l1), a, l2. splits; auto. constructor. exact H1.
Qed.

(** With a stored error there are no calls; [P] says what is returned. *)
Definition quiet {A} (P : A -> Prop) (m : sw A) : Prop := forall e, exists a, m (Some e) = PDone (ERet a, Some e) /\ P a.
(** Without one: no call fails, or only the last one; if it does, the error is stored. *)
Definition clean (log : list (wcall * wresult)) : Prop := Forall (fun cr => ~ failed_use (fst cr) (snd cr)) log.
Definition fails_last (log : list (wcall * wresult)) : Prop :=
  exists before c r, log = before ++ [(c, r)] /\ failed_use c r /\ clean before.
Definition tidy {A} (P : A -> Prop) (m : sw A) : Prop := forall log x err, calls (m None) log (x, err) ->
  (err = None /\ clean log) \/
  (err <> None /\ (clean log \/ fails_last log) /\ exists a, x = ERet a /\ P a).

Lemma clean_app l1 l2 : clean l1 -> clean l2 -> clean (l1 ++ l2).
Proof. intros H1 H2. apply Forall_app. auto. Qed.
Lemma fails_last_app l1 l2 : clean l1 -> fails_last l2 -> fails_last (l1 ++ l2).
Proof. intros H1 (b & c & r & -> & Hr & Hb). exists (l1 ++ b), c, r. rewrite app_assoc. splits; auto. apply clean_app; auto. Qed.

Lemma quiet_ret {A} (P : A -> Prop) a : P a -> quiet P (swret a).
Proof. intros H e. exists a. auto. Qed.
Lemma tidy_ret {A} (P : A -> Prop) a : tidy P (swret a).
Proof. intros log x err H. apply calls_done in H as [-> E]. injection E as <- <-. left. split; [reflexivity|constructor]. Qed.

Lemma quiet_bind {A B} (P : A -> Prop) (Q : B -> Prop) m f : quiet P m -> (forall a, P a -> quiet Q (f a)) -> quiet Q (swbind m f).
Proof.
  intros Hm Hf e. destruct (Hm e) as (a & E & Ha). destruct (Hf a Ha e) as (b & E2 & Hb).
  exists b. split; [|exact Hb]. unfold swbind. rewrite E. exact E2.
Qed.
Lemma tidy_bind {A B} (P : A -> Prop) (Q : B -> Prop) m f : tidy P m -> (forall a, P a -> quiet Q (f a)) -> (forall a, tidy Q (f a)) ->
  tidy Q (swbind m f).
Proof.
  intros Hm Hq Hf log x err H. unfold swbind in H. apply calls_bind in H as (l1 & [y e1] & l2 & H1 & H2 & ->).
  destruct (Hm _ _ _ H1) as [(-> & Hl)|(He & Hl & a & -> & Ha)].
  - destruct y as [a| | |].
    + destruct (Hf _ _ _ _ H2) as [(-> & Hl2)|(He & Hl2 & Hx)].
      * left. split; [reflexivity|]. apply clean_app; auto.
      * right. splits; auto. destruct Hl2; [left; apply clean_app; auto|right; apply fails_last_app; auto].
    + apply calls_done in H2 as [-> E]. injection E as <- <-. left. rewrite app_nil_r. auto.
    + apply calls_done in H2 as [-> E]. injection E as <- <-. left. rewrite app_nil_r. auto.
    + apply calls_done in H2 as [-> E]. injection E as <- <-. left. rewrite app_nil_r. auto.
  - destruct e1 as [e|]; [|contradiction]. destruct (Hq a Ha e) as (b' & E & Hb').
    rewrite E in H2. apply calls_done in H2 as [-> E2]. injection E2 as <- <-. right. rewrite app_nil_r. splits; eauto 8.
Qed.

Definition strict {A} (P : A -> Prop) (m : sw A) : Prop := quiet P m /\ tidy P m.
Definition anything {A} (a : A) : Prop := True.
Definition is_err (e : wresulting) : Prop := e <> None.
Definition reports {A} (x : A * wresulting) : Prop := snd x <> None.

Lemma strict_ret {A} (P : A -> Prop) a : P a -> strict P (swret a).
Proof. intros H. split; [apply quiet_ret, H|apply tidy_ret]. Qed.
Lemma strict_bind {A B} (P : A -> Prop) (Q : B -> Prop) m f : strict P m -> (forall a, P a -> quiet Q (f a)) -> (forall a, tidy Q (f a)) ->
  strict Q (swbind m f).
Proof. intros [H1 H2] Hq Hf. split; [eapply quiet_bind; eauto|eapply tidy_bind; eauto]. Qed.
Lemma strict_bind2 {A B} (P : A -> Prop) (Q : B -> Prop) m f : strict P m -> (forall a, strict Q (f a)) -> strict Q (swbind m f).
Proof. intros H Hf. eapply strict_bind; [exact H|intros a _; apply Hf|intros a; apply Hf]. Qed.
Lemma strict_any {A} (P : A -> Prop) m : strict P m -> strict anything m.
Proof.
  intros [H1 H2]. split.
  - intros e. destruct (H1 e) as (a & E & _). exists a. split; [exact E|exact I].
  - intros log x err H. destruct (H2 _ _ _ H) as [Ha|(Ha & Hb & a & -> & _)]; [left; exact Ha|right]. splits; auto. exists a. split; [reflexivity|exact I].
Qed.

Lemma delegate_strict c : strict is_err (delegate c).
Proof.
  split.
  - intros e. eexists. split; [reflexivity|discriminate].
  - intros log x err H. cbn in H. inversion H as [|? ? r log' ? H']; subst.
    assert (Hleft : ~ failed_use c r -> forall x', calls (PDone (x' : wend wresulting, @None stored_error)) log' (x, err) ->
      err = None /\ Forall (fun cr => ~ failed_use (fst cr) (snd cr)) ((c, r) :: log')).
    { intros Hf x' Hx. apply calls_done in Hx as [-> E]. injection E as <- <-. split; [reflexivity|]. constructor; [exact Hf|constructor]. }
    assert (Hright : failed_use c r -> forall e' k, calls (PDone (ERet (Some e') : wend wresulting, Some k)) log' (x, err) ->
      err <> None /\ (clean ((c, r) :: log') \/ fails_last ((c, r) :: log')) /\ exists a, x = ERet a /\ is_err a).
    { intros Hf e' k Hx. apply calls_done in Hx as [-> E]. injection E as <- <-.
      splits; [discriminate|right; exists [], c, r; splits; [reflexivity|exact Hf|constructor]|eexists; split; [reflexivity|discriminate]]. }
    destruct r; cbn in H'; try (left; eapply Hleft; [cbn; tauto|exact H']).
    + destruct (number_method c) eqn:Ec.
      * right. eapply Hright; [|exact H']. destruct c; try discriminate; exact I.
      * left. eapply Hleft; [|exact H']. destruct c; try discriminate; intros [].
    + right. eapply Hright; [exact I|exact H'].
Qed.
Lemma delegate_write_strict bs : strict (fun x => exists e, x = inl e) (delegate_write bs).
Proof.
  split.
  - intros e. eexists. split; [reflexivity|eauto].
  - intros log x err H. cbn in H. inversion H as [|? ? r log' ? H']; subst.
    destruct r; cbn in H'; apply calls_done in H' as [-> E]; injection E as <- <-;
      try (left; split; [reflexivity|constructor; [cbn; tauto|constructor]]).
    right; (splits; [discriminate|right; eexists [], _, _; splits; [reflexivity|exact I|constructor]|eexists; split; [reflexivity|eauto]]).
Qed.
Lemma not_propagated_strict : strict is_err not_propagated.
Proof.
  split.
  - intros e. eexists. split; [reflexivity|discriminate].
  - intros log x err H. apply calls_done in H as [-> E]. injection E as <- <-. left. split; [reflexivity|constructor].
Qed.

(** The serializer *)
Definition ser_tidy (m : SerModel.ser unit) : Prop := forall log x, calls m log x ->
  clean log \/ (fails_last log /\ exists e, x = ERet (SerModel.SrErr e)).

Lemma ser_tidy_done x : ser_tidy (PDone x).
Proof. intros log y H. apply calls_done in H as [-> _]. left. constructor. Qed.
Lemma ser_tidy_wuse c : ser_tidy (SerModel.wuse c).
Proof.
  intros log x H. cbn in H. inversion H as [|? ? r log' ? H']; subst.
  assert (Hl : forall y, calls (PDone y) log' x -> ~ failed_use c r -> clean ((c, r) :: log')).
  { intros y Hy Hr. apply calls_done in Hy as [-> _]. constructor; [exact Hr|constructor]. }
  assert (Hr : forall e, calls (SerModel.sfail e) log' x -> failed_use c r -> fails_last ((c, r) :: log') /\ exists e, x = ERet (SerModel.SrErr e)).
  { intros e Hy Hr. apply calls_done in Hy as [-> <-]. split; [exists [], c, r; splits; [reflexivity|exact Hr|constructor]|eauto]. }
  destruct r; cbn in H'; try (left; eapply Hl; [exact H'|cbn; tauto]).
  - destruct (number_method c) eqn:Ec.
    + right. eapply Hr; [exact H'|]. destruct c; try discriminate; exact I.
    + left. eapply Hl; [exact H'|]. destruct c; try discriminate; intros [].
  - right. eapply Hr; [exact H'|exact I].
Qed.
Lemma ser_tidy_then (m : SerModel.ser unit) f : ser_tidy m -> ser_tidy (f (SerModel.SrOk tt)) ->
  (forall e, exists e', f (SerModel.SrErr e) = SerModel.sfail e') -> ser_tidy (SerModel.sthen m f).
Proof.
  intros Hm Hf He log x H. unfold SerModel.sthen in H. apply calls_bind in H as (l1 & y & l2 & H1 & H2 & ->).
  destruct (Hm _ _ H1) as [Hl|(Hl & e & ->)].
  - destruct y as [[[]|e]| | |].
    + destruct (Hf _ _ H2) as [Hl2|(Hl2 & Hx)]; [left; apply clean_app; auto|right]. split; [apply fails_last_app; auto|exact Hx].
    + destruct (He e) as (e' & E). rewrite E in H2. apply calls_done in H2 as [-> _]. left. rewrite app_nil_r. exact Hl.
    + apply calls_done in H2 as [-> _]. left. rewrite app_nil_r. exact Hl.
    + apply calls_done in H2 as [-> _]. left. rewrite app_nil_r. exact Hl.
    + apply calls_done in H2 as [-> _]. left. rewrite app_nil_r. exact Hl.
  - destruct (He e) as (e' & E). rewrite E in H2. apply calls_done in H2 as [-> <-]. rewrite app_nil_r. right. eauto.
Qed.
Lemma ser_tidy_bind (m : SerModel.ser unit) f : ser_tidy m -> ser_tidy (f tt) -> ser_tidy (SerModel.sbind m f).
Proof. intros Hm Hf. apply ser_tidy_then; [exact Hm|exact Hf|]. intros e. exists e. reflexivity. Qed.
Lemma ser_tidy_own m f : ser_tidy m -> ser_tidy (SerModel.sthen m (SerModel.then_own_error f)).
Proof.
  intros Hm. apply ser_tidy_then; [exact Hm| |].
  - unfold SerModel.then_own_error. destruct (f _); apply ser_tidy_done.
  - intros e. unfold SerModel.then_own_error. destruct (f _); eexists; reflexivity.
Qed.
Lemma ser_tidy_key v : ser_tidy (SerModel.ser_key v).
Proof.
  induction v; cbn [SerModel.ser_key]; try apply ser_tidy_wuse; try apply ser_tidy_done; auto.
  - destruct (negb _); [apply ser_tidy_done|apply ser_tidy_wuse].
  - destruct v; [|apply ser_tidy_done]. destruct (negb _); [apply ser_tidy_done|apply ser_tidy_wuse].
  - apply ser_tidy_own. exact IHv.
Qed.
Lemma ser_tidy_check expected len : ser_tidy (SerModel.check_count expected len).
Proof. unfold SerModel.check_count. destruct expected as [n|]; [destruct (_ <? _)|]; apply ser_tidy_done. Qed.

Lemma ser_tidy_bytes bs : ser_tidy (SerModel.ser_bytes bs).
Proof. induction bs as [|b bs IH]; [apply ser_tidy_done|]. apply ser_tidy_bind; [apply ser_tidy_wuse|exact IH]. Qed.

Lemma ser_tidy_all :
  (forall v, SpecSer.careful v -> ser_tidy (SerModel.ser_value v)) /\
  (forall b, SpecSer.careful_elems b -> forall expected len close, ser_tidy close -> ser_tidy (SerModel.ser_elems expected len close b)) /\
  (forall b, SpecSer.careful_entries b -> forall expected len x, ser_tidy (SerModel.ser_entries expected len x b)) /\
  (forall b, SpecSer.careful_fields b -> forall expected len close, ser_tidy close -> ser_tidy (SerModel.ser_fields expected len close b)).
Proof.
  apply SerRun.sval_all_ind; intros;
    cbn [SerModel.ser_value SerModel.ser_elems SerModel.ser_entries SerModel.ser_fields
      SpecSer.careful SpecSer.careful_elems SpecSer.careful_entries SpecSer.careful_fields] in *;
    repeat first [apply ser_tidy_wuse | apply ser_tidy_done | apply ser_tidy_check | apply ser_tidy_bytes | apply ser_tidy_own | apply ser_tidy_bind];
    auto.
  1-4: match goal with H : SpecSer.careful_elems _ -> _ |- _ => apply H; auto end;
    repeat first [apply ser_tidy_wuse | apply ser_tidy_bind].
  1-2: match goal with H : SpecSer.careful_fields _ -> _ |- _ => apply H; auto end;
    repeat first [apply ser_tidy_wuse | apply ser_tidy_bind].
  - destruct H1 as (Hv & Hk & Ha). destruct (SerModel.count_element expected len) as [len'|e].
    + apply ser_tidy_then; [auto|apply H0; auto|]. intros e. destruct (Ha e) as (e' & E). exists e'. cbn [SerModel.seen]. rewrite E. reflexivity.
    + destruct (Ha e) as (e' & ->). apply ser_tidy_done.
  - destruct x; [apply ser_tidy_done|]. apply ser_tidy_bind; [apply ser_tidy_check|apply ser_tidy_wuse].
  - destruct x; [apply ser_tidy_done|]. destruct H1 as (Hv & Hk & Ha). destruct (SerModel.count_element expected len) as [len'|e].
    + apply ser_tidy_then; [apply ser_tidy_key|apply H0; auto|]. intros e. destruct (Ha e) as (e' & E). exists e'. cbn [SerModel.seen]. rewrite E. reflexivity.
    + destruct (Ha e) as (e' & ->). apply ser_tidy_done.
  - destruct (negb x); [apply ser_tidy_done|]. destruct H1 as (Hv & Hk & Ha).
    apply ser_tidy_then; [auto|apply H0; auto|]. intros e. destruct (Ha e) as (e' & E). exists e'. cbn [SerModel.seen]. rewrite E. reflexivity.
  - destruct H1 as (Hv & Hk & Ha). destruct (SerModel.count_element (Some expected) len) as [len'|e].
    + apply ser_tidy_then; [apply ser_tidy_bind; [apply ser_tidy_wuse|auto]|apply H0; auto|].
      intros e. destruct (Ha e) as (e' & E). exists e'. cbn [SerModel.seen]. rewrite E. reflexivity.
    + destruct (Ha e) as (e' & ->). apply ser_tidy_done.
Qed.

Lemma delegate_serialize_quiet v : quiet is_err (delegate_serialize v).
Proof. intros e. eexists. split; [reflexivity|discriminate]. Qed.
Lemma delegate_serialize_tidy v : SpecSer.careful v -> tidy is_err (delegate_serialize v).
Proof.
  intros Hc log x err H. cbn in H. apply calls_bind in H as (l1 & y & l2 & H1 & H2 & ->).
  destruct (proj1 ser_tidy_all v Hc _ _ H1) as [Hl|(Hl & e & ->)].
  - destruct y as [[[]|e]| | |]; apply calls_done in H2 as [-> E]; injection E as <- <-; rewrite app_nil_r; auto.
    right. splits; [discriminate|auto|eexists; split; [reflexivity|discriminate]].
  - apply calls_done in H2 as [-> E]; injection E as <- <-; rewrite app_nil_r.
    right. splits; [discriminate|auto|eexists; split; [reflexivity|discriminate]].
Qed.

Lemma run_sbody_strict {R} (b : sbody R) : strict anything (run_sbody b).
Proof.
  induction b as [r e|bs k IH|s k IH|k IH]; cbn [run_sbody].
  - apply strict_ret. exact I.
  - eapply strict_bind2; [apply delegate_write_strict|exact IH].
  - eapply strict_bind2; [apply delegate_strict|exact IH].
  - eapply strict_bind2; [apply delegate_strict|exact IH].
Qed.

Lemma write_simple_strict {R} c : strict reports (@write_simple R c).
Proof.
  eapply strict_bind; [apply delegate_strict|intros a Ha; apply quiet_ret; exact Ha|intros a; apply tidy_ret].
Qed.

Lemma write_container_strict {R} c c' (m : sw (R * wresulting)) : strict anything m -> strict reports (write_container c c' m).
Proof.
  intros Hm. unfold write_container. eapply strict_bind; [apply delegate_strict| |].
  - intros [e|] Ha; [|contradiction Ha; reflexivity]. apply quiet_ret. discriminate.
  - intros [e|]; [apply tidy_ret|]. eapply strict_bind2; [exact Hm|]. intros [r [e|]]; cbn [fst snd].
    + apply strict_ret. discriminate.
    + eapply strict_bind; [apply delegate_strict|intros a Ha; apply quiet_ret; exact Ha|intros a; apply tidy_ret].
Qed.

Lemma write_string_with_strict {R} (f : sbody R) : strict reports (write_string_with f).
Proof.
  unfold write_string_with. eapply strict_bind; [apply delegate_strict| |].
  - intros [e|] Ha; [|contradiction Ha; reflexivity]. apply quiet_ret. discriminate.
  - intros [e|]; [apply tidy_ret|]. eapply strict_bind2; [apply run_sbody_strict|]. intros [r [e|]]; cbn [fst snd].
    + apply strict_ret. discriminate.
    + eapply strict_bind; [apply not_propagated_strict| |].
      * intros [e|] Ha; [|contradiction Ha; reflexivity]. apply quiet_ret. discriminate.
      * intros [e|]; [apply tidy_ret|].
        eapply strict_bind; [apply delegate_strict|intros a Ha; apply quiet_ret; exact Ha|intros a; apply tidy_ret].
Qed.

Scheme wop_rec2 := Induction for wop Sort Prop
  with abody_rec2 := Induction for abody Sort Prop
  with obody_rec2 := Induction for obody Sort Prop
  with member_rec2 := Induction for member Sort Prop
  with mbody_rec2 := Induction for mbody Sort Prop.
Combined Scheme wop_all_ind from wop_rec2, abody_rec2, obody_rec2, member_rec2, mbody_rec2.

(** [write_member] may return [Ok] although the closure ignores an error. *)
Lemma run_quiet R :
  (forall o : wop R, quiet reports (run_wop o)) /\ (forall b : abody R, quiet anything (run_abody b)) /\
  (forall b : obody R, quiet anything (run_obody b)) /\ (forall m : member R, quiet reports (run_member m)) /\
  (forall b : mbody R, quiet anything (run_mbody b)).
Proof.
  assert (Hc : forall c c' (m : sw (R * wresulting)), quiet reports (write_container c c' m)).
  { intros c c' m. eapply quiet_bind; [apply delegate_strict|]. intros [e|] Ha; [|contradiction Ha; reflexivity]. apply quiet_ret. discriminate. }
  apply wop_all_ind; intros; cbn [run_wop run_abody run_obody run_member run_mbody];
    try (apply write_simple_strict); try (apply quiet_ret; exact I); try apply Hc.
  - apply write_string_with_strict.
  - eapply quiet_bind; [apply delegate_serialize_quiet|]. intros e He. apply quiet_ret. exact He.
  - eapply quiet_bind; [apply H|]. intros [x e] _. apply H0.
  - eapply quiet_bind; [apply H|]. intros [x e] _. apply H0.
  - eapply quiet_bind; [apply delegate_strict|]. intros [e|] Ha; [|contradiction Ha; reflexivity]. apply quiet_ret. discriminate.
  - eapply quiet_bind; [apply delegate_strict|]. intros [e|] Ha; [|contradiction Ha; reflexivity]. apply quiet_ret. discriminate.
  - eapply quiet_bind; [apply H|]. intros [x e] _. apply quiet_ret. exact I.
Qed.

Lemma run_strict R :
  (forall o : wop R, careful_wop o -> strict reports (run_wop o)) /\ (forall b : abody R, careful_abody b -> strict anything (run_abody b)) /\
  (forall b : obody R, careful_obody b -> strict anything (run_obody b)) /\
  (forall m : member R, careful_member m -> strict anything (run_member m)) /\
  (forall b : mbody R, careful_mbody b -> strict anything (run_mbody b)).
Proof.
  apply wop_all_ind; intros; cbn [run_wop run_abody run_obody run_member run_mbody careful_wop careful_abody careful_obody careful_member careful_mbody] in *;
    try (apply write_simple_strict); try (apply strict_ret; exact I).
  - apply write_string_with_strict.
  - apply write_container_strict. auto.
  - apply write_container_strict. auto.
  - eapply strict_bind; [split; [apply delegate_serialize_quiet|apply delegate_serialize_tidy; assumption]|intros a Ha; apply quiet_ret; exact Ha|intros a; apply tidy_ret].
  - eapply strict_bind2; [apply H, H1|]. intros [x e]. apply H0, H1.
  - eapply strict_bind2; [apply H, H1|]. intros [x e]. apply H0, H1.
  - eapply strict_bind2; [apply delegate_strict|]. intros [e|]; [apply strict_ret; exact I|]. eapply strict_any, H, H0.
  - eapply strict_bind2; [apply delegate_strict|]. intros [e|]; [apply strict_ret; exact I|].
    eapply strict_bind2; [apply H, H0|]. intros [[r [e|]] w]; cbn [fst snd]; [apply strict_ret; exact I|].
    destruct w; cbn [negb]; [apply strict_ret; exact I|].
    eapply strict_bind2; [apply delegate_strict|]. intros e. apply strict_ret. exact I.
  - eapply strict_bind2; [apply H, H0|]. intros [x e]. apply strict_ret. exact I.
Qed.

(** If an error is stored, then [P]. *)
Definition kept {A} (P : A -> Prop) (m : sw A) : Prop := forall log x err, calls (m None) log (x, err) -> err <> None -> exists a, x = ERet a /\ P a.

Lemma tidy_kept {A} (P : A -> Prop) (m : sw A) : tidy P m -> kept P m.
Proof. intros H log x err Hc He. destruct (H _ _ _ Hc) as [(-> & _)|(_ & _ & Ha)]; [contradiction|exact Ha]. Qed.
Lemma kept_bind {A B} (P : A -> Prop) (Q : B -> Prop) m f : kept P m -> (forall a, P a -> quiet Q (f a)) -> (forall a, kept Q (f a)) ->
  kept Q (swbind m f).
Proof.
  intros Hm Hq Hf log x err H He. unfold swbind in H. apply calls_bind in H as (l1 & [y e1] & l2 & H1 & H2 & ->).
  destruct e1 as [e|].
  - destruct (Hm _ _ _ H1) as (a & -> & Ha); [discriminate|]. destruct (Hq a Ha e) as (b & E & Hb).
    rewrite E in H2. apply calls_done in H2 as [-> E2]. injection E2 as <- <-. eauto.
  - destruct y as [a| | |]; [eapply Hf; eauto|..]; apply calls_done in H2 as [-> E2]; injection E2 as <- <-; contradiction.
Qed.
Lemma kept_ret {A} (P : A -> Prop) a : kept P (swret a).
Proof. apply tidy_kept, tidy_ret. Qed.
Lemma kept_any {A} (P : A -> Prop) m : kept P m -> kept anything m.
Proof. intros H log x err Hc He. destruct (H _ _ _ Hc He) as (a & -> & _). exists a. split; [reflexivity|exact I]. Qed.
Lemma quiet_any {A} (P : A -> Prop) m : quiet P m -> quiet anything m.
Proof. intros H e. destruct (H e) as (a & E & _). exists a. split; [exact E|exact I]. Qed.
Lemma delegate_kept c : kept is_err (delegate c).
Proof. apply tidy_kept, delegate_strict. Qed.
Lemma delegate_serialize_kept v : kept is_err (delegate_serialize v).
Proof.
  intros log x err H He. cbn in H. apply calls_bind in H as (l1 & y & l2 & H1 & H2 & ->).
  destruct y as [[[]|e]| | |]; apply calls_done in H2 as [-> E]; injection E as <- <-; try contradiction.
  eexists. split; [reflexivity|discriminate].
Qed.

Lemma run_kept R :
  (forall o : wop R, kept reports (run_wop o)) /\ (forall b : abody R, kept anything (run_abody b)) /\
  (forall b : obody R, kept anything (run_obody b)) /\ (forall m : member R, kept anything (run_member m)) /\
  (forall b : mbody R, kept anything (run_mbody b)).
Proof.
  assert (Hc : forall c c' (m : sw (R * wresulting)), quiet anything m -> kept anything m -> kept reports (write_container c c' m)).
  { intros c c' m Hq Hm. eapply kept_bind; [apply delegate_kept| |].
    - intros [e|] Ha; [|contradiction Ha; reflexivity]. apply quiet_ret. discriminate.
    - intros [e|]; [apply kept_ret|]. eapply kept_bind; [exact Hm| |].
      + intros [r [e|]] _; cbn [fst snd]; [apply quiet_ret; discriminate|].
        eapply quiet_bind; [apply delegate_strict|]. intros a Ha. apply quiet_ret. exact Ha.
      + intros [r [e|]]; cbn [fst snd]; [apply kept_ret|].
        eapply kept_bind; [apply delegate_kept|intros a Ha; apply quiet_ret; exact Ha|intros a; apply kept_ret]. }
  apply wop_all_ind; intros; cbn [run_wop run_abody run_obody run_member run_mbody];
    try (apply tidy_kept, write_simple_strict); try apply kept_ret.
  - apply tidy_kept, write_string_with_strict.
  - apply Hc; [apply run_quiet|assumption].
  - apply Hc; [apply run_quiet|assumption].
  - eapply kept_bind; [apply delegate_serialize_kept|intros a Ha; apply quiet_ret; exact Ha|intros a; apply kept_ret].
  - eapply kept_bind; [apply H|intros [x e] _; apply run_quiet|intros [x e]; apply H0].
  - eapply kept_bind; [apply H|intros [x e] _; apply run_quiet|intros [x e]; apply H0].
  - eapply kept_bind; [apply delegate_kept| |].
    + intros [e|] _; [apply quiet_ret; exact I|]. eapply quiet_any, run_quiet.
    + intros [e|]; [apply kept_ret|]. eapply kept_any, H.
  - eapply kept_bind; [apply delegate_kept| |].
    + intros [e|] _; [apply quiet_ret; exact I|]. eapply quiet_bind; [apply run_quiet|]. intros [[r [e|]] w] _; cbn [fst snd]; [apply quiet_ret; exact I|].
      destruct w; cbn [negb]; [apply quiet_ret; exact I|]. eapply quiet_bind; [apply delegate_strict|]. intros e _. apply quiet_ret. exact I.
    + intros [e|]; [apply kept_ret|]. eapply kept_bind; [apply H| |].
      * intros [[r [e|]] w] _; cbn [fst snd]; [apply quiet_ret; exact I|].
        destruct w; cbn [negb]; [apply quiet_ret; exact I|]. eapply quiet_bind; [apply delegate_strict|]. intros e _. apply quiet_ret. exact I.
      * intros [[r [e|]] w]; cbn [fst snd]; [apply kept_ret|]. destruct w; cbn [negb]; [apply kept_ret|].
        eapply kept_bind; [apply delegate_kept|intros a _; apply quiet_ret; exact I|intros a; apply kept_ret].
  - eapply kept_bind; [apply H|intros [x e] _; apply quiet_ret; exact I|intros [x e]; apply kept_ret].
Qed.

Definition run_wop_strict {R} (o : wop R) := proj1 (run_strict R) o.
Definition run_wop_quiet {R} (o : wop R) := proj1 (run_quiet R) o.
Definition run_member_quiet {R} (m : member R) := proj1 (proj2 (proj2 (proj2 (run_quiet R)))) m.

(** ** The outermost method *)

Lemma uses_then_finish {R} (m : prog (wend (option R * wresulting) * option stored_error)) : forall log x, uses (then_finish m) log x ->
  exists log1 y err, calls m log1 (y, err) /\
    ((log = map (fun cr => (UCall (fst cr), snd cr)) log1 /\ uses (then_finish (PDone (y, err))) [] x) \/
     (exists r z, log = map (fun cr => (UCall (fst cr), snd cr)) log1 ++ [(UFinish, r)] /\ y = ERet (z, None) /\ err = None /\
        uses (then_finish (PDone (y, err))) [(UFinish, r)] x)).
Proof.
  induction m as [[y err]|c k IH]; intros log x H.
  - exists [], y, err. split; [constructor|]. pose proof H as H0.
    destruct y as [[z [e|]]| | |]; cbn in H; try (inversion H; subst; left; split; [reflexivity|exact H0]).
    destruct err as [e|]; cbn in H; inversion H; subst; [left; split; [reflexivity|exact H0]|].
    right. eexists _, z. splits; [reflexivity..|exact H0].
  - cbn [then_finish] in H. inversion H as [|? ? r log' ? H'|]; subst. destruct (IH _ _ _ H') as (l1 & y & err & Hc & Hd).
    exists ((c, r) :: l1), y, err. split; [constructor; exact Hc|]. destruct Hd as [(-> & Hd)|(r' & z & -> & Hd)].
    + left. split; [reflexivity|exact Hd].
    + right. exists r', z. split; [reflexivity|exact Hd].
Qed.

Lemma split_failed {A} (P : A -> Prop) (before : list A) : forall z (after b0 : list A) z0,
  before ++ z :: after = b0 ++ [z0] -> P z -> Forall (fun y => ~ P y) b0 -> after = [].
Proof.
  induction before as [|y before IH]; intros z after b0 z0 E Hz Hb.
  - destruct b0 as [|y0 b0]; cbn in E; injection E; [auto|]. intros _ ->. inversion Hb. contradiction.
  - destruct b0 as [|y0 b0]; cbn in E; injection E.
    + intros E2 _. destruct before; discriminate E2.
    + intros E2 ->. inversion Hb; subst. eapply IH; eauto.
Qed.

Lemma tidy_failed {A} (P : A -> Prop) (m : sw A) before c r after x err : tidy P m -> calls (m None) (before ++ (c, r) :: after) (x, err) ->
  failed_use c r -> after = [] /\ err <> None /\ exists a, x = ERet a /\ P a.
Proof.
  intros Hm H Hf. assert (Hn : ~ clean (before ++ (c, r) :: after)).
  { intros Hl. unfold clean in Hl. rewrite Forall_app in Hl. destruct Hl as [_ Hl]. inversion Hl; subst. contradiction. }
  destruct (Hm _ _ _ H) as [(_ & Hl)|(He & [Hl|(b & c0 & r0 & E & _ & Hb)] & Ha)]; [contradiction..|].
  splits; auto. eapply (split_failed (fun cr => failed_use (fst cr) (snd cr))); [exact E|exact Hf|exact Hb].
Qed.

Lemma map_split {A B} (f : A -> B) l : forall before z after, map f l = before ++ z :: after ->
  exists b y a, l = b ++ y :: a /\ before = map f b /\ z = f y /\ after = map f a.
Proof.
  induction l as [|x l IH]; intros before z after E; [destruct before; discriminate E|].
  destruct before as [|y before]; cbn in E; injection E as E1 E2.
  - exists [], x, l. subst. auto.
  - destruct (IH _ _ _ E2) as (b & y' & a & -> & -> & -> & ->). exists (x :: b), y', a. subst. auto.
Qed.

Lemma simple_writer_sticky {R} (o : wop R) before c r after x : careful_wop o -> uses (simple_writer o) (before ++ (UCall c, r) :: after) x ->
  failed_use c r -> after = [] /\ wfails x.
Proof.
  intros Hca H Hf. destruct (uses_then_finish _ _ _ H) as (log1 & y & err & Hc & Hd).
  destruct (run_wop_strict o Hca) as [_ Ht].
  destruct Hd as [(E & Hd)|(r' & z & E & -> & -> & Hd)].
  - symmetry in E. apply map_split in E as (b & [c0 r0] & a & -> & -> & Ez & ->). injection Ez as <- <-.
    destruct (tidy_failed _ _ _ _ _ _ _ _ Ht Hc Hf) as (-> & He & [z e] & -> & Hz). split; [reflexivity|].
    unfold reports in Hz. cbn in Hz. destruct e as [e|]; [|contradiction]. cbn in Hd. inversion Hd; subst. exists z, e. reflexivity.
  - exfalso. destruct (Ht _ _ _ Hc) as [(_ & Hl)|(He & _)]; [unfold clean in Hl|contradiction].
    destruct (exists_last (l := (UCall c, r) :: after)) as (l' & w & Ew); [discriminate|].
    rewrite Ew, app_assoc in E. apply app_inj_tail in E as [E ->].
    destruct l' as [|w' l']; [destruct after; discriminate Ew|]. cbn in Ew. injection Ew as <- Ew.
    symmetry in E. apply map_split in E as (b & [c0 r0] & a & -> & -> & Ez & ->). injection Ez as <- <-.
    rewrite Forall_app in Hl. destruct Hl as [_ Hl]. inversion Hl; subst. contradiction.
Qed.

Lemma simple_writer_finish_fails {R} (o : wop R) before e after x : uses (simple_writer o) (before ++ (UFinish, RError e) :: after) x ->
  after = [] /\ wfails x.
Proof.
  intros H. destruct (uses_then_finish _ _ _ H) as (log1 & y & err & Hc & [(E & Hd)|(r' & z & E & -> & -> & Hd)]).
  - symmetry in E. apply map_split in E as (b & [c0 r0] & a & _ & _ & Ez & _). discriminate.
  - destruct after as [|w after].
    + apply app_inj_tail in E as [_ Er]. injection Er as <-. split; [reflexivity|]. cbn in Hd. inversion Hd; subst. exists z, (WeIo e). reflexivity.
    + exfalso. destruct (exists_last (l := w :: after)) as (l' & w' & Ew); [discriminate|]. rewrite Ew in E.
      replace (before ++ (UFinish, RError e) :: l' ++ [w']) with ((before ++ (UFinish, RError e) :: l') ++ [w']) in E
        by (rewrite <- app_assoc; reflexivity).
      apply app_inj_tail in E as [E _]. symmetry in E. apply map_split in E as (b & [c0 r0] & a & _ & _ & Ez & _). discriminate.
Qed.
