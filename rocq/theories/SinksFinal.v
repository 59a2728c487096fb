(** * Proofs of the property theorems about the underlying [Write], for programs *)

From Verif Require Import Base Utf8Model SpecJson WriterModel SpecWriter WriterProofs WriterMore WriterFinal WClientModel SimpleWriterModel
  SpecSimpleWriter SpecSinks.
From Verif Require SerModel SinkFail SimpleWriterFinal.


Lemma same_wclient A cfg (m : wclient A) : forall s1 s2, same_session s1 s2 -> fst (wclient_run cfg m s1) = fst (wclient_run cfg m s2).
Proof.
  induction m as [a|c k IH|k]; intros s1 s2 Hs; cbn [wclient_run].
  - reflexivity.
  - destruct (same_step cfg c s1 s2 Hs) as [H1 H2]. destruct (wstep cfg c s1) as [r t1], (wstep cfg c s2) as [r2 t2]. cbn [fst snd] in *. subst r2. exact (IH r t1 t2 H2).
  - destruct (same_finish s1 s2 Hs) as [H1 _]. destruct (wfinish s1) as [r o1], (wfinish s2) as [r2 o2]. cbn [fst] in *. subst r2. reflexivity.
Qed.

Lemma same_then_finish R cfg (m : prog (wend (option R * wresulting) * option stored_error)) : forall s1 s2 x, same_session s1 s2 ->
  fst (wclient_run cfg (then_finish m) s1) = ERet (x, None) ->
  received (snd (wclient_run cfg (then_finish m) s1)) = received (snd (wclient_run cfg (then_finish m) s2)).
Proof.
  induction m as [[y err]|c k IH]; intros s1 s2 x Hs H.
  - destruct y as [[y [e|]]|k| |]; cbn in H; try discriminate. destruct err as [e|]; [discriminate|]. cbn [then_finish wclient_run] in *.
    destruct (same_finish s1 s2 Hs) as [H1 H2]. destruct (wfinish s1) as [r o1], (wfinish s2) as [r2 o2]. cbn [fst snd] in *. subst r2.
    destruct r; try discriminate. exact (H2 eq_refl).
  - cbn [then_finish wclient_run] in *. destruct (same_step cfg c s1 s2 Hs) as [H1 H2].
    destruct (wstep cfg c s1) as [r t1], (wstep cfg c s2) as [r2 t2]. cbn [fst snd] in *. subst r2. exact (IH r t1 t2 x H2 H).
Qed.

Lemma same_ser A cfg (m : prog A) : forall s1 s2, same_session s1 s2 ->
  fst (SerModel.ser_run cfg m s1) = fst (SerModel.ser_run cfg m s2) /\ same_session (snd (SerModel.ser_run cfg m s1)) (snd (SerModel.ser_run cfg m s2)).
Proof.
  induction m as [a|c k IH]; intros s1 s2 Hs; cbn [SerModel.ser_run]; [split; [reflexivity|exact Hs]|].
  destruct (same_step cfg c s1 s2 Hs) as [H1 H2]. destruct (wstep cfg c s1) as [r t1], (wstep cfg c s2) as [r2 t2]. cbn [fst snd] in *. subst r2. exact (IH r t1 t2 H2).
Qed.

Lemma new_same out1 out2 : received out1 = [] -> reliable out1 -> received out2 = [] -> reliable out2 -> same_session (new_session out1) (new_session out2).
Proof. intros H1 G1 H2 G2. split; [|reflexivity]. unfold same, emitted. cbn. rewrite H1, H2. auto. Qed.

Lemma fails_or_same A O cfg (m : wclient A) : forall s1 s2, SinkFail.same_session O s1 s2 ->
  fst (wclient_run cfg m s1) = fst (wclient_run cfg m s2) \/
  exists log u e, uses m log (fst (wclient_run cfg m s1)) /\ happens cfg s1 log /\ In (u, RError e) log /\ error_of_the_sink O e.
Proof.
  assert (Hrun : forall (m : wclient A) s, exists log, uses m log (fst (wclient_run cfg m s)) /\ happens cfg s log).
  { clear. induction m as [a|c k IH|k]; intros s; cbn [wclient_run].
    - exists []. split; constructor.
    - destruct (wstep cfg c s) as [r s'] eqn:E. destruct (IH r s') as (log & H1 & H2). exists ((UCall c, r) :: log). split; [constructor; exact H1|econstructor; eauto].
    - destruct (wfinish s) as [r o] eqn:E. exists [(UFinish, r)]. split; [constructor|]. constructor. rewrite E. reflexivity. }
  induction m as [a|c k IH|k]; intros s1 s2 Hs; cbn [wclient_run].
  - left. reflexivity.
  - destruct (SinkFail.same_step O cfg c s1 s2 Hs) as [(e & H1 & H2)|[H1 H2]];
      destruct (wstep cfg c s1) as [r t1] eqn:E1, (wstep cfg c s2) as [r2 t2]; cbn [fst snd] in *.
    + subst r. right. destruct (Hrun (k (RError e)) t1) as (log & H3 & H4). exists ((UCall c, RError e) :: log), (UCall c), e.
      split; [constructor; exact H3|]. split; [econstructor; eauto|]. split; [left; reflexivity|exact H2].
    + subst r2. destruct (IH r t1 t2 H2) as [H3|(log & u & e & H3 & H4 & H5 & H6)]; [left; exact H3|right].
      exists ((UCall c, r) :: log), u, e. split; [constructor; exact H3|]. split; [econstructor; eauto|]. split; [right; exact H5|exact H6].
  - destruct (SinkFail.same_finish O s1 s2 Hs) as [(e & H1 & H2)|[H1 H2]];
      destruct (wfinish s1) as [r o1] eqn:E1, (wfinish s2) as [r2 o2]; cbn [fst snd] in *.
    + subst r. right. exists [(UFinish, RError e)], UFinish, e. split; [constructor|]. split; [constructor; rewrite E1; reflexivity|].
      split; [left; reflexivity|exact H2].
    + subst r2. left. reflexivity.
Qed.

Lemma fails_or_same_finish R O cfg (m : prog (wend (option R * wresulting) * option stored_error)) : forall s1 s2, SinkFail.same_session O s1 s2 ->
  (fst (wclient_run cfg (then_finish m) s1) = fst (wclient_run cfg (then_finish m) s2) /\
   forall x, fst (wclient_run cfg (then_finish m) s1) = ERet (x, None) ->
     received (snd (wclient_run cfg (then_finish m) s1)) = received (snd (wclient_run cfg (then_finish m) s2))) \/
  exists log u e, uses (then_finish m) log (fst (wclient_run cfg (then_finish m) s1)) /\ In (u, RError e) log.
Proof.
  assert (Hrun : forall (m : wclient (wend (option R * wresulting))) s, exists log, uses m log (fst (wclient_run cfg m s))).
  { clear. induction m as [a|c k IH|k]; intros s; cbn [wclient_run].
    - exists []. constructor.
    - destruct (wstep cfg c s) as [r s']. destruct (IH r s') as (log & H1). exists ((UCall c, r) :: log). constructor; exact H1.
    - destruct (wfinish s) as [r o]. exists [(UFinish, r)]. constructor. }
  induction m as [[y err]|c k IH]; intros s1 s2 Hs.
  - destruct y as [[y [e|]]|k| |]; try (left; split; [reflexivity|discriminate]). destruct err as [e|]; [left; split; [reflexivity|discriminate]|].
    cbn [then_finish wclient_run]. destruct (SinkFail.same_finish O s1 s2 Hs) as [(e & H1 & H2)|[H1 H2]];
      destruct (wfinish s1) as [r o1], (wfinish s2) as [r2 o2]; cbn [fst snd] in *.
    + subst r. right. exists [(UFinish, RError e)], UFinish, e. split; [|left; reflexivity].
      exact (Uses_finish (fun r => match r with RDone => ERet (y, None) | RCount _ | RInvalidNumber | RInexpressible => EInvalid
        | RError e0 => ERet (y, Some (WeIo e0)) | RPanic k => EPanic k | RNoFuel => EFuel end) (RError e)).
    + subst r2. left. split; [reflexivity|]. intros x Hx. destruct r; try discriminate. exact (H2 eq_refl).
  - cbn [then_finish wclient_run]. destruct (SinkFail.same_step O cfg c s1 s2 Hs) as [(e & H1 & H2)|[H1 H2]];
      destruct (wstep cfg c s1) as [r t1], (wstep cfg c s2) as [r2 t2]; cbn [fst snd] in *.
    + subst r. right. destruct (Hrun (then_finish (k (RError e))) t1) as (log & H3). exists ((UCall c, RError e) :: log), (UCall c), e.
      split; [exact (Uses_call c (fun r => then_finish (k r)) (RError e) log _ H3)|left; reflexivity].
    + subst r2. destruct (IH r t1 t2 H2) as [H3|(log & u & e & H3 & H4)]; [left; exact H3|right].
      exists ((UCall c, r) :: log), u, e. split; [exact (Uses_call c (fun r => then_finish (k r)) r log _ H3)|right; exact H4].
Qed.

Lemma fails_not_ok {A : Type} (x : option A) : ~ wfails (ERet (x, None)).
Proof. intros H. destruct H as (? & ? & H); discriminate || (cbn in H; try contradiction; try congruence). Qed.

Lemma C14_programs_are_independent_of_the_sink_holds : forall (A : Type) (cfg : wsettings) (out1 out2 : sink) (m : wclient A),
  received out1 = [] -> reliable out1 -> received out2 = [] -> reliable out2 ->
  fst (wclient_run cfg m (new_session out1)) = fst (wclient_run cfg m (new_session out2)).
Proof.
  intros A cfg out1 out2 m H1 G1 H2 G2. apply same_wclient, new_same; assumption.
Qed.

Lemma C14_programs_get_the_error_or_the_same_result_holds : forall (A : Type) (cfg : wsettings) (out1 out2 : sink) (m : wclient A),
  received out1 = [] -> received out2 = [] -> reliable out2 ->
  fst (wclient_run cfg m (new_session out1)) = fst (wclient_run cfg m (new_session out2)) \/
  exists log u e, uses m log (fst (wclient_run cfg m (new_session out1))) /\ happens cfg (new_session out1) log /\
    In (u, RError e) log /\ error_of_the_sink out1 e.
Proof.
  intros A cfg out1 out2 m H1 H2 G2. apply fails_or_same. split; [|reflexivity]. unfold SinkFail.same, emitted. cbn. rewrite H1, H2.
  split; [reflexivity|]. split; [reflexivity|]. split; [exact G2|]. split; apply incl_refl.
Qed.

Lemma C14_closures_are_independent_of_the_sink_holds : forall (R : Type) (cfg : wsettings) (out1 out2 : sink) (o : wop R),
  received out1 = [] -> reliable out1 -> received out2 = [] -> reliable out2 ->
  fst (simple_write cfg out1 o) = fst (simple_write cfg out2 o) /\
  forall x, fst (simple_write cfg out1 o) = ERet (x, None) -> received (snd (simple_write cfg out1 o)) = received (snd (simple_write cfg out2 o)).
Proof.
  intros R cfg out1 out2 o H1 G1 H2 G2. pose proof (new_same out1 out2 H1 G1 H2 G2) as Hs. split; [apply same_wclient; exact Hs|].
  intros x Hx. exact (same_then_finish R cfg _ _ _ x Hs Hx).
Qed.

Lemma C14_closures_succeed_only_without_sink_error_holds : forall (R : Type) (cfg : wsettings) (out1 out2 : sink) (o : wop R) (x : option R),
  received out1 = [] -> received out2 = [] -> reliable out2 -> careful_wop o ->
  fst (simple_write cfg out1 o) = ERet (x, None) ->
  fst (simple_write cfg out2 o) = ERet (x, None) /\ received (snd (simple_write cfg out1 o)) = received (snd (simple_write cfg out2 o)).
Proof.
  intros R cfg out1 out2 o x H1 H2 G2 Hc Hx. unfold simple_write, simple_writer in *.
  destruct (fails_or_same_finish R out1 cfg (run_wop o None) (new_session out1) (new_session out2)) as [[H3 H4]|(log & u & e & H3 & H4)].
  - split; [|reflexivity]. unfold SinkFail.same, emitted. cbn. rewrite H1, H2. split; [reflexivity|]. split; [reflexivity|]. split; [exact G2|]. split; apply incl_refl.
  - split; [rewrite <- H3; exact Hx|exact (H4 x Hx)].
  - exfalso. rewrite Hx in H3. destruct (in_split _ _ H4) as (l1 & l2 & ->). apply (fails_not_ok x). destruct u as [|c].
    + exact (proj2 (SimpleWriterFinal.C40_finish_error_is_reported_holds R o l1 l2 e _ H3)).
    + refine (proj2 (SimpleWriterFinal.C40_errors_are_sticky_holds R o l1 l2 c (RError e) _ Hc H3 _)). exact I.
Qed.

Lemma C14_serializing_is_independent_of_the_sink_holds : forall (cfg : wsettings) (out1 out2 out1' out2' : sink) (before after : list wcall) (v : SerModel.sval) (rs1 rs1' rs2 rs2' : list wresult)
    (x x' : wend (SerModel.sres unit)) (r r' : wresult),
  received out1 = [] -> reliable out1 -> received out2 = [] -> reliable out2 ->
  SerModel.serialize_between cfg out1 before v after = (rs1, x, rs2, r, out1') ->
  SerModel.serialize_between cfg out2 before v after = (rs1', x', rs2', r', out2') ->
  rs1 = rs1' /\ x = x' /\ rs2 = rs2' /\ r = r' /\ (r = RDone -> received out1' = received out2').
Proof.
  intros cfg out1 out2 out1' out2' before after v rs1 rs1' rs2 rs2' x x' r r' H1 G1 H2 G2 E1 E2.
  pose proof (new_same out1 out2 H1 G1 H2 G2) as Hs. unfold SerModel.serialize_between in *.
  destruct (same_run cfg before _ _ Hs) as [Ha Hs1]. destruct (wrun cfg before (new_session out1)) as [a1 s1], (wrun cfg before (new_session out2)) as [a2 s2].
  cbn [fst snd] in *. subst a2. destruct (same_ser _ cfg (SerModel.ser_value v) _ _ Hs1) as [Hb Hs2].
  destruct (SerModel.ser_run cfg (SerModel.ser_value v) s1) as [b1 t1], (SerModel.ser_run cfg (SerModel.ser_value v) s2) as [b2 t2]. cbn [fst snd] in *. subst b2.
  destruct (same_run cfg after _ _ Hs2) as [Hc Hs3]. destruct (wrun cfg after t1) as [c1 u1], (wrun cfg after t2) as [c2 u2]. cbn [fst snd] in *. subst c2.
  destruct (same_finish _ _ Hs3) as [Hd He]. destruct (wfinish u1) as [d1 w1], (wfinish u2) as [d2 w2]. cbn [fst snd] in *. subst d2.
  injection E1 as -> -> -> -> ->. injection E2 as <- <- <- <- <-. repeat (split; [reflexivity|]). exact He.
Qed.
