(** * Proofs of the property theorems about the serde deserializer *)

From Verif Require Import Base Utf8Model Utf8Proofs NumberModel SpecNumber NumberProofs SpecJson SourceModel SourceProofs ReaderModel ReaderGrammar
  ReaderSess SpecCursor ReaderRepr ReaderForward ReaderWalk SpecRead ReaderCursor GrammarFacts ReaderFits ReaderFinal2
  SimpleModel ClientErrors SimpleWp SimpleRun SimpleRun2 TransferModel TransferWriter TransferFinal DeModel SpecDe DeRun DeRun2 DeSafe DeLimit.
From Verif Require Import ReaderFinal3.
From Verif Require SpecSimple SimpleFinal.

Local Ltac splits := repeat match goal with |- _ /\ _ => split end.


Lemma wp_make_calls s cs : forall w, wp s (make_calls cs) w (fun os w' =>
  Forall2 (is_result s) (fst (walk_calls s cs w)) os /\ w' = snd (walk_calls s cs w)).
Proof.
  induction cs as [|c cs IH]; intros w; cbn [make_calls wp walk_calls fst snd]; [auto|].
  intros o Ho _. apply wp_cbind. destruct (walk_call s c w) as [x w1]. cbn [fst snd] in *.
  eapply wp_weaken; [|exact (IH w1)]. intros os w' [H ->]. cbn [wp].
  destruct (walk_calls s cs w1) as [xs w2]. cbn [fst snd] in *. auto.
Qed.

(** Calls after a value has been deserialized *)
Definition not_read (cs : list rcall) : Prop := match cs with CRead _ :: _ => False | _ => True end.

Lemma at_calls s c w cs : at_ c w -> not_read cs -> fst (walk_calls s cs w) = fst (walk_calls s cs (AtCursor c)).
Proof.
  intros Hat Hn. destruct cs as [|call cs]; [reflexivity|]. cbn [walk_calls].
  rewrite (at_call s call c w Hat) by (destruct call; tauto).
  rewrite (at_call s call c (AtCursor c) (at_refl c (proj1 Hat))) by (destruct call; tauto). reflexivity.
Qed.

Lemma dropped_reading s c v : at_value s (drop_reader c) = inr v -> reading (drop_reader c) = NotReading.
Proof.
  intros H. apply at_value_next in H as [_ H]. unfold is_reading in H. unfold drop_reader in *.
  destruct (reading c); cbn in *; congruence.
Qed.

Lemma dropped_at c : reading (drop_reader c) = NotReading -> at_ (drop_reader c) (AtCursor c).
Proof. intros H. split; [exact H|]. exists c. auto. Qed.

Definition no_handler : handler unit unit := fun _ _ => (Err tt, tt).

Lemma value_sound s vs evs before c v : document_input s vs evs ->
  snd (walk_calls s before (AtCursor (cursor_start vs))) = AtCursor c -> at_value s (drop_reader c) = inr v -> sound v.
Proof.
  intros Hd Hc Hv. destruct (transfer_glue no_handler s vs evs before c Hd Hc) as (s1 & rd & r & Hs & _).
  set (E := Env s (enough_fuel (fst (supplied evs)))) in *. set (inp := fst (supplied evs)) in *.
  assert (Hf : (length inp < fuel E)%nat) by (cbn; unfold enough_fuel; fold inp; lia).
  destruct (at_value_repr E inp c s1 rd r _ Hs Hv) as [(Hr & Hrd & Hat)|(Hx & _)]; [|discriminate].
  exact (repr_sound E inp _ _ _ s1 r v Hf Hr Hat).
Qed.

Lemma around_session A s vs evs before after (m : client A) c (P : A -> walk -> Prop) :
  document_input s vs evs -> snd (walk_calls s before (AtCursor (cursor_start vs))) = AtCursor c ->
  wp s m (AtCursor c) P ->
  exists os1 r os2 w, client_session s evs (around before m after) = Some (os1, r, os2) /\
    Forall2 (is_result s) (fst (walk_calls s before (AtCursor (cursor_start vs)))) os1 /\
    P r w /\ Forall2 (is_result s) (fst (walk_calls s after w)) os2.
Proof.
  intros Hd Hc Hm.
  destruct (wp_session _ s vs evs (around before m after) (fun x w' => Forall2 (is_result s) (fst (walk_calls s before (AtCursor (cursor_start vs)))) (fst (fst x)) /\
     exists w, P (snd (fst x)) w /\ Forall2 (is_result s) (fst (walk_calls s after w)) (snd x)) Hd) as (x & w' & (c' & Hrun) & H1 & w & H2 & H3).
  - unfold around. apply wp_cbind. eapply wp_weaken; [|apply wp_make_calls]. intros os1 w1 [H1 ->]. rewrite Hc.
    apply wp_cbind. eapply wp_weaken; [|exact Hm]. intros a w2 H2.
    apply wp_cbind. eapply wp_weaken; [|apply wp_make_calls]. intros os2 w3 [H3 _]. cbn. eauto.
  - destruct x as [[[os1 r] os2] st]. cbn [fst snd] in *. exists os1, r, os2, w. splits; auto.
    unfold client_session. rewrite Hrun. reflexivity.
Qed.

Lemma session_ends V s vs evs before after (m : client (dend V)) c v (x : verdict V) :
  document_input s vs evs -> snd (walk_calls s before (AtCursor (cursor_start vs))) = AtCursor c ->
  at_value s (drop_reader c) = inr v -> not_read after ->
  wp s m (AtCursor c) (verdict_end (drop_reader c) x) ->
  exists os1 r os2, client_session s evs (around before m after) = Some (os1, r, os2) /\
    Forall2 (is_result s) (fst (walk_calls s before (AtCursor (cursor_start vs)))) os1 /\
    agrees x r /\
    match x with
    | Gives _ =>
      Forall2 (is_result s) (fst (walk_calls s after (snd (walk_calls s (before ++ [CSkipValue]) (AtCursor (cursor_start vs)))))) os2
    | Keeps _ =>
      Forall2 (is_result s) (fst (walk_calls s after (snd (walk_calls s before (AtCursor (cursor_start vs)))))) os2
    | _ => True
    end.
Proof.
  intros Hd Hc Hv Hn Hm. destruct (around_session _ s vs evs before after m c _ Hd Hc Hm) as (os1 & r & os2 & w & H1 & H2 & (H3 & H4) & H5).
  exists os1, r, os2. splits; auto.
  pose proof (dropped_reading s c v Hv) as Hr.
  destruct x; auto.
  - rewrite walk_calls_app. destruct (walk_calls s before (AtCursor (cursor_start vs))) as [xs w0]. cbn [fst snd] in *. subst w0.
    rewrite (walk_skip s v c Hv). cbn [snd].
    rewrite <- (at_calls s _ w after H4 Hn). exact H5.
  - rewrite Hc. rewrite (at_calls s _ (AtCursor c) after (dropped_at c Hr) Hn). rewrite <- (at_calls s _ w after H4 Hn). exact H5.
Qed.

Lemma C45_deserializing_visits_the_data_holds : forall (V S : Type) (C : code V S) (s : settings) (vs : list json) (evs : list event) (before after : list rcall)
    (limit : N) (fuel : nat) (seed : S) (c : cursor) (v : json),
  returns_errors C -> document_input s vs evs ->
  snd (walk_calls s before (AtCursor (cursor_start vs))) = AtCursor c -> at_value s (drop_reader c) = inr v ->
  match after with CRead _ :: _ => False | _ => True end ->
  let x := sem_seed C s limit fuel seed v 0 in
  exists os1 r os2,
    client_session s evs (around before (deserialize_with_limit C fuel limit seed) after) = Some (os1, r, os2) /\
    Forall2 (is_result s) (fst (walk_calls s before (AtCursor (cursor_start vs)))) os1 /\
    agrees x r /\
    match x with
    | Gives _ =>
      Forall2 (is_result s) (fst (walk_calls s after (snd (walk_calls s (before ++ [CSkipValue]) (AtCursor (cursor_start vs)))))) os2
    | Keeps _ =>
      Forall2 (is_result s) (fst (walk_calls s after (snd (walk_calls s before (AtCursor (cursor_start vs)))))) os2
    | _ => True
    end.
Proof.
  intros V S C s vs evs before after limit fuel seed c v HC Hd Hc Hv Hn x.
  pose proof (value_sound s vs evs before c v Hd Hc Hv) as Hs.
  apply (session_ends V s vs evs before after _ c v x); auto.
  apply (ends_verdict V s _ _ _ _ 0). apply (all_ok V S C s limit HC fuel); auto.
  apply dropped_at. exact (dropped_reading s c v Hv).
Qed.

Lemma C45_deserialize_next_visits_the_data_holds : forall (V S : Type) (C : code V S) (s : settings) (vs : list json) (evs : list event) (before after : list rcall)
    (fuel : nat) (seed : S) (c : cursor) (v : json),
  returns_errors C -> document_input s vs evs ->
  snd (walk_calls s before (AtCursor (cursor_start vs))) = AtCursor c -> at_value s (drop_reader c) = inr v ->
  match after with CRead _ :: _ => False | _ => True end ->
  let x := sem_seed C s 128 fuel seed v 0 in
  exists os1 r os2,
    client_session s evs (around before (deserialize_next C fuel seed) after) = Some (os1, r, os2) /\
    Forall2 (is_result s) (fst (walk_calls s before (AtCursor (cursor_start vs)))) os1 /\
    agrees x r /\
    match x with
    | Gives _ =>
      Forall2 (is_result s) (fst (walk_calls s after (snd (walk_calls s (before ++ [CSkipValue]) (AtCursor (cursor_start vs)))))) os2
    | Keeps _ =>
      Forall2 (is_result s) (fst (walk_calls s after (snd (walk_calls s before (AtCursor (cursor_start vs)))))) os2
    | _ => True
    end.
Proof.
  intros V S C s vs evs before after fuel seed c v HC Hd Hc Hv Hn x.
  apply (session_ends V s vs evs before after _ c v x); auto.
  apply next_ok; [exact HC| |exact Hv]. apply dropped_at. exact (dropped_reading s c v Hv).
Qed.

Lemma C45_no_value_to_deserialize_holds : forall (V S : Type) (C : code V S) (s : settings) (vs : list json) (evs : list event) (before : list rcall)
    (fuel : nat) (seed : S) (c : cursor) (x : expected),
  document_input s vs evs ->
  snd (walk_calls s before (AtCursor (cursor_start vs))) = AtCursor c -> at_value s (drop_reader c) = inl x ->
  exists os1 r,
    client_session s evs (around before (deserialize_next C fuel seed) []) = Some (os1, r, []) /\
    (r = DPanic Misuse /\ x = XMisuse \/
     exists e p, r = DRet (inl (DeReader e)) /\ x = XStructure FewerElementsThanExpected p /\ is_result s x (OErr e)).
Proof.
  intros V S C s vs evs before fuel seed c x Hd Hc Hx.
  destruct (around_session _ s vs evs before [] (deserialize_next C fuel seed) c (fun r _ => r = DPanic Misuse /\ x = XMisuse \/
     exists e p, r = DRet (inl (DeReader e)) /\ x = XStructure FewerElementsThanExpected p /\ is_result s x (OErr e)) Hd Hc)
    as (os1 & r & os2 & w & H1 & H2 & H3 & H4).
  - unfold deserialize_next. apply wp_cbind. apply wp_dbind. unfold use_peek. apply wp_dbind. cbn [duse wp]. intros o Ho _.
    cbn [walk_call before_call call_at] in Ho |- *. rewrite Hx in *.
    assert (Hk : x = XMisuse \/ exists p, x = XStructure FewerElementsThanExpected p).
    { unfold at_value in Hx. destruct (is_reading _); [injection Hx as <-; auto|].
      destruct (frames _) as [|[i [|u items]|n ms|n u ms] fs]; try discriminate; try (injection Hx as <-; eauto; fail).
      destruct (started _ && _); [injection Hx as <-; auto|]. destruct (top _); [injection Hx as <-; eauto|discriminate]. }
    destruct Hk as [-> | (p & ->)]; cbn [continue fst snd is_result] in *.
    + subst o. cbn. left. auto.
    + destruct Ho as (loc & -> & Hp). cbn. right. exists (EUnexpectedStructure FewerElementsThanExpected loc), p. splits; auto. eauto.
  - cbn [walk_calls fst] in H4. inversion H4; subst. exists os1, r. auto.
Qed.

Lemma C46_deserialized_input_is_a_document_holds : forall (V S : Type) (C : code V S) (s : settings) (evs : list event) (limit : N) (fuel : nat) (seed : S) (a : V),
  returns_errors C -> Forall is_byte (fst (supplied evs)) -> allow_multiple_top_level s = false ->
  client_session s evs (around [] (deserialize_with_limit C fuel limit seed) [CConsumeTrailingWhitespace]) =
    Some ([], DRet (inr a), [OOk RUnit]) ->
  exists v, document_input s [v] evs /\ sem_seed C s limit fuel seed v 0 = Gives a.
Proof.
  intros V S C s evs limit fuel seed a HC Hb Hm H.
  destruct (session_log _ s evs _ _ H) as (log & Hplay & Hlog).
  apply plays_bind in Hplay as (os1 & l0 & l1 & -> & H0 & Hplay). apply plays_bind in Hplay as (r & l2 & l3 & -> & H2 & Hplay).
  apply plays_bind in Hplay as (os2 & l4 & l5 & -> & H4 & H5). inversion H5; subst. inversion H0; subst. clear H0 H5.
  cbn [make_calls] in H4. inversion H4; subst. cbn [cbind] in *.
  match goal with H : SpecSimple.plays _ _ _ |- _ => inversion H; subst end.
  match goal with H : SpecSimple.plays _ _ [OOk RUnit] |- _ => inversion H; subst end.
  rewrite app_nil_r in Hlog. cbn [app] in Hlog. rewrite !map_app in Hlog. cbn [map fst snd] in Hlog.
  assert (Hn : nth_error (read_session s evs (map fst l2 ++ [CConsumeTrailingWhitespace])) (length (map fst l2)) = Some (OOk RUnit)).
  { rewrite Hlog. rewrite nth_error_app2 by (rewrite !map_length; lia). rewrite !map_length, Nat.sub_diag. reflexivity. }
  destruct (C19_accepted_input_is_a_document_holds s evs (map fst l2) Hb Hm Hn) as (v & Hd & _).
  exists v. split; [exact Hd|].
  destruct (C45_deserializing_visits_the_data_holds V S C s [v] evs [] [CConsumeTrailingWhitespace] limit fuel seed (cursor_start [v]) v HC Hd eq_refl eq_refl I)
    as (os1 & r' & os2 & Hrun & _ & Hag & Hafter).
  rewrite H in Hrun. injection Hrun as <- <- <-.
  destruct (sem_seed C s limit fuel seed v 0) as [b|b|y| |]; cbn in Hag.
  - congruence.
  - cbn in Hafter. inversion Hafter; subst. discriminate.
  - destruct Hag as (e & E & _). discriminate.
  - discriminate.
  - discriminate.
Qed.

Lemma make_calls_plays cs : forall l os, SpecSimple.plays (make_calls cs) l os -> map fst l = cs /\ map snd l = os.
Proof.
  induction cs as [|c cs IH]; intros l os P; cbn [make_calls] in P; inversion P as [|? ? o l' ? Q]; subst; [auto|].
  apply plays_bind in Q as (os' & l1 & l2 & -> & Q1 & Q2). inversion Q2; subst. rewrite app_nil_r.
  destruct (IH _ _ Q1) as [<- <-]. auto.
Qed.

Lemma around_plays A before (m : client A) l os1 r os2 : SpecSimple.plays (around before m []) l (os1, r, os2) ->
  exists l1 l2, l = l1 ++ l2 /\ map fst l1 = before /\ map snd l1 = os1 /\ os2 = [].
Proof.
  intros P. apply plays_bind in P as (o1 & l0 & l1 & -> & P0 & P). apply plays_bind in P as (r' & l2 & l3 & -> & _ & P).
  apply plays_bind in P as (o2 & l4 & l5 & -> & P4 & P5). inversion P5; subst. inversion P4; subst.
  exists l0, (l2 ++ [] ++ []). apply make_calls_plays in P0 as [H1 H2]. splits; auto.
Qed.

Lemma open_after_delta log : forall b, fold_left (fun n co => n + delta (fst co) (snd co))%Z log b = (b + open_after log)%Z.
Proof.
  unfold open_after.
  assert (H : forall b c, fold_left (fun n co =>
    match co with
    | ((CBeginArray | CBeginObject), OOk _) => n + 1
    | ((CEndArray | CEndObject), OOk _) => n - 1
    | _ => n
    end%Z) log (b + c)%Z = (b + fold_left (fun n co =>
    match co with
    | ((CBeginArray | CBeginObject), OOk _) => n + 1
    | ((CEndArray | CEndObject), OOk _) => n - 1
    | _ => n
    end%Z) log c)%Z).
  { induction log as [|[call o] log IH]; intros b c; cbn [fold_left]; [reflexivity|]. rewrite <- IH. f_equal.
    destruct call; try reflexivity; destruct o; try reflexivity; lia. }
  intros b. replace b with (b + 0)%Z at 1 by lia. rewrite <- H. generalize (b + 0)%Z. clear.
  induction log as [|[call o] log IH]; intros z; cbn [fold_left fst snd]; [reflexivity|]. rewrite IH. f_equal.
  destruct call; cbn; try lia; destruct o; lia.
Qed.

Lemma C47_nesting_limit_holds : forall (V S : Type) (C : code V S) (limit : N) (fuel : nat) (seed : S) (log1 log2 : list (rcall * outcome)) (r : dend V),
  SpecSimple.plays (deserialize_with_limit C fuel limit seed) (log1 ++ log2) r -> (open_after log1 <= Z.of_N limit)%Z.
Proof.
  intros V S C limit fuel seed log1 log2 r Hp.
  destruct (track_plays _ false limit _ _ _ _ _ (tracked V S C false limit fuel seed) Hp ltac:(discriminate)) as [_ H].
  specialize (H log1 log2 eq_refl ltac:(lia)). rewrite open_after_delta in H. exact H.
Qed.

Lemma C47_nesting_limit_of_deserialize_next_holds : forall (V S : Type) (C : code V S) (fuel : nat) (seed : S) (log1 log2 : list (rcall * outcome)) (r : dend V),
  SpecSimple.plays (deserialize_next C fuel seed) (log1 ++ log2) r -> (open_after log1 <= 128)%Z.
Proof.
  intros V S C fuel seed log1 log2 r Hp.
  destruct (track_plays _ false 128 _ _ _ _ _ (tracked_next V S C false fuel seed) Hp ltac:(discriminate)) as [_ H].
  specialize (H log1 log2 eq_refl ltac:(lia)). rewrite open_after_delta in H. exact H.
Qed.

Lemma C47_only_misuse_panics_holds : forall (V S : Type) (C : code V S) (s : settings) (evs : list event) (before after : list rcall) (limit : N) (fuel : nat) (seed : S),
  Forall is_byte (fst (supplied evs)) ->
  exists os1 r os2, client_session s evs (around before (deserialize_with_limit C fuel limit seed) after) = Some (os1, r, os2) /\
    r <> DPanic Bug.
Proof.
  intros V S C s evs before after limit fuel seed Hb.
  destruct (session_total _ s evs (around before (deserialize_with_limit C fuel limit seed) after) Hb) as [[[os1 r] os2] H].
  exists os1, r, os2. split; [exact H|]. destruct (around_log _ s evs before after _ os1 r os2 Hb H) as (log & Hp & Hf).
  destruct (track_plays _ true limit _ _ _ _ _ (tracked V S C true limit fuel seed) Hp (fun _ => Hf)) as [[b Hr] _]. exact (Hr eq_refl).
Qed.

Lemma C47_only_misuse_panics_in_deserialize_next_holds : forall (V S : Type) (C : code V S) (s : settings) (evs : list event) (before after : list rcall) (fuel : nat) (seed : S),
  Forall is_byte (fst (supplied evs)) ->
  exists os1 r os2, client_session s evs (around before (deserialize_next C fuel seed) after) = Some (os1, r, os2) /\
    r <> DPanic Bug.
Proof.
  intros V S C s evs before after fuel seed Hb.
  destruct (session_total _ s evs (around before (deserialize_next C fuel seed) after) Hb) as [[[os1 r] os2] H].
  exists os1, r, os2. split; [exact H|]. destruct (around_log _ s evs before after _ os1 r os2 Hb H) as (log & Hp & Hf).
  destruct (track_plays _ true 128 _ _ _ _ _ (tracked_next V S C true fuel seed) Hp (fun _ => Hf)) as [[b Hr] _]. exact (Hr eq_refl).
Qed.

Lemma C47_limit_matters_only_for_deeper_data_holds : forall (V S : Type) (C : code V S) (s : settings) (vs : list json) (evs : list event) (before : list rcall)
    (limit1 limit2 : N) (fuel : nat) (seed : S) (c : cursor) (v : json) (os : list outcome) (a : V),
  returns_errors C -> document_input s vs evs ->
  snd (walk_calls s before (AtCursor (cursor_start vs))) = AtCursor c -> at_value s (drop_reader c) = inr v ->
  (nesting v <= N.to_nat limit1)%nat -> (nesting v <= N.to_nat limit2)%nat ->
  client_session s evs (around before (deserialize_with_limit C fuel limit1 seed) []) = Some (os, DRet (inr a), []) ->
  client_session s evs (around before (deserialize_with_limit C fuel limit2 seed) []) = Some (os, DRet (inr a), []).
Proof.
  intros V S C s vs evs before limit1 limit2 fuel seed c v os a HC Hd Hc Hv H1 H2 H.
  destruct (C45_deserializing_visits_the_data_holds V S C s vs evs before [] limit1 fuel seed c v HC Hd Hc Hv I) as (x1 & r1 & x2 & E1 & _ & A1 & _).
  destruct (C45_deserializing_visits_the_data_holds V S C s vs evs before [] limit2 fuel seed c v HC Hd Hc Hv I) as (y1 & r2 & y2 & E2 & _ & A2 & _).
  rewrite H in E1. injection E1 as <- <- <-.
  assert (L1 : nest v <= limit1) by (unfold nest; lia). assert (L2 : nest v <= limit2) by (unfold nest; lia).
  destruct (limit_same V S C s limit1 limit2 fuel seed v L1 L2) as [Hg Hk].
  assert (E : r2 = DRet (inr a)).
  { destruct (sem_seed C s limit1 fuel seed v 0) as [b|b|y| |] eqn:Es; cbn in A1; try discriminate.
    - injection A1 as ->. rewrite (proj1 (Hg b) eq_refl) in A2. exact A2.
    - injection A1 as ->. rewrite (proj1 (Hk b) eq_refl) in A2. exact A2.
    - destruct A1 as (e & Ee & _). discriminate. }
  subst r2. rewrite E2.
  destruct (session_log _ s evs _ _ H) as (l & P1 & L). destruct (session_log _ s evs _ _ E2) as (l' & P2 & L').
  apply around_plays in P1 as (a1 & a2 & -> & F1 & S1 & _). apply around_plays in P2 as (b1 & b2 & -> & F2 & S2 & ->).
  f_equal. f_equal. f_equal. rewrite <- S1, <- S2. rewrite !map_app in L, L'.
  rewrite F1 in L. rewrite F2 in L'. destruct Hd as (Ht & Hi & Hl). pose proof (input_bytes _ _ _ Hi) as Hb.
  destruct (session_prefix s evs before (map fst a2) Hb) as (o2 & P1). destruct (session_prefix s evs before (map fst b2) Hb) as (o3 & P2).
  rewrite P1 in L. rewrite P2 in L'.
  assert (N1 : length (read_session s evs before) = length before) by (apply session_length; exact Hb).
  apply app_same_length in L as [L _]; [|rewrite N1, <- F1, !map_length; reflexivity].
  apply app_same_length in L' as [L' _]; [|rewrite N1, <- F2, !map_length; reflexivity]. congruence.
Qed.

(** Tries to deserialize each element as sequence, then, if it has another type, as [u8] *)
Inductive try_state : Type := TyNew | TyNumber | TyTry | TyOther | TyEnd (e : option derr).
Definition try_code : code unit try_state := {|
  deserialize := fun st =>
    match st with
    | TyNumber => SaCall (MInt U8) TyNew (fun r => r)
    | _ => SaCall MSeq TyTry (fun r => r)
    end;
  visit_data := fun _ _ => inr tt;
  visit_some := fun st => st;
  visit_newtype := fun st => st;
  visit_seq := fun st =>
    match st with
    | TyOther => SqNext TyNumber (fun r => match r with inr _ => TyTry | inl e => TyEnd (Some e) end)
    | TyEnd None => SqDone (inr tt)
    | TyEnd (Some e) => SqDone (inl e)
    | _ => SqNext TyNew (fun r =>
        match r with
        | inr (Some _) => TyTry
        | inr None => TyEnd None
        | inl (DeReader (EUnexpectedType _ _ _)) => TyOther
        | inl e => TyEnd (Some e)
        end)
    end;
  visit_map := fun _ => MpDone (inl (DeCustom 1));
  visit_enum := fun _ => EnDone (inl (DeCustom 1));
  with_variant := fun _ => VaDone (inl (DeCustom 1))
|}.

(** [[1,[]]] *)
Definition try_text : bytes := [0x5B; 0x31; 0x2C; 0x5B; 0x5D; 0x5D].
Definition try_value : json := JArr [JNum [0x31]; JArr []].

Lemma try_document : document_input default_settings [try_value] [EvData try_text].
Proof.
  split; [reflexivity|]. split.
  2:{ cbn. repeat constructor. discriminate. }
  exists try_value. split; [reflexivity|]. exists [], try_text, []. split; [reflexivity|]. split; [constructor|]. split; [|left; constructor].
  change try_text with ([0x5B] ++ [] ++ [0x31] ++ ([] ++ [0x2C] ++ [] ++ ([0x5B] ++ [] ++ [0x5D]) ++ ([] ++ [0x5D]))).
  constructor. apply IT_first; [constructor| |].
  - constructor. exists 0%nat, [], [0x31], [], []. repeat split; auto; try (left; reflexivity).
    + right. exists 0x31, []. repeat split; try lia. constructor.
    + left. auto.
  - apply IT_next; try apply WS_nil.
    + constructor. apply IT_end. constructor.
    + apply IT_end. constructor.
Qed.

Lemma C47_limit_after_errors_refuted_holds : exists (V S : Type) (C : code V S) (s : settings) (v : json) (evs : list event) (limit1 limit2 : N) (fuel : nat) (seed : S) (a : V),
  document_input s [v] evs /\ (nesting v <= N.to_nat limit1)%nat /\ (nesting v <= N.to_nat limit2)%nat /\
  client_session s evs (deserialize_with_limit C fuel limit1 seed) = Some (DRet (inr a)) /\
  client_session s evs (deserialize_with_limit C fuel limit2 seed) = Some (DRet (inl (DeMaxNesting limit2))).
Proof.
  exists unit, try_state, try_code, default_settings, try_value, [EvData try_text], 10, 2, 20%nat, TyNew, tt.
  split; [exact try_document|]. split; [cbn; lia|]. split; [cbn; lia|]. split; vm_compute; reflexivity.
Qed.
