(** * Proofs of the property theorems about the input which closures and programs accept *)

From Verif Require Import Base Utf8Model SpecJson SourceModel ReaderModel SpecCursor SpecRead SpecSessions ClientModel SimpleModel SpecSimple
  SimpleErrors SimpleFinal ReaderFinal ReaderFinal2 DeModel DeliveryFinal SpecPrograms ProgramsFinal SimpleRounds LookFinal DeRounds.
From Verif Require SpecDe DeFinal.


Lemma finish_log b err log err' : plays (finish b err) log (SOk tt, err') -> exists l v, log = l ++ [(CConsumeTrailingWhitespace, OOk v)].
Proof.
  assert (Hc : forall err log, plays (d_consume err) log (SOk tt, err') -> exists v, log = [(CConsumeTrailingWhitespace, OOk v)]).
  { intros [e|] l H; cbn in H; inversion H as [|c k o l0 a Hk]; subst. destruct o; inversion Hk; subst; eexists; reflexivity. }
  unfold finish, sbind. intros H. apply plays_bind in H as (l1 & l2 & [r e] & -> & H1 & H2).
  destruct r; [|inversion H2..]. destruct (Hc _ _ H2) as (v & ->). eauto.
Qed.

Lemma use_log R fuel (u : use R) : forall b err log x err', plays (run_use fuel u b err) log (SOk x, err') ->
  exists l v, log = l ++ [(CConsumeTrailingWhitespace, OOk v)].
Proof.
  induction u as [k IH|p k IH|o]; intros b err log x err' H; cbn [run_use] in H; unfold sbind in H;
    apply plays_bind in H as (l1 & l2 & [r e] & -> & H1 & H2); (destruct r; [|inversion H2..]).
  - destruct (IH _ _ _ _ _ _ H2) as (l & v & ->). exists (l1 ++ l), v. apply app_assoc.
  - destruct (IH _ _ _ _ _ _ H2) as (l & v & ->). exists (l1 ++ l), v. apply app_assoc.
  - apply plays_bind in H2 as (l3 & l4 & [r e'] & -> & H2 & H3). destruct r as [[]| | | |]; [|inversion H3..]. inversion H3; subst.
    destruct (finish_log _ _ _ _ H2) as (l & v & ->). exists (l1 ++ l), v. rewrite app_nil_r. apply app_assoc.
Qed.

Lemma consume_unit s evs cs os v : Forall is_byte (fst (supplied evs)) -> length os = length cs ->
  read_session s evs (cs ++ [CConsumeTrailingWhitespace]) = os ++ [OOk v] -> v = RUnit.
Proof.
  intros Hb Hl H. destruct (calls_run s evs (cs ++ [CConsumeTrailingWhitespace]) Hb) as (os' & st' & c' & Hc & Ho). rewrite H in Ho. subst os'. clear H.
  revert os Hl Hc. generalize (session_new s) (csrc_new evs). induction cs as [|x cs IH]; intros st c os Hl Hc; cbn [app client_calls] in Hc.
  - destruct os; [|discriminate]. rewrite crun_pbind in Hc. destruct (crun (client_call _ _ st) c) as [[[o1 st1] c1]|] eqn:E1; [|discriminate]. cbn in Hc. injection Hc as -> _ _.
    unfold client_call in E1. destruct (s_phase st); [|discriminate E1..]. unfold call_consume in E1.
    rewrite crun_pbind in E1. unfold call in E1. rewrite crun_pbind in E1.
    match type of E1 with context [crun (consume_trailing_whitespace ?E ?x) c] => destruct (crun (consume_trailing_whitespace E x) c) as [[[r st2] c2]|]; [|discriminate] end.
    destruct r; cbn in E1; unfold to_unit in E1; try discriminate E1. injection E1 as <- _ _. reflexivity.
  - destruct os as [|o os]; [discriminate|]. rewrite crun_pbind in Hc. destruct (crun (client_call _ x st) c) as [[[o1 st1] c1]|]; [|discriminate]. cbn [fst snd] in *.
    rewrite crun_pbind in Hc. destruct (crun (client_calls _ _ st1) c1) as [[[os2 st2] c2]|] eqn:E2; [|discriminate].
    cbn in Hc. injection Hc as -> -> -> ->. injection Hl as Hl. exact (IH _ _ _ Hl E2).
Qed.
Lemma around_rounds A (m m' : client A) before after os1 r os2 log : (forall l, plays m l r -> plays m' l r) ->
  plays (around before m after) log (os1, r, os2) -> plays (around before m' after) log (os1, r, os2).
Proof.
  intros Hm H. unfold around in *. apply plays_bind in H as (l1 & l2 & x1 & -> & H1 & H). apply plays_bind in H as (l3 & l4 & x2 & -> & H2 & H).
  assert (x2 = r) as ->. { apply plays_bind in H as (l5 & l6 & x3 & _ & _ & H4). inversion H4. reflexivity. }
  eapply plays_cbind; [exact H1|]. eapply plays_cbind; [apply Hm; exact H2|exact H].
Qed.
Lemma session_rounds A s evs (m m' : client A) before after os1 r os2 : Forall is_byte (fst (supplied evs)) -> (forall l, plays m l r -> plays m' l r) ->
  client_session s evs (around before m after) = Some (os1, r, os2) -> client_session s evs (around before m' after) = Some (os1, r, os2).
Proof.
  intros Hb Hm H. apply session_iff in H; [|exact Hb]. destruct H as (log & Hp & Hr). apply session_iff; [exact Hb|].
  exists log. split; [exact (around_rounds A m m' before after os1 r os2 log Hm Hp)|exact Hr].
Qed.

Lemma C19_closures_accept_only_documents_holds : forall (R : Type) (fuel : nat) (s : settings) (evs : list event) (u : use R) (x : reply R), Forall is_byte (fst (supplied evs)) ->
  allow_multiple_top_level s = false -> simple_session fuel s evs u = SOk x -> exists v, document_input s [v] evs.
Proof.
  intros R fuel s evs u x Hb Hs H. rewrite simple_is_client in H.
  destruct (client_session s evs (simple_client fuel u)) as [r|] eqn:E; [|discriminate]. subst r.
  apply session_iff in E; [|exact Hb]. destruct E as (log & Hp & Hr). unfold simple_client in Hp.
  apply plays_bind in Hp as (l1 & l2 & [r e] & -> & H1 & H2). inversion H2; subst. cbn [fst] in *. subst.
  destruct (use_log _ _ _ _ _ _ _ _ H1) as (l & v & ->). rewrite app_nil_r in Hr. unfold really_happens in Hr. rewrite !map_app in Hr. cbn [map fst snd] in Hr.
  assert (v = RUnit) as -> by (apply (consume_unit s evs (map fst l) (map snd l) v Hb); [rewrite !map_length; reflexivity|exact Hr]).
  destruct (C19_accepted_input_is_a_document_holds s evs (map fst l) Hb Hs) as (v & Hv & _); [|exists v; exact Hv].
  rewrite Hr, nth_error_app2 by (rewrite !map_length; reflexivity). rewrite !map_length, PeanoNat.Nat.sub_diag. reflexivity.
Qed.

Lemma C19_closures_accept_only_rfc8259_holds : forall (R : Type) (fuel : nat) (evs : list event) (u : use R) (x : reply R), Forall is_byte (fst (supplied evs)) ->
  simple_session fuel default_settings evs u = SOk x ->
  exists v, rfc8259_document v (fst (supplied evs)) /\ snd (supplied evs) = TEof /\ N.of_nat (nesting v) <= 128.
Proof.
  intros R fuel evs u x Hb H. rewrite simple_is_client in H.
  destruct (client_session default_settings evs (simple_client fuel u)) as [r|] eqn:E; [|discriminate]. subst r.
  apply session_iff in E; [|exact Hb]. destruct E as (log & Hp & Hr). unfold simple_client in Hp.
  apply plays_bind in Hp as (l1 & l2 & [r e] & -> & H1 & H2). inversion H2; subst. cbn [fst] in *. subst.
  destruct (use_log _ _ _ _ _ _ _ _ H1) as (l & v & ->). rewrite app_nil_r in Hr. unfold really_happens in Hr. rewrite !map_app in Hr. cbn [map fst snd] in Hr.
  assert (v = RUnit) as -> by (apply (consume_unit default_settings evs (map fst l) (map snd l) v Hb); [rewrite !map_length; reflexivity|exact Hr]).
  apply (C19_default_settings_accept_only_rfc8259_holds evs (map fst l) Hb).
  rewrite Hr, nth_error_app2 by (rewrite !map_length; reflexivity). rewrite !map_length, PeanoNat.Nat.sub_diag. reflexivity.
Qed.

Lemma C38_rounds_do_not_matter_holds : forall (R : Type) (s : settings) (evs : list event) (u : use R) (fl fl' : nat), Forall is_byte (fst (supplied evs)) ->
  (fl <= fl')%nat -> simple_session fl s evs u <> SFuel -> simple_session fl' s evs u = simple_session fl s evs u.
Proof.
  intros R s evs u fl fl' Hb Hn H. rewrite !simple_is_client in *.
  destruct (session_total _ s evs (simple_client fl u) Hb) as (a & Ha). rewrite Ha in *.
  destruct (proj1 (session_iff _ s evs (simple_client fl u) a Hb) Ha) as (log & Hp & Hr).
  rewrite (proj2 (session_iff _ s evs (simple_client fl' u) a Hb)); [reflexivity|].
  exists log. split; [exact (client_rounds R fl fl' u log a Hn Hp H)|exact Hr].
Qed.

Lemma C38_success_means_the_data_holds : forall (R : Type) (fuel : nat) (s : settings) (evs : list event) (u : use R) (x : reply R), Forall is_byte (fst (supplied evs)) ->
  allow_multiple_top_level s = false -> returns_errors_use u -> simple_session fuel s evs u = SOk x ->
  exists v, document_input s [v] evs /\ (sem_use s u v = Gives x \/ sem_use s u v = Unspecified).
Proof.
  intros R fuel s evs u x Hb Hs Hu H. destruct (C19_closures_accept_only_documents_holds R fuel s evs u x Hb Hs H) as (v & Hv).
  exists v. split; [exact Hv|]. destruct (C38_closures_get_the_data_holds R s v evs u Hv Hu) as (n & Hn).
  specialize (Hn (max n fuel) (PeanoNat.Nat.le_max_l n fuel)).
  rewrite (C38_rounds_do_not_matter_holds R s evs u fuel (max n fuel) Hb (PeanoNat.Nat.le_max_r n fuel)) in Hn by (rewrite H; discriminate).
  rewrite H in Hn. destruct (sem_use s u v); cbn in Hn; [left; congruence| |discriminate|right; reflexivity].
  destruct Hn as [[e Hn]|[Hn|Hn]]; discriminate Hn.
Qed.

Lemma C38_success_exactly_holds : forall (R : Type) (s : settings) (evs : list event) (u : use R) (x : reply R), Forall is_byte (fst (supplied evs)) ->
  allow_multiple_top_level s = false -> returns_errors_use u -> (forall v, sem_use s u v <> Unspecified) ->
  ((exists fuel, simple_session fuel s evs u = SOk x) <-> exists v, document_input s [v] evs /\ sem_use s u v = Gives x).
Proof.
  intros R s evs u x Hb Hs Hu Hsp. split.
  - intros (fuel & H). destruct (C38_success_means_the_data_holds R fuel s evs u x Hb Hs Hu H) as (v & Hv & [Hx|Hx]); [exists v; auto|destruct (Hsp v Hx)].
  - intros (v & Hv & Hx). destruct (C38_closures_get_the_data_holds R s v evs u Hv Hu) as (n & Hn). exists n.
    specialize (Hn n (PeanoNat.Nat.le_refl n)). rewrite Hx in Hn. exact Hn.
Qed.

Lemma C45_steps_do_not_matter_holds : forall (V S : Type) (C : code V S) (s : settings) (evs : list event) (before after : list rcall) (limit : N) (n n' : nat) (seed : S)
    (os1 : list outcome) (r : dend V) (os2 : list outcome),
  Forall is_byte (fst (supplied evs)) -> (n <= n')%nat -> r <> DFuel ->
  client_session s evs (around before (deserialize_with_limit C n limit seed) after) = Some (os1, r, os2) ->
  client_session s evs (around before (deserialize_with_limit C n' limit seed) after) = Some (os1, r, os2).
Proof.
  intros V S C s evs before after limit n n' seed os1 r os2 Hb Hn Hr. apply session_rounds; [exact Hb|].
  intros l Hl. exact (deserialize_rounds V S C limit n n' seed l r Hn Hl Hr).
Qed.

Lemma C45_steps_of_deserialize_next_do_not_matter_holds : forall (V S : Type) (C : code V S) (s : settings) (evs : list event) (before after : list rcall) (n n' : nat) (seed : S)
    (os1 : list outcome) (r : dend V) (os2 : list outcome),
  Forall is_byte (fst (supplied evs)) -> (n <= n')%nat -> r <> DFuel ->
  client_session s evs (around before (deserialize_next C n seed) after) = Some (os1, r, os2) ->
  client_session s evs (around before (deserialize_next C n' seed) after) = Some (os1, r, os2).
Proof.
  intros V S C s evs before after n n' seed os1 r os2 Hb Hn Hr. apply session_rounds; [exact Hb|].
  intros l Hl. exact (next_rounds V S C n n' seed l r Hn Hl Hr).
Qed.

Lemma C46_success_exactly_holds : forall (V S : Type) (C : code V S) (s : settings) (evs : list event) (limit : N) (fuel : nat) (seed : S) (a : V),
  SpecDe.returns_errors C -> Forall is_byte (fst (supplied evs)) -> allow_multiple_top_level s = false ->
  (client_session s evs (around [] (deserialize_with_limit C fuel limit seed) [CConsumeTrailingWhitespace]) =
     Some ([], DRet (inr a), [OOk RUnit]) <->
   exists v, document_input s [v] evs /\ SpecDe.sem_seed C s limit fuel seed v 0 = SpecDe.Gives a).
Proof.
  intros V S C s evs limit fuel seed a HC Hb Hs. split; [apply DeFinal.C46_deserialized_input_is_a_document_holds; assumption|].
  intros (v & Hv & Hx).
  destruct (DeFinal.C45_deserializing_visits_the_data_holds V S C s [v] evs [] [CConsumeTrailingWhitespace] limit fuel seed (cursor_start [v]) v HC Hv eq_refl eq_refl I)
    as (os1 & r & os2 & H & H1 & Ha & H2).
  rewrite Hx in Ha, H2. cbn in H1. inversion H1; subst. cbn in Ha.
  rewrite H. cbn in H2. rewrite ?Hs in H2. cbn in H2. inversion H2 as [|x o xs os Hxo Hrest]; subst. inversion Hrest; subst. cbn in Hxo. congruence.
Qed.

Lemma C52_lookahead_of_programs_is_bounded_holds : forall (A : Type) (s : settings) (evs evs' : list event) (m : client A) (log : list (rcall * outcome)) (a : A) (b : bool) (p : position),
  let n := (N.to_nat (p_byte p) + 6)%nat in
  Forall is_byte (fst (supplied evs)) -> Forall is_byte (fst (supplied evs')) ->
  plays m log a -> really_happens s evs (log ++ [(CPosition b, OOk (RPos p))]) ->
  (forall e, ~ In (OReadErr e) (map snd log)) ->
  firstn n (fst (supplied evs')) = firstn n (fst (supplied evs)) ->
  ((length (fst (supplied evs)) < n)%nat -> snd (supplied evs') = snd (supplied evs)) ->
  client_session s evs' m = Some a.
Proof.
  intros A s evs evs' m log a b p n Hb Hb' Hp Hr Hn Hf Hl. unfold really_happens in Hr. rewrite !map_app in Hr. cbn [map fst snd] in Hr.
  pose proof (C52_lookahead_is_bounded_holds s evs evs' (map fst log) (map snd log) b p Hb Hb' Hr Hn Hf Hl) as H.
  apply session_iff; [exact Hb'|]. exists log. split; [exact Hp|]. unfold really_happens.
  destruct (C65_later_calls_do_not_matter_holds s evs' (map fst log) [CPosition b] Hb') as (os & Ho). rewrite H in Ho.
  assert (Hlen : length (map snd log) = length (read_session s evs' (map fst log))) by (rewrite read_length by exact Hb'; rewrite !map_length; reflexivity).
  clear - Ho Hlen. revert Ho Hlen. generalize (read_session s evs' (map fst log)). induction (map snd log) as [|x l IH]; intros [|y l'] Ho Hlen; try discriminate; [reflexivity|].
  cbn [app] in Ho. injection Ho as -> Ho. f_equal. apply IH; [exact Ho|]. cbn in Hlen. lia.
Qed.

Lemma with_flag_log V B (b : B) (r : derr + V) d log a (b' : B) d' : plays (with_flag b r d) log (DRet (inr (a, b')), d') -> b' = b.
Proof. unfold with_flag, dend_now. intros H. inversion H; subst. destruct r; congruence. Qed.

Lemma enum_flag V S (C : code V S) limit fuel vis d log a b d' :
  (forall st after, with_variant C st <> VaUnit after) ->
  plays (run_enum C limit fuel true vis d) log (DRet (inr (a, b)), d') -> b = true.
Proof.
  intros HC H. destruct fuel as [|n]; [inversion H|]. cbn [run_enum] in H.
  destruct (visit_enum C vis) as [r|seed k failed]; [exact (with_flag_log _ _ _ _ _ _ _ _ _ H)|].
  unfold dthen in H. apply plays_bind in H as (l1 & l2 & [r e] & -> & H1 & H2).
  destruct r as [r| | |]; try (inversion H2; fail). destruct r as [x|v]; [exact (with_flag_log _ _ _ _ _ _ _ _ _ H2)|].
  pose proof (HC (k v)) as Hv. destruct (with_variant C (k v)) as [r|after|s' after|len s' after|s' after]; cbn [unit_variant_only] in H2;
    try exact (with_flag_log _ _ _ _ _ _ _ _ _ H2). exfalso. exact (Hv after eq_refl).
Qed.

Lemma C61_string_is_only_a_unit_variant_holds : forall (V S : Type) (C : code V S) (fuel : nat) (limit : N) (seed vis : S) (log : list (rcall * outcome)) (r : dend V),
  deserialize C seed = SaCall MEnum vis (fun x => x) ->
  (forall st after, with_variant C st <> VaUnit after) ->
  plays (deserialize_with_limit C fuel limit seed) ((CPeek, OOk (RType TString)) :: log) r ->
  forall a, r <> DRet (inr a).
Proof.
  intros V S C fuel limit seed vis log r Hd HC H a ->. unfold deserialize_with_limit in H.
  apply plays_bind in H as (l1 & l2 & [r e] & El & H1 & H2). inversion H2; subst. cbn [fst] in *. subst. rewrite app_nil_r in El. subst l1. clear H2.
  destruct fuel as [|n]; [inversion H1|]. cbn [run_seed] in H1. rewrite Hd in H1.
  unfold dthen in H1 at 1. apply plays_bind in H1 as (l1 & l2 & [r e'] & El & H1 & H2).
  destruct r as [r| | |]; try (inversion H2; fail). inversion H2; subst. rewrite app_nil_r in El. subst l1. clear H2.
  destruct n as [|n]; [inversion H1|]. cbn [run_method] in H1.
  unfold dbind at 1, dthen at 1 in H1. apply plays_bind in H1 as (l1 & l2 & [x d] & El & H1 & H2).
  unfold use_peek, dbind, dthen, duse in H1. cbn [cbind] in H1. inversion H1 as [|c k o l0 a0 Hk]; subst. injection El as <- El.
  cbn in Hk. inversion Hk; subst. cbn in H2.
  unfold dbind, dthen in H2. apply plays_bind in H2 as (l3 & l4 & [y d2] & -> & H2 & H3).
  destruct y as [y| | |]; try (inversion H3; fail). destruct y as [y|[a' b]]; [inversion H3|].
  pose proof (enum_flag _ _ _ _ _ _ _ _ _ _ _ HC H2) as ->. inversion H3.
Qed.
