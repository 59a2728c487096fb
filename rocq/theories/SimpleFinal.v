(** * Proofs of the property theorems about the simple reader API *)

From Verif Require Import Base Utf8Model SpecNumber SpecJson SourceModel ReaderModel SpecCursor SpecRead ReaderCursor
  SimpleModel SpecSimple ClientErrors SimpleErrors SimpleWp SimpleRun SimpleRun2 SimpleMulti SimpleMulti2 SimpleRun3 SimpleRun4.
From Verif Require DeModel SpecDe.
Open Scope smonad_scope.


Lemma crun_pbind A B (p : prog A) (f : A -> prog B) : forall c,
  crun (pbind p f) c = match crun p c with Some (a, c') => crun (f a) c' | None => None end.
Proof.
  induction p; intros c; cbn [pbind crun]; auto;
    match goal with |- match ?x with _ => _ end = _ => destruct x as [[?|] ?] || destruct x | |- _ => idtac end; auto;
    match goal with p : (_ * _)%type |- _ => destruct p end; auto.
Qed.

Lemma client_run_plays A E (m : client A) : forall st c a st' c',
  crun (client_run E m st) c = Some (a, st', c') -> exists log, plays m log a.
Proof.
  induction m as [a0|call k IH]; intros st c a st' c' H; cbn [client_run] in H.
  - cbn in H. injection H as <- _ _. exists []. constructor.
  - rewrite crun_pbind in H. destruct (crun (client_call E call st) c) as [[[o st1] c1]|]; [|discriminate].
    cbn [fst snd] in H. destruct (IH o _ _ _ _ _ H) as [log Hl]. exists ((call, o) :: log). constructor. exact Hl.
Qed.

Lemma honest_client R fuel (u : use R) : returns_errors_use u -> obeys false (simple_client fuel u) (fun failed r => failed = true -> ~ success r).
Proof.
  intros Hc. unfold simple_client. apply obeys_bind.
  eapply obeys_weaken; [|apply (run_use_honest R fuel u Hc false false None); intros H; discriminate].
  intros f re H. cbn. exact H.
Qed.

Lemma failed_dec c o : failed_call c o \/ ~ failed_call c o.
Proof.
  destruct (fails c o) eqn:E; [left; apply fails_iff, E|right]. intros H. apply fails_iff in H. congruence.
Qed.

Lemma split_failed log : Forall (fun co => ~ failed_call (fst co) (snd co)) log \/
  exists log1 c o log2, log = log1 ++ (c, o) :: log2 /\ failed_call c o.
Proof.
  induction log as [|[c o] log IH]; [left; constructor|]. destruct (failed_dec c o) as [H|H].
  - right. exists [], c, o, log. auto.
  - destruct IH as [IH|(l1 & c1 & o1 & l2 & -> & Hf)].
    + left. constructor; auto.
    + right. exists ((c, o) :: l1), c1, o1, l2. auto.
Qed.

(** An implementation of [Deserialize] which ignores an error *)
Inductive lenient_state := LeItems | LeBool | LeSkip | LeSecond | LeEnd.
Definition lenient : DeModel.code unit lenient_state := {|
  DeModel.deserialize := fun st =>
    match st with
    | LeItems => DeModel.SaCall DeModel.MSeq LeItems (fun r => r)
    | LeBool => DeModel.SaCall DeModel.MBool LeBool (fun r => r)
    | _ => DeModel.SaCall DeModel.MIgnoredAny LeSkip (fun r => r)
    end;
  DeModel.visit_data := fun _ _ => inr tt;
  DeModel.visit_some := fun st => st;
  DeModel.visit_newtype := fun st => st;
  DeModel.visit_seq := fun st =>
    match st with
    | LeItems => DeModel.SqNext LeBool (fun _ => LeSecond)
    | LeSecond => DeModel.SqNext LeSkip (fun _ => LeEnd)
    | _ => DeModel.SqDone (inr tt)
    end;
  DeModel.visit_map := fun _ => DeModel.MpDone (inr tt);
  DeModel.visit_enum := fun _ => DeModel.EnDone (inr tt);
  DeModel.with_variant := fun _ => DeModel.VaDone (inr tt)
|}.

(** With an error, closures and [Deserialize] implementations are not used *)
Lemma unused R fuel (o : op R) e : ~ empty_multi o ->
  exists o' : op R, returns_errors_op o' /\ ~ empty_multi o' /\
    forall log a, plays (run_op fuel o (Some e)) log a -> plays (run_op fuel o' (Some e)) log a.
Proof.
  intros Hn. set (b := @BDone R (inl SNoMatch)). destruct o as [| | | | |f|f|f|f r|f r|f r|path f|path alo f r|S C steps seed].
  1-7: eexists; split; [|split; [exact Hn|auto]]; exact I.
  - exists (OpArray b). splits; [exact I|exact Hn|auto].
  - exists (OpItems (fun _ => b) r). splits; [cbn; intros; exact I|exact Hn|auto].
  - exists (OpMembers (fun _ => b) r). splits; [cbn; intros; exact I|exact Hn|auto].
  - exists (OpMembersOwned (fun _ _ => b) r). splits; [cbn; intros; exact I|exact Hn|auto].
  - exists (OpSeeked path b). splits; [exact I|exact Hn|auto].
  - exists (OpMulti path alo (fun _ => b) r). splits; [cbn; intros; exact I|exact Hn|].
    destruct path as [|p path]; [elim Hn; exact I|]. cbn [run_op read_seeked_multi].
    generalize (convert_path None (p :: path)). intros ps log a. destruct alo.
    + intros H. cbn in H. inversion H as [|call k o log0 x H0]; subst. cbn. constructor. revert H0.
      destruct fuel as [|fuel]; [destruct o as [[]| | | | | |]; exact (fun H => H)|].
      destruct ps as [|q qs]; [destruct o as [[]| | | | | |]; exact (fun H => H)|].
      destruct o as [[]| | | | | |], q; exact (fun H => H).
    + destruct fuel as [|fuel]; [auto|]. destruct ps as [|q qs]; [auto|]. destruct q; auto.
  - exists OpNull. splits; [exact I|exact Hn|auto].
Qed.

Ltac returns := cbn; intros; repeat match goal with
  | |- True => exact I
  | |- _ /\ _ => split
  | |- forall _, _ => intros ?
  | |- returns_errors_body match ?x with _ => _ end => destruct x; cbn
  end.


Lemma C37_errors_are_sticky_holds : forall (R : Type) (fuel : nat) (u : use R) (before after : list (rcall * outcome)) (c : rcall) (o : outcome) (r : sres (reply R)),
  returns_errors_use u -> plays (simple_client fuel u) (before ++ (c, o) :: after) r -> failed_call c o ->
  Forall (fun co => position_call (fst co)) after /\ ~ success r.
Proof.
  intros R fuel u before after c o r Hc Hp Hf.
  destruct (obeys_after _ before _ c o after r false _ Hp Hf (honest_client R fuel u Hc)) as [H1 H2]. auto.
Qed.

Lemma C37_success_means_no_error_holds : forall (R : Type) (fuel : nat) (s : settings) (evs : list event) (u : use R) (x : reply R),
  returns_errors_use u -> simple_session fuel s evs u = SOk x ->
  exists log, plays (simple_client fuel u) log (SOk x) /\ Forall (fun co => ~ failed_call (fst co) (snd co)) log.
Proof.
  intros R fuel s evs u x Hc H. unfold simple_session in H.
  destruct (crun _ _) as [[[r st] c']|] eqn:E; [|discriminate]. subst r.
  destruct (client_run_plays _ _ _ _ _ _ _ _ E) as [log Hl]. exists log. split; [exact Hl|].
  destruct (split_failed log) as [Hs|(l1 & c & o & l2 & -> & Hf)]; [exact Hs|].
  destruct (C37_errors_are_sticky_holds R fuel u l1 l2 c o _ Hc Hl Hf) as [_ Hn]. elim Hn. exists x. reflexivity.
Qed.

Lemma C37_later_calls_fail_holds : forall (R : Type) (fuel : nat) (o : op R) (e : kept_error) (log : list (rcall * outcome)) (r : sres (reply R)) (err : option kept_error),
  ~ empty_multi o -> plays (run_op fuel o (Some e)) log (r, err) ->
  Forall (fun co => position_call (fst co)) log /\ ~ success r /\ err = Some e.
Proof.
  intros R fuel o e log r err Hn0 Hp. destruct (unused R fuel o e Hn0) as (o' & Hc & Hn & Ho). apply Ho in Hp.
  assert (He : entry true (Some e)) by (intros _ H; discriminate).
  destruct (obeys_quiet _ _ _ _ Hp _ (run_op_strict R fuel o' Hc Hn true (Some e) He)) as (H1 & H2 & H3 & H4).
  cbn [fst snd] in *. splits; auto.
  intros Hs. destruct (H4 Hs) as [H5 _]. discriminate.
Qed.

Lemma C37_errors_are_kept_holds : forall (R : Type) (fuel : nat) (o : op R) (before after : list (rcall * outcome)) (c : rcall) (oc : outcome) (r : sres (reply R)) (err : option kept_error),
  returns_errors_op o -> ~ empty_multi o -> plays (run_op fuel o None) (before ++ (c, oc) :: after) (r, err) -> failed_call c oc ->
  Forall (fun co => position_call (fst co)) after /\ ~ success r /\
  (err <> None \/ match r with SPanic _ | SFuel | SInvalid => True | _ => False end).
Proof.
  intros R fuel o before after c oc r err Hc Hn Hp Hf.
  assert (He : entry false None) by (intros H; discriminate).
  destruct (obeys_after _ before _ c oc after (r, err) false _ Hp Hf (run_op_strict R fuel o Hc Hn false None He)) as (H1 & H2 & H3 & H4).
  cbn [fst snd] in *. splits; auto.
  - intros Hs. destruct (H4 Hs) as [_ H5]. destruct H2 as [H2|H2].
    + exact (H2 eq_refl H5).
    + destruct Hs as [x ->]. exact H2.
  - destruct H2 as [H2|H2]; [left; exact (H2 eq_refl)|right; exact H2].
Qed.

Lemma C37_later_calls_fail_refuted_holds : exists (o : op unit) (fuel : nat) (e : kept_error) (x : reply unit) (err : option kept_error),
  plays (run_op fuel o (Some e)) [] (SOk x, err).
Proof.
  exists (OpMulti [] false (fun _ => BRead OpNull (fun _ => BDone (inr tt))) tt), 5%nat, KIo, (VResult tt), (Some KIo).
  constructor.
Qed.

Lemma C37_errors_are_sticky_refuted_holds : exists (fuel : nat) (u : use unit) (before after : list (rcall * outcome)) (c : rcall) (o : outcome) (r : sres (reply unit)),
  plays (simple_client fuel u) (before ++ (c, o) :: after) r /\ failed_call c o /\
  success r /\ In CSkipValue (map fst after).
Proof.
  exists 5%nat, (URead (OpDeserialize lenient 12 LeItems)),
    [(CPeek, OOk (RType TArray)); (CBeginArray, OOk RUnit); (CHasNext, OOk (RBool true))],
    [(CHasNext, OOk (RBool true)); (CSkipValue, OOk RUnit); (CEndArray, OOk RUnit); (CConsumeTrailingWhitespace, OOk RUnit)],
    CNextBool, (OErr (EUnexpectedType TBoolean TNumber (Position None 0 0 0))), (SOk (VResult tt)).
  split.
  { match goal with |- plays _ ?log _ => apply (replay_plays _ _ (map snd log)) end. vm_compute. reflexivity. }
  split; [split; [intros [b H]; discriminate|exact I]|].
  split; [exists (VResult tt); reflexivity|]. cbn. auto.
Qed.

Lemma C38_closures_get_the_data_holds : forall (R : Type) (s : settings) (v : json) (evs : list event) (u : use R), document_input s [v] evs -> returns_errors_use u ->
  exists n, forall fl, (n <= fl)%nat -> ends_with (sem_use s u v) (simple_session fl s evs u).
Proof.
  intros R s v evs u Hd Hc. exists (S (weight v)). intros fl Hl. apply simple_session_ends; [exact Hd|exact Hc|lia].
Qed.

Lemma C38_items_in_order_holds : forall (s : settings) (ts : list str) (evs : list event), document_input s [JArr (map JStr ts)] evs ->
  exists n, forall fl, (n <= fl)%nat ->
  simple_session fl s evs
    (URead (OpItems (fun acc => BRead OpString (fun x =>
       match x with
       | inr (VStr t) => BDone (inr (acc ++ [t]))
       | inr _ => BDone (inr acc)
       | inl e => BDone (inl e)
       end)) [])) = SOk (VResult ts).
Proof.
  intros s ts evs Hd.
  destruct (C38_closures_get_the_data_holds (list str) s _ evs (URead (OpItems (fun acc => BRead OpString (fun x =>
       match x with
       | inr (VStr t) => BDone (inr (acc ++ [t]))
       | inr _ => BDone (inr acc)
       | inl e => BDone (inl e)
       end)) [])) Hd ltac:(returns)) as [n H]. exists n. intros fl Hl. specialize (H fl Hl). cbn [sem_use sem_op] in H.
  match type of H with ends_with (sem_result (sem_each ?f _ _)) _ => assert (E : forall acc, sem_each f (map JStr ts) acc = Gives (acc ++ ts)) end.
  { clear. induction ts as [|t ts IH]; intros acc; cbn; [rewrite app_nil_r; reflexivity|].
    cbn in IH. rewrite IH, <- app_assoc. reflexivity. }
  rewrite E in H. exact H.
Qed.

Lemma C38_unread_items_are_skipped_holds : forall (s : settings) (items : list json) (evs : list event), document_input s [JArr items] evs ->
  exists n, forall fl, (n <= fl)%nat ->
  simple_session fl s evs (URead (OpItems (fun count => BDone (inr (S count))) O)) = SOk (VResult (length items)).
Proof.
  intros s items evs Hd.
  destruct (C38_closures_get_the_data_holds nat s _ evs (URead (OpItems (fun count => BDone (inr (S count))) O)) Hd ltac:(returns)) as [n H].
  exists n. intros fl Hl. specialize (H fl Hl). cbn [sem_use sem_op] in H.
  match type of H with ends_with (sem_result (sem_each ?f _ _)) _ => assert (E : forall k, sem_each f items k = Gives (k + length items)%nat) end.
  { clear. induction items as [|t ts IH]; intros k; cbn; [rewrite Nat.add_0_r; reflexivity|].
    cbn in IH. rewrite IH. f_equal. lia. }
  rewrite E in H. exact H.
Qed.

Lemma C38_members_in_order_holds : forall (s : settings) (ms : list (str * json)) (evs : list event), document_input s [JObj ms] evs ->
  exists n, forall fl, (n <= fl)%nat ->
  simple_session fl s evs
    (URead (OpMembers (fun acc => BReadName (fun x =>
       match x with
       | inr t => BDone (inr (acc ++ [t]))
       | inl e => BDone (inl e)
       end)) [])) = SOk (VResult (map fst ms)) /\
  simple_session fl s evs (URead (OpMembersOwned (fun n acc => BDone (inr (acc ++ [n]))) [])) = SOk (VResult (map fst ms)).
Proof.
  intros s ms evs Hd.
  destruct (C38_closures_get_the_data_holds (list str) s _ evs (URead (OpMembers (fun acc => BReadName (fun x =>
       match x with
       | inr t => BDone (inr (acc ++ [t]))
       | inl e => BDone (inl e)
       end)) [])) Hd ltac:(returns)) as [n1 H1].
  destruct (C38_closures_get_the_data_holds (list str) s _ evs (URead (OpMembersOwned (fun n acc => BDone (inr (acc ++ [n]))) [])) Hd ltac:(returns)) as [n2 H2].
  exists (n1 + n2)%nat. intros fl Hl. specialize (H1 fl ltac:(lia)). specialize (H2 fl ltac:(lia)). cbn [sem_use sem_op] in H1, H2.
  match type of H1 with ends_with (sem_result (sem_each ?f _ _)) _ => assert (E1 : forall acc, sem_each f ms acc = Gives (acc ++ map fst ms)) end.
  { clear. induction ms as [|t ts IH]; intros acc; cbn; [rewrite app_nil_r; reflexivity|].
    cbn in IH. rewrite IH, <- app_assoc. reflexivity. }
  match type of H2 with ends_with (sem_result (sem_each ?f _ _)) _ => assert (E2 : forall acc, sem_each f ms acc = Gives (acc ++ map fst ms)) end.
  { clear. induction ms as [|t ts IH]; intros acc; cbn; [rewrite app_nil_r; reflexivity|].
    cbn in IH. rewrite IH, <- app_assoc. reflexivity. }
  rewrite E1 in H1. rewrite E2 in H2. split; [exact H1|exact H2].
Qed.

Lemma C38_read_array_needs_all_items_holds : forall (s : settings) (items : list json) (evs : list event), document_input s [JArr items] evs ->
  exists n, forall fl, (n <= fl)%nat ->
  let r := simple_session fl s evs (URead (OpArray (BDone (inr tt)))) in
  match items with [] => r = SOk (VResult tt) | _ :: _ => ~ success r end.
Proof.
  intros s items evs Hd.
  destruct (C38_closures_get_the_data_holds unit s _ evs (URead (OpArray (BDone (inr tt)))) Hd ltac:(returns)) as [n H].
  exists n. intros fl Hl. specialize (H fl Hl). cbn in H. destruct items; cbn in *; [exact H|].
  intros [x Hx]. rewrite Hx in H. destruct H as [[e H]|[H|H]]; discriminate.
Qed.

Lemma C39_visits_selected_values_holds : forall (R : Type) (s : settings) (v : json) (evs : list event) (path : list multi_piece) (at_least_one_match : bool) (f : R -> body R) (r : R),
  document_input s [v] evs -> (forall r', returns_errors_body (f r')) ->
  exists n, forall fl, (n <= fl)%nat ->
  ends_with (sem_result (sem_multi (fun r' u => sem_any (sem_body s (f r') (AtSingle u))) (select path v) at_least_one_match r))
    (simple_session fl s evs (URead (OpMulti path at_least_one_match f r))).
Proof.
  intros R s v evs path alo f r Hd Hc.
  exact (C38_closures_get_the_data_holds R s v evs (URead (OpMulti path alo f r)) Hd Hc).
Qed.

Lemma C39_collects_selected_strings_holds : forall (s : settings) (v : json) (evs : list event) (path : list multi_piece) (at_least_one_match : bool) (ts : list str),
  document_input s [v] evs -> select path v = (map JStr ts, true) ->
  exists n, forall fl, (n <= fl)%nat ->
  let r := simple_session fl s evs
    (URead (OpMulti path at_least_one_match (fun acc => BRead OpString (fun x =>
       match x with
       | inr (VStr t) => BDone (inr (acc ++ [t]))
       | inr _ => BDone (inr acc)
       | inl e => BDone (inl e)
       end)) [])) in
  if at_least_one_match && is_nil ts then ~ success r else r = SOk (VResult ts).
Proof.
  intros s v evs path alo ts Hd Hs.
  destruct (C39_visits_selected_values_holds (list str) s v evs path alo (fun acc => BRead OpString (fun x =>
       match x with
       | inr (VStr t) => BDone (inr (acc ++ [t]))
       | inr _ => BDone (inr acc)
       | inl e => BDone (inl e)
       end)) [] Hd ltac:(returns)) as [n H]. exists n. intros fl Hl. specialize (H fl Hl). unfold sem_multi in H. rewrite Hs in H. cbn [fst snd] in H.
  match type of H with context [sem_each ?f _ _] => assert (E : forall acc, sem_each f (map JStr ts) acc = Gives (acc ++ ts)) end.
  { clear. induction ts as [|t ts IH]; intros acc; cbn; [rewrite app_nil_r; reflexivity|].
    cbn in IH. rewrite IH, <- app_assoc. reflexivity. }
  rewrite E in H. cbn [app andb] in H.
  assert (En : is_nil (map JStr ts) = is_nil ts) by (destruct ts; reflexivity). rewrite En in H.
  destruct (alo && is_nil ts); cbn [negb] in H; cbn in H.
  - intros r [x Hx]. unfold r in Hx. rewrite Hx in H. destruct H as [[e H]|[H|H]]; discriminate.
  - exact H.
Qed.

Lemma C39_counts_selected_values_holds : forall (s : settings) (v : json) (evs : list event) (path : list multi_piece) (at_least_one_match : bool),
  document_input s [v] evs ->
  exists n, forall fl, (n <= fl)%nat ->
  let r := simple_session fl s evs (URead (OpMulti path at_least_one_match (fun count => BDone (inr (S count))) O)) in
  if snd (select path v) && negb (at_least_one_match && is_nil (fst (select path v)))
  then r = SOk (VResult (length (fst (select path v)))) else ~ success r.
Proof.
  intros s v evs path alo Hd.
  destruct (C39_visits_selected_values_holds nat s v evs path alo (fun count => BDone (inr (S count))) O Hd ltac:(returns)) as [n H].
  exists n. intros fl Hl. specialize (H fl Hl). unfold sem_multi in H.
  match type of H with context [sem_each ?f _ _] => assert (E : forall us k, sem_each f us k = Gives (k + length us)%nat) end.
  { clear. induction us as [|t us IH]; intros k; cbn; [rewrite Nat.add_0_r; reflexivity|].
    cbn in IH. rewrite IH. f_equal. lia. }
  rewrite E in H. cbn [Nat.add] in H.
  destruct (snd (select path v) && negb (alo && is_nil (fst (select path v)))); cbn in H; [exact H|].
  intros r [x Hx]. unfold r in Hx. rewrite Hx in H. destruct H as [[e H]|[H|H]]; discriminate.
Qed.

Lemma C49_read_deserialize_gives_the_data_holds : forall (R S : Type) (C : DeModel.code R S) (s : settings) (v : json) (evs : list event) (steps : nat) (seed : S),
  document_input s [v] evs -> SpecDe.returns_errors C ->
  exists n, forall fl, (n <= fl)%nat ->
  let r := simple_session fl s evs (URead (OpDeserialize C steps seed)) in
  match SpecDe.sem_seed C s 128 steps seed v 0 with
  | SpecDe.Gives x => r = SOk (VResult x)
  | SpecDe.Fails _ => ~ success r
  | _ => True
  end.
Proof.
  intros R S C s v evs steps seed Hd Hc.
  destruct (C38_closures_get_the_data_holds R s v evs (URead (OpDeserialize C steps seed)) Hd Hc) as [n H].
  exists n. intros fl Hl. specialize (H fl Hl). cbn [sem_use sem_op] in H.
  destruct (SpecDe.sem_seed C s 128 steps seed v 0) as [x|x|y| |]; try exact I; cbn in H.
  - exact H.
  - intros r [x Hx]. unfold r in Hx. rewrite Hx in H. destruct H as [[e H]|[H|H]]; discriminate.
Qed.

Lemma C49_items_are_deserialized_in_order_holds : forall (T S : Type) (C : DeModel.code (list T) S) (s : settings) (items : list json) (results : list (list T)) (evs : list event) (steps : nat) (seed : S),
  document_input s [JArr items] evs -> SpecDe.returns_errors C ->
  Forall2 (fun v x => SpecDe.sem_seed C s 128 steps seed v 0 = SpecDe.Gives x) items results ->
  exists n, forall fl, (n <= fl)%nat ->
  simple_session fl s evs
    (URead (OpItems (fun acc => BRead (OpDeserialize C steps seed) (fun x =>
       match x with
       | inr (VResult l) => BDone (inr (acc ++ l))
       | inr _ => BDone (inr acc)
       | inl e => BDone (inl e)
       end)) [])) = SOk (VResult (concat results)).
Proof.
  intros T S C s items results evs steps seed Hd Hc Hr.
  destruct (C38_closures_get_the_data_holds (list T) s _ evs (URead (OpItems (fun acc => BRead (OpDeserialize C steps seed) (fun x =>
       match x with
       | inr (VResult l) => BDone (inr (acc ++ l))
       | inr _ => BDone (inr acc)
       | inl e => BDone (inl e)
       end)) [])) Hd ltac:(returns; exact Hc)) as [n H]. exists n. intros fl Hl. specialize (H fl Hl). cbn [sem_use sem_op] in H.
  match type of H with ends_with (sem_result (sem_each ?f _ _)) _ => assert (E : forall acc, sem_each f items acc = Gives (acc ++ concat results)) end.
  { clear - Hr. induction Hr as [|v x items results Hx Hr IH]; intros acc; cbn; [rewrite app_nil_r; reflexivity|].
    rewrite Hx. cbn. cbn in IH. rewrite IH, <- app_assoc. reflexivity. }
  rewrite E in H. exact H.
Qed.

Lemma C49_reader_is_behind_the_value_holds : forall (R S : Type) (C : DeModel.code R S) (s : settings) (v : json) (t : str) (combine : R -> str -> R) (other : R)
    (evs : list event) (steps : nat) (seed : S),
  document_input s [JArr [v; JStr t]] evs -> SpecDe.returns_errors C ->
  exists n, forall fl, (n <= fl)%nat ->
  let r := simple_session fl s evs
    (URead (OpArray (BRead (OpDeserialize C steps seed) (fun x => BRead OpString (fun y =>
       match x, y with
       | inr (VResult a), inr (VStr t') => BDone (inr (combine a t'))
       | _, _ => BDone (inr other)
       end))))) in
  match SpecDe.sem_seed C s 128 steps seed v 0 with
  | SpecDe.Gives a => r = SOk (VResult (combine a t))
  | SpecDe.Fails _ => ~ success r
  | _ => True
  end.
Proof.
  intros R S C s v t combine other evs steps seed Hd Hc.
  destruct (C38_closures_get_the_data_holds R s _ evs (URead (OpArray (BRead (OpDeserialize C steps seed) (fun x => BRead OpString (fun y =>
       match x, y with
       | inr (VResult a), inr (VStr t') => BDone (inr (combine a t'))
       | _, _ => BDone (inr other)
       end))))) Hd ltac:(returns; exact Hc)) as [n H]. exists n. intros fl Hl. specialize (H fl Hl). cbn in H.
  destruct (SpecDe.sem_seed C s 128 steps seed v 0) as [x|x|y| |]; try exact I; cbn in H.
  - exact H.
  - intros r [x Hx]. unfold r in Hx. rewrite Hx in H. destruct H as [[e H]|[H|H]]; discriminate.
Qed.
