(** * Proofs of the property theorems about the memory used by the reader *)

From Verif Require Import Base Utf8Model SourceModel SourceProofs ReaderModel SpecCost SpecMemory MemSource MemFuns MemCalls CostFinal.


Lemma crun_pbind A B (p : prog A) (f : A -> prog B) : forall c,
  crun (pbind p f) c = match crun p c with Some (a, c') => crun (f a) c' | None => None end.
Proof.
  induction p; intros c; cbn [pbind crun]; auto;
    match goal with |- match ?x with _ => _ end = _ => destruct x as [[?|] ?] || destruct x | |- _ => idtac end; auto;
    match goal with p : (_ * _)%type |- _ => destruct p end; auto.
Qed.
Lemma client_call_ops E T v c st : (v = true \/ collects (cfg E) c = false /\ track_path (cfg E) = T) -> untracked T (s_state st) ->
  ops v (client_call E c st) (fun os => untracked T (s_state (snd os))).
Proof.
  intros Hc Hu. unfold client_call. destruct (s_phase st); [|exact Hu|exact Hu].
  assert (Hcall : forall (A : Type) (m : M A) val, fm v T m -> ops v (call m val st) (fun os => untracked T (s_state (snd os)))).
  { intros A m val Hm. unfold call. apply ops_pbind. eapply ops_impl; [apply Hm, Hu|]. intros [[a|e|k|] s'] H; exact H. }
  assert (Hskip : (v = true \/ track_path (cfg E) = false /\ track_path (cfg E) = T) -> may_skip v T).
  { intros [->|[H1 H2]]; [left; reflexivity|right; congruence]. }
  destruct c; cbn [collects] in Hc;
    try (apply Hcall; solve [auto with fm]);
    try (destruct Hc as [->|[Hc _]]; [apply Hcall; solve [auto with fm]|discriminate Hc]).
  - unfold call_string_reader. apply ops_pbind. eapply ops_impl; [apply fm_string_reader, Hu|]. intros [[a|e|k|] s'] H; exact H.
  - unfold call_read. destruct (s_reader st); [|exact Hu]. apply ops_pbind. eapply ops_impl; [apply fm_sv_read, Hu|].
    intros [[[[bs|e] sv']|e|k|] s'] H; exact H.
  - apply Hcall, fm_seek_to.
    + apply Hskip. destruct Hc as [->|[Hc1 Hc2]]; [left; reflexivity|right]. apply Bool.orb_false_iff in Hc1. tauto.
    + destruct Hc as [->|[Hc1 Hc2]]; [left; reflexivity|right]. apply Bool.orb_false_iff in Hc1. apply Hc1.
  - apply Hcall. intros s Hs. exact Hs.
  - unfold call_consume, call. apply ops_pbind, ops_pbind. eapply ops_impl; [apply fm_trailing, Hu|]. intros [[a|e|k|] s'] H; exact H.
Qed.
Lemma client_calls_ops E T v : forall cs st, (v = true \/ forallb (fun c => negb (collects (cfg E) c)) cs = true /\ track_path (cfg E) = T) -> untracked T (s_state st) ->
  ops v (client_calls E cs st) (fun os => untracked T (s_state (snd os))).
Proof.
  induction cs as [|c cs IH]; intros st Hc Hu; cbn [client_calls]; [exact Hu|].
  apply ops_pbind. eapply ops_impl; [apply client_call_ops; [|exact Hu]|].
  - destruct Hc as [->|[Hc1 Hc2]]; [left; reflexivity|right]. cbn [forallb] in Hc1. apply Bool.andb_true_iff in Hc1. destruct Hc1 as [Hc1 _].
    apply Bool.negb_true_iff in Hc1. auto.
  - cbv beta. intros os H1. apply ops_pbind. eapply ops_impl; [apply IH; [|exact H1]|].
    + destruct Hc as [->|[Hc1 Hc2]]; [left; reflexivity|right]. cbn [forallb] in Hc1. apply Bool.andb_true_iff in Hc1. tauto.
    + cbv beta. intros osl H2. exact H2.
Qed.
Lemma untracked_new s : untracked (track_path s) (s_state (session_new s)).
Proof. intros H. cbn. rewrite H. reflexivity. Qed.

(** [P] before and after the first calls, and then during the others *)
Lemma throughout_app (P : csrc -> Prop) E cs2 : forall cs1 st c, throughout P (client_calls E cs1 st) c ->
  (forall os st1 c1, crun (client_calls E cs1 st) c = Some ((os, st1), c1) -> throughout P (client_calls E cs2 st1) c1) ->
  throughout P (client_calls E (cs1 ++ cs2) st) c.
Proof.
  assert (Hpre : forall (A B : Type) (p : prog A) (f : A -> prog B) c, throughout P (pbind p f) c -> throughout P p c /\
    (forall x c', crun p c = Some (x, c') -> throughout P (f x) c')).
  { intros A B p f. induction p as [y|k IH|k IH|k IH|k IH|k IH|k IH|k IH|bs k IH|b k IH|k IH|k IH|k IH]; intros c H; cbn [pbind] in H.
    - split; [split; [destruct (f y); apply H|exact I]|]. intros x c' [= <- <-]. exact H.
    - destruct H as [H1 H2]. cbn [throughout crun]. destruct (c_peek c) as [[r|] c']; [|split; [split; auto|discriminate]]. destruct (IH r c' H2) as [H3 H4]. split; [split; auto|exact H4].
    - destruct H as [H1 H2]. cbn [throughout crun]. destruct (c_skip c) as [c'|]; [|split; [split; auto|discriminate]]. destruct (IH c' H2) as [H3 H4]. split; [split; auto|exact H4].
    - destruct H as [H1 H2]. cbn [throughout crun]. destruct (c_vnew c) as [c'|]; [|split; [split; auto|discriminate]]. destruct (IH c' H2) as [H3 H4]. split; [split; auto|exact H4].
    - destruct H as [H1 H2]. cbn [throughout crun]. destruct (c_vpeek c) as [[r|] c']; [|split; [split; auto|discriminate]]. destruct (IH r c' H2) as [H3 H4]. split; [split; auto|exact H4].
    - destruct H as [H1 H2]. cbn [throughout crun]. destruct (c_vconsume c) as [c'|]; [|split; [split; auto|discriminate]]. destruct (IH c' H2) as [H3 H4]. split; [split; auto|exact H4].
    - destruct H as [H1 H2]. cbn [throughout crun]. destruct (c_vskip_prev c) as [c'|]; [|split; [split; auto|discriminate]]. destruct (IH c' H2) as [H3 H4]. split; [split; auto|exact H4].
    - destruct H as [H1 H2]. cbn [throughout crun]. destruct (IH _ H2) as [H3 H4]. split; [split; auto|exact H4].
    - destruct H as [H1 H2]. cbn [throughout crun]. destruct (c_vpush bs c) as [c'|]; [|split; [split; auto|discriminate]]. destruct (IH c' H2) as [H3 H4]. split; [split; auto|exact H4].
    - destruct H as [H1 H2]. cbn [throughout crun]. destruct (c_vget b c) as [c'|]; [|split; [split; auto|discriminate]]. destruct (IH c' H2) as [H3 H4]. split; [split; auto|exact H4].
    - destruct H as [H1 H2]. cbn [throughout crun]. destruct (c_vstr_peek c) as [s|]; [|split; [split; auto|discriminate]]. destruct (IH s c H2) as [H3 H4]. split; [split; auto|exact H4].
    - destruct H as [H1 H2]. cbn [throughout crun]. destruct (c_vstr c) as [[s c']|]; [|split; [split; auto|discriminate]]. destruct (IH s c' H2) as [H3 H4]. split; [split; auto|exact H4].
    - destruct H as [H1 H2]. cbn [throughout crun]. destruct (c_vstring c) as [[s c']|]; [|split; [split; auto|discriminate]]. destruct (IH s c' H2) as [H3 H4]. split; [split; auto|exact H4]. }
  assert (Hret : forall (A B : Type) (p : prog A) (f : A -> B) c, throughout P p c -> throughout P (pbind p (fun x => Ret (f x))) c).
  { intros A B p f c H. apply throughout_bind; [exact H|]. intros x c' Hx. split; [exact (throughout_end _ _ _ _ _ H Hx)|exact I]. }
  induction cs1 as [|x cs1 IH]; intros st c H1 H2; cbn [app client_calls] in *; [apply (H2 [] st c eq_refl)|].
  destruct (Hpre _ _ _ _ _ H1) as [H3 H4]. apply throughout_bind; [exact H3|]. intros os c1 Hc1. apply Hret, IH.
  - exact (proj1 (Hpre _ _ _ _ _ (H4 os c1 Hc1))).
  - intros os2 st2 c2 Hc2. apply (H2 (fst os :: os2) st2). rewrite crun_pbind, Hc1, crun_pbind, Hc2. reflexivity.
Qed.


Lemma C53_buffer_is_bounded_holds : forall (s : settings) (evs : list event) (cs : list rcall),
  always (fun c => (length (c_buf c) <= 1024)%nat) s evs cs.
Proof.
  intros s evs cs. eapply throughout_weak; [|apply small_throughout; unfold small; cbn; lia].
  intros c Hc. unfold small in Hc. apply Nat.leb_le. apply Nat.leb_le in Hc. exact Hc.
Qed.

Lemma C53_skipping_collects_nothing_holds : forall (s : settings) (evs : list event) (cs1 cs2 : list rcall) (n : nat),
  forallb (fun c => negb (collects s c)) cs2 = true ->
  always (fun c => (collected c <= n)%nat) s evs cs1 ->
  always (fun c => (collected c <= n)%nat) s evs (cs1 ++ cs2).
Proof.
  intros s evs cs1 cs2 n Hc H1. unfold always, session_program in *. set (E := Env s _) in *. apply throughout_app; [exact H1|].
  intros os st1 c1 Hr. eapply ops_collects_nothing.
  - apply (client_calls_ops E (track_path s)); [right; split; [exact Hc|reflexivity]|].
    pose proof (ops_result _ _ _ _ _ _ (client_calls_ops E (track_path s) true cs1 _ (or_introl eq_refl) (untracked_new s)) Hr) as H. exact H.
  - exact (throughout_end _ _ _ _ _ H1 Hr).
Qed.

Lemma C53_collected_bytes_are_one_token_holds : forall (s : settings) (evs : list event) (cs : list rcall), Forall is_byte (fst (supplied evs)) ->
  always (fun c => one_token_has (collected c) (fst (supplied evs))) s evs cs.
Proof.
  intros s evs cs Hb. destruct (session_runs s evs cs Hb) as (os & st & a & Hrun). unfold always.
  eapply throughout_weak; [|eapply mem_sound with (n0 := O) (W := fst (supplied evs)) (g := G LNumber 0 None false)].
  - cbv beta. intros c [H|H]; [|exact H]. exists [], [], (fst (supplied evs)). split; [reflexivity|]. split; [cbn; lia|left; reflexivity].
  - apply client_calls_mem, sinv_new.
  - constructor.
    + exact (rel_live _ _ (rel_new evs) eq_refl).
    + discriminate.
    + exists []. split; [reflexivity|discriminate].
    + reflexivity.
    + left. cbn. lia.
    + discriminate.
  - reflexivity.
  - exact Hrun.
Qed.
