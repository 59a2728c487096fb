(** * Proofs of the property theorems about correct usage *)

From Verif Require Import Base Utf8Model SourceModel ReaderModel ReaderMid ReaderSess ReaderSafe SpecUsage UsageRun UsageStep.


Lemma C59_correct_usage_never_panics_holds : forall (s : settings) (evs : list event) (cs : list rcall),
  Forall is_byte (fst (supplied evs)) -> correct_usage s cs (read_session s evs cs) usage_start ->
  forall o k, In o (read_session s evs cs) -> o <> OPanic k.
Proof.
  intros s evs cs Hb Hc. destruct (session_agree s evs cs (session_no_bug s evs cs Hb)) as (os & st & a & _ & Ho & Hm). rewrite Ho in *.
  eapply (correct_no_panic (Env s (enough_fuel (fst (supplied evs)))) (fst (supplied evs))); [cbn; unfold enough_fuel; lia| | |exact Hm|exact Hc].
  - cbn. split; [apply inv_start; exact Hb|exact I].
  - apply urel_start.
Qed.

Lemma C59_allowed_call_does_not_panic_holds : forall (s : settings) (evs : list event) (cs : list rcall) (c : rcall) (os : list outcome) (o : outcome) (u : usage),
  Forall is_byte (fst (supplied evs)) -> read_session s evs (cs ++ [c]) = os ++ [o] ->
  usage_of cs os usage_start = Some u -> allowed s u c = true ->
  forall k, o <> OPanic k.
Proof.
  intros s evs cs c os o u Hb Hr Hu Ha. destruct (last_call s evs cs c os o u Hb Hr Hu) as (d' & H & _). exact (H Ha).
Qed.

Lemma C59_incorrect_usage_panics_holds : forall (s : settings) (evs : list event) (cs : list rcall) (c : rcall) (os : list outcome) (o : outcome) (u : usage),
  Forall is_byte (fst (supplied evs)) -> read_session s evs (cs ++ [c]) = os ++ [o] ->
  usage_of cs os usage_start = Some u -> allowed s u c = false ->
  o = OPanic Misuse \/ (exists path e, c = CSeekBack path /\ o = OErr e).
Proof.
  intros s evs cs c os o u Hb Hr Hu Ha. destruct (last_call s evs cs c os o u Hb Hr Hu) as (d' & _ & H & _). exact (H Ha).
Qed.
