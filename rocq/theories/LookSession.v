(** * Sessions and the byte behind the consumed ones

    Auxiliary. *)

From Verif Require Import Base Utf8Model NumberModel SourceModel SourceProofs ReaderModel LookReader LookFuns LookCalls SpecLook.

Definition sinv (st : session) (K : bool) : Prop := s_phase st = Running ->
  linv (s_state st) K /\ forall sv, s_reader st = Some sv -> sv_linv (s_state st) sv K.

Definition cleared (st : session) (K : bool) : Prop := K = false /\ peeked (s_state st) = None.

Lemma call_keeps {A : Type} (m : M A) val st K : keeps m -> sinv st K -> s_phase st = Running ->
  look (call m val st) K (fun os K' => sinv (snd os) K').
Proof.
  intros H Hi Hp. unfold call. apply look_pbind. eapply look_impl; [apply H, Hi, Hp|].
  intros [[a|e|k|] s'] K' Hx; cbn [look snd]; cbv beta iota in Hx; intros Hr; cbn [s_phase s_state s_reader] in *.
  - split; [exact Hx|discriminate].
  - destruct (recoverable e); [|discriminate]. split; [apply Hx; reflexivity|discriminate].
  - discriminate.
  - discriminate.
Qed.
Lemma call_closes {A : Type} (m : M A) val st K : closes m -> sinv st K -> s_phase st = Running ->
  look (call m val st) K (fun os K' => forall v, fst os = OOk v -> cleared (snd os) K').
Proof.
  intros H Hi Hp. unfold call. apply look_pbind. eapply look_impl; [apply H, Hi, Hp|].
  intros [[a|e|k|] s'] K' Hx; cbn [look fst snd]; cbv beta iota in Hx; intros v [=]. split; apply Hx.
Qed.

Lemma keeps_position b : keeps (fun s => Ret (Ok (current_position b s), s)).
Proof. intros s K Hi. exact Hi. Qed.

Lemma look_true {A : Type} (p : prog A) : forall K (Q : A -> bool -> Prop), (forall x K', Q x K') -> look p K Q.
Proof. induction p; cbn [look]; intros K Q HQ; auto. Qed.

Lemma read_looks E len st K : sinv st K -> s_phase st = Running ->
  look (call_read E len st) K (fun os K' => sinv (snd os) K' /\
    forall bs, fst os = OOk (RBytes bs) -> (length bs < len)%nat -> cleared (snd os) K').
Proof.
  intros Hi Hp. unfold call_read. destruct (s_reader st) as [sv|] eqn:Hr; [|cbn; split; [exact Hi|discriminate]].
  apply look_pbind. eapply look_impl; [apply l_sv_read, (proj2 (Hi Hp)), Hr|].
  intros [[[[bs|e] sv']|e|k|] s'] K' Hx; cbn [look fst snd]; cbv beta iota in Hx;
    (split; [intros Hq; cbn [s_phase s_state s_reader] in *|intros bs' [=]]); try discriminate; destruct Hx as [Hx Hy]; cbn [fst snd] in *.
  - split; [apply linv_none, Hx|]. intros ? [= <-]. exact Hx.
  - subst bs'. intros Hl. split; [exact (Hy bs eq_refl Hl)|apply Hx].
  - split; [apply linv_none, Hx|]. intros ? [= <-]. exact Hx.
Qed.

Lemma string_reader_looks E st K : sinv st K -> s_phase st = Running ->
  look (call_string_reader E st) K (fun os K' => sinv (snd os) K' /\ forall v, fst os = OOk v -> cleared (snd os) K').
Proof.
  intros Hi Hp. unfold call_string_reader. apply look_pbind. eapply look_impl; [apply l_next_string_reader, Hi, Hp|].
  intros [[sv|e|k|] s'] K' Hx; cbn [look fst snd]; cbv beta iota in Hx;
    (split; [intros Hq; cbn [s_phase s_state s_reader] in *|intros v [=]]); try discriminate.
  - destruct Hx as (H1 & H2 & H3). split; [apply linv_none, H1|]. intros ? [= <-]. split; [exact H1|]. congruence.
  - split; apply Hx.
  - destruct (recoverable e); [|discriminate]. split; [apply Hx; reflexivity|discriminate].
Qed.

Lemma client_call_looks E c st K : sinv st K -> look (client_call E c st) K (fun os K' => sinv (snd os) K').
Proof.
  intros Hi. unfold client_call. destruct (s_phase st) eqn:Hp; [|cbn; exact Hi|cbn; exact Hi].
  destruct c; try (apply call_keeps; [|exact Hi|exact Hp]).
  - apply l_peek_keeps.
  - apply l_has_next_keeps.
  - apply closes_keeps, l_begin_array.
  - apply closes_keeps, l_end_array.
  - apply closes_keeps, l_begin_object.
  - apply closes_keeps, l_end_object.
  - apply closes_keeps, l_next_name.
  - apply closes_keeps, l_next_name_owned.
  - apply closes_keeps, l_skip_name.
  - apply closes_keeps, l_next_string.
  - apply closes_keeps, l_next_str.
  - eapply look_impl; [apply string_reader_looks; assumption|]. cbv beta. intros os K' [H _]. exact H.
  - eapply look_impl; [apply read_looks; assumption|]. cbv beta. intros os K' [H _]. exact H.
  - apply takes_keeps, l_number_str.
  - apply takes_keeps, l_number_string.
  - apply takes_keeps, l_next_bool.
  - apply takes_keeps, l_next_null.
  - apply takes_keeps, l_skip_value.
  - apply l_seek_to.
  - apply l_seek_back_keeps.
  - apply l_top_level.
  - apply keeps_position.
  - unfold call_consume. apply look_pbind, look_true. intros os K'. cbn. intros [=].
Qed.

Lemma client_calls_look E : forall cs st K, sinv st K -> look (client_calls E cs st) K (fun os K' => length (fst os) = length cs /\ sinv (snd os) K').
Proof.
  induction cs as [|c cs IH]; intros st K Hi; cbn [client_calls]; [split; [reflexivity|exact Hi]|].
  apply look_pbind. eapply look_impl; [apply client_call_looks; exact Hi|]. cbv beta. intros os K' H.
  apply look_pbind. eapply look_impl; [apply IH; exact H|]. cbv beta. intros osl K2 [H2 H3]. split; [cbn [fst length]; congruence|exact H3].
Qed.

Lemma look_one E c st K Q : look (client_call E c st) K (fun os K' => Q ([fst os], snd os) K') -> look (client_calls E [c] st) K Q.
Proof. intros H. cbn [client_calls]. apply look_pbind. eapply look_impl; [exact H|]. cbv beta. intros os K' Hq. exact Hq. Qed.

Lemma stays_stopped E c st K (Q : outcome * session -> bool -> Prop) : s_phase st <> Running -> (forall o, (forall v, o <> OOk v) -> Q (o, st) K) -> look (client_call E c st) K Q.
Proof. intros Hp HQ. unfold client_call. destruct (s_phase st); [congruence|..]; apply HQ; discriminate. Qed.

Lemma skip_delimited_looks E st K p t : sinv st K -> s_phase st = Running -> peeked (s_state st) = Some p -> type_of p = Some t -> delimited t = true ->
  look (client_call E CSkipValue st) K (fun os K' => forall v, fst os = OOk v -> cleared (snd os) K').
Proof.
  intros Hi Hp Hpk Ht Hd. unfold client_call. rewrite Hp. unfold call. apply look_pbind.
  eapply look_impl; [apply (l_skip_delimited E _ _ p t (proj1 (Hi Hp)) Hpk Ht Hd)|].
  intros [[a|e|k|] s'] K' Hx; cbn [look fst snd]; cbv beta iota in Hx; intros v [=]. split; apply Hx.
Qed.

Lemma phase_dec st : s_phase st = Running \/ s_phase st <> Running.
Proof. destruct (s_phase st); auto; right; discriminate. Qed.

(** after a call which consumes a delimited token *)
Lemma ending_looks E ends oends st K : delimited_end ends oends -> sinv st K ->
  look (client_calls E ends st) K (fun os K' => fst os = oends -> cleared (snd os) K').
Proof.
  intros He Hi. destruct He as [c v Hc|len bs Hl|path n v|path v Hne|t v H1 H2 H3].
  - apply look_one. destruct (phase_dec st) as [Hp|Hp]; [|apply stays_stopped; [exact Hp|]; intros o Ho; cbn; intros [= ->]; exfalso; exact (Ho v eq_refl)].
    unfold client_call. rewrite Hp. destruct c; try discriminate Hc;
      try (eapply look_impl; [apply call_closes; [|exact Hi|exact Hp]|cbv beta; cbn [fst snd]; intros os K' Hx [= Ho]; exact (Hx v Ho)]).
    + apply l_begin_array.
    + apply l_end_array.
    + apply l_begin_object.
    + apply l_end_object.
    + apply l_next_name.
    + apply l_next_name_owned.
    + apply l_skip_name.
    + apply l_next_string.
    + apply l_next_str.
    + eapply look_impl; [apply string_reader_looks; assumption|]. cbv beta; cbn [fst snd]. intros os K' [_ Hx] [= Ho]. exact (Hx v Ho).
  - apply look_one. destruct (phase_dec st) as [Hp|Hp]; [|apply stays_stopped; [exact Hp|]; intros o Ho; cbn; intros [= ->]; exfalso; exact (Ho _ eq_refl)].
    unfold client_call. rewrite Hp. eapply look_impl; [apply read_looks; assumption|]. cbv beta; cbn [fst snd]. intros os K' [_ Hx] [= Ho]. exact (Hx bs Ho Hl).
  - apply look_one. destruct (phase_dec st) as [Hp|Hp]; [|apply stays_stopped; [exact Hp|]; intros o Ho; cbn; intros [= ->]; exfalso; exact (Ho _ eq_refl)].
    unfold client_call. rewrite Hp. eapply look_impl; [apply call_closes; [apply l_seek_to_name|exact Hi|exact Hp]|].
    cbv beta; cbn [fst snd]. intros os K' Hx [= Ho]. exact (Hx v Ho).
  - apply look_one. destruct (phase_dec st) as [Hp|Hp]; [|apply stays_stopped; [exact Hp|]; intros o Ho; cbn; intros [= ->]; exfalso; exact (Ho _ eq_refl)].
    unfold client_call. rewrite Hp. eapply look_impl; [apply call_closes; [apply l_seek_back; exact Hne|exact Hi|exact Hp]|].
    cbv beta; cbn [fst snd]. intros os K' Hx [= Ho]. exact (Hx v Ho).
  - cbn [client_calls]. apply look_pbind. destruct (phase_dec st) as [Hp|Hp].
    2: { apply stays_stopped; [exact Hp|]. intros o Ho. cbn [fst snd]. apply look_pbind, look_true. intros os K'. cbn [look fst]. intros [= Hx _]. exfalso. exact (Ho _ Hx). }
    unfold client_call at 1. rewrite Hp. unfold call. apply look_pbind. eapply look_impl; [apply l_peek, Hi, Hp|].
    intros [[t'|e|k|] s'] K' Hx; cbn [look fst snd]; cbv beta iota in Hx; try (apply look_pbind, look_true; intros os K2; cbn [look fst]; intros [=]; fail).
    destruct Hx as (Hl & p & Hpk & Ht & _). destruct (delimited t') eqn:Hd.
    + apply look_pbind, look_pbind. eapply look_impl; [apply (skip_delimited_looks E _ _ p t'); [|reflexivity|exact Hpk|exact Ht|exact Hd]|].
      * intros _. split; [exact Hl|discriminate].
      * cbv beta. intros os K2 Hc. cbn [look fst snd]. intros [= _ Ho]. exact (Hc v Ho).
    + apply look_pbind, look_true. intros os K2. cbn [look fst]. intros [= -> _]. exfalso. destruct t; try discriminate Hd; auto.
Qed.

Lemma sinv_new s : sinv (session_new s) false.
Proof. intros _. split; [apply linv_false|discriminate]. Qed.

Lemma look_app E cs1 cs2 : forall st K Q, look (client_calls E cs1 st) K (fun os K1 => look (client_calls E cs2 (snd os)) K1
  (fun os2 K2 => Q (fst os ++ fst os2, snd os2) K2)) -> look (client_calls E (cs1 ++ cs2) st) K Q.
Proof.
  induction cs1 as [|c cs1 IH]; intros st K Q H; cbn [client_calls app] in *.
  - cbn [look fst snd app] in H. eapply look_impl; [exact H|]. intros [os st'] K' Hq. exact Hq.
  - apply look_pbind. pose proof (look_unbind _ _ _ _ H) as H1. eapply look_impl; [exact H1|]. cbv beta. intros os K1 H2.
    apply look_pbind. apply IH. pose proof (look_unbind _ _ _ _ H2) as H3. eapply look_impl; [exact H3|]. cbv beta. intros os2 K2 H4. cbn [look fst snd] in H4.
    eapply look_impl; [exact H4|]. cbv beta. intros os3 K3 H5. exact H5.
Qed.

Lemma session_looks E cs ends oends s : delimited_end ends oends ->
  look (client_calls E (cs ++ ends) (session_new s)) false (fun os K' => forall os1, length os1 = length cs -> fst os = os1 ++ oends -> cleared (snd os) K').
Proof.
  intros He. apply look_app. eapply look_impl; [apply client_calls_look, sinv_new|]. cbv beta. intros os K1 [Hl Hi].
  eapply look_impl; [apply (ending_looks E ends oends _ _ He Hi)|]. cbv beta. intros os2 K2 H os1 H1 H2. cbn [fst snd] in *. apply H.
  assert (Hs : length (fst os) = length os1) by congruence. clear - H2 Hs. revert Hs H2. generalize (fst os). intros l. revert os1.
  induction l as [|x l IH]; intros [|y os1]; cbn; try discriminate; [auto|]. intros [= Hs] [= _ H2]. eauto.
Qed.
