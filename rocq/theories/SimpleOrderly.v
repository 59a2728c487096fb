(** * Proofs: the simple reader does not panic if its rules are followed *)

From Verif Require Import Base Utf8Model SourceModel ReaderModel ReaderFits SpecUsage ClientUsage SimpleModel SpecOrderly DeOrderly.
From Verif Require DeModel DeSafe.

Local Ltac splits := repeat match goal with |- _ /\ _ => split end.

(** [nf]: there is no error of a closure *)
Definition good_after {A : Type} (nf : bool) (Q : A -> option usage -> Prop) (Qq : A -> Prop)
  (x : sres A * option kept_error) (u' : option usage) : Prop :=
  match x with
  | (SPanic _, _) => False
  | (SOk a, None) => Q a u'
  | (SOk a, Some _) => Qq a
  | (SErr _, None) => nf = false
  | _ => True
  end.
Definition ok {A : Type} (s : settings) (nf : bool) (u : option usage) (m : simple A) (Q : A -> option usage -> Prop) (Qq : A -> Prop) : Prop :=
  forall e, uses s (m None) u e (good_after nf Q Qq).

(** After an error of the reader *)
Definition good_quiet {A : Type} (Qq : A -> Prop) (x : sres A * option kept_error) (u' : option usage) : Prop :=
  match x with
  | (SPanic _, _) => False
  | (_, None) => False
  | (SOk a, Some _) => Qq a
  | _ => True
  end.
Definition quiet {A : Type} (s : settings) (m : simple A) (Qq : A -> Prop) : Prop :=
  forall er w e, uses s (m (Some er)) w e (good_quiet Qq).

Definition yes {A : Type} (a : A) : Prop := True.
Definition no {A : Type} (a : A) : Prop := False.

Lemma quiet_good A nf (Q : A -> option usage -> Prop) Qq x u' : good_quiet Qq x u' -> good_after nf Q Qq x u'.
Proof. destruct x as [[a|e|k| |] [er|]]; cbn; auto; contradiction. Qed.

Lemma ok_bind A B s nf u (m : simple A) (f : A -> simple B) Q Qq R Rq :
  ok s nf u m Q Qq -> (forall a u', Q a u' -> ok s nf u' (f a) R Rq) -> (forall a, Qq a -> quiet s (f a) Rq) -> ok s nf u (sbind m f) R Rq.
Proof.
  intros Hm Hf Hq e. unfold sbind. apply uses_cbind. eapply uses_weaken; [|apply Hm].
  intros [[a|er|k| |] [e'|]] u' H; cbn in H; cbn [uses]; try exact H; try contradiction.
  - eapply uses_weaken; [|apply (Hq a H)]. intros x w. apply quiet_good.
  - exact (Hf a u' H false).
Qed.
Lemma quiet_bind A B s (m : simple A) (f : A -> simple B) Qq Rq :
  quiet s m Qq -> (forall a, Qq a -> quiet s (f a) Rq) -> quiet s (sbind m f) Rq.
Proof.
  intros Hm Hf er w e. unfold sbind. apply uses_cbind. eapply uses_weaken; [|apply Hm].
  intros [[a|er'|k| |] [e'|]] u' H; cbn in H; cbn [uses]; try exact H; try contradiction. apply (Hf a H).
Qed.
Lemma ok_impl A s nf nf' u (m : simple A) (Q R : A -> option usage -> Prop) (Qq Rq : A -> Prop) : ok s nf u m Q Qq ->
  (nf' = true -> nf = true) -> (forall a u', Q a u' -> R a u') -> (forall a, Qq a -> Rq a) -> ok s nf' u m R Rq.
Proof.
  intros H Hn HQ Hq e. eapply uses_weaken; [|apply H]. intros [[a|er|k| |] [e'|]] u' Hg; cbn in *; auto.
  destruct nf'; [|reflexivity]. rewrite (Hn eq_refl) in Hg. discriminate.
Qed.
Lemma quiet_impl A s (m : simple A) (Qq Rq : A -> Prop) : quiet s m Qq -> (forall a, Qq a -> Rq a) -> quiet s m Rq.
Proof. intros H Hq er w e. eapply uses_weaken; [|apply H]. intros [[a|er'|k| |] [e'|]] u' Hg; cbn in *; auto. Qed.

Lemma ok_ret A s nf u (a : A) (Q : A -> option usage -> Prop) Qq : Q a u -> ok s nf u (sret a) Q Qq.
Proof. intros H e. exact H. Qed.
Lemma quiet_ret A s (a : A) (Qq : A -> Prop) : Qq a -> quiet s (sret a) Qq.
Proof. intros H er w e. exact H. Qed.
Lemma ok_invalid A s nf u (Q : A -> option usage -> Prop) Qq : ok s nf u sinvalid Q Qq.
Proof. intros e. exact I. Qed.
Lemma quiet_invalid A s (Qq : A -> Prop) : quiet s sinvalid Qq.
Proof. intros er w e. exact I. Qed.
Lemma ok_fuel A s nf u (Q : A -> option usage -> Prop) Qq : ok s nf u sfuel Q Qq.
Proof. intros e. exact I. Qed.
Lemma quiet_fuel A s (Qq : A -> Prop) : quiet s sfuel Qq.
Proof. intros er w e. exact I. Qed.
Lemma ok_fail A s u er (Q : A -> option usage -> Prop) Qq : ok s false u (sfail er) Q Qq.
Proof. intros e. reflexivity. Qed.
Lemma quiet_fail A s er (Qq : A -> Prop) : quiet s (sfail er) Qq.
Proof. intros e' w e. exact I. Qed.

Lemma ok_capture A s nf nf' u (m : simple A) Q Qq : ok s nf u m Q Qq ->
  ok s nf' u (capture m) (fun x u' => match x with inr a => Q a u' | inl _ => nf = false end) (fun x => match x with inr a => Qq a | inl _ => True end).
Proof.
  intros H e. unfold capture. apply uses_cbind. eapply uses_weaken; [|apply H].
  intros [[a|er|k| |] [e'|]] u' Hg; cbn in *; auto.
Qed.
Lemma quiet_capture A s (m : simple A) Qq : quiet s m Qq -> quiet s (capture m) (fun x => match x with inr a => Qq a | inl _ => True end).
Proof.
  intros H er w e. unfold capture. apply uses_cbind. eapply uses_weaken; [|apply H].
  intros [[a|er'|k| |] [e'|]] u' Hg; cbn in *; auto.
Qed.

Lemma ok_result A s nf u (r : simple_error + A) (Q : A -> option usage -> Prop) Qq :
  match r with inr a => Q a u | inl _ => nf = false end -> ok s nf u (of_result r) Q Qq.
Proof. destruct r; cbn; [intros ->; apply ok_fail|apply ok_ret]. Qed.
Lemma quiet_result A s (r : simple_error + A) : quiet s (of_result r) yes.
Proof. destruct r; cbn; [apply quiet_fail|apply quiet_ret; exact I]. Qed.

(** *** Calls *)

Lemma ok_delegate s nf u c w : allowed s u c = true -> simple_effect c = true -> usage_after c (OOk RUnit) u = Some w ->
  ok s nf (Some u) (delegate c) (fun v u' => fits c (OOk v) /\ u' = Some w) no.
Proof.
  intros Ha Hc E e. unfold delegate. cbn [uses]. split; [exact Ha|]. intros o (H1 & H2 & _).
  destruct o as [v|er|er|k| | |]; cbn [uses good_after]; auto.
  - split; [exact H1|]. destruct c; try exact E; discriminate.
  - cbn in H1. destruct H1 as (n & ->). discriminate.
  - exact (H2 k eq_refl).
Qed.
Lemma quiet_delegate s c : quiet s (delegate c) no.
Proof. intros er w e. exact I. Qed.

Lemma ok_unit s nf u c w : allowed s u c = true -> simple_effect c = true -> usage_after c (OOk RUnit) u = Some w ->
  ok s nf (Some u) (d_unit c) (fun _ u' => u' = Some w) no.
Proof. intros H1 H2 H3. unfold d_unit. eapply ok_bind; [apply (ok_delegate s nf u c w); auto| |intros a []]. intros v u' [_ ->]. apply ok_ret. reflexivity. Qed.
Lemma ok_has_next s nf u : allowed s u CHasNext = true -> ok s nf (Some u) d_has_next (fun _ u' => u' = Some u) no.
Proof.
  intros H1. unfold d_has_next. eapply ok_bind; [apply (ok_delegate s nf u CHasNext u); auto| |intros a []].
  intros v u' [(b & ->) ->]. apply ok_ret. reflexivity.
Qed.
Lemma ok_peek s nf u : allowed s u CPeek = true -> ok s nf (Some u) d_peek (fun _ u' => u' = Some u) no.
Proof.
  intros H1. unfold d_peek. eapply ok_bind; [apply (ok_delegate s nf u CPeek u); auto| |intros a []].
  intros v u' [(b & ->) ->]. apply ok_ret. reflexivity.
Qed.
Lemma ok_bool s nf u w : allowed s u CNextBool = true -> usage_after CNextBool (OOk RUnit) u = Some w -> ok s nf (Some u) d_bool (fun _ u' => u' = Some w) no.
Proof.
  intros H1 H2. unfold d_bool. eapply ok_bind; [apply (ok_delegate s nf u CNextBool w); auto| |intros a []].
  intros v u' [(b & ->) ->]. apply ok_ret. reflexivity.
Qed.
Lemma ok_str s nf u c w : In c [CNextString; CNextStr; CNextName; CNextNameOwned; CNextNumberString] -> allowed s u c = true ->
  usage_after c (OOk RUnit) u = Some w -> ok s nf (Some u) (d_str c) (fun _ u' => u' = Some w) no.
Proof.
  intros Hc H1 H2. unfold d_str. eapply ok_bind; [apply (ok_delegate s nf u c w); auto| |intros a []].
  - cbn in Hc. intuition subst; reflexivity.
  - intros v u' [Hv ->]. assert (exists t, v = RStr t) as (t & ->).
    { cbn in Hc. intuition subst; destruct Hv as (t & Hv); eauto. exists t. tauto. }
    apply ok_ret. reflexivity.
Qed.
Lemma quiet_unit s c : quiet s (d_unit c) no.
Proof. eapply quiet_bind; [apply quiet_delegate|intros a []]. Qed.
Lemma quiet_has_next s : quiet s d_has_next no.
Proof. eapply quiet_bind; [apply quiet_delegate|intros a []]. Qed.
Lemma quiet_peek s : quiet s d_peek no.
Proof. eapply quiet_bind; [apply quiet_delegate|intros a []]. Qed.
Lemma quiet_bool s : quiet s d_bool no.
Proof. eapply quiet_bind; [apply quiet_delegate|intros a []]. Qed.
Lemma quiet_str s c : quiet s (d_str c) no.
Proof. eapply quiet_bind; [apply quiet_delegate|intros a []]. Qed.

Lemma ok_position s nf u : ok s nf (Some u) d_position (fun _ u' => u' = Some u) yes.
Proof.
  intros e. cbn [d_position uses]. split; [reflexivity|]. intros o (_ & _ & _ & Ho & _). destruct (Ho true eq_refl) as (p & ->). reflexivity.
Qed.
Lemma quiet_position s : quiet s d_position yes.
Proof.
  intros er w e. cbn [d_position uses]. destruct w as [u|].
  - split; [reflexivity|]. intros o _. destruct o as [[]| | | | | |]; exact I.
  - split; [eauto|]. intros o. destruct o as [[]| | | | | |]; exact I.
Qed.

Lemma ok_deserialize s nf (R S : Type) (C : DeModel.code R S) steps seed o b : orderly_code C seed -> value_allowed s (vu o b) = true ->
  ok s nf (Some (vu o b)) (d_deserialize C steps seed) (fun _ u' => u' = Some (fin o b)) yes.
Proof.
  intros [HC (seeds & visitors & elements & members & HO & Hs)] Ha e. unfold d_deserialize, DeModel.deserialize_next.
  apply uses_cbind, uses_cbind. eapply uses_weaken; [|apply (dok_bind _ _ s (vu o b) DeModel.use_peek (fun _ => DeModel.run_seed C 128 steps seed) _ (fun _ v => v = fin o b) (dok_peek s _ Ha))].
  - intros [x d] u' [_ H]. cbn [fst snd] in *. cbn [uses]. destruct x as [[er|a]|k| |]; cbn; auto. destruct H as (v & -> & ->). reflexivity.
  - intros t v ->. apply (all_orderly R S s 128 C seeds visitors elements members HC HO steps); assumption.
Qed.
Lemma quiet_deserialize s (R S : Type) (C : DeModel.code R S) steps seed : quiet s (d_deserialize C steps seed) yes.
Proof. intros er w e. exact I. Qed.

(** *** String readers *)

Definition au (o : list stack_value) (b : bool) : usage := Usage o false b true.
Definition in_or_behind (o : list stack_value) (b : bool) (u' : option usage) : Prop := u' = Some (au o b) \/ u' = Some (fin o b).

Lemma ok_string_read s nf o b u len : in_or_behind o b u ->
  ok s nf u (string_read len) (fun bs u' => in_or_behind o b u' /\ (bs = [] -> (0 < len)%nat -> u' = Some (fin o b))) no.
Proof.
  intros Hu e. cbn [string_read uses].
  assert (Hgen : forall v, (v = au o b \/ v = fin o b) -> forall o', possible e (CRead len) o' ->
    uses s match o' with
           | OOk (RBytes bs) => Done (SOk bs, None)
           | OOk _ => Done (SPanic Bug, None)
           | OReadErr e => Done (SErr (SReadError e), Some KIo)
           | OErr _ => Done (SPanic Bug, None)
           | OPanic k => Done (SPanic k, None)
           | OFuel => Done (SFuel, None)
           | ONotPossible | OStopped => Done (SInvalid, None)
           end (usage_after (CRead len) o' v) (ends (CRead len) o' v)
      (good_after nf (fun bs u' => in_or_behind o b u' /\ (bs = [] -> (0 < len)%nat -> u' = Some (fin o b))) no)).
  { intros v Hv o' (H1 & H2 & H3 & _). specialize (H3 len eq_refl).
    destruct o' as [x|er|er|k| | |]; cbn in H3; try contradiction H3; cbn [uses good_after]; auto.
    - destruct H3 as (bs & ->). cbn [uses good_after usage_after]. destruct Hv as [-> | ->]; cbn [u_string au fin andb].
      + destruct (Nat.ltb (length bs) len) eqn:El.
        * split; [right; reflexivity|reflexivity].
        * split; [left; reflexivity|]. intros -> Hl. apply Nat.ltb_ge in El. cbn in El. lia.
      + split; [right; reflexivity|reflexivity].
    - exact (H2 k eq_refl). }
  destruct Hu as [-> | ->]; (split; [reflexivity|]); apply Hgen; auto.
Qed.

Lemma run_string_uses R s nf o b (f : string_body R) : (nf = true -> never_fails_string f) ->
  (forall u e, in_or_behind o b u -> uses s (run_string f None) u e
     (fun x u' => match x with
                  | (SOk r, None) => in_or_behind o b u' /\ match r with inl _ => nf = false | inr _ => True end
                  | (SOk _, Some er) => er = KIo
                  | (SPanic _, _) | (SErr _, _) => False
                  | _ => True
                  end)) /\
  (forall w e, uses s (run_string f (Some KIo)) w e
     (fun x u' => match x with (SOk _, Some er) => er = KIo | _ => False end)).
Proof.
  induction f as [r|len k IH]; intros Hn.
  - split.
    + intros u e Hu. cbn. split; [exact Hu|]. destruct r; [|exact I]. destruct nf; [|reflexivity]. destruct (Hn eq_refl). discriminate.
    + intros w e. cbn. reflexivity.
  - assert (IH' : forall x, (forall u e, in_or_behind o b u -> uses s (run_string (k x) None) u e
     (fun x u' => match x with
                  | (SOk r, None) => in_or_behind o b u' /\ match r with inl _ => nf = false | inr _ => True end
                  | (SOk _, Some er) => er = KIo
                  | (SPanic _, _) | (SErr _, _) => False
                  | _ => True
                  end)) /\
      (forall w e, uses s (run_string (k x) (Some KIo)) w e
        (fun x u' => match x with (SOk _, Some er) => er = KIo | _ => False end))).
    { intros x. apply IH. intros Hnf. apply (Hn Hnf). }
    clear IH. split.
    + intros u e Hu. cbn [run_string]. unfold sbind. apply uses_cbind. unfold capture. apply uses_cbind.
      pose proof (ok_string_read s true o b u len Hu e) as H.
      cbn [string_read uses] in *. destruct Hu as [-> | ->]; (destruct H as [H1 H2]; split; [exact H1|]); intros o' Ho'; specialize (H2 o' Ho');
        (destruct o' as [[| | | |bs|]|er|er|kk| | |]; cbn [uses good_after] in *; auto; try contradiction; try discriminate;
         [apply IH'; tauto|eapply uses_weaken; [|apply IH']; intros [[r'|er'|k'| |] [e'|]] u' Hx; cbn in *; auto; contradiction]).
    + intros w e. cbn [run_string]. unfold sbind. apply uses_cbind. unfold capture. apply uses_cbind. cbn. apply IH'.
Qed.

Lemma ok_run_string R s nf o b (f : string_body R) u : (nf = true -> never_fails_string f) -> in_or_behind o b u ->
  ok s true u (run_string f) (fun r u' => in_or_behind o b u' /\ match r with inl _ => nf = false | inr _ => True end) yes.
Proof.
  intros Hn Hu e. eapply uses_weaken; [|apply (run_string_uses R s nf o b f Hn); exact Hu].
  intros [[r|er|k| |] [e'|]] u' Hx; cbn in *; auto; try exact I; contradiction.
Qed.

Lemma ok_drain s nf o b fuel : forall u, in_or_behind o b u -> ok s nf u (drain fuel) (fun _ u' => u' = Some (fin o b)) no.
Proof.
  induction fuel as [|fuel IH]; intros u Hu; [apply ok_fuel|]. cbn [drain].
  eapply ok_bind; [apply (ok_string_read s nf o b u 512 Hu)| |intros a []].
  intros bs u' [H1 H2]. destruct bs as [|x bs]; [|apply IH; exact H1]. apply ok_ret. apply H2; [reflexivity|lia].
Qed.

Lemma ok_string_with_reader R s nf o b fuel (f : string_body R) : (nf = true -> never_fails_string f) -> value_allowed s (vu o b) = true ->
  ok s nf (Some (vu o b)) (read_string_with_reader fuel f) (fun _ u' => u' = Some (fin o b)) yes.
Proof.
  intros Hn Ha. unfold read_string_with_reader.
  eapply ok_bind; [apply (ok_unit s nf (vu o b) CNextStringReader (au o b)); [exact Ha|reflexivity|reflexivity]| |intros a []].
  intros _ u ->. eapply ok_bind; [eapply ok_impl; [apply (ok_run_string R s nf o b f (Some (au o b)) Hn); left; reflexivity|auto|intros a u' H; exact H|intros a H; exact H]| |].
  - intros r u [Hu Hr]. eapply (ok_bind _ _ _ _ _ _ _ (fun _ u' => u' = u) no).
    + eapply ok_impl; [apply (ok_result R s nf u r (fun _ u' => u' = u) no)| | |]; auto. destruct r; [exact Hr|reflexivity].
    + intros a u' ->. eapply (ok_bind _ _ _ _ _ _ _ (fun _ u' => u' = u) no); [intros e; reflexivity| |intros x []].
      intros _ u' ->. eapply ok_bind; [apply (ok_string_read s nf o b u 4 Hu)| |intros x []].
      intros bs u' [H1 H2]. eapply (ok_bind _ _ _ _ _ _ _ (fun _ u' => u' = Some (fin o b)) no); [| |intros x []].
      * destruct bs as [|x bs]; [apply ok_ret; apply H2; [reflexivity|lia]|apply ok_drain; exact H1].
      * intros _ u2 ->. apply ok_ret. reflexivity.
    + intros a [].
  - intros r _. eapply quiet_bind; [apply quiet_result|]. intros a _. eapply (quiet_bind _ _ _ _ _ no); [intros er w e; exact I|intros x []].
Qed.

(** *** The readers of closures *)

Definition hstate (s : settings) (o : list stack_value) (b : bool) (h : handle) (u : usage) : Prop :=
  match h_kind h with
  | KArray => (exists o1, o = SArray :: o1) /\ u = vu o b
  | KSingle =>
    value_allowed s (vu o b) = true /\ u = (if consumed_value h then fin o b else vu o b) /\
    (consumed_value h = true -> moved h = true)
  | KMember =>
    exists o1, o = SObject :: o1 /\
      u = (if consumed_value h then nu o1 b else if consumed_name h then vu o b else nu o1 b) /\
      (consumed_value h = true -> moved h = true /\ consumed_name h = true)
  end.
Definition hname (name : bool) (h : handle) : Prop :=
  name = true -> h_kind h = KMember -> moved h = false -> consumed_name h = false.
Lemma hname_false h : hname false h.
Proof. intros H. discriminate. Qed.

Definition hpost {A : Type} (s : settings) (nf : bool) (k : reader_kind) (o : list stack_value) (b : bool)
  (hx : handle * (simple_error + A)) (u' : option usage) : Prop :=
  match snd hx with
  | inr _ => h_kind (fst hx) = k /\ exists u1, u' = Some u1 /\ hstate s o b (fst hx) u1
  | inl _ => nf = false
  end.

Lemma ok_captured A s nf nf' u (m : simple A) (h : handle) k o b (Q : A -> option usage -> Prop) Qq : ok s nf u m Q Qq ->
  h_kind h = k -> (forall a u', Q a u' -> exists u1, u' = Some u1 /\ hstate s o b h u1) ->
  ok s nf' u (x <- capture m ;; sret (h, x))%sm (hpost s nf k o b) yes.
Proof.
  intros H Hk HQ. eapply ok_bind; [apply (ok_capture _ _ nf nf' _ _ _ _ H)| |].
  - intros x u' Hx. apply ok_ret. unfold hpost. cbn [fst snd]. destruct x; [exact Hx|]. split; [exact Hk|]. apply (HQ _ _ Hx).
  - intros x _. apply quiet_ret. exact I.
Qed.
Lemma quiet_captured A s (m : simple A) (h : handle) Qq : quiet s m Qq -> quiet s (x <- capture m ;; sret (h, x))%sm yes.
Proof. intros H. eapply quiet_bind; [apply quiet_capture; exact H|]. intros x _. apply quiet_ret. exact I. Qed.

Lemma skip_name_ok s nf o b : ok s nf (Some (nu o b)) (d_unit CSkipName) (fun _ u' => u' = Some (vu (SObject :: o) b)) no.
Proof. apply ok_unit; reflexivity. Qed.
Lemma skip_value_ok s nf o b : value_allowed s (vu o b) = true -> ok s nf (Some (vu o b)) (d_unit CSkipValue) (fun _ u' => u' = Some (fin o b)) no.
Proof. intros H. apply ok_unit; [exact H|reflexivity|reflexivity]. Qed.

Definition reads {A : Type} (s : settings) (nf : bool) (m : simple A) : Prop :=
  forall o b, value_allowed s (vu o b) = true -> ok s nf (Some (vu o b)) m (fun _ u' => u' = Some (fin o b)) yes.

Lemma ok_read_with R s nf nf' o b h u (m : simple (reply R)) : hstate s o b h u -> reads s nf m ->
  ok s nf' (Some u) (read_with h m) (hpost s nf (h_kind h) o b) yes.
Proof.
  intros Hh Hm. unfold read_with. destruct (moved h) eqn:Hmv; [apply ok_invalid|].
  unfold hstate in Hh. destruct h as [k cn cv mv]. cbn [h_kind consumed_name consumed_value moved] in *. subst mv. destruct k.
  - destruct Hh as [(o1 & ->) ->]. eapply ok_captured; [apply Hm; reflexivity|reflexivity|]. intros a u' ->.
    exists (vu (SArray :: o1) b). split; [reflexivity|]. split; [eexists; reflexivity|reflexivity].
  - destruct Hh as (Ha & -> & Hc). destruct cv; [discriminate (Hc eq_refl)|].
    eapply ok_captured; [apply Hm; exact Ha|reflexivity|]. intros a u' ->. exists (fin o b). split; [reflexivity|].
    cbn. auto.
  - destruct Hh as (o1 & -> & -> & Hc). destruct cv; [destruct (Hc eq_refl); discriminate|].
    assert (Hrest : ok s nf' (Some (vu (SObject :: o1) b)) (x <- capture m ;; sret (Handle KMember true true true, x))%sm
                      (hpost s nf KMember (SObject :: o1) b) yes).
    { eapply ok_captured; [apply Hm; reflexivity|reflexivity|]. intros a u' ->. exists (nu o1 b). split; [reflexivity|].
      cbn. exists o1. auto. }
    destruct cn; [exact Hrest|]. eapply ok_bind; [apply (ok_capture _ _ true nf' _ _ _ _ (skip_name_ok s true o1 b))| |].
    + intros [e|x] u' H; [discriminate|]. subst u'. exact Hrest.
    + intros [e|x] H; [|destruct H]. apply quiet_ret. exact I.
Qed.
Lemma quiet_read_with R s h (m : simple (reply R)) : quiet s m yes -> quiet s (read_with h m) yes.
Proof.
  intros Hm. unfold read_with. destruct (moved h); [apply quiet_invalid|]. destruct (h_kind h); try (eapply quiet_captured; exact Hm).
  destruct (consumed_name h); [eapply quiet_captured; exact Hm|].
  eapply quiet_bind; [apply quiet_capture; apply quiet_unit|]. intros [e|x] H; [|destruct H]. apply quiet_ret. exact I.
Qed.

Lemma ok_peek_with s nf' o b h u : hstate s o b h u -> ok s nf' (Some u) (peek_with h) (hpost s true (h_kind h) o b) yes.
Proof.
  intros Hh. unfold peek_with. destruct (moved h) eqn:Hmv; [apply ok_invalid|].
  unfold hstate in Hh. destruct h as [k cn cv mv]. cbn [h_kind consumed_name consumed_value moved] in *. subst mv. destruct k.
  - destruct Hh as [(o1 & ->) ->]. eapply ok_captured; [apply ok_peek; reflexivity|reflexivity|]. intros a u' ->.
    exists (vu (SArray :: o1) b). split; [reflexivity|]. split; [eexists; reflexivity|reflexivity].
  - destruct Hh as (Ha & -> & Hc). destruct cv; [discriminate (Hc eq_refl)|].
    eapply ok_captured; [apply ok_peek; exact Ha|reflexivity|]. intros a u' ->. exists (vu o b). split; [reflexivity|].
    cbn. auto.
  - destruct Hh as (o1 & -> & -> & Hc). destruct cv; [destruct (Hc eq_refl); discriminate|].
    assert (Hrest : ok s nf' (Some (vu (SObject :: o1) b)) (x <- capture d_peek ;; sret (Handle KMember true false false, x))%sm
                      (hpost s true KMember (SObject :: o1) b) yes).
    { eapply ok_captured; [apply ok_peek; reflexivity|reflexivity|]. intros a u' ->. exists (vu (SObject :: o1) b). split; [reflexivity|].
      cbn. exists o1. splits; auto; discriminate. }
    destruct cn; [exact Hrest|]. eapply ok_bind; [apply (ok_capture _ _ true nf' _ _ _ _ (skip_name_ok s true o1 b))| |].
    + intros [e|x] u' H; [discriminate|]. subst u'. exact Hrest.
    + intros [e|x] H; [|destruct H]. apply quiet_ret. exact I.
Qed.
Lemma quiet_peek_with s h : quiet s (peek_with h) yes.
Proof.
  unfold peek_with. destruct (moved h); [apply quiet_invalid|]. destruct (h_kind h); try (eapply quiet_captured; apply quiet_peek).
  destruct (consumed_name h); [eapply quiet_captured; apply quiet_peek|].
  eapply quiet_bind; [apply quiet_capture; apply quiet_unit|]. intros [e|x] H; [|destruct H]. apply quiet_ret. exact I.
Qed.

Lemma ok_read_name_with s nf' o b h u : hname true h -> hstate s o b h u -> ok s nf' (Some u) (read_name_with h) (hpost s true (h_kind h) o b) yes.
Proof.
  intros Hn Hh. unfold read_name_with. destruct (moved h) eqn:Hmv; [apply ok_invalid|].
  unfold hstate in Hh. destruct h as [k cn cv mv]. cbn [h_kind consumed_name consumed_value moved] in *. subst mv. destruct k; try apply ok_invalid.
  specialize (Hn eq_refl eq_refl eq_refl). cbn in Hn. subst cn. destruct Hh as (o1 & -> & -> & Hc).
  destruct cv; [destruct (Hc eq_refl); discriminate|].
  eapply ok_captured; [apply (ok_str s true (nu o1 b) CNextName (vu (SObject :: o1) b)); [cbn; tauto|reflexivity|reflexivity]|reflexivity|].
  intros a u' ->. exists (vu (SObject :: o1) b). split; [reflexivity|]. cbn. exists o1. splits; auto; discriminate.
Qed.
Lemma quiet_read_name_with s h : hname true h -> quiet s (read_name_with h) yes.
Proof.
  intros Hn. unfold read_name_with. destruct (moved h) eqn:Hm; [apply quiet_invalid|]. destruct (h_kind h) eqn:Hk; try apply quiet_invalid.
  rewrite (Hn eq_refl Hk Hm). eapply quiet_captured. apply quiet_str.
Qed.

Lemma ok_has_next_with s nf' o b h u : hstate s o b h u -> ok s nf' (Some u) (has_next_with h) (fun x u' => match x with inl _ => False | inr _ => u' = Some u end) yes.
Proof.
  intros Hh. unfold has_next_with. unfold hstate in Hh. destruct (h_kind h); try apply ok_invalid.
  destruct Hh as [(o1 & ->) ->]. eapply ok_impl; [apply (ok_capture _ _ true nf' _ _ _ _ (ok_has_next s true (vu (SArray :: o1) b) eq_refl))| | |]; auto.
  - intros [e|x] u' H; [discriminate|exact H].
  - intros x _. exact I.
Qed.
Lemma quiet_has_next_with s h : quiet s (has_next_with h) yes.
Proof.
  unfold has_next_with. destruct (h_kind h); try apply quiet_invalid. eapply quiet_impl; [apply quiet_capture; apply quiet_has_next|]. intros x _. exact I.
Qed.

(** *** Loops *)

Definition clos {R : Type} (s : settings) (nf : bool) (f : closure R) (h : handle) : Prop :=
  (forall o b u, hstate s o b h u -> ok s nf (Some u) (f h) (hpost s nf (h_kind h) o b) yes) /\ quiet s (f h) yes.

Lemma hresult A s nf k o b (hx : handle * (simple_error + A)) u : hpost s nf k o b hx u ->
  ok s nf u (of_result (snd hx)) (fun _ u' => u' = u /\ h_kind (fst hx) = k /\ exists u1, u = Some u1 /\ hstate s o b (fst hx) u1) no.
Proof. intros H. apply ok_result. unfold hpost in H. destruct (snd hx); [exact H|]. auto. Qed.

Lemma read_value_ok R s nf (f : closure R) : clos s nf f single_reader -> reads s nf (read_value f).
Proof.
  intros [Hf Hq] o b Ha. unfold read_value. eapply ok_bind; [apply (Hf o b (vu o b)); cbn; splits; auto; discriminate| |].
  - intros hx u Hx. eapply ok_bind; [apply (hresult _ _ _ _ _ _ _ _ Hx)| |intros a []].
    intros r u' (-> & Hk & u1 & -> & Hs). unfold hstate in Hs. rewrite Hk in Hs. cbn in Hs. destruct Hs as (_ & -> & _).
    eapply (ok_bind _ _ _ _ _ _ _ (fun _ u' => u' = Some (fin o b)) no); [| |intros a []].
    + destruct (consumed_value (fst hx)); [apply ok_ret; reflexivity|apply skip_value_ok; exact Ha].
    + intros _ u' ->. apply ok_ret. reflexivity.
  - intros hx _. eapply quiet_bind; [apply quiet_result|]. intros r _. eapply (quiet_bind _ _ _ _ _ yes).
    + destruct (consumed_value (fst hx)); [apply quiet_ret; exact I|eapply quiet_impl; [apply quiet_unit|intros a []]].
    + intros _ _. apply quiet_ret. exact I.
Qed.
Lemma quiet_read_value R s (f : closure R) : quiet s (f single_reader) yes -> quiet s (read_value f) yes.
Proof.
  intros Hq. unfold read_value. eapply quiet_bind; [exact Hq|].
  intros hx _. eapply quiet_bind; [apply quiet_result|]. intros r _. eapply (quiet_bind _ _ _ _ _ yes).
  + destruct (consumed_value (fst hx)); [apply quiet_ret; exact I|eapply quiet_impl; [apply quiet_unit|intros a []]].
  + intros _ _. apply quiet_ret. exact I.
Qed.

Lemma quiet_items R s fuel (f : R -> closure R) r : quiet s (items_loop fuel f r) yes.
Proof. destruct fuel; [apply quiet_fuel|]. cbn [items_loop]. eapply quiet_bind; [apply quiet_has_next|intros a []]. Qed.
Lemma items_ok R s nf fuel (f : R -> closure R) o b : (forall r, clos s nf (f r) single_reader) ->
  forall r, ok s nf (Some (vu (SArray :: o) b)) (items_loop fuel f r) (fun _ u' => u' = Some (vu (SArray :: o) b)) yes.
Proof.
  intros Hf. induction fuel as [|fuel IH]; intros r; [apply ok_fuel|]. cbn [items_loop].
  eapply ok_bind; [apply ok_has_next; reflexivity| |intros a []]. intros x u ->. destruct x; [|apply ok_ret; reflexivity].
  eapply ok_bind; [apply (read_value_ok R s nf (f r) (Hf r)); reflexivity| |].
  - intros r' u ->. apply IH.
  - intros r' _. apply quiet_items.
Qed.
Lemma quiet_members R s fuel (f : R -> closure R) r : quiet s (members_loop fuel f r) yes.
Proof. destruct fuel; [apply quiet_fuel|]. cbn [members_loop]. eapply quiet_bind; [apply quiet_has_next|intros a []]. Qed.
Lemma members_ok R s nf fuel (f : R -> closure R) o b : (forall r, clos s nf (f r) member_reader) ->
  forall r, ok s nf (Some (nu o b)) (members_loop fuel f r) (fun _ u' => u' = Some (nu o b)) yes.
Proof.
  intros Hf. induction fuel as [|fuel IH]; intros r; [apply ok_fuel|]. cbn [members_loop].
  eapply ok_bind; [apply ok_has_next; reflexivity| |intros a []]. intros x u ->. destruct x; [|apply ok_ret; reflexivity].
  eapply ok_bind; [apply (Hf r); cbn; exists o; splits; [reflexivity|reflexivity|discriminate]| |].
  - intros hx u Hx. eapply ok_bind; [apply (hresult _ _ _ _ _ _ _ _ Hx)| |intros a []].
    intros r' u' (-> & Hk & u1 & -> & Hs). unfold hstate in Hs. rewrite Hk in Hs. cbn in Hs. destruct Hs as (o1 & Ho & -> & Hc).
    injection Ho as <-.
    eapply (ok_bind _ _ _ _ _ _ _ (fun _ u' => u' = Some (if consumed_value (fst hx) then nu o b else vu (SObject :: o) b)) no); [| |intros a []].
    + destruct (consumed_value (fst hx)) eqn:Hv.
      * destruct (Hc eq_refl) as [_ ->]. apply ok_ret. reflexivity.
      * destruct (consumed_name (fst hx)); [apply ok_ret; reflexivity|apply skip_name_ok].
    + intros _ u' ->. eapply (ok_bind _ _ _ _ _ _ _ (fun _ u' => u' = Some (nu o b)) no); [| |intros a []].
      * destruct (consumed_value (fst hx)); [apply ok_ret; reflexivity|]. apply (skip_value_ok s nf (SObject :: o) b). reflexivity.
      * intros _ u' ->. apply IH.
  - intros hx _. eapply quiet_bind; [apply quiet_result|]. intros r' _. eapply (quiet_bind _ _ _ _ _ yes).
    + destruct (consumed_name (fst hx)); [apply quiet_ret; exact I|eapply quiet_impl; [apply quiet_unit|intros a []]].
    + intros _ _. eapply (quiet_bind _ _ _ _ _ yes).
      * destruct (consumed_value (fst hx)); [apply quiet_ret; exact I|eapply quiet_impl; [apply quiet_unit|intros a []]].
      * intros _ _. apply quiet_members.
Qed.
Lemma quiet_members_owned R s fuel (f : str -> R -> closure R) r : quiet s (members_owned_loop fuel f r) yes.
Proof. destruct fuel; [apply quiet_fuel|]. cbn [members_owned_loop]. eapply quiet_bind; [apply quiet_has_next|intros a []]. Qed.
Lemma members_owned_ok R s nf fuel (f : str -> R -> closure R) o b : (forall n r, clos s nf (f n r) single_reader) ->
  forall r, ok s nf (Some (nu o b)) (members_owned_loop fuel f r) (fun _ u' => u' = Some (nu o b)) yes.
Proof.
  intros Hf. induction fuel as [|fuel IH]; intros r; [apply ok_fuel|]. cbn [members_owned_loop].
  eapply ok_bind; [apply ok_has_next; reflexivity| |intros a []]. intros x u ->. destruct x; [|apply ok_ret; reflexivity].
  eapply ok_bind; [apply (ok_str s nf (nu o b) CNextNameOwned (vu (SObject :: o) b)); [cbn; tauto|reflexivity|reflexivity]| |intros a []].
  intros name u ->.
  eapply ok_bind; [apply (read_value_ok R s nf (f name r) (Hf name r)); reflexivity| |].
  - intros r' u ->. apply IH.
  - intros r' _. apply quiet_members_owned.
Qed.
Lemma quiet_all_members R s fuel (f : R -> closure R) r : quiet s (all_members_loop fuel f r) yes.
Proof. destruct fuel; [apply quiet_fuel|]. cbn [all_members_loop]. eapply quiet_bind; [apply quiet_has_next|intros a []]. Qed.
Lemma all_members_ok R s nf fuel (f : R -> closure R) o b : (forall r, clos s nf (f r) single_reader) ->
  forall r, ok s nf (Some (nu o b)) (all_members_loop fuel f r) (fun _ u' => u' = Some (nu o b)) yes.
Proof.
  intros Hf. induction fuel as [|fuel IH]; intros r; [apply ok_fuel|]. cbn [all_members_loop].
  eapply ok_bind; [apply ok_has_next; reflexivity| |intros a []]. intros x u ->. destruct x; [|apply ok_ret; reflexivity].
  eapply ok_bind; [apply skip_name_ok| |intros a []]. intros _ u ->.
  eapply ok_bind; [apply (read_value_ok R s nf (f r) (Hf r)); reflexivity| |].
  - intros r' u ->. apply IH.
  - intros r' _. apply quiet_all_members.
Qed.

(** *** Arrays and paths *)

Lemma read_array_ok R s nf (f : simple (simple_error + R)) :
  (forall o b, ok s nf (Some (vu (SArray :: o) b)) f (fun x u' => match x with inr _ => u' = Some (vu (SArray :: o) b) | inl _ => nf = false end) yes) ->
  reads s nf (read_array f).
Proof.
  intros Hf o b Ha. unfold read_array.
  eapply ok_bind; [apply (ok_unit s nf (vu o b) CBeginArray (vu (SArray :: o) b)); [exact Ha|reflexivity|reflexivity]| |intros a []].
  intros _ u ->. eapply ok_bind; [apply Hf| |].
  - intros x u Hx. eapply (ok_bind _ _ _ _ _ _ _ (fun _ u' => u' = Some (vu (SArray :: o) b)) no); [| |intros a []].
    + apply ok_result. destruct x; exact Hx.
    + intros r u' ->. eapply ok_bind; [apply (ok_unit s nf (vu (SArray :: o) b) CEndArray (fin o b)); reflexivity| |intros a []].
      intros _ u' ->. apply ok_ret. reflexivity.
  - intros x _. eapply quiet_bind; [apply quiet_result|]. intros r _. eapply quiet_bind; [apply quiet_unit|intros a []].
Qed.
Lemma quiet_read_array R s (f : simple (simple_error + R)) : quiet s (read_array f) yes.
Proof. eapply quiet_bind; [apply quiet_unit|intros a []]. Qed.

Lemma innermost_app l o : innermost l (l ++ o) = true.
Proof. induction l as [|[] l IH]; cbn; auto. Qed.
Lemma path_allowed s ps o b : value_allowed s (vu o b) = true -> value_allowed s (vu (rev (map kind ps) ++ o) b) = true.
Proof. intros H. destruct (rev (map kind ps)) as [|x l]; [exact H|apply inner_allowed]. Qed.
Lemma seek_to_ok s nf ps o b : value_allowed s (vu o b) = true ->
  ok s nf (Some (vu o b)) (d_unit (CSeekTo ps)) (fun _ u' => u' = Some (vu (rev (map kind ps) ++ o) b)) no.
Proof. intros H. apply ok_unit; [exact H|reflexivity|]. destruct ps; reflexivity. Qed.
Lemma seek_back_ok s nf ps o b :
  ok s nf (Some (fin (rev (map kind ps) ++ o) b)) (d_unit (CSeekBack ps)) (fun _ u' => u' = Some (fin o b)) no.
Proof.
  apply ok_unit; [|reflexivity|].
  - destruct ps as [|p ps]; [reflexivity|]. cbn [allowed]. cbn [fin u_string u_name u_open negb andb]. rewrite eqb_reflx. apply innermost_app.
  - destruct ps as [|p ps]; [reflexivity|]. cbn [usage_after]. f_equal. unfold value_done. cbn [fin u_open u_some].
    assert (E : skipn (length (p :: ps)) (rev (map kind (p :: ps)) ++ o) = o).
    { replace (length (p :: ps)) with (length (rev (map kind (p :: ps)))) by (rewrite rev_length, map_length; reflexivity).
      rewrite skipn_app, skipn_all, Nat.sub_diag. reflexivity. }
    rewrite E. unfold fin. f_equal. destruct o; [reflexivity|]. destruct (rev (map kind (p :: ps)) ++ s0 :: o) eqn:E'; [|reflexivity].
    apply app_eq_nil in E'. destruct E'. discriminate.
Qed.

Lemma read_seeked_ok R s nf ps (f : closure R) : clos s nf f single_reader -> reads s nf (read_seeked ps f).
Proof.
  intros Hf o b Ha. unfold read_seeked. eapply ok_bind; [apply seek_to_ok; exact Ha| |intros a []].
  intros _ u ->. eapply ok_bind; [apply (read_value_ok R s nf f Hf); apply path_allowed; exact Ha| |].
  - intros r u ->. eapply ok_bind; [apply seek_back_ok| |intros a []]. intros _ u ->. apply ok_ret. reflexivity.
  - intros r _. eapply quiet_bind; [apply quiet_unit|intros a []].
Qed.

(** *** Paths with several matches *)

Definition inner (p : partial_path) : list stack_value :=
  match p with PPath ps => rev (map kind ps) | PAllItems _ => [SArray] | POptional _ | PAllMembers _ => [SObject] end.
Lemma inner_value_allowed s p o b : value_allowed s (vu o b) = true -> value_allowed s (vu (inner p ++ o) b) = true.
Proof. intros H. destruct p; try reflexivity. apply path_allowed. exact H. Qed.

Lemma ok_check_items s nf o b : ok s nf (Some (vu (SArray :: o) b)) (b <- d_has_next ;; if negb b then expect_err d_peek else sret tt)%sm
  (fun _ u' => u' = Some (vu (SArray :: o) b)) no.
Proof.
  intros e. unfold sbind, d_has_next, delegate, expect_err, capture, sbind. cbn [cbind uses]. split; [reflexivity|].
  intros x (H1 & H2 & _). destruct x as [v|er|er|k| | |]; cbn [cbind uses good_after]; auto; try exact (H2 _ eq_refl).
  2: { cbn in H1. destruct H1 as (n & H1). discriminate. }
  destruct H1 as (t & ->). cbn. destruct t; cbn; [reflexivity|]. split; [reflexivity|].
  intros y (G1 & G2 & _ & _ & G5). destruct y as [v|er|er|k| | |]; cbn; auto.
  - exfalso. exact (G5 eq_refl (or_introl eq_refl) v eq_refl).
  - cbn in G1. destruct G1 as (n & G1). discriminate.
  - exact (G2 _ eq_refl).
Qed.
Lemma ok_check_members s nf o b : ok s nf (Some (nu o b)) (b <- d_has_next ;; if negb b then expect_err (d_unit CSkipName) else sret tt)%sm
  (fun _ u' => u' = Some (nu o b)) no.
Proof.
  intros e. unfold sbind, d_has_next, d_unit, delegate, expect_err, capture, sbind. cbn [cbind uses]. split; [reflexivity|].
  intros x (H1 & H2 & _). destruct x as [v|er|er|k| | |]; cbn [cbind uses good_after]; auto; try exact (H2 _ eq_refl).
  2: { cbn in H1. destruct H1 as (n & H1). discriminate. }
  destruct H1 as (t & ->). cbn. destruct t; cbn; [reflexivity|]. split; [reflexivity|].
  intros y (G1 & G2 & _ & _ & G5). destruct y as [v|er|er|k| | |]; cbn; auto.
  - exfalso. exact (G5 eq_refl (or_intror eq_refl) v eq_refl).
  - cbn in G1. destruct G1 as (n & G1). discriminate.
  - exact (G2 _ eq_refl).
Qed.

Lemma find_ok s nf n o b fuel : ok s nf (Some (nu o b)) (find_loop fuel n)
  (fun x u' => u' = Some (if x : bool then vu (SObject :: o) b else nu o b)) no.
Proof.
  induction fuel as [|fuel IH]; [apply ok_fuel|]. cbn [find_loop].
  eapply ok_bind; [apply ok_has_next; reflexivity| |intros a []]. intros x u ->. destruct x; [|apply ok_ret; reflexivity].
  eapply ok_bind; [apply (ok_str s nf (nu o b) CNextName (vu (SObject :: o) b)); [cbn; tauto|reflexivity|reflexivity]| |intros a []].
  intros m u ->. destruct (list_eq_dec N.eq_dec m n); [apply ok_ret; reflexivity|].
  eapply ok_bind; [apply (skip_value_ok s nf (SObject :: o) b); reflexivity| |intros a []]. intros _ u ->. exact IH.
Qed.
Lemma skip_members_ok s nf o b fuel : ok s nf (Some (nu o b)) (skip_members_loop fuel) (fun _ u' => u' = Some (nu o b)) no.
Proof.
  induction fuel as [|fuel IH]; [apply ok_fuel|]. cbn [skip_members_loop].
  eapply ok_bind; [apply ok_has_next; reflexivity| |intros a []]. intros x u ->. destruct x; [|apply ok_ret; reflexivity].
  eapply ok_bind; [apply skip_name_ok| |intros a []]. intros _ u ->.
  eapply ok_bind; [apply (skip_value_ok s nf (SObject :: o) b); reflexivity| |intros a []]. intros _ u ->. exact IH.
Qed.

Definition stepped (p : partial_path) (index : nat) (o : list stack_value) (b : bool) (x : bool * nat) (u' : option usage) : Prop :=
  (x = (true, S index) /\ u' = Some (vu (inner p ++ o) b)) \/ (x = (false, index) /\ u' = Some (fin o b)).
Lemma multi_step_ok s nf fuel p (down : bool) index o b : value_allowed s (vu o b) = true ->
  ok s nf (Some (if down then vu o b else fin (inner p ++ o) b)) (multi_step fuel p down index) (stepped p index o b) no.
Proof.
  intros Ha.
  assert (EA : ok s nf (Some (vu (SArray :: o) b)) (d_unit CEndArray) (fun _ u' => u' = Some (fin o b)) no) by (apply ok_unit; reflexivity).
  assert (EO : ok s nf (Some (nu o b)) (d_unit CEndObject) (fun _ u' => u' = Some (fin o b)) no) by (apply ok_unit; reflexivity).
  assert (BA : ok s nf (Some (vu o b)) (d_unit CBeginArray) (fun _ u' => u' = Some (vu (SArray :: o) b)) no) by (apply ok_unit; [exact Ha|reflexivity|reflexivity]).
  assert (BO : ok s nf (Some (vu o b)) (d_unit CBeginObject) (fun _ u' => u' = Some (nu o b)) no) by (apply ok_unit; [exact Ha|reflexivity|reflexivity]).
  destruct p as [ps|ae|n|ae]; cbn [multi_step inner].
  - destruct down.
    + eapply ok_bind; [apply seek_to_ok; exact Ha| |intros a []]. intros _ u ->. apply ok_ret. left. split; reflexivity.
    + eapply ok_bind; [apply seek_back_ok| |intros a []]. intros _ u ->. apply ok_ret. right. split; reflexivity.
  - eapply (ok_bind _ _ _ _ _ _ _ (fun _ u' => u' = Some (vu (SArray :: o) b)) no); [| |intros a []].
    + destruct down; [|apply ok_ret; reflexivity]. eapply ok_bind; [exact BA| |intros a []]. intros _ u ->.
      destruct ae; cbn [negb]; [apply ok_ret; reflexivity|apply ok_check_items].
    + intros _ u ->. eapply ok_bind; [apply ok_has_next; reflexivity| |intros a []]. intros x u ->.
      destruct x; [apply ok_ret; left; split; reflexivity|].
      eapply ok_bind; [exact EA| |intros a []]. intros _ u ->. apply ok_ret. right. split; reflexivity.
  - destruct down.
    + eapply ok_bind; [exact BO| |intros a []]. intros _ u ->. eapply ok_bind; [apply find_ok| |intros a []].
      intros x u ->. destruct x; [apply ok_ret; left; split; reflexivity|].
      eapply ok_bind; [exact EO| |intros a []]. intros _ u ->. apply ok_ret. right. split; reflexivity.
    + eapply ok_bind; [apply (skip_members_ok s nf o b)| |intros a []]. intros _ u ->.
      eapply ok_bind; [exact EO| |intros a []]. intros _ u ->. apply ok_ret. right. split; reflexivity.
  - eapply (ok_bind _ _ _ _ _ _ _ (fun _ u' => u' = Some (nu o b)) no); [| |intros a []].
    + destruct down; [|apply ok_ret; reflexivity]. eapply ok_bind; [exact BO| |intros a []]. intros _ u ->.
      destruct ae; cbn [negb]; [apply ok_ret; reflexivity|apply ok_check_members].
    + intros _ u ->. eapply ok_bind; [apply ok_has_next; reflexivity| |intros a []]. intros x u ->.
      destruct x.
      * eapply ok_bind; [apply skip_name_ok| |intros a []]. intros _ u ->. apply ok_ret. left. split; reflexivity.
      * eapply ok_bind; [exact EO| |intros a []]. intros _ u ->. apply ok_ret. right. split; reflexivity.
Qed.
Lemma quiet_multi_step s fuel p down index : quiet s (multi_step fuel p down index) no.
Proof.
  assert (D : forall A c (f : unit -> simple A), quiet s (sbind (d_unit c) f) no) by (intros A c f; eapply quiet_bind; [apply quiet_unit|intros a []]).
  assert (HN : forall A (f : bool -> simple A), quiet s (sbind d_has_next f) no) by (intros A f; eapply quiet_bind; [apply quiet_has_next|intros a []]).
  destruct p as [ps|ae|n|ae]; cbn [multi_step].
  - destruct down; apply D.
  - eapply (quiet_bind _ _ _ _ _ yes); [|intros _ _; apply HN]. destruct down; [|apply quiet_ret; exact I].
    eapply quiet_impl; [apply D|intros a []].
  - destruct down; [apply D|]. eapply (quiet_bind _ _ _ _ _ no); [|intros a []]. destruct fuel; [apply quiet_fuel|apply HN].
  - eapply (quiet_bind _ _ _ _ _ yes); [|intros _ _; apply HN]. destruct down; [|apply quiet_ret; exact I].
    eapply quiet_impl; [apply D|intros a []].
Qed.

Lemma multi_found_ok R s nf fuel p (f : R -> closure R) r o b : (forall r, clos s nf (f r) single_reader) -> value_allowed s (vu o b) = true ->
  ok s nf (Some (vu (inner p ++ o) b)) (multi_found fuel p f r) (fun _ u' => u' = Some (fin (inner p ++ o) b)) yes.
Proof.
  intros Hf Ha. unfold multi_found. eapply ok_bind; [apply (read_value_ok R s nf (f r) (Hf r)); apply inner_value_allowed; exact Ha| |].
  - intros r1 u ->. destruct p; try (apply ok_ret; reflexivity).
    + apply (items_ok R s nf fuel f o b Hf).
    + apply (all_members_ok R s nf fuel f o b Hf).
  - intros r1 _. destruct p; try (apply quiet_ret; exact I); [apply quiet_items|apply quiet_all_members].
Qed.

Fixpoint opens (ps : list partial_path) (o : list stack_value) : list stack_value :=
  match ps with [] => o | p :: ps' => opens ps' (inner p ++ o) end.
Lemma opens_app p1 p2 o : opens (p1 ++ p2) o = opens p2 (opens p1 o).
Proof. revert o. induction p1 as [|p p1 IH]; intros o; cbn; auto. Qed.
Lemma opens_allowed s ps b : forall o, value_allowed s (vu o b) = true -> value_allowed s (vu (opens ps o) b) = true.
Proof. induction ps as [|p ps IH]; intros o H; cbn; auto. apply IH, inner_value_allowed, H. Qed.
Lemma firstn_next A (l : list A) i a : nth_error l i = Some a -> firstn (S i) l = firstn i l ++ [a].
Proof. revert i. induction l as [|x l IH]; intros [|i] H; cbn in *; try discriminate; [injection H as ->; reflexivity|]. f_equal. apply IH, H. Qed.
Lemma open_next path i p o : nth_error path i = Some p -> opens (firstn (S i) path) o = inner p ++ opens (firstn i path) o.
Proof. intros H. rewrite (firstn_next _ _ _ _ H), opens_app. reflexivity. Qed.

Lemma quiet_multi_loop R s fuel loop_fuel path (f : R -> closure R) down index hm r : (index < length path)%nat ->
  quiet s (multi_loop fuel loop_fuel path f down index hm r) yes.
Proof.
  intros Hi. destruct fuel; [apply quiet_fuel|]. cbn [multi_loop].
  destruct (nth_error path index) eqn:E; [|apply nth_error_None in E; lia].
  eapply quiet_bind; [apply quiet_multi_step|intros a []].
Qed.

Lemma multi_loop_ok R s nf loop_fuel path (f : R -> closure R) o b : (forall r, clos s nf (f r) single_reader) -> value_allowed s (vu o b) = true ->
  forall fuel (down : bool) index hm r, (index < length path)%nat ->
  ok s nf (Some (if down then vu (opens (firstn index path) o) b else fin (opens (firstn (S index) path) o) b))
    (multi_loop fuel loop_fuel path f down index hm r) (fun _ u' => u' = Some (fin o b)) yes.
Proof.
  intros Hf Ha. induction fuel as [|fuel IH]; intros down index hm r Hi; [apply ok_fuel|]. cbn [multi_loop].
  destruct (nth_error path index) as [p|] eqn:E; [|apply nth_error_None in E; lia].
  rewrite (open_next path index p o E).
  assert (Hal : value_allowed s (vu (opens (firstn index path) o) b) = true) by (apply opens_allowed; exact Ha).
  eapply ok_bind; [apply multi_step_ok; exact Hal| |intros a []].
  assert (Hend : forall i hm' r', (i <= length path)%nat ->
    ok s nf (Some (fin (opens (firstn i path) o) b))
      match i with O => sret (r', hm') | S index' => multi_loop fuel loop_fuel path f false index' hm' r' end
      (fun _ u' => u' = Some (fin o b)) yes).
  { intros [|i] hm' r' Hl; [apply ok_ret; reflexivity|]. apply (IH false i hm' r'). lia. }
  intros x u [[-> ->]|[-> ->]]; cbn [fst snd andb].
  - destruct (Nat.leb (length path) (S index)) eqn:El.
    + replace (S index - 1)%nat with index by lia. rewrite E.
      eapply (ok_bind _ _ _ _ _ _ _ (fun t u' => fst (fst t) = false /\ u' = Some (fin (opens (firstn (S index) path) o) b)) (fun t => fst (fst t) = false)).
      * eapply ok_bind; [apply (multi_found_ok R s nf loop_fuel p f r _ b Hf Hal)| |].
        -- intros r' u ->. apply ok_ret. split; [reflexivity|]. rewrite (open_next path index p o E). reflexivity.
        -- intros r' _. apply quiet_ret. reflexivity.
      * intros [[d hm'] r'] u' [Hd ->]. cbn in Hd. subst d. apply (Hend (S index) hm' r'). lia.
      * intros [[d hm'] r'] Hd. cbn in Hd. subst d. apply quiet_multi_loop. exact Hi.
    + apply Nat.leb_gt in El. eapply (ok_bind _ _ _ _ _ _ _ (fun t u' => t = (true, hm, r) /\ u' = Some (vu (inner p ++ opens (firstn index path) o) b)) no); [apply ok_ret; auto| |intros a []].
      intros t u' [-> ->]. rewrite <- (open_next path index p o E). apply (IH true (S index) hm r). exact El.
  - eapply (ok_bind _ _ _ _ _ _ _ (fun t u' => t = (false, hm, r) /\ u' = Some (fin (opens (firstn index path) o) b)) no); [apply ok_ret; auto| |intros a []].
    intros t u' [-> ->]. apply (Hend index hm r). lia.
Qed.

Lemma convert_some path : forall section, path <> [] \/ section <> None -> convert_path section path <> [].
Proof.
  induction path as [|p path IH]; intros section H.
  - cbn. destruct section; [discriminate|]. destruct H; congruence.
  - destruct p; cbn [convert_path]; try (apply IH; right; discriminate); intros E; apply app_eq_nil in E; destruct E; discriminate.
Qed.

Lemma convert_length m path : (0 < length (convert_path None (m :: path)))%nat.
Proof.
  assert (H : m :: path <> []) by discriminate. pose proof (convert_some (m :: path) None (or_introl H)) as H'.
  destruct (convert_path None (m :: path)) as [|p ps]; [contradiction H'; reflexivity|]. cbn [length]. lia.
Qed.

Lemma read_multi_ok R s nf fuel path alo (f : R -> closure R) r : (forall r, clos s nf (f r) single_reader) ->
  reads s nf (read_seeked_multi fuel path alo f r).
Proof.
  intros Hf o b Ha. unfold read_seeked_multi. destruct path as [|m path]; [apply (read_value_ok R s nf (f r) (Hf r)); exact Ha|].
  pose proof (convert_length m path) as Hl.
  eapply (ok_bind _ _ _ _ _ _ _ (fun _ u' => u' = Some (vu o b)) yes).
  - destruct alo; [apply ok_position|apply ok_ret; reflexivity].
  - intros loc u ->. eapply ok_bind; [apply (multi_loop_ok R s nf fuel _ f o b Hf Ha fuel true 0 false r Hl)| |].
    + intros rm u ->. destruct (alo && negb (snd rm)); [intros e; exact I|apply ok_ret; reflexivity].
    + intros rm _. destruct (alo && negb (snd rm)); [intros er w e; exact I|apply quiet_ret; exact I].
  - intros loc _. eapply quiet_bind; [apply quiet_multi_loop; exact Hl|].
    intros rm _. destruct (alo && negb (snd rm)); [intros er w e; exact I|apply quiet_ret; exact I].
Qed.
Lemma quiet_read_multi R s fuel path alo (f : R -> closure R) r : quiet s (f r single_reader) yes ->
  quiet s (read_seeked_multi fuel path alo f r) yes.
Proof.
  intros Hf. unfold read_seeked_multi. destruct path as [|m path]; [apply quiet_read_value; exact Hf|].
  pose proof (convert_length m path) as Hl.
  eapply (quiet_bind _ _ _ _ _ yes).
  - destruct alo; [apply quiet_position|apply quiet_ret; exact I].
  - intros loc _. eapply quiet_bind; [apply quiet_multi_loop; exact Hl|].
    intros rm _. destruct (alo && negb (snd rm)); [intros er w e; exact I|apply quiet_ret; exact I].
Qed.

(** *** Methods and closures *)

Lemma reads_result R s nf (m : simple R) : reads s nf m -> reads s nf (as_result m).
Proof.
  intros H o b Ha. eapply ok_bind; [apply (H o b Ha)| |].
  - intros r u ->. apply ok_ret. reflexivity.
  - intros r _. apply quiet_ret. exact I.
Qed.
Lemma quiet_as_result R s (m : simple R) Qq : quiet s m Qq -> quiet s (as_result m) yes.
Proof. intros H. eapply quiet_bind; [exact H|]. intros r _. apply quiet_ret. exact I. Qed.

Scheme op_ind2 := Induction for op Sort Prop
  with body_ind2 := Induction for body Sort Prop.

Definition op_good {R : Type} (s : settings) (fuel : nat) (o : op R) : Prop :=
  orderly_op o -> (forall nf : bool, (nf = true -> never_fails_op o) -> reads s nf (run_op fuel o)) /\ quiet s (run_op fuel o) yes.
Definition body_good {R : Type} (s : settings) (fuel : nat) (c : body R) : Prop :=
  forall name, orderly_body name c -> forall h, hname name h ->
  (forall (nf nf' : bool) o b u, (nf = true -> never_fails_body c) -> hstate s o b h u -> ok s nf' (Some u) (run_body fuel c h) (hpost s nf (h_kind h) o b) yes) /\
  quiet s (run_body fuel c h) yes.

Lemma body_clos R s fuel nf (c : body R) h : body_good s fuel c -> orderly_body true c -> (nf = true -> never_fails_body c) ->
  hname true h -> clos s nf (fun h => run_body fuel c h) h.
Proof. intros H Ho Hn Hh. destruct (H true Ho h Hh) as [H1 H2]. split; [|exact H2]. intros o b u Hs. apply H1; assumption. Qed.

Lemma hname_single : hname true single_reader. Proof. intros _ H. discriminate. Qed.
Lemma hname_array : hname true array_reader. Proof. intros _ H. discriminate. Qed.
Lemma hname_member : hname true member_reader. Proof. intros _ _ _. reflexivity. Qed.

Lemma all_good R s fuel : forall o : op R, op_good s fuel o.
Proof.
  assert (BO : forall nf o b, value_allowed s (vu o b) = true -> ok s nf (Some (vu o b)) (d_unit CBeginObject) (fun _ u' => u' = Some (nu o b)) no)
    by (intros nf o b Ha; apply ok_unit; [exact Ha|reflexivity|reflexivity]).
  assert (EO : forall nf o b, ok s nf (Some (nu o b)) (d_unit CEndObject) (fun _ u' => u' = Some (fin o b)) no) by (intros nf o b; apply ok_unit; reflexivity).
  assert (D : forall A c (f : unit -> simple A), quiet s (sbind (d_unit c) f) no) by (intros A c f; eapply quiet_bind; [apply quiet_unit|intros a []]).
  assert (DY : forall A c (f : unit -> simple A), quiet s (sbind (d_unit c) f) yes) by (intros A c f; eapply quiet_impl; [apply D|intros a []]).
  apply (op_ind2 R (op_good s fuel) (body_good s fuel)).
  - intros _. split; [|apply DY]. intros nf _ o b Ha. cbn [run_op].
    eapply ok_bind; [apply (ok_unit s nf (vu o b) CNextNull (fin o b)); [exact Ha|reflexivity|reflexivity]| |intros a []]. intros _ u ->. apply ok_ret. reflexivity.
  - intros _. split; [|eapply quiet_bind; [apply quiet_bool|intros a []]]. intros nf _ o b Ha. cbn [run_op].
    eapply ok_bind; [apply (ok_bool s nf (vu o b) (fin o b)); [exact Ha|reflexivity]| |intros a []]. intros x u ->. apply ok_ret. reflexivity.
  - intros _. split; [|eapply quiet_bind; [apply quiet_str|intros a []]]. intros nf _ o b Ha. cbn [run_op].
    eapply ok_bind; [apply (ok_str s nf (vu o b) CNextString (fin o b)); [cbn; tauto|exact Ha|reflexivity]| |intros a []]. intros x u ->. apply ok_ret. reflexivity.
  - intros _. split; [|eapply quiet_bind; [apply quiet_str|intros a []]]. intros nf _ o b Ha. cbn [run_op].
    eapply ok_bind; [apply (ok_str s nf (vu o b) CNextNumberString (fin o b)); [cbn; tauto|exact Ha|reflexivity]| |intros a []]. intros x u ->. apply ok_ret. reflexivity.
  - intros _. split; [|apply DY]. intros nf _ o b Ha. cbn [run_op].
    eapply ok_bind; [apply skip_value_ok; exact Ha| |intros a []]. intros _ u ->. apply ok_ret. reflexivity.
  - intros f _. split; [|eapply quiet_bind; [apply quiet_str|intros a []]]. intros nf Hn o b Ha. cbn [run_op].
    eapply ok_bind; [apply (ok_str s nf (vu o b) CNextStr (fin o b)); [cbn; tauto|exact Ha|reflexivity]| |intros a []]. intros x u ->.
    eapply ok_bind; [apply (ok_result R s nf _ (f x) (fun _ u' => u' = Some (fin o b)) no)| |intros a []].
    + destruct (f x) eqn:E; [|reflexivity]. destruct nf; [|reflexivity]. destruct (Hn eq_refl x). congruence.
    + intros r u ->. apply ok_ret. reflexivity.
  - intros f _. split; [|apply (quiet_as_result R s _ no); apply D]. intros nf Hn. cbn [run_op]. apply reads_result.
    intros o b Ha. apply ok_string_with_reader; [exact Hn|exact Ha].
  - intros f IH Ho. split; [|apply (quiet_as_result R s _ no); apply D]. intros nf Hn. cbn [run_op]. apply reads_result, read_array_ok.
    intros o b. destruct (IH true Ho array_reader hname_array) as [H1 _].
    eapply ok_bind; [apply (H1 nf nf (SArray :: o) b (vu (SArray :: o) b) Hn); split; [eexists; reflexivity|reflexivity]| |intros hx _; apply quiet_ret; exact I].
    intros hx u Hx. apply ok_ret. unfold hpost in Hx. destruct (snd hx); [exact Hx|]. destruct Hx as (Hk & u1 & -> & Hs).
    unfold hstate in Hs. rewrite Hk in Hs. cbn in Hs. destruct Hs as [_ ->]. reflexivity.
  - intros f IH r Ho. split; [|apply (quiet_as_result R s _ no); apply D]. intros nf Hn. cbn [run_op]. apply reads_result, read_array_ok.
    intros o b. eapply ok_impl; [apply (ok_capture _ _ nf nf _ _ _ _ (items_ok R s nf fuel (fun r' h => run_body fuel (f r') h) o b ltac:(intros r'; apply body_clos; [apply IH|apply Ho|intros E; apply (Hn E)|apply hname_single]) r))| | |]; auto.
    intros a _. exact I.
  - intros f IH r Ho. split; [|apply (quiet_as_result R s _ no); apply D]. intros nf Hn. cbn [run_op]. apply reads_result.
    intros o b Ha. eapply ok_bind; [apply BO; exact Ha| |intros a []]. intros _ u ->.
    eapply ok_bind; [apply (members_ok R s nf fuel (fun r' h => run_body fuel (f r') h) o b); intros r'; apply body_clos; [apply IH|apply Ho|intros E; apply (Hn E)|apply hname_member]| |].
    + intros r' u ->. eapply ok_bind; [apply EO| |intros a []]. intros _ u ->. apply ok_ret. reflexivity.
    + intros r' _. apply DY.
  - intros f IH r Ho. split; [|apply (quiet_as_result R s _ no); apply D]. intros nf Hn. cbn [run_op]. apply reads_result.
    intros o b Ha. eapply ok_bind; [apply BO; exact Ha| |intros a []]. intros _ u ->.
    eapply ok_bind; [apply (members_owned_ok R s nf fuel (fun n r' h => run_body fuel (f n r') h) o b); intros n r'; apply body_clos; [apply IH|apply Ho|intros E; apply (Hn E)|apply hname_single]| |].
    + intros r' u ->. eapply ok_bind; [apply EO| |intros a []]. intros _ u ->. apply ok_ret. reflexivity.
    + intros r' _. apply DY.
  - intros path f IH Ho. split; [|apply (quiet_as_result R s _ no); apply D]. intros nf Hn. cbn [run_op]. apply reads_result, read_seeked_ok.
    apply body_clos; [exact IH|exact Ho|exact Hn|apply hname_single].
  - intros path alo f IH r Ho. split.
    + intros nf Hn. cbn [run_op]. apply reads_result, read_multi_ok. intros r'. apply body_clos; [apply IH|apply Ho|intros E; apply (Hn E)|apply hname_single].
    + apply (quiet_as_result R s _ yes). apply quiet_read_multi. apply (IH r true (Ho r) single_reader hname_single).
  - intros S C steps seed Ho. split.
    + intros nf _. cbn [run_op]. apply reads_result. intros o b Ha. apply ok_deserialize; assumption.
    + apply (quiet_as_result R s _ yes). apply quiet_deserialize.
  - intros r name _ h _. split.
    + intros nf nf' o b u Hn Hs. cbn [run_body]. apply ok_ret. unfold hpost. cbn [fst snd]. destruct r as [e|r].
      * destruct nf; [|reflexivity]. destruct (Hn eq_refl). discriminate.
      * eauto.
    + apply quiet_ret. exact I.
  - intros k IH name Ho h Hh. split.
    + intros nf nf' o b u Hn Hs. cbn [run_body]. eapply ok_bind; [apply ok_peek_with; exact Hs| |].
      * intros hx u' Hx. unfold hpost in Hx. destruct (snd hx); [discriminate|]. destruct Hx as (<- & u1 & -> & Hs').
        apply (IH _ false (Ho _) (fst hx) (hname_false _)); [intros E; apply (Hn E)|exact Hs'].
      * intros hx _. apply (IH _ false (Ho _) (fst hx) (hname_false _)).
    + cbn [run_body]. eapply quiet_bind; [apply quiet_peek_with|]. intros hx _. apply (IH _ false (Ho _) (fst hx) (hname_false _)).
  - intros k IH name Ho h Hh. split.
    + intros nf nf' o b u Hn Hs. cbn [run_body]. eapply ok_bind; [apply (ok_has_next_with s nf' o b h u Hs)| |].
      * intros x u' Hx. destruct x; [contradiction|]. subst u'. apply (IH _ name (Ho _) h Hh); [intros E; apply (Hn E)|exact Hs].
      * intros x _. apply (IH _ name (Ho _) h Hh).
    + cbn [run_body]. eapply quiet_bind; [apply quiet_has_next_with|]. intros x _. apply (IH _ name (Ho _) h Hh).
  - intros k IH name [-> Ho] h Hh. split.
    + intros nf nf' o b u Hn Hs. cbn [run_body]. eapply ok_bind; [apply ok_read_name_with; [exact Hh|exact Hs]| |].
      * intros hx u' Hx. unfold hpost in Hx. destruct (snd hx); [discriminate|]. destruct Hx as (<- & u1 & -> & Hs').
        apply (IH _ false (Ho _) (fst hx) (hname_false _)); [intros E; apply (Hn E)|exact Hs'].
      * intros hx _. apply (IH _ false (Ho _) (fst hx) (hname_false _)).
    + cbn [run_body]. eapply quiet_bind; [apply quiet_read_name_with; exact Hh|]. intros hx _. apply (IH _ false (Ho _) (fst hx) (hname_false _)).
  - intros o IHo k IH name (Ho & Hk & Hor) h Hh. destruct (IHo Ho) as [H1 H2]. split.
    + intros nf nf' o0 b u Hn Hs. cbn [run_body].
      assert (exists nf1 : bool, (nf1 = true -> never_fails_op o) /\ (nf1 = false -> forall e, ends_with_error (k (inl e)))) as (nf1 & Hn1 & Hn2).
      { destruct Hor as [H|H]; [exists true|exists false]; split; intros; auto; discriminate. }
      eapply ok_bind; [apply (ok_read_with R s nf1 nf' o0 b h u _ Hs (H1 nf1 Hn1))| |].
      * intros hx u' Hx. unfold hpost in Hx. destruct (snd hx) as [e|x] eqn:Ex.
        -- destruct (Hn2 Hx e) as (e' & Ek). rewrite Ek. cbn [run_body]. apply ok_ret. unfold hpost. cbn [snd].
           destruct nf; [|reflexivity]. pose proof (Hn eq_refl) as Hf. cbn in Hf. specialize (Hf (inl e)). rewrite Ek in Hf. destruct Hf. discriminate.
        -- destruct Hx as (<- & u1 & -> & Hs'). apply (IH _ false (Hk _) (fst hx) (hname_false _)); [intros E; apply (Hn E)|exact Hs'].
      * intros hx _. apply (IH _ false (Hk _) (fst hx) (hname_false _)).
    + cbn [run_body]. eapply quiet_bind; [apply quiet_read_with; exact H2|]. intros hx _. apply (IH _ false (Hk _) (fst hx) (hname_false _)).
Qed.

(** *** The use of a [SimpleJsonReader] *)

Lemma ok_consume s b : ok s false (Some (fin [] b)) d_consume (fun _ _ => True) yes.
Proof.
  intros e. cbn [d_consume uses]. split; [reflexivity|]. intros o (H1 & H2 & _).
  destruct o as [v|er|er|k| | |]; cbn [uses good_after]; auto; try exact I; try reflexivity.
  - cbn in H1. destruct H1 as (n & H1). discriminate.
  - exact (H2 k eq_refl).
Qed.
Lemma quiet_consume s : quiet s d_consume yes.
Proof. intros er w e. cbn. exact I. Qed.

Lemma finish_ok s (seeked : bool) o b : (seeked = false -> o = []) -> ok s false (Some (fin o b)) (finish seeked) (fun _ _ => True) yes.
Proof.
  intros Ho. unfold finish. eapply (ok_bind _ _ _ _ _ _ _ (fun _ u' => u' = Some (fin [] b)) no); [| |intros a []].
  - destruct seeked; [|rewrite (Ho eq_refl); apply ok_ret; reflexivity].
    apply ok_unit; [reflexivity|reflexivity|]. destruct o; reflexivity.
  - intros _ u ->. apply ok_consume.
Qed.
Lemma quiet_finish s seeked : quiet s (finish seeked) yes.
Proof.
  unfold finish. eapply (quiet_bind _ _ _ _ _ yes); [|intros _ _; apply quiet_consume].
  destruct seeked; [eapply quiet_impl; [apply quiet_unit|intros a []]|apply quiet_ret; exact I].
Qed.

Lemma use_good R s fuel (w : use R) : orderly_use w -> forall seeked,
  (forall o b, (seeked = false -> o = []) -> value_allowed s (vu o b) = true ->
     ok s false (Some (vu o b)) (run_use fuel w seeked) (fun _ _ => True) yes) /\
  quiet s (run_use fuel w seeked) yes.
Proof.
  induction w as [k IH|path k IH|o]; intros Ho seeked.
  - pose proof (fun x => IH x (Ho x) seeked) as IH'. clear IH. split.
    + intros o b Hs Ha. cbn [run_use]. eapply ok_bind; [apply (ok_capture _ _ true false _ _ _ _ (ok_peek s true (vu o b) Ha))| |].
      * intros [e|x] u H; [discriminate|]. subst u. apply IH'; assumption.
      * intros x _. apply IH'.
    + cbn [run_use]. eapply quiet_bind; [apply quiet_capture; apply quiet_peek|]. intros x _. apply IH'.
  - pose proof (fun x => IH x (Ho x) true) as IH'. clear IH. split.
    + intros o b Hs Ha. cbn [run_use]. eapply ok_bind; [apply (ok_capture _ _ true false _ _ _ _ (seek_to_ok s true path o b Ha))| |].
      * intros [e|x] u H; [discriminate|]. subst u. apply IH'; [discriminate|apply path_allowed; exact Ha].
      * intros x _. apply IH'.
    + cbn [run_use]. eapply quiet_bind; [apply quiet_capture; apply quiet_unit|]. intros x _. apply IH'.
  - destruct (all_good R s fuel o Ho) as [H1 H2]. split.
    + intros o' b Hs Ha. cbn [run_use]. eapply ok_bind; [apply (H1 false ltac:(discriminate) o' b Ha)| |].
      * intros x u ->. eapply ok_bind; [apply finish_ok; exact Hs| |].
        -- intros _ u _. apply ok_ret. exact I.
        -- intros _ _. apply quiet_ret. exact I.
      * intros x _. eapply quiet_bind; [apply quiet_finish|]. intros _ _. apply quiet_ret. exact I.
    + cbn [run_use]. eapply quiet_bind; [exact H2|]. intros x _. eapply quiet_bind; [apply quiet_finish|]. intros _ _. apply quiet_ret. exact I.
Qed.

Lemma simple_uses R s fuel (w : use R) : orderly_use w ->
  uses s (simple_client fuel w) (Some usage_start) false (fun r _ => forall k, r <> SPanic k).
Proof.
  intros Ho. unfold simple_client. apply uses_cbind. eapply uses_weaken; [|apply (proj1 (use_good R s fuel w Ho false) [] false); [reflexivity|reflexivity]].
  intros [[a|e|k| |] [er|]] u' H; cbn in *; try contradiction; intros k' E; discriminate.
Qed.

Lemma simple_never_panics R s fuel evs (w : use R) : Forall is_byte (fst (supplied evs)) -> orderly_use w ->
  forall k, simple_session fuel s evs w <> SPanic k.
Proof.
  intros Hb Ho k. destruct (DeSafe.session_total _ s evs (simple_client fuel w) Hb) as (a & Hs).
  destruct (uses_session _ s evs _ a _ Hb (simple_uses R s fuel w Ho) Hs) as (u' & H).
  unfold DeModel.client_session in Hs. unfold simple_session.
  destruct (crun _ _) as [[[r x] y]|]; [|discriminate]. injection Hs as ->. apply H.
Qed.
