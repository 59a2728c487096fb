(** * Proofs: programs which use a reader correctly, on arbitrary input *)

From Verif Require Import Base Utf8Model NumberModel SourceModel ReaderModel ReaderScan ReaderLex ReaderLexStr ReaderMid
  ReaderSess ReaderSafe ReaderAgree ReaderFits SpecUsage UsageRun UsageStep.
From Verif Require Import ClientModel.
From Verif Require SpecSimple DeModel DeSafe.

Local Ltac splits := repeat match goal with |- _ /\ _ => split end.

(** What is known about the outcome of a call.  [ended]: the call before was
    [has_next], and there is nothing more in the array or object. *)
Definition possible (ended : bool) (c : rcall) (o : outcome) : Prop :=
  fits c o /\ (forall k, o <> OPanic k) /\
  (forall n, c = CRead n -> match o with OOk v => exists bs, v = RBytes bs | OErr _ => False | _ => True end) /\
  (forall b, c = CPosition b -> exists p, o = OOk (RPos p)) /\
  (ended = true -> c = CPeek \/ c = CSkipName -> forall v, o <> OOk v).

Definition ends (c : rcall) (o : outcome) (u : usage) : bool :=
  match c, o with
  | CHasNext, OOk (RBool false) => match u_open u with [] => false | _ => true end
  | _, _ => false
  end.

(** Every call of the program is allowed when it is made; without knowledge about
    the reader there are only calls of [current_position].  At the end [Q] holds. *)
Fixpoint uses {A : Type} (s : settings) (m : client A) (u : option usage) (ended : bool) (Q : A -> option usage -> Prop) : Prop :=
  match m with
  | Done a => Q a u
  | Call c k =>
    match u with
    | Some u =>
      allowed s u c = true /\
      forall o, possible ended c o -> uses s (k o) (usage_after c o u) (ends c o u) Q
    | None => (exists b, c = CPosition b) /\ forall o, uses s (k o) None false Q
    end
  end.

Lemma uses_weaken A s (m : client A) : forall u e (Q R : A -> option usage -> Prop),
  (forall a u', Q a u' -> R a u') -> uses s m u e Q -> uses s m u e R.
Proof.
  induction m as [a|c k IH]; intros u e Q R HQ H; cbn [uses] in *; [auto|].
  destruct u as [u|]; destruct H as [H1 H2]; (split; [exact H1|]); intros o; [intros Ho|]; eapply IH; eauto.
Qed.

Lemma uses_ended A s (m : client A) u e Q : uses s m u false Q -> uses s m u e Q.
Proof.
  destruct m as [a|c k]; cbn [uses]; [auto|]. destruct u as [u|]; [|auto]. intros [H1 H2]. split; [exact H1|].
  intros o (G1 & G2 & G3 & G4 & G5). apply H2. unfold possible. splits; auto. discriminate.
Qed.

Lemma uses_cbind A B s (m : client A) (f : A -> client B) : forall u e Q,
  uses s m u e (fun a u' => uses s (f a) u' false Q) -> uses s (cbind m f) u e Q.
Proof.
  induction m as [a|c k IH]; intros u e Q H; cbn [uses cbind] in *; [apply uses_ended, H|].
  destruct u as [u|]; destruct H as [H1 H2]; (split; [exact H1|]); intros o; [intros Ho|]; apply IH; auto.
Qed.

(** ** Runs *)

Definition at_end (d : dstate) : Prop :=
  match d with DRun s _ _ => exists p, peeked s = Some p /\ is_end_token p = true | _ => False end.

Lemma peek_at_end E t s r p x s' r' : peeked s = Some p -> is_end_token p = true -> d_peek E t s r <> MOk x s' r'.
Proof.
  intros Hp He. unfold d_peek, d_peek_internal, d_peek_optional, dbind, dget, dmisuse_if.
  destruct (expects_member_name s); [discriminate|]. unfold dret. destruct (string_reader_active s); [discriminate|].
  rewrite Hp. destruct p; try discriminate He; cbn; discriminate.
Qed.
Lemma skip_name_at_end E t s r p x s' r' : peeked s = Some p -> is_end_token p = true -> d_skip_name E t s r <> MOk x s' r'.
Proof.
  intros Hp He H. unfold d_skip_name in H. apply dbind_ok in H as (y & s1 & r1 & H & _).
  unfold d_before_name in H. unfold dbind at 1, dget at 1 in H. unfold dbind at 1, dmisuse_if at 1 in H.
  destruct (negb (expects_member_name s)); [discriminate|]. unfold dret at 1 in H. unfold dbind at 1, dmisuse_if at 1 in H.
  destruct (string_reader_active s) eqn:Ea; [discriminate|]. unfold dret at 1 in H.
  apply dbind_ok in H as (h & s2 & r2 & H & H2).
  assert (Hh : h = false).
  { unfold d_has_next in H. unfold dbind at 1, dget at 1 in H. unfold dbind at 1, dmisuse_if at 1 in H.
    destruct (expects_member_value s); [discriminate|]. unfold dret at 1 in H.
    apply dbind_ok in H as (op & s3 & r3 & H & H3).
    assert (Ho : op = Some p /\ s3 = s).
    { destruct (stack s) as [|v st].
      - unfold dbind at 1, dmisuse_if at 1 in H. destruct (is_empty s); [discriminate|]. unfold dret at 1 in H.
        unfold dbind at 1, dmisuse_if at 1 in H. destruct (negb _); [discriminate|]. unfold dret at 1 in H.
        unfold d_peek_optional, dbind, dget, dmisuse_if in H. rewrite Ea, Hp in H. unfold dret in H. injection H as <- <- <-. auto.
      - unfold d_peek_internal, d_peek_optional, dbind, dget, dmisuse_if in H. rewrite Ea in H. unfold dret in H. rewrite Hp in H.
        injection H as <- <- <-. auto. }
    destruct Ho as [-> ->]. unfold dbind, dget in H3. destruct (_ || _); [|discriminate]. unfold dret in H3. injection H3 as <- _ _. rewrite He. reflexivity. }
  subst h. cbn [negb] in H2. discriminate.
Qed.

Lemma step_possible E inp t c u d o e : (length inp < fuel E)%nat -> dinv E inp d -> urel u d -> (e = true -> at_end d) ->
  matches o (fst (d_call E t c d)) -> fits c o -> allowed (cfg E) u c = true ->
  possible e c o /\
  (forall u', usage_after c o u = Some u' -> urel u' (snd (d_call E t c d))) /\
  (ends c o u = true -> at_end (snd (d_call E t c d))).
Proof.
  intros Hf Hd Hu He Hm Hfit Ha. destruct (call_described_any E inp t c u d o Hf Hd Hu Hm) as (H1 & _ & H3).
  split; [|split; [exact H3|]].
  - unfold possible. splits; auto.
    + intros n ->. destruct d as [s rd r|held| | |]; try contradiction Hu; cbn [d_call] in Hm.
      * cbn [d_call_run] in Hm. unfold d_run_read in Hm. destruct rd as [sv|]; [|cbn in Hm; subst o; exact I].
        destruct (d_sv_read E n sv s r) as [[bs sv'] s' r'|e0 s' r'|[k|]| |]; cbn in Hm; try contradiction; subst; eauto.
        destruct Hm as (e1 & -> & _). exact I.
      * cbn [d_call_dead] in Hm. destruct held; cbn in Hm; subst o; exact I.
    + intros b ->. destruct d as [s rd r|held| | |]; try contradiction Hu; cbn in Hm; eauto.
    + intros He' Hc v ->. specialize (He He'). destruct d as [s rd r|held| | |]; cbn in He; try contradiction.
      destruct He as (p & Hp & Hend). cbn [d_call] in Hm.
      destruct Hc as [-> | ->]; cbn [d_call_run] in Hm; unfold d_run in Hm.
      * destruct (d_peek E t s r) as [x s' r'|e0 s' r'|[k|]| |] eqn:Ex; cbn in Hm; try discriminate; try contradiction.
        -- exact (peek_at_end E t s r p x s' r' Hp Hend Ex).
        -- destruct Hm as (l & Hm). discriminate.
        -- destruct Hm as (l & Hm & _). discriminate.
      * destruct (d_skip_name E t s r) as [x s' r'|e0 s' r'|[k|]| |] eqn:Ex; cbn in Hm; try discriminate; try contradiction.
        -- exact (skip_name_at_end E t s r p x s' r' Hp Hend Ex).
        -- destruct Hm as (l & Hm). discriminate.
        -- destruct Hm as (l & Hm & _). discriminate.
  - intros Hen. destruct c; cbn in Hen; try discriminate. destruct o as [v| | | | | |]; try discriminate. destruct v as [|[|]| | | |]; try discriminate.
    destruct d as [s rd r|held| | |]; try contradiction Hu; cbn [d_call] in *.
    + cbn [d_call_run] in *. unfold d_run in *. destruct Hd as [Hinv _].
      pose proof (has_next_good E inp t s r Hf Hinv) as Hg.
      destruct (d_has_next E t s r) as [x s' r'|e0 s' r'|[k|]| |]; cbn in Hm; try discriminate; try contradiction.
      * injection Hm as <-. cbn in Hg |- *. destruct Hg as (_ & _ & _ & _ & _ & Hg).
        destruct (peeked s') as [p|].
        -- exists p. split; [reflexivity|]. destruct (is_end_token p); [reflexivity|discriminate].
        -- destruct Hg as [_ Hs]. destruct Hu as (Hu & _). rewrite Hu, Hs in Hen. discriminate.
      * destruct Hm as (l & Hm). discriminate.
      * destruct Hm as (l & Hm & _). discriminate.
    + cbn in Hm. discriminate.
Qed.

Lemma uses_run A E inp t (m : client A) : (length inp < fuel E)%nat -> forall log a u e d Q,
  SpecSimple.plays m log a -> dinv E inp d -> match u with Some u => urel u d | None => True end -> (e = true -> at_end d) ->
  Forall2 matches (map snd log) (fst (d_calls E t (map fst log) d)) -> Forall (fun co => fits (fst co) (snd co)) log ->
  uses (cfg E) m u e Q ->
  exists u', Q a u' /\ match u' with Some u1 => urel u1 (snd (d_calls E t (map fst log) d)) | None => True end.
Proof.
  intros Hf. induction m as [a0|c k IH]; intros log a u e d Q Hp Hd Hu He Hm Hfit H; inversion Hp as [|? ? o log' ? Hk]; subst.
  - cbn in H. exists u. split; [exact H|]. cbn. exact Hu.
  - cbn [uses] in H. cbn [map fst snd d_calls] in Hm |- *. pose proof (call_good E inp t c d Hf Hd) as Hd1.
    destruct (d_call E t c d) as [o1 d1] eqn:Ec. cbn [snd] in Hd1. destruct (d_calls E t (map fst log') d1) as [os1 d2] eqn:Ecs. cbn [fst snd] in Hm |- *.
    assert (E2 : d2 = snd (d_calls E t (map fst log') d1)) by (rewrite Ecs; reflexivity). rewrite E2.
    inversion Hm as [|? ? ? ? H1 H2]; subst. inversion Hfit as [|? ? F1 F2]; subst. cbn [fst snd] in F1.
    destruct u as [u|].
    + destruct H as [Ha H]. destruct (step_possible E inp t c u d o e Hf Hd Hu He) as (G1 & G2 & G3); auto; [rewrite Ec; exact H1|].
      rewrite Ec in G2, G3. cbn [snd] in G2, G3.
      eapply (IH o log' a (usage_after c o u) (ends c o u) d1); eauto.
      * destruct (usage_after c o u) as [u'|]; [exact (G2 u' eq_refl)|exact I].
      * rewrite Ecs. exact H2.
    + destruct H as [_ H]. eapply (IH o log' a None false d1); eauto; [discriminate|]. rewrite Ecs. exact H2.
Qed.

Lemma log_fits log : Forall2 fits (map fst log) (map snd log) -> Forall (fun co : rcall * outcome => fits (fst co) (snd co)) log.
Proof. induction log as [|[c o] log IH]; cbn; intros H; [constructor|]. inversion H; subst. constructor; auto. Qed.

Lemma d_calls_parts E t cs1 cs2 : forall d, d_calls E t (cs1 ++ cs2) d =
  (fst (d_calls E t cs1 d) ++ fst (d_calls E t cs2 (snd (d_calls E t cs1 d))), snd (d_calls E t cs2 (snd (d_calls E t cs1 d)))).
Proof.
  induction cs1 as [|c cs1 IH]; intros d; cbn [d_calls app].
  - cbn [fst snd app]. destruct (d_calls E t cs2 d). reflexivity.
  - destruct (d_call E t c d) as [o1 d1]. rewrite IH. destruct (d_calls E t cs1 d1) as [os d2]. reflexivity.
Qed.

Lemma make_calls_log cs : forall l os, SpecSimple.plays (DeModel.make_calls cs) l os -> map fst l = cs /\ map snd l = os.
Proof.
  induction cs as [|c cs IH]; intros l os H; cbn [DeModel.make_calls] in H; inversion H as [|? ? o ? ? Hk]; subst; [auto|].
  apply DeSafe.plays_bind in Hk as (os1 & l1 & l2 & -> & H1 & H2). inversion H2; subst. rewrite app_nil_r.
  destruct (IH _ _ H1) as [E1 E2]. cbn. rewrite E1, E2. auto.
Qed.

(** A program which is used in between other calls *)
Lemma uses_around A s evs before (m : client A) after os1 a os2 u (Q : A -> option usage -> Prop) : Forall is_byte (fst (supplied evs)) ->
  DeModel.client_session s evs (DeModel.around before m after) = Some (os1, a, os2) ->
  usage_of before os1 usage_start = Some u -> uses s m (Some u) false Q ->
  exists u', Q a u' /\ forall u1, u' = Some u1 -> correct_usage s after os2 u1 -> forall o k, In o os2 -> o <> OPanic k.
Proof.
  intros Hb Hs Hu H. destruct (DeSafe.session_log _ s evs _ _ Hs) as (log & Hp & Hl).
  pose proof (session_fits s evs (map fst log) Hb) as Hfit. rewrite Hl in Hfit.
  destruct (session_agree s evs (map fst log) (session_no_bug s evs _ Hb)) as (os & st & a' & _ & Ho & Hm).
  rewrite Hl in Ho. subst os. unfold d_session in Hm. set (E := Env s (enough_fuel (fst (supplied evs)))) in *.
  unfold DeModel.around in Hp. apply DeSafe.plays_bind in Hp as (x1 & l1 & l' & -> & P1 & Hp).
  apply DeSafe.plays_bind in Hp as (x2 & l2 & l'' & -> & P2 & Hp). apply DeSafe.plays_bind in Hp as (x3 & l3 & l4 & -> & P3 & Hp).
  inversion Hp; subst. rewrite app_nil_r in *. clear Hp.
  apply make_calls_log in P1 as [<- <-]. apply make_calls_log in P3 as [<- <-].
  apply log_fits, Forall_app in Hfit as [_ Hfit]. apply Forall_app in Hfit as [Hfit _].
  rewrite !map_app, !d_calls_parts in Hm. cbn [fst snd] in Hm.
  set (d0 := DRun (rstate_new s) None (fst (supplied evs))) in *. set (d1 := snd (d_calls E (snd (supplied evs)) (map fst l1) d0)) in *.
  assert (Hlen : forall cs d, length (fst (d_calls E (snd (supplied evs)) cs d)) = length cs).
  { intros cs. induction cs as [|c cs IH]; intros d; [reflexivity|]. cbn [d_calls]. destruct (d_call _ _ c d) as [o1 d'].
    specialize (IH d'). destruct (d_calls _ _ cs d'). cbn in *. lia. }
  assert (Hsplit : forall xs ys (zs ws : list dout), length xs = length zs -> Forall2 matches (xs ++ ys) (zs ++ ws) -> Forall2 matches xs zs /\ Forall2 matches ys ws).
  { clear. induction xs as [|x xs IH]; intros ys [|z zs] ws Hl H; cbn in *; try discriminate; [auto|]. inversion H; subst.
    destruct (IH ys zs ws) as [G1 G2]; [congruence|assumption|]. auto. }
  apply Hsplit in Hm as [M1 Hm]; [|rewrite Hlen, !map_length; reflexivity].
  apply Hsplit in Hm as [M2 M3]; [|rewrite Hlen, !map_length; reflexivity].
  assert (Hf : (length (fst (supplied evs)) < fuel E)%nat) by (cbn; unfold enough_fuel; lia).
  assert (D0 : dinv E (fst (supplied evs)) d0) by (cbn; split; [apply inv_start; exact Hb|exact I]).
  pose proof (calls_good E _ (snd (supplied evs)) (map fst l1) Hf d0 D0) as D1. fold d1 in D1.
  pose proof (calls_urel E _ (snd (supplied evs)) (map fst l1) Hf d0 usage_start _ u D0 (urel_start s _) M1 Hu) as U1. fold d1 in U1.
  assert (He : false = true -> at_end d1) by discriminate.
  destruct (uses_run A E _ (snd (supplied evs)) m Hf l2 a (Some u) false d1 Q P2 D1 U1 He M2 Hfit H) as (u' & HQ & U2).
  exists u'. split; [exact HQ|]. intros u1 -> Hc.
  exact (correct_no_panic E _ (snd (supplied evs)) (map fst l3) Hf _ u1 _ (calls_good E _ _ (map fst l2) Hf d1 D1) U2 M3 Hc).
Qed.

Lemma uses_session A s evs (m : client A) a Q : Forall is_byte (fst (supplied evs)) ->
  uses s m (Some usage_start) false Q -> DeModel.client_session s evs m = Some a -> exists u', Q a u'.
Proof.
  intros Hb H Hs. destruct (DeSafe.session_log _ s evs _ _ Hs) as (log & Hp & Hl).
  pose proof (session_fits s evs (map fst log) Hb) as Hfit. rewrite Hl in Hfit.
  destruct (session_agree s evs (map fst log) (session_no_bug s evs _ Hb)) as (os & st & a' & _ & Ho & Hm).
  rewrite Hl in Ho. subst os. unfold d_session in Hm. set (E := Env s (enough_fuel (fst (supplied evs)))) in *.
  set (d0 := DRun (rstate_new s) None (fst (supplied evs))) in *.
  assert (Hf : (length (fst (supplied evs)) < fuel E)%nat) by (cbn; unfold enough_fuel; lia).
  assert (D0 : dinv E (fst (supplied evs)) d0) by (cbn; split; [apply inv_start; exact Hb|exact I]).
  assert (He : false = true -> at_end d0) by discriminate.
  destruct (uses_run A E _ (snd (supplied evs)) m Hf log a (Some usage_start) false d0 Q Hp D0 (urel_start s _) He Hm (log_fits _ Hfit) H) as (u' & HQ & _).
  eauto.
Qed.
