(** * Proofs of the property theorems about looking ahead *)

From Verif Require Import Base Utf8Model NumberModel SpecJson SourceModel SourceProofs ReaderModel ReaderScan ReaderLex ReaderMid ReaderAgree ReaderSess ReaderGrammar
  ReaderSafe ReaderOut SpecCursor SpecRead SpecSessions SpecText ReaderCursor ReaderPeek ReaderBack ReaderRelax ReaderFinal ReaderFinal2 ReaderFinal3 ReaderFinal4
  LookReader LookSource LookSession SpecLook.


Lemma session_at s evs cs os b p : Forall is_byte (fst (supplied evs)) ->
  read_session s evs (cs ++ [CPosition b]) = os ++ [OOk (RPos p)] -> (forall e, ~ In (OReadErr e) os) ->
  exists s' rd r kn pre,
    arun (client_calls (fenv s evs) cs (session_new s)) (asrc_new (fst (supplied evs)) (snd (supplied evs))) =
      Some ((os, Session s' rd Running), At r (snd (supplied evs)) kn) /\
    fst (supplied evs) = pre ++ ahead s' r /\ p_byte p = N.of_nat (length pre) /\ p = current_position b s'.
Proof.
  intros Hb Hos Hno. set (inp := fst (supplied evs)) in *. set (t := snd (supplied evs)).
  destruct (session_tail s evs cs [CPosition b] os [OOk (RPos p)] Hb Hos eq_refl) as (Hd & Hm). fold inp t in Hd, Hm.
  change (Env s (enough_fuel inp)) with (fenv s evs) in Hd, Hm.
  assert (Hf : (0 < fuel (fenv s evs))%nat) by (cbn; unfold enough_fuel; lia).
  assert (Hnb : snd (d_calls (fenv s evs) t cs (DRun (rstate_new s) None inp)) <> DBug).
  { intros Hx. rewrite Hx in Hd. exact Hd. }
  destruct (calls_agree (fenv s evs) t cs Hf (session_new s) (asrc_new inp t) (DRun (rstate_new s) None inp)) as (os' & st' & a' & Hrun & Hall & Hs);
    [cbn; splits; [reflexivity|exists false; reflexivity|exact I]|exact Hnb|].
  assert (Ho : os' = os).
  { destruct (session_run s evs (cs ++ [CPosition b]) Hb) as (st2 & a2 & H2 & _). fold inp t in H2. rewrite calls_app, Hrun in H2.
    destruct (arun (client_calls (fenv s evs) [CPosition b] st') a') as [[[os2 st3] a3]|] eqn:E2; [|discriminate]. rewrite Hos in H2.
    assert (Hl : length os2 = 1%nat).
    { cbn [client_calls] in E2. rewrite arun_bind in E2. destruct (arun (client_call _ _ _) _) as [[[x y] z]|]; [|discriminate]. cbn in E2. injection E2 as <- _ _. reflexivity. }
    destruct os2 as [|x [|]]; try discriminate Hl. injection H2 as H2 _ _. apply app_inj_tail in H2. apply H2. }
  subst os'. destruct (snd (d_calls (fenv s evs) t cs (DRun (rstate_new s) None inp))) as [s1 rd r|h| | |] eqn:Hdd.
  - destruct Hs as (-> & (kn & ->) & _). destruct Hd as [Hi _]. cbn in Hm. inversion Hm as [|? ? ? ? Hm1 _]; subst. cbn in Hm1. injection Hm1 as ->.
    destruct (inv_behind _ _ _ _ b Hi) as (pre & H1 & H2 & _). exists s1, rd, r, kn, pre. auto.
  - exfalso. destruct (dead_reported _ _ _ _ _ Hdd) as [(h' & H)|H]; [discriminate|].
    clear - H Hall Hno. revert H Hno. induction Hall as [|x y l l' Hxy _ IH]; cbn [In]; [tauto|].
    intros [->|H] Hno; [|apply IH; [exact H|]; intros e He; apply (Hno e); right; exact He].
    destruct Hxy as (e & -> & _). apply (Hno (SvError e)). left. reflexivity.
  - cbn in Hm. inversion Hm as [|? ? ? ? Hm1 _]; subst. discriminate.
  - cbn in Hm. inversion Hm as [|? ? ? ? Hm1 _]; subst. discriminate.
  - contradiction.
Qed.

(** the fuel does not matter *)
Lemma same_fuel s evs E cs os st a : Forall is_byte (fst (supplied evs)) -> cfg E = s ->
  arun (client_calls E cs (session_new s)) (asrc_new (fst (supplied evs)) (snd (supplied evs))) = Some ((os, st), a) -> Forall sane os ->
  read_session s evs cs = os.
Proof.
  intros Hb HE H Hs. destruct (session_run s evs cs Hb) as (st2 & a2 & H2 & _).
  assert (Hsame : forall os1 os2, same_until (hit_outcome (fun _ => False)) os1 os2 -> os1 = os2).
  { induction 1 as [|o os1 os2 _ IH|o1 o2 os1 os2 Hx]; [reflexivity|congruence|]. destruct o1 as [|e|[e|]| | | |]; contradiction Hx. }
  destruct (Nat.le_ge_cases (fuel E) (fuel (fenv s evs))) as [Hl|Hl].
  - symmetry. apply Hsame. apply until_sane; [|exact Hs]. eapply (oext_calls (fun _ => False) E (fenv s evs)); [|left; reflexivity|exact H|exact H2].
    constructor; [exact Hl|left|left| |left|left]; rewrite HE; reflexivity.
  - apply Hsame. apply until_sane; [|apply session_sane; exact Hb]. eapply (oext_calls (fun _ => False) (fenv s evs) E); [|left; reflexivity|exact H2|exact H].
    constructor; [exact Hl|left|left| |left|left]; rewrite HE; reflexivity.
Qed.

Lemma firstn_split {A : Type} (pre r l : list A) n : n = length pre -> firstn n l = firstn n (pre ++ r) -> l = pre ++ skipn n l.
Proof.
  intros -> H. rewrite firstn_app, Nat.sub_diag, firstn_all, firstn_O, app_nil_r in H. pose proof (firstn_skipn (length pre) l) as Hs. rewrite H in Hs. symmetry. exact Hs.
Qed.

(** more fuel does not change a run *)
Lemma more_fuel E1 E2 : relaxes (fun _ => False) E1 E2 -> forall cs st a os st' a',
  arun (client_calls E1 cs st) a = Some ((os, st'), a') -> Forall sane os -> arun (client_calls E2 cs st) a = Some ((os, st'), a').
Proof.
  intros HR. induction cs as [|c cs IH]; intros st a os st' a' H Hs; [exact H|]. cbn [client_calls] in *. rewrite arun_bind in *.
  pose proof (oext_client (fun _ => False) E1 E2 c st HR a a (or_introl eq_refl)) as Hx.
  destruct (arun (client_call E1 c st) a) as [[[o st1] a1]|]; [|discriminate]. cbn [fst snd] in H. rewrite arun_bind in H.
  destruct (arun (client_calls E1 cs st1) a1) as [[[os2 st2] a2]|] eqn:E; [|discriminate]. cbn [arun fst snd] in H. injection H as <- <- <-.
  inversion Hs as [|? ? Ho Hs2]; subst. destruct Hx as [Hx|[[-> | ->]|(a3 & Hx & Hc)]].
  - destruct o as [|e|[e|]| | | |]; contradiction Hx.
  - exfalso. unfold sane in Ho. intuition congruence.
  - exfalso. unfold sane in Ho. intuition congruence.
  - rewrite Hx. cbn [fst snd]. rewrite arun_bind. assert (a3 = a1).
    { destruct Hc as [->|(_ & _ & _ & _ & _ & m & e & _ & _ & Hf)]; [reflexivity|]. contradiction (Hf (Position None 0 0 0)). }
    subst a3. rewrite (IH _ _ _ _ _ E Hs2). reflexivity.
Qed.

(** a session whose outcomes are known, on other input *)
Lemma framed_session s evs evs' cs os st r kn y r' Q K' :
  Forall is_byte (fst (supplied evs)) -> Forall is_byte (fst (supplied evs')) ->
  look (client_calls (fenv s evs) cs (session_new s)) false Q ->
  arun (client_calls (fenv s evs) cs (session_new s)) (asrc_new (fst (supplied evs)) (snd (supplied evs))) = Some ((os, st), At r (snd (supplied evs)) kn) ->
  read_session s evs cs = os ->
  framed (client_calls (fenv s evs) cs (session_new s)) false (asrc_new (fst (supplied evs)) (snd (supplied evs))) (os, st) (At r (snd (supplied evs)) kn) K' ->
  fst (supplied evs) = y ++ r -> fst (supplied evs') = y ++ r' ->
  (K' = true -> same_next r' (snd (supplied evs')) (At r (snd (supplied evs)) kn)) ->
  arun (client_calls (fenv s evs) cs (session_new s)) (asrc_new (fst (supplied evs')) (snd (supplied evs'))) = Some ((os, st), At r' (snd (supplied evs')) kn) /\
  read_session s evs' cs = os.
Proof.
  intros Hb Hb' Hl Hrun Hos [_ Hfr] H1 H2 Hk. specialize (Hfr y r' (snd (supplied evs')) H1 Hk). unfold with_input in Hfr. cbn in Hfr. rewrite <- H2 in Hfr.
  split; [exact Hfr|]. eapply same_fuel; [exact Hb'| |exact Hfr|rewrite <- Hos; apply session_sane; exact Hb]. reflexivity.
Qed.

Lemma delimited_length ends oends : delimited_end ends oends -> length ends = length oends.
Proof. intros []; reflexivity. Qed.
Lemma delimited_no_read ends oends : delimited_end ends oends -> forall e, ~ In (OReadErr e) oends.
Proof. intros [] e; cbn [In]; intuition discriminate. Qed.

(** a session which ends directly behind a delimited token *)
Lemma delimited_session s evs cs ends os oends b p : Forall is_byte (fst (supplied evs)) ->
  delimited_end ends oends ->
  read_session s evs (cs ++ ends ++ [CPosition b]) = os ++ oends ++ [OOk (RPos p)] -> (forall e, ~ In (OReadErr e) os) ->
  exists s' rd r kn pre, let run := (os ++ oends, Session s' rd Running) in
    arun (client_calls (fenv s evs) (cs ++ ends) (session_new s)) (asrc_new (fst (supplied evs)) (snd (supplied evs))) = Some (run, At r (snd (supplied evs)) kn) /\
    fst (supplied evs) = pre ++ r /\ p_byte p = N.of_nat (length pre) /\ p = current_position b s' /\
    framed (client_calls (fenv s evs) (cs ++ ends) (session_new s)) false (asrc_new (fst (supplied evs)) (snd (supplied evs))) run (At r (snd (supplied evs)) kn) false /\
    length os = length cs.
Proof.
  intros Hb He Hos Hno. rewrite !app_assoc in Hos. destruct (session_at s evs (cs ++ ends) (os ++ oends) b p Hb Hos) as (s' & rd & r & kn & pre & H1 & H2 & H3 & H4).
  { intros e Hi. apply in_app_iff in Hi as [Hi|Hi]; [exact (Hno e Hi)|exact (delimited_no_read _ _ He e Hi)]. }
  assert (Hlen : length os = length cs).
  { pose proof (session_length s evs ((cs ++ ends) ++ [CPosition b]) Hb) as Hl. rewrite Hos in Hl. rewrite !app_length in Hl. cbn in Hl.
    rewrite (delimited_length _ _ He) in Hl. lia. }
  exists s', rd, r, kn, pre. cbv zeta. split; [exact H1|].
  destruct (look_sound _ _ _ _ _ _ (session_looks (fenv s evs) cs ends oends s He) H1 ltac:(discriminate)) as (K' & HQ & _ & Hfr).
  destruct (HQ os Hlen eq_refl) as [-> Hpk]. cbn [snd s_state] in Hpk. unfold ahead, held in H2. rewrite Hpk in H2. cbn [app] in H2. auto.
Qed.

Lemma position_after E cs st b os s' rd a a' : arun (client_calls E cs st) a = Some ((os, Session s' rd Running), a') ->
  exists a2, arun (client_calls E (cs ++ [CPosition b]) st) a = Some ((os ++ [OOk (RPos (current_position b s'))], Session s' None Running), a2).
Proof. intros H. rewrite calls_app, H. cbn. eauto. Qed.

Lemma session_prefix s evs cs1 cs2 os1 os2 : Forall is_byte (fst (supplied evs)) -> read_session s evs (cs1 ++ cs2) = os1 ++ os2 -> length os1 = length cs1 ->
  read_session s evs cs1 = os1.
Proof.
  intros Hb H Hl. destruct (session_run s evs (cs1 ++ cs2) Hb) as (st & a & H1 & _). destruct (session_run s evs cs1 Hb) as (st2 & a2 & H2 & _).
  rewrite calls_app, H2 in H1. destruct (arun (client_calls (fenv s evs) cs2 st2) a2) as [[[os3 st3] a3]|]; [|discriminate]. injection H1 as H1 _ _.
  rewrite H in H1. pose proof (session_length s evs cs1 Hb) as Hl2. revert Hl H1 Hl2. generalize (read_session s evs cs1), (length cs1). clear.
  induction os1 as [|x os1 IH]; intros [|y l] n Hl H1 Hl2; cbn in *; try (exfalso; lia); [reflexivity|]. injection H1 as -> H1. f_equal. apply (IH l (pred n)); [lia|exact H1|lia].
Qed.


Lemma C52_outcomes_depend_on_the_consumed_bytes_holds : forall (s : settings) (evs evs' : list event) (cs ends : list rcall) (os oends : list outcome) (b : bool) (p : position),
  Forall is_byte (fst (supplied evs)) -> Forall is_byte (fst (supplied evs')) ->
  delimited_end ends oends ->
  read_session s evs (cs ++ ends ++ [CPosition b]) = os ++ oends ++ [OOk (RPos p)] ->
  (forall e, ~ In (OReadErr e) os) ->
  firstn (N.to_nat (p_byte p)) (fst (supplied evs')) = firstn (N.to_nat (p_byte p)) (fst (supplied evs)) ->
  read_session s evs' (cs ++ ends ++ [CPosition b]) = os ++ oends ++ [OOk (RPos p)].
Proof.
  intros s evs evs' cs ends os oends b p Hb Hb' He Hos Hno Hsame.
  destruct (delimited_session s evs cs ends os oends b p Hb He Hos Hno) as (s' & rd & r & kn & pre & Hx). cbv zeta in Hx. destruct Hx as (H1 & H2 & H3 & H4 & H5 & H6).
  assert (Hn : N.to_nat (p_byte p) = length pre) by (rewrite H3; apply Nat2N.id). rewrite Hn in Hsame. rewrite H2 in Hsame.
  pose proof (firstn_split pre r _ _ eq_refl Hsame) as Hpre.
  assert (Hos1 : read_session s evs (cs ++ ends) = os ++ oends).
  { apply (session_prefix s evs (cs ++ ends) [CPosition b] (os ++ oends) [OOk (RPos p)] Hb); [rewrite <- !app_assoc; exact Hos|].
    rewrite !app_length, H6, (delimited_length _ _ He). reflexivity. }
  destruct (framed_session s evs evs' (cs ++ ends) (os ++ oends) _ r kn pre _ _ false Hb Hb' (client_calls_look _ _ _ _ (sinv_new s)) H1 Hos1 H5 H2 Hpre ltac:(discriminate)) as [Hrun _].
  destruct (position_after _ _ _ b _ _ _ _ _ Hrun) as (a2 & Hrun2). rewrite <- H4 in Hrun2. rewrite <- !app_assoc in Hrun2.
  eapply same_fuel; [exact Hb'| |exact Hrun2|]; [reflexivity|]. rewrite <- Hos. apply session_sane. exact Hb.
Qed.

Lemma C52_source_is_not_read_ahead_holds : forall (s : settings) (evs1 evs2 : list event) (cs ends : list rcall) (os oends : list outcome) (b : bool) (p : position),
  Forall is_byte (fst (supplied (evs1 ++ evs2))) ->
  delimited_end ends oends ->
  read_session s (evs1 ++ evs2) (cs ++ ends ++ [CPosition b]) = os ++ oends ++ [OOk (RPos p)] ->
  (forall e, ~ In (OReadErr e) os) ->
  (N.to_nat (p_byte p) <= length (fst (supplied evs1)))%nat ->
  exists rest, events_left s (evs1 ++ evs2) (cs ++ ends) = rest ++ evs2.
Proof.
  intros s evs1 evs2 cs ends os oends b p Hb He Hos Hno Hlen.
  destruct (delimited_session s (evs1 ++ evs2) cs ends os oends b p Hb He Hos Hno) as (s' & rd & r & kn & pre & Hx). cbv zeta in Hx. destruct Hx as (H1 & H2 & H3 & H4 & H5 & H6).
  assert (Hn : N.to_nat (p_byte p) = length pre) by (rewrite H3; apply Nat2N.id).
  destruct (look_within evs2 _ _ _ _ _ _ _ (session_looks (fenv s (evs1 ++ evs2)) cs ends oends s He) H1 (rel_new (evs1 ++ evs2))) as (K' & c' & HQ & _ & Hrun & _ & Hw).
  { exists evs1. split; [reflexivity|]. unfold needed. cbn [asrc_new a_rest At]. rewrite H2, app_length. cbn. lia. }
  destruct (HQ os H6 eq_refl) as [-> _]. destruct (Hw eq_refl) as (e & Hev & _). exists e. unfold events_left.
  change (Env s (enough_fuel (fst (supplied (evs1 ++ evs2))))) with (fenv s (evs1 ++ evs2)). rewrite Hrun. exact Hev.
Qed.

Definition closed_value (v : json) : Prop := match v with JStr _ | JArr _ | JObj _ => True | _ => False end.

Lemma closed_calls v : closed_value v -> exists cs c vs x, read_calls v = cs ++ [c] /\ read_values v = vs ++ [x] /\ length vs = length cs /\ consumes_delimited c = true.
Proof.
  intros Hv. assert (Hl : forall w, length (read_values w) = length (read_calls w)).
  { clear. induction w as [| | | |items IH|ms IH] using json_nested_ind; try reflexivity.
    - cbn [read_calls read_values app length]. rewrite !app_length. cbn [length]. f_equal. f_equal. induction IH as [|x l Hx _ IHl]; [reflexivity|]. cbn [flat_map]. rewrite !app_length. lia.
    - cbn [read_calls read_values app length]. rewrite !app_length. cbn [length]. f_equal. f_equal. induction IH as [|x l Hx _ IHl]; [reflexivity|]. cbn [flat_map]. rewrite !app_length. cbn [length]. lia. }
  specialize (Hl v). destruct v; try contradiction Hv.
  - exists [], CNextString, [], (RStr s). auto.
  - exists (CBeginArray :: flat_map read_calls items), CEndArray, (RUnit :: flat_map read_values items), RUnit. cbn [read_calls read_values app length] in *.
    rewrite !app_length in Hl. cbn in Hl. splits; try reflexivity. lia.
  - exists (CBeginObject :: flat_map (fun m => CNextName :: read_calls (snd m)) members), CEndObject, (RUnit :: flat_map (fun m => RStr (fst m) :: read_values (snd m)) members), RUnit.
    cbn [read_calls read_values app length] in *. rewrite !app_length in Hl. cbn in Hl. splits; try reflexivity. lia.
Qed.

Lemma closed_session s v evs : Forall is_byte (fst (supplied evs)) -> closed_value v -> read_session s evs (read_calls v) = map OOk (read_values v) ->
  exists st r y, arun (client_calls (fenv s evs) (read_calls v) (session_new s)) (asrc_new (fst (supplied evs)) (snd (supplied evs))) =
      Some ((map OOk (read_values v), st), r) /\ fst (supplied evs) = y ++ a_rest r /\
    framed (client_calls (fenv s evs) (read_calls v) (session_new s)) false (asrc_new (fst (supplied evs)) (snd (supplied evs))) (map OOk (read_values v), st) r false.
Proof.
  intros Hb Hv Hos. destruct (session_run s evs (read_calls v) Hb) as (st & a & Hrun & _). rewrite Hos in Hrun.
  destruct (closed_calls v Hv) as (cs & c & vs & x & E1 & E2 & E3 & E4). destruct (arun_rest _ _ _ _ Hrun) as (y & Hy). exists st, a, y. split; [exact Hrun|]. split; [exact Hy|].
  rewrite E1, E2 in *.
  destruct (look_sound _ _ _ _ _ _ (session_looks (fenv s evs) cs [c] [OOk x] s (de_call c x E4)) Hrun ltac:(discriminate)) as (K' & HQ & _ & Hfr).
  cbn [fst snd] in HQ. destruct (HQ (map OOk vs)) as [-> _]; [rewrite map_length; exact E3|rewrite map_app; reflexivity|]. exact Hfr.
Qed.


Lemma C52_complete_value_without_what_follows_holds : forall (s : settings) (v : json) (evs evs' : list event) (more : bytes),
  match v with JStr _ | JArr _ | JObj _ => True | _ => False end ->
  document_input s [v] evs -> readable s v ->
  Forall is_byte (fst (supplied evs')) -> fst (supplied evs') = fst (supplied evs) ++ more ->
  read_session s evs' (read_calls v) = map OOk (read_values v).
Proof.
  intros s v evs evs' more Hv Hd Hr Hb' Hm.
  assert (Hb : Forall is_byte (fst (supplied evs))) by (rewrite Hm in Hb'; apply Forall_app in Hb'; apply Hb').
  pose proof (C20_complete_reading_holds s v evs Hd Hr) as Hos. rewrite map_app in Hos.
  assert (Hl : length (map OOk (read_values v)) = length (read_calls v)).
  { destruct (closed_calls v Hv) as (cs & c & vs & x & E1 & E2 & E3 & _). rewrite map_length, E1, E2, !app_length. cbn. lia. }
  pose proof (session_prefix s evs (read_calls v) _ _ _ Hb Hos Hl) as Hos1.
  destruct (closed_session s v evs Hb Hv Hos1) as (st & a & y & Hrun & Hy & _ & Hfr).
  specialize (Hfr y (a_rest a ++ more) (snd (supplied evs')) Hy ltac:(discriminate)). rewrite app_assoc, <- Hy, <- Hm in Hfr.
  eapply same_fuel; [exact Hb'| |exact Hfr|rewrite <- Hos1; apply session_sane; exact Hb]. reflexivity.
Qed.

Lemma C52_complete_value_is_not_read_ahead_holds : forall (s : settings) (v : json) (evs1 evs2 : list event),
  match v with JStr _ | JArr _ | JObj _ => True | _ => False end ->
  input_text s [v] (fst (supplied evs1)) -> within_limit s [v] -> readable s v ->
  (exists more, fst (supplied (evs1 ++ evs2)) = fst (supplied evs1) ++ more) -> Forall is_byte (fst (supplied (evs1 ++ evs2))) ->
  read_session s (evs1 ++ evs2) (read_calls v) = map OOk (read_values v) /\
  exists rest, events_left s (evs1 ++ evs2) (read_calls v) = rest ++ evs2.
Proof.
  intros s v evs1 evs2 Hv Ht Hw Hr (more & Hm) Hb'.
  assert (Hb : Forall is_byte (fst (supplied evs1))) by (rewrite Hm in Hb'; apply Forall_app in Hb'; apply Hb').
  assert (Hsup : supplied [EvData (fst (supplied evs1))] = (fst (supplied evs1), TEof)) by (cbn; destruct (fst (supplied evs1)); [reflexivity|rewrite app_nil_r; reflexivity]).
  assert (Hd : document_input s [v] [EvData (fst (supplied evs1))]) by (unfold document_input; rewrite Hsup; auto).
  set (ev0 := [EvData (fst (supplied evs1))]) in *.
  pose proof (C52_complete_value_without_what_follows_holds s v ev0 (evs1 ++ evs2) more Hv Hd Hr Hb' ltac:(rewrite Hsup; exact Hm)) as Hos.
  split; [exact Hos|].
  (* the run on the text alone *)
  pose proof (C52_complete_value_without_what_follows_holds s v ev0 ev0 [] Hv Hd Hr ltac:(rewrite Hsup; exact Hb) ltac:(rewrite app_nil_r; reflexivity)) as Hos0.
  destruct (closed_session s v ev0 ltac:(rewrite Hsup; exact Hb) Hv Hos0) as (st0 & a0 & y0 & Hrun0 & Hy0 & _ & Hfr0).
  specialize (Hfr0 y0 (a_rest a0 ++ more) (snd (supplied (evs1 ++ evs2))) Hy0 ltac:(discriminate)). rewrite app_assoc, <- Hy0, Hsup in Hfr0. cbn [fst snd] in Hfr0.
  unfold with_input in Hfr0 at 1. cbn [asrc_new a_known a_mode a_failed] in Hfr0. rewrite <- Hm in Hfr0.
  assert (Hsane : Forall sane (map OOk (read_values v))) by (rewrite <- Hos; apply session_sane; exact Hb').
  assert (HR : relaxes (fun _ => False) (fenv s ev0) (fenv s (evs1 ++ evs2))).
  { constructor; auto. cbn [fenv fuel]. unfold enough_fuel. rewrite Hm, app_length, Hsup. cbn [fst]. lia. }
  pose proof (more_fuel _ _ HR _ _ _ _ _ _ Hfr0 Hsane) as Hrun.
  destruct (closed_calls v Hv) as (cs & c & vs & x & E1 & E2 & E3 & E4). rewrite E1, E2 in *.
  destruct (look_within evs2 _ _ _ _ _ _ _ (session_looks (fenv s (evs1 ++ evs2)) cs [c] [OOk x] s (de_call c x E4)) Hrun (rel_new (evs1 ++ evs2))) as (K' & c' & HQ & _ & Hc & _ & Hwi).
  { exists evs1. split; [reflexivity|]. unfold needed. cbn [asrc_new a_rest with_input]. rewrite Hm, !app_length. cbn. lia. }
  cbn [fst snd] in HQ. destruct (HQ (map OOk vs)) as [-> _]; [rewrite map_length; exact E3|rewrite map_app; reflexivity|].
  destruct (Hwi eq_refl) as (e & Hev & _). exists e. unfold events_left.
  change (Env s (enough_fuel (fst (supplied (evs1 ++ evs2))))) with (fenv s (evs1 ++ evs2)). rewrite Hc. exact Hev.
Qed.

Lemma C52_lookahead_is_bounded_holds : forall (s : settings) (evs evs' : list event) (cs : list rcall) (os : list outcome) (b : bool) (p : position),
  let n := (N.to_nat (p_byte p) + 6)%nat in
  Forall is_byte (fst (supplied evs)) -> Forall is_byte (fst (supplied evs')) ->
  read_session s evs (cs ++ [CPosition b]) = os ++ [OOk (RPos p)] ->
  (forall e, ~ In (OReadErr e) os) ->
  firstn n (fst (supplied evs')) = firstn n (fst (supplied evs)) ->
  ((length (fst (supplied evs)) < n)%nat -> snd (supplied evs') = snd (supplied evs)) ->
  read_session s evs' (cs ++ [CPosition b]) = os ++ [OOk (RPos p)].
Proof.
  intros s evs evs' cs os b p n Hb Hb' Hos Hno Hsame Htail.
  destruct (Nat.lt_ge_cases (length (fst (supplied evs))) n) as [Hl|Hl].
  - assert (Hi : fst (supplied evs') = fst (supplied evs)).
    { rewrite (firstn_all2 (fst (supplied evs))) in Hsame by lia. pose proof (firstn_skipn n (fst (supplied evs'))) as Hs. rewrite Hsame in Hs.
      assert (Hz : skipn n (fst (supplied evs')) = []).
      { apply skipn_all2. assert (Hle : length (firstn n (fst (supplied evs'))) = length (fst (supplied evs))) by congruence. rewrite firstn_length in Hle. lia. }
      rewrite Hz, app_nil_r in Hs. congruence. }
    rewrite <- Hos. symmetry. apply session_schedule; [|apply session_no_bug; exact Hb].
    specialize (Htail Hl). destruct (supplied evs), (supplied evs'). cbn in *. congruence.
  - destruct (session_at s evs cs os b p Hb Hos Hno) as (s' & rd & r & kn & pre & H1 & H2 & H3 & H4).
    assert (Hn : N.to_nat (p_byte p) = length pre) by (rewrite H3; apply Nat2N.id).
    assert (Hh : (length (held s') <= 5)%nat) by (unfold held; destruct (peeked s') as [[]|]; cbn; lia).
    unfold ahead in H2. set (y := pre ++ held s').
    assert (Hy : fst (supplied evs) = y ++ r) by (unfold y; rewrite <- app_assoc; exact H2).
    destruct r as [|x r].
    { exfalso. rewrite Hy in Hl. unfold y, n in Hl. rewrite !app_length in Hl. cbn in Hl. lia. }
    assert (Hpre : firstn (length (y ++ [x])) (fst (supplied evs')) = firstn (length (y ++ [x])) ((y ++ [x]) ++ r)).
    { rewrite <- app_assoc. cbn [app]. rewrite <- Hy.
      assert (Hle : (length (y ++ [x]) <= n)%nat) by (unfold y, n; rewrite !app_length; cbn; lia).
      assert (Hff : forall l : bytes, firstn (length (y ++ [x])) l = firstn (length (y ++ [x])) (firstn n l)) by (intros l; rewrite firstn_firstn, Nat.min_l by exact Hle; reflexivity).
      rewrite (Hff (fst (supplied evs'))), (Hff (fst (supplied evs))), Hsame. reflexivity. }
    pose proof (firstn_split _ _ _ _ eq_refl Hpre) as Hi. rewrite <- app_assoc in Hi. cbn [app] in Hi.
    assert (Hos1 : read_session s evs cs = os).
    { apply (session_prefix s evs cs [CPosition b] os [OOk (RPos p)] Hb Hos). pose proof (session_length s evs (cs ++ [CPosition b]) Hb) as Hx. rewrite Hos, !app_length in Hx. cbn in Hx. lia. }
    destruct (look_sound _ _ _ _ _ _ (client_calls_look (fenv s evs) cs _ _ (sinv_new s)) H1 ltac:(discriminate)) as (K' & _ & _ & Hfr).
    destruct (framed_session s evs evs' cs os _ _ kn y _ _ K' Hb Hb' (client_calls_look _ _ _ _ (sinv_new s)) H1 Hos1 Hfr Hy Hi ltac:(intros _; reflexivity)) as [Hrun _].
    destruct (position_after _ _ _ b _ _ _ _ _ Hrun) as (a2 & Hrun2). rewrite <- H4 in Hrun2.
    eapply same_fuel; [exact Hb'| |exact Hrun2|]; [reflexivity|]. rewrite <- Hos. apply session_sane. exact Hb.
Qed.
