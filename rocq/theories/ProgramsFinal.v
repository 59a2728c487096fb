(** * Proofs of the property theorems about programs which decide by the results so far *)

From Verif Require Import Base Utf8Model SpecJson SourceModel ReaderModel SpecCursor SpecRead SpecSessions ClientModel SimpleModel SpecSimple
  SimpleErrors SimpleFinal ReaderFinal ReaderFinal3 DeModel DeliveryFinal SpecPrograms.


Lemma run_log A E (m : client A) : forall st c a st' c', crun (client_run E m st) c = Some (a, st', c') ->
  exists log, plays m log a /\ crun (client_calls E (map fst log) st) c = Some (map snd log, st', c').
Proof.
  induction m as [a0|call k IH]; intros st c a st' c' H; cbn [client_run] in H.
  - cbn in H. injection H as <- <- <-. exists []. split; [constructor|reflexivity].
  - rewrite crun_pbind in H. destruct (crun (client_call E call st) c) as [[[o st1] c1]|] eqn:E1; [|discriminate].
    cbn [fst snd] in H. destruct (IH o _ _ _ _ _ H) as (log & Hl & Hc). exists ((call, o) :: log). split; [constructor; exact Hl|].
    cbn [map fst snd client_calls]. rewrite crun_pbind, E1. cbn [fst snd]. rewrite crun_pbind, Hc. reflexivity.
Qed.

Lemma log_run A E (m : client A) log a : plays m log a -> forall st c st' c',
  crun (client_calls E (map fst log) st) c = Some (map snd log, st', c') -> crun (client_run E m st) c = Some (a, st', c').
Proof.
  intros Hp. induction Hp as [a|call k o log a Hp IH]; intros st c st' c' H; cbn [map fst snd client_calls client_run] in *.
  - cbn in *. injection H as <- <-. reflexivity.
  - rewrite crun_pbind in *. destruct (crun (client_call E call st) c) as [[[o1 st1] c1]|]; [|discriminate]. cbn [fst snd] in *.
    rewrite crun_pbind in H. destruct (crun (client_calls E (map fst log) st1) c1) as [[[os st2] c2]|] eqn:E2; [|discriminate].
    cbn [crun fst snd] in H. injection H as -> -> <- <-. exact (IH _ _ _ _ E2).
Qed.

Lemma calls_run s evs cs : Forall is_byte (fst (supplied evs)) ->
  exists os st' c', crun (client_calls (Env s (enough_fuel (fst (supplied evs)))) cs (session_new s)) (csrc_new evs) = Some (os, st', c') /\ read_session s evs cs = os.
Proof.
  intros Hb. assert (Hm : forall E cs st c, crun (client_run E (make_calls cs) st) c = crun (client_calls E cs st) c).
  { intros E. clear. induction cs as [|x cs IH]; intros st c; [reflexivity|]. cbn [make_calls client_run client_calls].
    rewrite !crun_pbind. destruct (crun (client_call E x st) c) as [[[o st1] c1]|]; [|reflexivity]. cbn [fst snd].
    rewrite crun_pbind, <- IH. clear IH. revert st1 c1. induction (make_calls cs) as [a|c0 k IH]; intros st1 c1; [reflexivity|].
    cbn [cbind client_run]. rewrite !crun_pbind. destruct (crun (client_call E c0 st1) c1) as [[[o2 st2] c2]|]; [|reflexivity]. apply IH. }
  destruct (client_run_same _ s evs evs (make_calls cs) Hb eq_refl) as (os & st' & c1 & _ & H & _).
  rewrite Hm in H. exists os, st', c1. split; [exact H|]. unfold read_session. rewrite H. reflexivity.
Qed.

Lemma session_iff A s evs (m : client A) a : Forall is_byte (fst (supplied evs)) ->
  client_session s evs m = Some a <-> exists log, plays m log a /\ really_happens s evs log.
Proof.
  intros Hb. split.
  - unfold client_session. intros H. destruct (crun (client_run _ _ _) _) as [[[a1 st'] c']|] eqn:E; [|discriminate]. injection H as ->.
    destruct (run_log _ _ _ _ _ _ _ _ E) as (log & Hp & Hc). exists log. split; [exact Hp|]. unfold really_happens, read_session. rewrite Hc. reflexivity.
  - intros (log & Hp & Hr). destruct (calls_run s evs (map fst log) Hb) as (os & st' & c' & Hc & Ho). unfold really_happens in Hr.
    rewrite Hr in Ho. rewrite <- Ho in Hc. unfold client_session. rewrite (log_run _ _ _ _ _ Hp _ _ _ _ Hc). reflexivity.
Qed.

Lemma session_total A s evs (m : client A) : Forall is_byte (fst (supplied evs)) -> exists a, client_session s evs m = Some a.
Proof.
  intros Hb. destruct (client_run_same _ s evs evs m Hb eq_refl) as (a & st' & c1 & _ & H & _). exists a. unfold client_session. rewrite H. reflexivity.
Qed.

Lemma until_cases P os1 os2 : same_until P os1 os2 -> os1 = os2 \/ Exists P os1.
Proof. induction 1 as [|o os1 os2 _ [->|IH]|]; [left; reflexivity|left; reflexivity|right; right; exact IH|right; left; assumption]. Qed.

Lemma lift_until A P s1 s2 evs1 evs2 (m : client A) : Forall is_byte (fst (supplied evs1)) -> Forall is_byte (fst (supplied evs2)) ->
  (forall cs, same_until P (read_session s1 evs1 cs) (read_session s2 evs2 cs)) ->
  client_session s1 evs1 m = client_session s2 evs2 m \/ encounters P s1 evs1 m.
Proof.
  intros Hb1 Hb2 H. destruct (session_total A s1 evs1 m Hb1) as (a & Ha). destruct (proj1 (session_iff A s1 evs1 m a Hb1) Ha) as (log & Hp & Hr).
  unfold really_happens in Hr. specialize (H (map fst log)). rewrite Hr in H. destruct (until_cases _ _ _ H) as [He|He].
  - left. rewrite Ha. symmetry. apply session_iff; [exact Hb2|]. exists log. split; [exact Hp|symmetry; exact He].
  - right. exists log, a. split; [exact Hp|]. split; [exact Hr|]. clear - He. induction log as [|co log IH]; inversion He; subst; [left; assumption|right; auto].
Qed.

Lemma ignores_plays A f (m : client A) log a : plays m log a -> ignores f m -> forall os, map f os = map f (map snd log) ->
  plays m (combine (map fst log) os) a.
Proof.
  intros Hp. induction Hp as [a|c k o log a Hp IH]; intros Hi os Ho; cbn [map fst snd] in *.
  - destruct os; [constructor|discriminate].
  - destruct os as [|o1 os]; [discriminate|]. cbn [map] in Ho. injection Ho as H1 H2. inversion Hi as [|c' k' Hk Hk']; subst. cbn [combine]. constructor.
    rewrite (Hk o1 o H1). apply IH; [apply Hk'|exact H2].
Qed.

Lemma read_length s evs cs : Forall is_byte (fst (supplied evs)) -> length (read_session s evs cs) = length cs.
Proof.
  intros Hb. destruct (calls_run s evs cs Hb) as (os & st' & c' & Hc & ->). clear - Hc. revert os st' c' Hc. generalize (session_new s) (csrc_new evs).
  induction cs as [|x cs IH]; intros st c os st' c' Hc; cbn [client_calls] in Hc.
  - cbn in Hc. injection Hc as <- _ _. reflexivity.
  - rewrite crun_pbind in Hc. destruct (crun (client_call _ x st) c) as [[[o1 st1] c1]|]; [|discriminate]. cbn [fst snd] in *.
    rewrite crun_pbind in Hc. destruct (crun (client_calls _ cs st1) c1) as [[[os2 st2] c2]|] eqn:E2; [|discriminate].
    cbn [crun fst snd] in Hc. injection Hc as <- _ _. cbn [length]. f_equal. exact (IH _ _ _ _ _ E2).
Qed.

Lemma combine_fst {A B : Type} (l : list A) : forall l' : list B, length l' = length l -> map fst (combine l l') = l.
Proof. induction l as [|x l IH]; intros [|y l'] H; cbn in *; try discriminate; [reflexivity|]. f_equal. apply IH. lia. Qed.

Lemma combine_snd {A B : Type} (l : list A) : forall l' : list B, length l' = length l -> map snd (combine l l') = l'.
Proof. induction l as [|x l IH]; intros [|y l'] H; cbn in *; try discriminate; [reflexivity|]. f_equal. apply IH. lia. Qed.

Lemma lift_ignores A f s1 s2 evs1 evs2 (m : client A) (Q : list rcall -> Prop) : Forall is_byte (fst (supplied evs1)) -> Forall is_byte (fst (supplied evs2)) ->
  ignores f m -> (forall log a, plays m log a -> Q (map fst log)) ->
  (forall cs, Q cs -> map f (read_session s1 evs1 cs) = map f (read_session s2 evs2 cs)) ->
  client_session s1 evs1 m = client_session s2 evs2 m.
Proof.
  intros Hb1 Hb2 Hi HQ H. destruct (session_total A s1 evs1 m Hb1) as (a & Ha). destruct (proj1 (session_iff A s1 evs1 m a Hb1) Ha) as (log & Hp & Hr).
  unfold really_happens in Hr. specialize (H (map fst log) (HQ _ _ Hp)). rewrite Hr in H. rewrite Ha. symmetry. apply session_iff; [exact Hb2|].
  set (os := read_session s2 evs2 (map fst log)) in *. assert (Hl : length os = length (map fst log)) by (apply read_length; exact Hb2).
  exists (combine (map fst log) os). split; [apply (ignores_plays A f m log a Hp Hi); symmetry; exact H|]. unfold really_happens.
  rewrite combine_fst, combine_snd by exact Hl. reflexivity.
Qed.

Lemma avoids_log A P (m : client A) log a : plays m log a -> avoids P m -> forall c, In c (map fst log) -> ~ P c.
Proof.
  intros Hp. induction Hp as [a|c k o log a Hp IH]; intros Ha x Hx; [contradiction|]. inversion Ha as [|c' k' Hn Hk]; subst.
  destruct Hx as [<-|Hx]; [exact Hn|exact (IH (Hk o) x Hx)].
Qed.

Lemma position_outcome s evs log : Forall is_byte (fst (supplied evs)) -> really_happens s evs log ->
  Forall (fun co => position_call (fst co) -> match snd co with OErr _ | OReadErr _ => False | _ => True end) log.
Proof.
  intros Hb Hr. destruct (calls_run s evs (map fst log) Hb) as (os & st' & c' & Hc & Ho). unfold really_happens in Hr. rewrite Hr in Ho. subst os. clear Hr.
  revert Hc. generalize (session_new s) (csrc_new evs). induction log as [|[x o] log IH]; intros st c Hc; [constructor|]. cbn [map fst snd client_calls] in Hc.
  rewrite crun_pbind in Hc. destruct (crun (client_call _ x st) c) as [[[o1 st1] c1]|] eqn:E1; [|discriminate]. cbn [fst snd] in *.
  rewrite crun_pbind in Hc. destruct (crun (client_calls _ (map fst log) st1) c1) as [[[os2 st2] c2]|] eqn:E2; [|discriminate].
  cbn [crun fst snd] in Hc. injection Hc as -> -> -> ->. constructor; [|exact (IH _ _ E2)]. intros [b Hx]. cbn [fst snd] in *. subst x.
  unfold client_call in E1. destruct (s_phase st); cbn in E1; injection E1 as <- _ _; exact I.
Qed.

Lemma hit_fails hit s evs log : Forall is_byte (fst (supplied evs)) -> really_happens s evs log -> Exists (fun co => hit_outcome hit (snd co)) log ->
  exists before c o after, log = before ++ (c, o) :: after /\ failed_call c o.
Proof.
  intros Hb Hr He. pose proof (position_outcome s evs log Hb Hr) as Hf. clear Hr Hb.
  apply Exists_exists in He. destruct He as ([c o] & Hin & Hh). rewrite Forall_forall in Hf. specialize (Hf _ Hin). cbn [fst snd] in *.
  destruct (in_split _ _ Hin) as (l1 & l2 & ->). exists l1, c, o, l2. split; [reflexivity|].
  split; [intros Hp; specialize (Hf Hp)|]; destruct o; cbn in Hh; try contradiction; exact I.
Qed.

Lemma simple_is_client R fuel s evs (u : use R) : simple_session fuel s evs u = match client_session s evs (simple_client fuel u) with Some r => r | None => SPanic Bug end.
Proof. unfold simple_session, client_session. destruct (crun _ _) as [[[a st'] c']|]; reflexivity. Qed.

Lemma lift_simple R fuel hit s1 s2 evs1 evs2 (u : use R) : Forall is_byte (fst (supplied evs1)) -> Forall is_byte (fst (supplied evs2)) ->
  (forall cs, same_until (hit_outcome hit) (read_session s1 evs1 cs) (read_session s2 evs2 cs)) -> returns_errors_use u ->
  forall x, simple_session fuel s1 evs1 u = SOk x -> simple_session fuel s2 evs2 u = SOk x.
Proof.
  intros Hb1 Hb2 H Hu x Hx. rewrite simple_is_client in *.
  destruct (lift_until _ _ s1 s2 evs1 evs2 (simple_client fuel u) Hb1 Hb2 H) as [He|(log & a & Hp & Hr & He)]; [rewrite <- He; exact Hx|].
  exfalso. destruct (hit_fails _ s1 evs1 log Hb1 Hr He) as (l1 & c & o & l2 & -> & Hf).
  pose proof (proj2 (session_iff _ s1 evs1 (simple_client fuel u) a Hb1) (ex_intro _ _ (conj Hp Hr))) as Ha. rewrite Ha in Hx. subst a.
  apply (proj2 (C37_errors_are_sticky_holds R fuel u l1 l2 c o _ Hu Hp Hf)). exists x. reflexivity.
Qed.

Lemma prefix_bytes (a b more : bytes) : b = a ++ more -> Forall is_byte b -> Forall is_byte a.
Proof. intros ->. apply Forall_app. Qed.

Lemma C65_programs_get_the_results_of_their_calls_holds : forall (A : Type) (s : settings) (evs : list event) (m : client A) (a : A), Forall is_byte (fst (supplied evs)) ->
  (client_session s evs m = Some a <-> exists log, plays m log a /\ really_happens s evs log).
Proof.
  intros A s evs m a Hb. apply session_iff. exact Hb.
Qed.

Lemma C65_later_calls_do_not_matter_holds : forall (s : settings) (evs : list event) (cs later : list rcall), Forall is_byte (fst (supplied evs)) ->
  exists os, read_session s evs (cs ++ later) = read_session s evs cs ++ os.
Proof.
  intros s evs cs later Hb. destruct (calls_run s evs cs Hb) as (os & st' & c' & Hc & ->).
  destruct (calls_run s evs (cs ++ later) Hb) as (os2 & st2 & c2 & Hc2 & ->).
  revert Hc Hc2. generalize (session_new s) (csrc_new evs). revert os os2.
  induction cs as [|x cs IH]; intros os os2 st c Hc Hc2; cbn [app client_calls] in *.
  - cbn in Hc. injection Hc as <- _ _. exists os2. reflexivity.
  - rewrite crun_pbind in Hc, Hc2. destruct (crun (client_call _ x st) c) as [[[o1 st1] c1]|]; [|discriminate]. cbn [fst snd] in *.
    rewrite crun_pbind in Hc, Hc2. destruct (crun (client_calls _ cs st1) c1) as [[[osa sta] ca]|] eqn:E1; [|discriminate].
    destruct (crun (client_calls _ (cs ++ later) st1) c1) as [[[osb stb] cb]|] eqn:E2; [|discriminate].
    cbn [crun fst snd] in Hc, Hc2. injection Hc as <- <- <-. injection Hc2 as <- <- <-.
    destruct (IH _ _ _ _ E1 E2) as (os3 & ->). exists os3. reflexivity.
Qed.

Lemma C18_programs_get_the_error_or_the_same_result_holds : forall (A : Type) (s : settings) (evs evs' : list event) (e : N) (more : bytes) (m : client A),
  snd (supplied evs) = TErr e -> fst (supplied evs') = fst (supplied evs) ++ more -> Forall is_byte (fst (supplied evs')) ->
  client_session s evs m = client_session s evs' m \/
  encounters (hit_outcome (fun err => exists p, err = EIo (IoSource e) p)) s evs m.
Proof.
  intros A s evs evs' e more m He Hm Hb. apply lift_until; [exact (prefix_bytes _ _ _ Hm Hb)|exact Hb|].
  intros cs. exact (C18_io_error_reported_or_same_result_holds s evs evs' e more cs He Hm Hb).
Qed.

Lemma C18_closures_succeed_only_without_io_error_holds : forall (R : Type) (fuel : nat) (s : settings) (evs evs' : list event) (e : N) (more : bytes) (u : use R) (x : reply R),
  snd (supplied evs) = TErr e -> fst (supplied evs') = fst (supplied evs) ++ more -> Forall is_byte (fst (supplied evs')) ->
  returns_errors_use u -> simple_session fuel s evs u = SOk x -> simple_session fuel s evs' u = SOk x.
Proof.
  intros R fuel s evs evs' e more u x He Hm Hb Hu. apply (lift_simple R fuel (fun err => exists p, err = EIo (IoSource e) p)); [exact (prefix_bytes _ _ _ Hm Hb)|exact Hb| |exact Hu].
  intros cs. exact (C18_io_error_reported_or_same_result_holds s evs evs' e more cs He Hm Hb).
Qed.

Lemma C20_layout_is_invisible_to_programs_holds : forall (A : Type) (s1 s2 : settings) (vs : list json) (evs1 evs2 : list event) (m : client A),
  Forall is_byte (fst (supplied evs1)) -> Forall is_byte (fst (supplied evs2)) ->
  document_input s1 vs evs1 -> document_input s2 vs evs2 ->
  allow_multiple_top_level s1 = allow_multiple_top_level s2 -> track_path s1 = track_path s2 ->
  restrict_number_values s1 = restrict_number_values s2 ->
  allow_multiple_top_level s1 = false \/ avoids (fun c => c = CConsumeTrailingWhitespace) m ->
  ignores forget m -> client_session s1 evs1 m = client_session s2 evs2 m.
Proof.
  intros A s1 s2 vs evs1 evs2 m Hb1 Hb2 Hd1 Hd2 H1 H2 H3 H4 Hi.
  apply (lift_ignores A forget s1 s2 evs1 evs2 m (fun cs => allow_multiple_top_level s1 = false \/ ~ In CConsumeTrailingWhitespace cs)); try assumption.
  - intros log a Hp. destruct H4 as [H4|H4]; [left; exact H4|right]. intros Hin. exact (avoids_log A _ m log a Hp H4 _ Hin eq_refl).
  - intros cs Hcs. exact (C20_layout_is_invisible_holds s1 s2 vs evs1 evs2 cs Hd1 Hd2 H1 H2 H3 Hcs).
Qed.

Lemma C27_path_tracking_has_no_influence_on_programs_holds : forall (A : Type) (s : settings) (evs : list event) (m : client A), Forall is_byte (fst (supplied evs)) ->
  ignores no_path_outcome m -> client_session (without_path s) evs m = client_session s evs m.
Proof.
  intros A s evs m Hb Hi. apply (lift_ignores A no_path_outcome _ _ evs evs m (fun _ => True)); try assumption; [intros; exact I|].
  intros cs _. rewrite (C27_path_tracking_has_no_influence_holds s evs cs Hb), map_map. apply map_ext.
  intros o. destruct o as [v|e|e| | | |]; try reflexivity.
  - destruct v; reflexivity.
  - destruct e; reflexivity.
  - destruct e as [e|]; try reflexivity. destruct e; reflexivity.
Qed.

Lemma C35_programs_without_comments_enabled_holds : forall (A : Type) (s : settings) (evs : list event) (m : client A), Forall is_byte (fst (supplied evs)) ->
  client_session (set_comments false s) evs m = client_session (set_comments true s) evs m \/
  encounters (hit_outcome (fun e => exists p, e = ESyntax CommentsNotEnabled p)) (set_comments false s) evs m.
Proof.
  intros A s evs m Hb. apply lift_until; [exact Hb..|]. intros cs. exact (C35_comments_not_enabled_holds s evs cs Hb).
Qed.

Lemma C35_programs_without_trailing_comma_enabled_holds : forall (A : Type) (s : settings) (evs : list event) (m : client A), Forall is_byte (fst (supplied evs)) ->
  client_session (set_trailing_comma false s) evs m = client_session (set_trailing_comma true s) evs m \/
  encounters (hit_outcome (fun e => exists p, e = ESyntax TrailingCommaNotEnabled p)) (set_trailing_comma false s) evs m.
Proof.
  intros A s evs m Hb. apply lift_until; [exact Hb..|]. intros cs. exact (C35_trailing_comma_not_enabled_holds s evs cs Hb).
Qed.

Lemma C41_programs_with_larger_nesting_limit_holds : forall (A : Type) (s : settings) (evs : list event) (m : client A) (n : N) (d : option N), Forall is_byte (fst (supplied evs)) ->
  (forall n', d = Some n' -> n <= n') ->
  client_session (set_max_nesting_depth (Some n) s) evs m = client_session (set_max_nesting_depth d s) evs m \/
  encounters (hit_outcome (fun e => exists p, e = EMaxNestingDepth n p)) (set_max_nesting_depth (Some n) s) evs m.
Proof.
  intros A s evs m n d Hb Hd. apply lift_until; [exact Hb..|]. intros cs. exact (C41_larger_nesting_limit_holds s evs cs n d Hb Hd).
Qed.

Lemma C41_programs_with_unrestricted_numbers_holds : forall (A : Type) (s : settings) (evs : list event) (m : client A), Forall is_byte (fst (supplied evs)) ->
  client_session (set_restrict_numbers true s) evs m = client_session (set_restrict_numbers false s) evs m \/
  encounters (hit_outcome (fun e => exists n p, e = EUnsupportedNumber n p)) (set_restrict_numbers true s) evs m.
Proof.
  intros A s evs m Hb. apply lift_until; [exact Hb..|]. intros cs. exact (C41_unrestricted_numbers_holds s evs cs Hb).
Qed.

Lemma C41_closures_succeed_without_limits_holds : forall (R : Type) (fuel : nat) (s : settings) (evs : list event) (n : N) (u : use R) (x : reply R), Forall is_byte (fst (supplied evs)) ->
  returns_errors_use u -> simple_session fuel (set_max_nesting_depth (Some n) (set_restrict_numbers true s)) evs u = SOk x ->
  simple_session fuel (set_max_nesting_depth None (set_restrict_numbers false s)) evs u = SOk x.
Proof.
  intros R fuel s evs n u x Hb Hu H.
  apply (lift_simple R fuel (fun e => exists p, e = EMaxNestingDepth n p) (set_max_nesting_depth (Some n) (set_restrict_numbers true s))
    (set_max_nesting_depth None (set_restrict_numbers true s)) evs evs u Hb Hb) in H; [|intros cs; exact (C41_larger_nesting_limit_holds _ evs cs n None Hb ltac:(discriminate))|exact Hu].
  apply (lift_simple R fuel (fun e => exists n p, e = EUnsupportedNumber n p) (set_restrict_numbers true (set_max_nesting_depth None s))
    (set_restrict_numbers false (set_max_nesting_depth None s)) evs evs u Hb Hb); [intros cs; exact (C41_unrestricted_numbers_holds _ evs cs Hb)|exact Hu|exact H].
Qed.
