(** * The different ways to read a string, a name or a number *)

From Verif Require Import Base Utf8Model NumberModel SourceModel SourceProofs ReaderModel ReaderScan ReaderLex ReaderLexStr
  ReaderMid ReaderAgree ReaderSess ReaderGrammar ReaderSafe ReaderErase ReaderOut SpecSessions ReaderPeek.

(** ** Borrowed or owned *)

Definition got (b : bool) (bs r : bytes) (t : tail_end) (k : bool) : asrc := ASrc r t k (VGot bs b) false.

(** What a function that completes a value does for the other kind of result *)
Definition flag_ok (m : bool -> M unit) : Prop := forall b b' s a,
  match exec (m b) s a with
  | Some ((Ok _, s1), a1) =>
    exists bs r t k, a1 = got b bs r t k /\ exec (m b') s a = Some ((Ok tt, s1), got b' bs r t k)
  | x => exec (m b') s a = x
  end.

Lemma flag_get : flag_ok value_get.
Proof.
  intros b b' s a. unfold exec, value_get. cbn [arun]. unfold a_vget.
  destruct (a_failed a); [reflexivity|]. destruct (a_mode a); try reflexivity. cbn. unfold got. eauto 8.
Qed.
Lemma flag_bind {A} (m : M A) (f : A -> bool -> M unit) : (forall x, flag_ok (f x)) -> flag_ok (fun b => bind m (fun x => f x b)).
Proof.
  intros Hf b b' s a. rewrite !exec_bind.
  destruct (exec m s a) as [[[[x|e|k|] s1] a1]|]; try reflexivity. apply Hf.
Qed.
Lemma flag_const (m : M unit) : (forall s a x s1 a1, exec m s a <> Some ((Ok x, s1), a1)) -> flag_ok (fun _ => m).
Proof. intros H b b' s a. destruct (exec m s a) as [[[[x|e|k|] s1] a1]|] eqn:Ex; try reflexivity. destruct (H _ _ _ _ _ Ex). Qed.

Lemma flag_string_loop : forall f, flag_ok (read_string_loop f).
Proof.
  induction f as [|f IH].
  - apply flag_const. intros s a x s1 a1 H. discriminate H.
  - intros b b' s a. pose proof (string_loop_step f b s a) as H1. pose proof (string_loop_step f b' s a) as H2.
    unfold exec. rewrite H1, H2.
    change (arun (bind ?m ?k s) a) with (exec (bind m k) s a). clear H1 H2. revert b b' s a.
    refine (flag_bind string_step (fun r b => if r then value_skip_final ;; value_get b else read_string_loop f b)%rm _).
    intros [|]; [|exact IH]. apply (flag_bind value_skip_final (fun _ => value_get)). intros _. apply flag_get.
Qed.
Lemma flag_read_string E : flag_ok (read_string E).
Proof. apply (flag_bind value_reader_new (fun _ => read_string_loop (fuel E))). intros _. apply flag_string_loop. Qed.

(** ** Functions which do not use the source *)

Definition inert {A} (m : M A) : Prop := forall s a,
  (exists x s1, exec m s a = Some ((Ok x, s1), a) /\ forall a2, exec m s a2 = Some ((Ok x, s1), a2)) \/
  (exists k s1, exec m s a = Some ((Panic k, s1), a) /\ k = Bug).
Lemma inert_bind {A B} (m : M A) (f : A -> M B) : inert m -> (forall x, inert (f x)) -> inert (bind m f).
Proof.
  intros Hm Hf s a. rewrite exec_bind. destruct (Hm s a) as [(x & s1 & -> & H)|(k & s1 & -> & ->)]; [|right; eauto].
  destruct (Hf x s1 a) as [(y & s2 & H2 & H3)|(k & s2 & H2 & ->)].
  - left. exists y, s2. split; [exact H2|]. intros a2. rewrite exec_bind, H. apply H3.
  - right. eauto.
Qed.
Lemma inert_ret {A} (x : A) : inert (ret x). Proof. intros s a. left. exists x, s. split; reflexivity. Qed.
Lemma inert_get : inert get_state. Proof. intros s a. left. exists s, s. split; reflexivity. Qed.
Lemma inert_update f : inert (update f). Proof. intros s a. left. exists tt, (f s). split; reflexivity. Qed.
Lemma inert_bug {A} : inert (@panics A Bug). Proof. intros s a. right. exists Bug, s. split; reflexivity. Qed.
Ltac ins := repeat (lazymatch goal with
  | |- inert (bind _ _) => apply inert_bind; [|intro]
  | |- inert (if ?c then _ else _) => destruct c
  | |- inert (match ?c with _ => _ end) => destruct c
  | |- inert (ret _) => apply inert_ret
  | |- inert get_state => apply inert_get
  | |- inert (update _) => apply inert_update
  | |- inert (panics Bug) => apply inert_bug
  end).
Lemma inert_value_end : inert on_value_end. Proof. unfold on_value_end. ins. Qed.
Lemma inert_path_name n : inert (set_path_name n). Proof. unfold set_path_name. ins. Qed.

(** ** Agreement of two functions, where the first one is well-behaved *)

Definition follows_at {A B} (R : A -> B -> Prop) (m : M A) (m' : M B) (s : rstate) (a : asrc) : Prop :=
  match exec m s a with
  | None | Some ((Panic Bug, _), _) => True
  | Some ((Ok x, s1), a1) => exists y, exec m' s a = Some ((Ok y, s1), a1) /\ R x y
  | Some ((Err e, s1), a1) => exec m' s a = Some ((Err e, s1), a1) \/
      (recoverable e = false /\ exists s2 a2, exec m' s a = Some ((Err e, s2), a2))
  | Some ((Panic Misuse, s1), a1) => exec m' s a = Some ((Panic Misuse, s1), a1)
  | Some ((OutOfFuel, s1), a1) => exec m' s a = Some ((OutOfFuel, s1), a1)
  end.
Definition follows {A B} (R : A -> B -> Prop) (m : M A) (m' : M B) : Prop := forall s a, follows_at R m m' s a.

Lemma follows_bind {A B C} (m : M A) (f : A -> M B) (f' : A -> M C) R : (forall x, follows R (f x) (f' x)) ->
  follows R (bind m f) (bind m f').
Proof.
  intros H s a. unfold follows_at. rewrite !exec_bind. destruct (exec m s a) as [[[[x|e|[]|] s1] a1]|]; try exact I; try reflexivity.
  - apply (H x s1 a1).
  - left. reflexivity.
Qed.

Lemma vstr_got bs r t k s : exec value_str s (got true bs r t k) =
  match from_utf8 bs with Some w => Some ((Ok w, s), ASrc r t k VNone false) | None => None end.
Proof. unfold exec, value_str. cbn. destruct (from_utf8 bs); reflexivity. Qed.
Lemma vstring_got b bs r t k s : exec value_string s (got b bs r t k) =
  match from_utf8 bs with Some w => Some ((Ok w, s), ASrc r t k VNone false) | None => None end.
Proof. unfold exec, value_string. cbn. destruct b, (from_utf8 bs); reflexivity. Qed.
Lemma vstr_peek_got bs r t k s : exec value_str_peek s (got true bs r t k) =
  match from_utf8 bs with Some w => Some ((Ok w, s), got true bs r t k) | None => None end.
Proof. unfold exec, value_str_peek. cbn. destruct (from_utf8 bs); reflexivity. Qed.

(** Completing a value and continuing with it *)
Lemma follows_flag {A B} (m : bool -> M unit) b b' (g : M A) (g' : M B) R : flag_ok m ->
  (forall s bs r t k,
    match exec g s (got b bs r t k) with
    | None | Some ((Panic Bug, _), _) => True
    | Some ((Ok x, s1), a1) => exists y, exec g' s (got b' bs r t k) = Some ((Ok y, s1), a1) /\ R x y
    | Some ((Err e, s1), a1) => exec g' s (got b' bs r t k) = Some ((Err e, s1), a1) \/
        (recoverable e = false /\ exists s2 a2, exec g' s (got b' bs r t k) = Some ((Err e, s2), a2))
    | Some ((Panic Misuse, s1), a1) => exec g' s (got b' bs r t k) = Some ((Panic Misuse, s1), a1)
    | Some ((OutOfFuel, s1), a1) => exec g' s (got b' bs r t k) = Some ((OutOfFuel, s1), a1)
    end) ->
  follows R (m b ;; g)%rm (m b' ;; g')%rm.
Proof.
  intros Hm Hg s a. unfold follows_at. rewrite !exec_bind. pose proof (Hm b b' s a) as H.
  destruct (exec (m b) s a) as [[[[x|e|[]|] s1] a1]|]; try exact I.
  - destruct H as (bs & r & t & k & -> & ->). apply Hg.
  - rewrite H. left. reflexivity.
  - rewrite H. reflexivity.
  - rewrite H. reflexivity.
Qed.

Lemma follows_string E : follows eq (next_str E) (next_string E).
Proof.
  apply follows_bind. intros p. apply (follows_flag (read_string E)); [apply flag_read_string|].
  intros s bs r t k. rewrite exec_bind.
  destruct (inert_value_end s (got true bs r t k)) as [([] & s1 & -> & H)|(k' & s1 & -> & ->)]; [|exact I].
  rewrite vstr_got, exec_bind, vstring_got. destruct (from_utf8 bs) as [w|]; [|exact I].
  exists w. split; [|reflexivity]. rewrite exec_bind, H. reflexivity.
Qed.

Lemma follows_name E : follows eq (next_name E) (next_name_owned E).
Proof.
  apply follows_bind. intros p. apply (follows_flag (read_string E)); [apply flag_read_string|].
  intros s bs r t k. rewrite xget, exec_bind, exec_bind, vstring_got.
  destruct (json_path s) as [q|] eqn:Ep.
  - rewrite exec_bind, vstr_peek_got. destruct (from_utf8 bs) as [w|] eqn:Eu; [|exact I].
    destruct (inert_path_name w s (got true bs r t k)) as [([] & s1 & -> & H)|(k' & s1 & -> & ->)]; [|exact I].
    rewrite vstr_got, Eu. exists w. split; [|reflexivity]. rewrite exec_bind, H. reflexivity.
  - change (exec (ret tt) s (got true bs r t k)) with (Some ((@Ok reader_error unit tt, s), got true bs r t k)). cbn iota.
    rewrite vstr_got. destruct (from_utf8 bs) as [w|]; [|exact I]. exists w. split; [|reflexivity].
    rewrite exec_bind. unfold set_path_name. rewrite xget, Ep. reflexivity.
Qed.

Lemma number_end_flag n s bs r t k :
  match exec (number_end_checks n) s (got true bs r t k) with
  | None | Some ((Panic Bug, _), _) => True
  | Some ((Ok x, s1), a1) => exists k', a1 = got true bs r t k' /\
      exec (number_end_checks n) s (got false bs r t k) = Some ((Ok tt, s1), got false bs r t k')
  | Some ((Err e, s1), a1) => recoverable e = false /\
      exists a2, exec (number_end_checks n) s (got false bs r t k) = Some ((Err e, s1), a2)
  | Some ((Panic Misuse, s1), a1) => False
  | Some ((OutOfFuel, s1), a1) => False
  end.
Proof.
  unfold number_end_checks. rewrite !xupdate. set (s5 := advance _ _ s). rewrite !exec_bind.
  unfold verify_next_separator. rewrite !exec_bind. destruct k; [|exact I].
  assert (Hp : forall b, exec peek_byte s5 (got b bs r t true) =
     match r with
     | x :: _ => Some ((Ok (Some x), s5), got b bs r t true)
     | [] => match t with TEof => Some ((Ok None, s5), got b bs r t true)
             | TErr e => Some ((Err (EIo (IoSource e) (location s5)), s5), got b bs r t true) end
     end).
  { intros b. unfold exec, peek_byte. cbn. destruct r; [|reflexivity]. destruct t; reflexivity. }
  rewrite !Hp.
  assert (Hv : forall c, exec on_value_end s5 c = exec on_value_end s5 c) by reflexivity.
  assert (Hend : match exec on_value_end s5 (got true bs r t true) with
    | None | Some ((Panic Bug, _), _) => True
    | Some ((Ok x, s1), a1) => exists k', a1 = got true bs r t k' /\
        exec on_value_end s5 (got false bs r t true) = Some ((Ok tt, s1), got false bs r t k')
    | _ => False end).
  { destruct (inert_value_end s5 (got true bs r t true)) as [([] & s1 & -> & H)|(k' & s1 & -> & ->)]; [|exact I].
    exists true. split; [reflexivity|]. apply H. }
  destruct r as [|x r].
  - destruct t as [|e]; cbn [exec ret arun].
    + change (exec (ret tt) s5 ?a) with (Some ((@Ok reader_error unit tt, s5), a)). cbn iota.
      destruct (exec on_value_end s5 (got true bs [] TEof true)) as [[[[y|e|[]|] s1] a1]|]; try exact I; try contradiction; exact Hend.
    + split; [reflexivity|]. eauto.
  - unfold verify_value_separator. destruct (is_value_separator x).
    + change (exec (ret tt) s5 ?a) with (Some ((@Ok reader_error unit tt, s5), a)). cbn iota.
      destruct (exec on_value_end s5 (got true bs (x :: r) t true)) as [[[[y|e|[]|] s1] a1]|]; try exact I; try contradiction; exact Hend.
    + cbn. split; [reflexivity|]. eauto.
Qed.

Lemma follows_number E : follows eq (next_number_as_str E) (next_number_as_string E).
Proof.
  intros s a. unfold follows_at, next_number_as_str, next_number_as_string. rewrite !exec_bind.
  unfold ReaderModel.read_number_bytes. rewrite !exec_bind.
  destruct (exec (ReaderModel.number_start E) s a) as [[[[x|e|[]|] s1] a1]|]; auto.
  rewrite !exec_bind.
  destruct (exec value_reader_new s1 a1) as [[[[x0|e|[]|] s2] a2]|]; auto.
  rewrite !exec_bind.
  destruct (exec (run_number number_next (consume_json_number (fuel E) x) 0) s2 a2) as [[[[rc|e|[]|] s3] a3]|]; auto.
  destruct (fst rc) as [n|]; [|cbn; auto].
  destruct (restrict_number_values (cfg E) && _).
  - destruct (exec (value_get false ;; number <- value_string ;; fail (EUnsupportedNumber number))%rm s3 a3)
      as [[[[u|e|[]|] s4] a4]|] eqn:Ef; auto. exfalso.
    rewrite exec_bind in Ef. destruct (exec (value_get false) s3 a3) as [[[[y|e|[]|] s5] a5]|]; try discriminate.
    rewrite exec_bind in Ef. destruct (exec value_string s5 a5) as [[[[y2|e|[]|] s6] a6]|]; discriminate.
  - rewrite !exec_bind. pose proof (flag_get true false s3 a3) as H.
    destruct (exec (value_get true) s3 a3) as [[[[u|e|[]|] s4] a4]|]; try (rewrite H; auto; fail); auto.
    destruct H as (bs & r & t & k & -> & ->). pose proof (number_end_flag (snd rc) s4 bs r t k) as H.
    destruct (exec (number_end_checks (snd rc)) s4 (got true bs r t k)) as [[[[y|e|[]|] s5] a5]|]; auto; try contradiction.
    + destruct H as (k' & -> & ->). rewrite vstr_got, vstring_got. destruct (from_utf8 bs) as [w|]; [|exact I]. eauto.
    + destruct H as (Hr & a6 & ->). right. eauto.
Qed.

(** ** Skipping a name, while the path is tracked *)

Lemma follows_skip_name E inp t s r kn : (length inp < fuel E)%nat -> track_path (cfg E) = true -> inv E inp s r ->
  follows_at (fun _ _ => True) (next_name E) (skip_name E) s (At r t kn).
Proof.
  intros Hf Ht Hi. unfold follows_at, next_name, skip_name.
  pose proof (before_name_good E inp t s r Hf Hi) as Hg. pose proof (agree_before_name E t s r kn) as Ha.
  rewrite !exec_bind.
  destruct (exec (before_name E) s (At r t kn)) as [[[[x|e|[]|] s1] a1]|] eqn:Eb; auto.
  destruct (d_before_name E t s r) as [y s2 r2|e s2 r2|[n|]| |]; cbn [does good] in *; try contradiction.
  - destruct Ha as (kn' & Ha). injection Ha as -> -> ->. destruct Hg as (Hi2 & _).
    pose proof (i_path _ _ _ _ Hi2) as Hp. unfold path_ok in Hp. destruct (json_path s2) as [q|] eqn:Ep; [|congruence].
    rewrite xget, Ep.
    assert (Hx : follows (fun _ _ => True)
        (read_string E true ;; s <- get_state ;;
         match json_path s with Some _ => name <- value_str_peek ;; set_path_name name | None => ret tt end ;; value_str)%rm
        (read_string E false ;; name <- value_string ;; set_path_name name)%rm).
    { apply (follows_flag (read_string E)); [apply flag_read_string|].
      intros s3 bs r3 t3 k3. rewrite xget, exec_bind, exec_bind, vstring_got.
      destruct (json_path s3) as [q3|] eqn:Ep3.
      - rewrite exec_bind, vstr_peek_got. destruct (from_utf8 bs) as [w|] eqn:Eu; [|exact I].
        destruct (inert_path_name w s3 (got true bs r3 t3 k3)) as [([] & s4 & -> & H)|(k' & s4 & -> & ->)]; [|exact I].
        rewrite vstr_got, Eu. exists tt. split; [|exact I]. apply H.
      - change (exec (ret tt) s3 (got true bs r3 t3 k3)) with (Some ((@Ok reader_error unit tt, s3), got true bs r3 t3 k3)). cbn iota.
        rewrite vstr_got. destruct (from_utf8 bs) as [w|]; [|exact I]. exists tt. split; [|exact I].
        unfold set_path_name. rewrite xget, Ep3. reflexivity. }
    exact (Hx s2 _).
  - destruct Ha as (_ & kn' & Ha). unfold fails in *; congruence.
  - destruct Ha as (? & ? & ? & Ha). unfold fails in *; congruence.
  - destruct Ha as (? & ? & ? & Ha & _). rewrite Eb in Ha. discriminate.
  - destruct Ha as (? & ? & Ha). unfold fails in *; congruence.
Qed.

(** ** Calls *)



Lemma follows_call {A B} (m : M A) (m' : M B) R val val' st a o st1 a1 : s_phase st = Running ->
  follows_at R m m' (s_state st) a -> arun (call m val st) a = Some ((o, st1), a1) -> sane o ->
  exists o' st1' a1', arun (call m' val' st) a = Some ((o', st1'), a1') /\ same_session st1 a1 st1' a1' /\
    ((o' = o /\ forall v, o <> OOk v) \/ exists x y, o = OOk (val x) /\ o' = OOk (val' y) /\ R x y).
Proof.
  intros Hp H Hr Hs. unfold call in *. rewrite arun_bind in Hr. rewrite arun_bind. unfold follows_at, exec in H.
  destruct (arun (m (s_state st)) a) as [[[[x|e|[]|] s2] a2]|]; cbn in Hr; try discriminate.
  - destruct H as (y & -> & HR). injection Hr as <- <- <-. cbn. eexists _, _, _. split; [reflexivity|].
    split; [left; auto|]. right; eauto.
  - injection Hr as <- <- <-. destruct H as [-> |(Hx & s3 & a3 & ->)]; cbn; (eexists _, _, _; split; [reflexivity|]).
    + split; [left; auto|]. left. split; [reflexivity|congruence].
    + rewrite Hx. split; [right; cbn; split; [reflexivity|discriminate]|]. left. split; [reflexivity|congruence].
  - injection Hr as <- <- <-. rewrite H. cbn. eexists _, _, _. split; [reflexivity|]. split; [left; auto|].
    left. split; [reflexivity|congruence].
  - injection Hr as <- <- <-. destruct Hs as [Hs _]. congruence.
  - injection Hr as <- <- <-. destruct Hs as [_ Hs]. congruence.
Qed.

Lemma ways_call E inp t c st a o st1 a1 : (length inp < fuel E)%nat -> track_path (cfg E) = true -> live E inp t st a ->
  arun (client_call E (canonical c) st) a = Some ((o, st1), a1) -> sane o ->
  exists st1' a1', arun (client_call E c st) a = Some ((result_as c o, st1'), a1') /\ same_session st1 a1 st1' a1'.
Proof.
  intros Hf Ht Hl H Hs.
  assert (Hdef : canonical c = c -> (forall o, result_as c o = o) ->
    exists st1' a1', arun (client_call E c st) a = Some ((result_as c o, st1'), a1') /\ same_session st1 a1 st1' a1').
  { intros Hc Hr. rewrite Hc in H. rewrite Hr. eexists _, _. split; [exact H|left; auto]. }
  destruct (s_phase st) eqn:Ep.
  2:{ unfold client_call in *. rewrite Ep in *. cbn in *. injection H as <- <- <-. eexists _, _.
      split; [destruct c; reflexivity|left; auto]. }
  2:{ unfold client_call in *. rewrite Ep in *. cbn in *. injection H as <- <- <-. eexists _, _.
      split; [destruct c; reflexivity|left; auto]. }
  assert (Hstr : forall (m m' : M str), follows eq m m' -> arun (call m RStr st) a = Some ((o, st1), a1) ->
    exists st1' a1', arun (call m' RStr st) a = Some ((o, st1'), a1') /\ same_session st1 a1 st1' a1').
  { intros m m' Hm Hc. destruct (follows_call m m' eq RStr RStr st a o st1 a1 Ep (Hm _ _) Hc Hs) as (o' & st1' & a1' & H1 & H2 & H3).
    exists st1', a1'. split; [|exact H2]. rewrite H1. destruct H3 as [[-> _]|(x & y & -> & -> & ->)]; reflexivity. }
  unfold client_call in *. rewrite Ep in *.
  destruct c; try (apply Hdef; reflexivity); cbn [canonical result_as] in *.
  - apply (Hstr _ _ (follows_name E) H).
  - assert (Hm : follows_at (fun _ _ => True) (next_name E) (skip_name E) (s_state st) a).
    { destruct Hl as (d & Hsr & Hd). destruct d as [s rd r|held| | |]; cbn in Hsr, Hd.
      - destruct Hsr as (-> & (kn & ->) & _). apply (follows_skip_name E inp); auto. apply Hd.
      - destruct Hsr as (s & sv & -> & Ha & _). cbn [s_state]. unfold follows_at, next_name, skip_name.
        assert (Hb : exec (before_name E) s a = Some ((Panic Misuse, s), a)).
        { unfold before_name. rewrite xget, !xmisuse, Ha. destruct (negb _); reflexivity. }
        rewrite !exec_bind, Hb. reflexivity.
      - congruence.
      - congruence.
      - contradiction. }
    destruct (follows_call _ _ _ RStr to_unit st a o st1 a1 Ep Hm H Hs) as (o' & st1' & a1' & H1 & H2 & H3).
    exists st1', a1'. split; [|exact H2]. rewrite H1.
    destruct H3 as [[-> Hn]|(x & y & -> & -> & _)]; [|reflexivity].
    destruct o; try reflexivity. destruct (Hn _ eq_refl).
  - apply (Hstr _ _ (follows_string E) H).
  - apply (Hstr _ _ (follows_number E) H).
Qed.


Lemma stopped_calls E cs : forall st a, s_phase st <> Running ->
  arun (client_calls E cs st) a = Some ((map (fun _ => match s_phase st with Stopped => OStopped | _ => ONotPossible end) cs, st), a).
Proof.
  induction cs as [|c cs IH]; intros st a H; [reflexivity|]. cbn [client_calls]. rewrite arun_bind.
  assert (Hc : arun (client_call E c st) a = Some ((match s_phase st with Stopped => OStopped | _ => ONotPossible end, st), a)).
  { unfold client_call. destruct (s_phase st); [congruence| |]; reflexivity. }
  rewrite Hc. cbn [fst snd]. rewrite arun_bind, (IH st a H). reflexivity.
Qed.

Lemma ways_calls E inp t cs : (length inp < fuel E)%nat -> track_path (cfg E) = true -> forall st a os st1 a1 os' st1' a1', live E inp t st a ->
  arun (client_calls E (map canonical cs) st) a = Some ((os, st1), a1) -> Forall sane os ->
  arun (client_calls E cs st) a = Some ((os', st1'), a1') -> os' = results_as cs os.
Proof.
  intros Hf Ht. induction cs as [|c cs IH]; intros st a os st1 a1 os' st1' a1' Hl H Hs H'; cbn [client_calls map] in *.
  - cbn in H, H'. injection H as <- _ _. injection H' as <- _ _. reflexivity.
  - rewrite arun_bind in H, H'.
    destruct (arun (client_call E (canonical c) st) a) as [[[o st2] a2]|] eqn:E1; [|discriminate].
    cbn [fst snd] in H. rewrite arun_bind in H.
    destruct (arun (client_calls E (map canonical cs) st2) a2) as [[[os2 st3] a3]|] eqn:E2; [|discriminate].
    cbn in H. injection H as <- <- <-. inversion Hs as [|? ? Hs1 Hs2]. subst.
    destruct (ways_call E inp t c st a o st2 a2 Hf Ht Hl E1 Hs1) as (st2' & a2' & E1' & Hss).
    rewrite E1' in H'. cbn [fst snd] in H'. rewrite arun_bind in H'.
    destruct (arun (client_calls E cs st2') a2') as [[[os2' st3'] a3']|] eqn:E2'; [|discriminate].
    cbn in H'. injection H' as <- <- <-. cbn [results_as]. f_equal.
    destruct Hss as [[<- <-]|[Hp Hr]].
    + destruct (live_call E inp t (canonical c) st a Hf Hl) as (o2 & st4 & a4 & E4 & _ & Hl4).
      rewrite E1 in E4. injection E4 as _ <- <-. eapply IH; eauto.
    + rewrite stopped_calls in E2 by congruence. rewrite stopped_calls in E2' by congruence.
      injection E2 as <- _ _. injection E2' as <- _ _. rewrite Hp. clear -Hr.
      induction cs as [|c cs IHc]; [reflexivity|]. cbn. rewrite IHc at 1. f_equal. destruct (s_phase st2'); destruct c; reflexivity.
Qed.

Definition tracked (s : settings) : settings :=
  Settings (allow_comments s) (allow_trailing_comma s) (allow_multiple_top_level s) true (max_nesting_depth s) (restrict_number_values s).

Lemma untracked_tracked s : track_path s = false -> untracked (tracked s) = s.
Proof. destruct s. cbn. intros ->. reflexivity. Qed.

Lemma results_as_erase cs : forall os, map erase_outcome (results_as cs os) = results_as cs (map erase_outcome os).
Proof.
  induction cs as [|c cs IH]; intros [|o os]; try reflexivity. cbn. rewrite IH. f_equal.
  destruct c, o as [[]| | | | | |]; reflexivity.
Qed.

Lemma session_ways s evs cs : Forall is_byte (fst (supplied evs)) ->
  read_session s evs cs = results_as cs (read_session s evs (map canonical cs)).
Proof.
  assert (Ht : forall s, track_path s = true -> Forall is_byte (fst (supplied evs)) ->
    read_session s evs cs = results_as cs (read_session s evs (map canonical cs))).
  { intros s' Ht Hb. destruct (session_run s' evs cs Hb) as (st1 & a1 & H1 & _).
    destruct (session_run s' evs (map canonical cs) Hb) as (st2 & a2 & H2 & _).
    refine (ways_calls (fenv s' evs) _ _ cs _ Ht _ _ _ _ _ _ _ _ (live_start s' _ _ Hb) H2 _ H1).
    - cbn. unfold enough_fuel. lia.
    - apply session_sane. exact Hb. }
  intros Hb. destruct (track_path s) eqn:E; [apply Ht; assumption|].
  rewrite <- (untracked_tracked s E), !session_untracked, <- results_as_erase by exact Hb. f_equal. apply Ht; [reflexivity|exact Hb].
Qed.
