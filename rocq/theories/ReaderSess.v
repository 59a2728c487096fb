(** * Client programs without the input buffer

    Auxiliary: [d_calls] runs a client program on the functions of [ReaderMid];
    [calls_agree] shows that the model does the same. *)

From Verif Require Import Base Utf8Model Utf8Proofs NumberModel SourceModel SourceProofs ReaderModel ReaderScan ReaderLex
  ReaderLexStr ReaderMid ReaderAgree.

(** ** The string reader *)

Fixpoint d_sv_loop (f : nat) (len : nat) (out : bytes) (sv : sv_state) : D (bytes * sv_state) :=
  if Nat.ltb (length out) len then
    match f with
    | O => dbug
    | S f' =>
      if negb (Nat.eqb (sv_start sv) 0 && Nat.eqb (length (sv_buf sv)) 0) then dbug
      else fun s r =>
        match scan_unit r with
        | UFail => MFail None
        | UEnd r' =>
          dbind (dupdate (set_active false)) (fun _ =>
          dbind d_on_value_end (fun _ =>
          dret (out, SvState (sv_buf sv) (sv_start sv) true (sv_error sv)))) (move [B_QUOTE] s) r'
        | UChar bs w r' =>
          let extra := skipn (len - length out) bs in
          if Nat.ltb STRING_VALUE_READER_BUF_SIZE (length extra) then MBug
          else d_sv_loop f' len (out ++ firstn (len - length out) bs)
                 (SvState extra (sv_start sv) false (sv_error sv)) (move w s) r'
        end
    end
  else dret (out, sv).

Definition d_sv_read (E : env) (len : nat) (sv : sv_state) : D (bytes * sv_state) :=
  if sv_reached_end sv || Nat.eqb len 0 then dret ([], sv)
  else
    let copy_count := Nat.min (length (sv_buf sv)) len in
    let sv1 :=
      if Nat.eqb copy_count (length (sv_buf sv))
      then SvState [] 0 false (sv_error sv)
      else SvState (skipn copy_count (sv_buf sv)) (sv_start sv + copy_count) false (sv_error sv) in
    d_sv_loop (fuel E) len (firstn copy_count (sv_buf sv)) sv1.

(** ** Properties of all results of a program *)

Fixpoint all_ret {A : Type} (P : A -> Prop) (p : prog A) : Prop :=
  match p with
  | Ret x => P x
  | DPeek k => forall r, all_ret P (k r)
  | DSkip k => all_ret P k
  | DVNew k => all_ret P k
  | DVPeek k => forall r, all_ret P (k r)
  | DVConsume k => all_ret P k
  | DVSkipPrev k => all_ret P k
  | DVSkipFinal k => all_ret P k
  | DVPush _ k => all_ret P k
  | DVGet _ k => all_ret P k
  | DVStrPeek k => forall s, all_ret P (k s)
  | DVStr k => forall s, all_ret P (k s)
  | DVString k => forall s, all_ret P (k s)
  end.

Lemma all_ret_arun {A : Type} (P : A -> Prop) (p : prog A) : all_ret P p -> forall a x a',
  arun p a = Some (x, a') -> P x.
Proof.
  induction p as [y|k IH|k IH|k IH|k IH|k IH|k IH|k IH|bs k IH|b k IH|k IH|k IH|k IH];
    cbn [all_ret arun]; intros H a x a' Ha.
  - injection Ha as <- <-. exact H.
  - destruct (a_peek a) as [[r a1]|]; [|discriminate]. exact (IH _ (H _) _ _ _ Ha).
  - destruct (a_skip a) as [a1|]; [|discriminate]. exact (IH H _ _ _ Ha).
  - destruct (a_vnew a) as [a1|]; [|discriminate]. exact (IH H _ _ _ Ha).
  - destruct (a_vpeek a) as [[r a1]|]; [|discriminate]. exact (IH _ (H _) _ _ _ Ha).
  - destruct (a_vconsume a) as [a1|]; [|discriminate]. exact (IH H _ _ _ Ha).
  - destruct (a_vskip_prev a) as [a1|]; [|discriminate]. exact (IH H _ _ _ Ha).
  - destruct (a_vskip_final a) as [a1|]; [|discriminate]. exact (IH H _ _ _ Ha).
  - destruct (a_vpush bs a) as [a1|]; [|discriminate]. exact (IH H _ _ _ Ha).
  - destruct (a_vget b a) as [a1|]; [|discriminate]. exact (IH H _ _ _ Ha).
  - destruct (a_vstr_peek a) as [s|]; [|discriminate]. exact (IH _ (H _) _ _ _ Ha).
  - destruct (a_vstr a) as [[s a1]|]; [|discriminate]. exact (IH _ (H _) _ _ _ Ha).
  - destruct (a_vstring a) as [[s a1]|]; [|discriminate]. exact (IH _ (H _) _ _ _ Ha).
Qed.

Lemma all_ret_bind {A B : Type} (P : A -> Prop) (Q : B -> Prop) (p : prog A) (f : A -> prog B) :
  all_ret P p -> (forall x, P x -> all_ret Q (f x)) -> all_ret Q (pbind p f).
Proof.
  intros Hp Hf. induction p as [y|k IH|k IH|k IH|k IH|k IH|k IH|k IH|bs k IH|b k IH|k IH|k IH|k IH];
    cbn [all_ret pbind] in *; auto.
Qed.

(** Functions which keep the flag of the string reader *)
Definition keeps {A : Type} (m : M A) : Prop := forall s,
  all_ret (fun rs => string_reader_active (snd rs) = string_reader_active s) (m s).

Lemma keeps_bind {A B : Type} (m : M A) (f : A -> M B) : keeps m -> (forall x, keeps (f x)) -> keeps (bind m f).
Proof.
  intros Hm Hf s. unfold bind. eapply all_ret_bind; [apply Hm|].
  intros [[x|e|k|] s'] H; cbn [snd] in H; try exact H.
  rewrite <- H. apply Hf.
Qed.
Lemma keeps_ret {A : Type} (x : A) : keeps (ret x). Proof. intros s. reflexivity. Qed.
Lemma keeps_fail {A : Type} e : keeps (@fail A e). Proof. intros s. reflexivity. Qed.
Lemma keeps_panics {A : Type} e : keeps (@panics A e). Proof. intros s. reflexivity. Qed.
Lemma keeps_advance a b : keeps (update (advance a b)). Proof. intros s. reflexivity. Qed.
Lemma keeps_peek : keeps peek_byte.
Proof. intros s. cbn. intros [b| |e]; reflexivity. Qed.
Lemma keeps_skip : keeps skip_peeked_byte. Proof. intros s. reflexivity. Qed.

Ltac keep :=
  repeat first
    [ progress intros
    | apply keeps_ret | apply keeps_fail | apply keeps_panics | apply keeps_advance | apply keeps_peek | apply keeps_skip
    | apply keeps_bind
    | match goal with |- keeps (match ?x with _ => _ end) => destruct x end
    | progress unfold read_byte, read_utf8_multibyte, syntax_err, read_unicode_escape_char, read_unicode_escape,
        read_hex_byte, char_from_u32 ].

Lemma keeps_read_string_bytes : keeps read_string_bytes.
Proof. unfold read_string_bytes. keep. Qed.

Lemma exec_catch {A : Type} (m : M A) s a :
  exec (catch m) s a =
  match exec m s a with
  | Some ((Ok x, s'), a') => Some ((Ok (inl x), s'), a')
  | Some ((Err e, s'), a') => Some ((Ok (inr e), s'), a')
  | Some ((Panic k, s'), a') => Some ((Panic k, s'), a')
  | Some ((OutOfFuel, s'), a') => Some ((OutOfFuel, s'), a')
  | None => None
  end.
Proof.
  unfold exec, catch. rewrite arun_bind. destruct (arun (m s) a) as [[[[x|e|k|] s'] a']|]; reflexivity.
Qed.

Lemma sv_loop_ex f : forall len out sv s r t kn,
  match d_sv_loop f len out sv s r with
  | MOk (o, sv') s' r' => exists kn',
    exec (sv_read_loop f len out sv) s (At r t kn) = Some ((Ok (inl o, sv'), s'), At r' t kn')
  | MFail None => exists e sv' s' a',
    exec (sv_read_loop f len out sv) s (At r t kn) = Some ((Ok (inr e, sv'), s'), a') /\ aborting e = true /\
    string_reader_active s' = string_reader_active s
  | MBug => True
  | _ => False
  end.
Proof.
  induction f as [|f IH]; intros len out sv s r t kn; cbn [d_sv_loop].
  - cbn [sv_read_loop]. destruct (Nat.ltb _ _); [exact I|]. exists kn. reflexivity.
  - destruct (Nat.ltb _ _) eqn:El; [|exists kn; cbn [sv_read_loop]; rewrite El; reflexivity].
    destruct (negb _) eqn:En; [exact I|].
    pose proof (read_string_bytes_ex s r t kn) as H.
    destruct (scan_unit r) as [r'|bs w r'|].
    + pose proof (value_end_pure (set_active false (move [B_QUOTE] s)) r') as Hp.
      unfold dbind, dupdate, dret.
      destruct (d_on_value_end (set_active false (move [B_QUOTE] s)) r') as [x s2 r2|e s2 r2|n| |]; try contradiction; [|exact I].
      destruct Hp as (-> & Hp). exists false. cbn [sv_read_loop]. rewrite El, En. rewrite exec_bind, exec_catch, H.
      rewrite skipn_nil. cbn [length Nat.ltb Nat.leb STRING_VALUE_READER_BUF_SIZE].
      step update_ok. step Hp. reflexivity.
    + cbv zeta. destruct (Nat.ltb STRING_VALUE_READER_BUF_SIZE _) eqn:Eb; [exact I|].
      specialize (IH len (out ++ firstn (len - length out) bs)
                     (SvState (skipn (len - length out) bs) (sv_start sv) false (sv_error sv)) (move w s) r' t false).
      assert (He : exec (sv_read_loop (S f) len out sv) s (At r t kn) =
                   exec (sv_read_loop f len (out ++ firstn (len - length out) bs)
                 (SvState (skipn (len - length out) bs) (sv_start sv) false (sv_error sv))) (move w s) (At r' t false)).
      { cbn [sv_read_loop]. rewrite El, En. rewrite exec_bind, exec_catch, H. cbv zeta. rewrite Eb. reflexivity. }
      rewrite active_move in IH.
      destruct (d_sv_loop f len _ _ (move w s) r') as [[o sv'] s' r2|e s' r2|[n|]| |]; try rewrite He; try exact IH.
    + destruct H as (e & s' & a' & H & Ha). exists e, sv, s', a'. cbn [sv_read_loop]. rewrite El, En.
      rewrite exec_bind, exec_catch, H. splits; auto.
      exact (all_ret_arun _ _ (keeps_read_string_bytes s) _ _ _ H).
Qed.

Lemma sv_loop_error f : forall len out sv s r o sv' s' r',
  d_sv_loop f len out sv s r = MOk (o, sv') s' r' -> sv_error sv' = sv_error sv.
Proof.
  induction f as [|f IH]; intros len out sv s r o sv' s' r'; cbn [d_sv_loop]; destruct (Nat.ltb _ _);
    try discriminate; try (intros [= <- <- <- <-]; reflexivity).
  destruct (negb _); [discriminate|]. destruct (scan_unit r) as [r1|bs w r1|]; [| |discriminate].
  - unfold dbind, dupdate. destruct (d_on_value_end _ _); try discriminate. intros [= <- <- <- <-]. reflexivity.
  - destruct (Nat.ltb STRING_VALUE_READER_BUF_SIZE _); [discriminate|]. intros H. apply IH in H. exact H.
Qed.

Lemma sv_read_error E len sv s r o sv' s' r' :
  d_sv_read E len sv s r = MOk (o, sv') s' r' -> sv_error sv' = sv_error sv.
Proof.
  unfold d_sv_read. destruct (_ || _); [intros [= <- <- <- <-]; reflexivity|].
  intros H. apply sv_loop_error in H. rewrite H. destruct (Nat.eqb _ _); reflexivity.
Qed.

Lemma sv_read_ex E len sv s r t kn : sv_error sv = false ->
  match d_sv_read E len sv s r with
  | MOk (o, sv') s' r' => exists kn',
    exec (sv_read E len sv) s (At r t kn) = Some ((Ok (inl o, sv'), s'), At r' t kn')
  | MFail None => exists e sv' s' a',
    exec (sv_read E len sv) s (At r t kn) = Some ((Ok (inr (SvError e), sv'), s'), a') /\ aborting e = true /\
    sv_error sv' = true /\ string_reader_active s' = string_reader_active s
  | MBug => True
  | _ => False
  end.
Proof.
  intros He. unfold d_sv_read, sv_read, sv_read_impl. rewrite He.
  destruct (_ || _); [exists kn; step ret_ok; reflexivity|].
  set (sv1 := if Nat.eqb _ _ then _ else _).
  set (out := firstn _ _).
  pose proof (sv_loop_ex (fuel E) len out sv1 s r t kn) as H.
  destruct (d_sv_loop (fuel E) len out sv1 s r) as [[o sv'] s' r'|e s' r'|[n|]| |]; auto.
  - destruct H as (kn' & H). exists kn'. step H. reflexivity.
  - destruct H as (e & sv' & s' & a' & H & Ha & Hs). eexists e, _, s', a'. splits; auto.
    step H. reflexivity. reflexivity.
Qed.

(** ** Sessions *)

(** [DDead held]: the string reader has failed; [held]: the client has not
    dropped it *)
Inductive dstate : Type :=
| DRun (s : rstate) (rd : option sv_state) (r : bytes)
| DDead (held : bool)
| DStop
| DDone
| DBug.

Inductive dout : Type :=
| DOut (o : outcome)
| DErr (n : option str)
| DReadErr
| DPos
| DBugOut.

Definition matches (o : outcome) (d : dout) : Prop :=
  match d with
  | DOut o' => o = o'
  | DErr None => exists e, o = OErr e /\ aborting e = true
  | DErr (Some n) => exists l, o = OErr (EUnsupportedNumber n l)
  | DReadErr => exists e, o = OReadErr (SvError e) /\ aborting e = true
  | DPos => exists p, o = OOk (RPos p)
  | DBugOut => False
  end.

Definition d_run {A : Type} (m : D A) (val : A -> rvalue) (s : rstate) (r : bytes) : dout * dstate :=
  match m s r with
  | MOk x s' r' => (DOut (OOk (val x)), DRun s' None r')
  | MErr e s' r' => (DOut (OErr e), DRun s' None r')
  | MFail n => (DErr n, DStop)
  | MMisuse => (DOut (OPanic Misuse), DStop)
  | MBug => (DBugOut, DBug)
  end.

Definition d_run_reader (E : env) (t : tail_end) (s : rstate) (r : bytes) : dout * dstate :=
  match d_next_string_reader E t s r with
  | MOk sv s' r' => (DOut (OOk RUnit), DRun s' (Some sv) r')
  | MErr e s' r' => (DOut (OErr e), DRun s' None r')
  | MFail n => (DErr n, DStop)
  | MMisuse => (DOut (OPanic Misuse), DStop)
  | MBug => (DBugOut, DBug)
  end.

Definition d_run_read (E : env) (len : nat) (s : rstate) (rd : option sv_state) (r : bytes) : dout * dstate :=
  match rd with
  | None => (DOut ONotPossible, DRun s rd r)
  | Some sv =>
    match d_sv_read E len sv s r with
    | MOk (bs, sv') s' r' => (DOut (OOk (RBytes bs)), DRun s' (Some sv') r')
    | MFail None => (DReadErr, DDead true)
    | _ => (DBugOut, DBug)
    end
  end.

Definition d_run_consume (E : env) (t : tail_end) (s : rstate) (r : bytes) : dout * dstate :=
  match d_consume_trailing E t s r with
  | MOk x s' r' => (DOut (OOk RUnit), DDone)
  | MErr e s' r' => (DOut (OErr e), DDone)
  | MFail n => (DErr n, DDone)
  | MMisuse => (DOut (OPanic Misuse), DDone)
  | MBug => (DBugOut, DBug)
  end.

Definition d_call_run (E : env) (t : tail_end) (c : rcall) (s : rstate) (rd : option sv_state) (r : bytes)
  : dout * dstate :=
  match c with
  | CPeek => d_run (d_peek E t) RType s r
  | CHasNext => d_run (d_has_next E t) RBool s r
  | CBeginArray => d_run (d_begin_array E t) to_unit s r
  | CEndArray => d_run (d_end_array E t) to_unit s r
  | CBeginObject => d_run (d_begin_object E t) to_unit s r
  | CEndObject => d_run (d_end_object E t) to_unit s r
  | CNextName | CNextNameOwned => d_run (d_next_name E t) RStr s r
  | CSkipName => d_run (d_skip_name E t) to_unit s r
  | CNextString | CNextStr => d_run (d_next_string E t) RStr s r
  | CNextStringReader => d_run_reader E t s r
  | CRead len => d_run_read E len s rd r
  | CNextNumberStr | CNextNumberString => d_run (d_next_number E t) RStr s r
  | CNextBool => d_run (d_next_bool E t) RBool s r
  | CNextNull => d_run (d_next_null E t) to_unit s r
  | CSkipValue => d_run (d_skip_value E t) to_unit s r
  | CSeekTo p => d_run (d_seek_to E t p) to_unit s r
  | CSeekBack p => d_run (d_seek_back E t p) to_unit s r
  | CSkipToTopLevel => d_run (d_skip_to_top_level E t) to_unit s r
  | CPosition b => (DOut (OOk (RPos (current_position b s))), DRun s None r)
  | CConsumeTrailingWhitespace => d_run_consume E t s r
  end.

Definition d_call_dead (c : rcall) (held : bool) : dout * dstate :=
  match c with
  | CRead _ => if held then (DOut (OReadErr SvPreviousError), DDead true) else (DOut ONotPossible, DDead false)
  | CPosition _ => (DPos, DDead false)
  | CSeekBack [] => (DOut (OOk RUnit), DDead false)
  | CConsumeTrailingWhitespace => (DOut (OPanic Misuse), DDone)
  | _ => (DOut (OPanic Misuse), DStop)
  end.

Definition d_call (E : env) (t : tail_end) (c : rcall) (d : dstate) : dout * dstate :=
  match d with
  | DRun s rd r => d_call_run E t c s rd r
  | DDead held => d_call_dead c held
  | DStop => (DOut OStopped, DStop)
  | DDone => (DOut ONotPossible, DDone)
  | DBug => (DBugOut, DBug)
  end.

Fixpoint d_calls (E : env) (t : tail_end) (cs : list rcall) (d : dstate) : list dout * dstate :=
  match cs with
  | [] => ([], d)
  | c :: cs' =>
    let (o, d1) := d_call E t c d in
    let (os, d2) := d_calls E t cs' d1 in (o :: os, d2)
  end.

(** Session and source represented by a [dstate] *)
Definition srel (t : tail_end) (st : session) (a : asrc) (d : dstate) : Prop :=
  match d with
  | DRun s rd r => st = Session s rd Running /\ (exists kn, a = At r t kn) /\
      match rd with
      | Some sv => sv_error sv = false /\ (sv_reached_end sv = false -> string_reader_active s = true)
      | None => True
      end
  | DDead held => exists s sv, st = Session s (if held then Some sv else None) Running /\
      string_reader_active s = true /\ sv_error sv = true
  | DStop => s_phase st = Stopped
  | DDone => s_phase st = Consumed
  | DBug => True
  end.

Definition call_ok (t : tail_end) (p : prog (outcome * session)) (a : asrc) (od : dout * dstate) : Prop :=
  snd od <> DBug ->
  exists o st' a', arun p a = Some ((o, st'), a') /\ matches o (fst od) /\ srel t st' a' (snd od).

Lemma recoverable_aborting e : aborting e = true -> recoverable e = false.
Proof. destruct e; cbn; congruence. Qed.

Lemma call_agree {A : Type} t (m : M A) (d : D A) val s rd r kn : agree t m d ->
  call_ok t (call m val (Session s rd Running)) (At r t kn) (d_run d val s r).
Proof.
  intros H. specialize (H s r kn). unfold call_ok, call, d_run. cbn [s_state]. intros Hb. rewrite arun_bind.
  destruct (d s r) as [x s' r'|e s' r'|[n|]| |]; cbn [fst snd] in *.
  - destruct H as (kn' & H). unfold exec in H. rewrite H. cbn [arun]. eexists _, _, _. split; [reflexivity|].
    split; [reflexivity|]. cbn [fst snd srel]; splits; eauto.
  - destruct H as (Hr & kn' & H). unfold exec in H. rewrite H. cbn [arun]. eexists _, _, _. split; [reflexivity|].
    split; [reflexivity|]. rewrite Hr. cbn [fst snd srel]; splits; eauto.
  - destruct H as (l & s' & a' & H). unfold exec in H. rewrite H. cbn [arun]. eexists _, _, _. split; [reflexivity|].
    split; [eexists; reflexivity|]. reflexivity.
  - destruct H as (e & s' & a' & H & He). unfold exec in H. rewrite H. cbn [arun]. eexists _, _, _. split; [reflexivity|].
    split; [eexists; split; [reflexivity|exact He]|]. rewrite (recoverable_aborting _ He). reflexivity.
  - destruct H as (s' & a' & H). unfold exec in H. rewrite H. cbn [arun]. eexists _, _, _. split; [reflexivity|].
    split; reflexivity.
  - contradiction.
Qed.

Lemma value_end_active s r x s' r' : d_on_value_end s r = MOk x s' r' ->
  string_reader_active s' = string_reader_active s.
Proof.
  unfold d_on_value_end, dbind, dget, dupdate, dret, dbug. destruct (is_in_array s).
  - destruct (json_path s) as [[|[i|n] l]|]; try discriminate; intros [= <- <- <-];
      cbn; destruct (is_in_object _); reflexivity.
  - intros [= <- <- <-]. cbn. destruct (is_in_object s); reflexivity.
Qed.

Lemma sv_loop_active f : forall len out sv s r o sv' s' r', string_reader_active s = true ->
  d_sv_loop f len out sv s r = MOk (o, sv') s' r' -> sv_reached_end sv' = false -> string_reader_active s' = true.
Proof.
  induction f as [|f IH]; intros len out sv s r o sv' s' r' Ha; cbn [d_sv_loop]; destruct (Nat.ltb _ _);
    try discriminate; try (intros [= <- <- <- <-]; auto; fail).
  destruct (negb _); [discriminate|]. destruct (scan_unit r) as [r1|bs w r1|]; [| |discriminate].
  - unfold dbind, dupdate. destruct (d_on_value_end _ _); try discriminate. intros [= <- <- <- <-]. discriminate.
  - destruct (Nat.ltb STRING_VALUE_READER_BUF_SIZE _); [discriminate|]. apply IH. rewrite active_move. exact Ha.
Qed.

Definition reader_ok (s : rstate) (rd : option sv_state) : Prop :=
  match rd with
  | Some sv => sv_error sv = false /\ (sv_reached_end sv = false -> string_reader_active s = true)
  | None => True
  end.

Lemma sv_read_ok E len sv s r o sv' s' r' : reader_ok s (Some sv) ->
  d_sv_read E len sv s r = MOk (o, sv') s' r' -> reader_ok s' (Some sv').
Proof.
  intros (He & Ha) H. split; [rewrite (sv_read_error _ _ _ _ _ _ _ _ _ H); exact He|].
  revert H. unfold d_sv_read. destruct (sv_reached_end sv) eqn:Er; cbn [orb].
  { intros [= <- <- <- <-]. rewrite Er. discriminate. }
  destruct (Nat.eqb len 0); [intros [= <- <- <- <-]; exact (fun _ => Ha eq_refl)|].
  intros H. exact (sv_loop_active _ _ _ _ _ _ _ _ _ _ (Ha eq_refl) H).
Qed.

Lemma call_run_agree E t c s rd r kn : reader_ok s rd ->
  call_ok t (client_call E c (Session s rd Running)) (At r t kn) (d_call_run E t c s rd r).
Proof.
  intros Hrd. unfold client_call. cbn [s_phase].
  destruct c; cbn [d_call_run]; try (apply call_agree; auto with agree; fail).
  - unfold call_string_reader, d_run_reader, call_ok. cbn [s_state].
    pose proof (agree_next_string_reader E t s r kn) as H. intros Hb. rewrite arun_bind.
    assert (Hsv : forall x s' r', d_next_string_reader E t s r = MOk x s' r' -> reader_ok s' (Some x)).
    { unfold d_next_string_reader, dbind, dupdate, dret. intros x s' r'.
      destruct (d_start E t TString false s r); try discriminate. intros [= <- <- _]. split; reflexivity. }
    destruct (d_next_string_reader E t s r) as [x s' r'|e s' r'|[n|]| |]; cbn [fst snd] in *.
    + destruct H as (kn' & H). unfold exec in H. rewrite H. cbn [arun]. eexists _, _, _. split; [reflexivity|].
      split; [reflexivity|]. specialize (Hsv _ _ _ eq_refl). cbn [reader_ok] in Hsv. cbn [fst snd srel]; splits; eauto; apply Hsv.
    + destruct H as (Hr & kn' & H). unfold exec in H. rewrite H. cbn [arun]. eexists _, _, _. split; [reflexivity|].
      split; [reflexivity|]. rewrite Hr. cbn [fst snd srel]; splits; eauto.
    + destruct H as (l & s' & a' & H). unfold exec in H. rewrite H. cbn [arun]. eexists _, _, _. split; [reflexivity|].
      split; [eexists; reflexivity|]. reflexivity.
    + destruct H as (e & s' & a' & H & He). unfold exec in H. rewrite H. cbn [arun]. eexists _, _, _. split; [reflexivity|].
      split; [eexists; split; [reflexivity|exact He]|]. rewrite (recoverable_aborting _ He). reflexivity.
    + destruct H as (s' & a' & H). unfold exec in H. rewrite H. cbn [arun]. eexists _, _, _. split; [reflexivity|].
      split; reflexivity.
    + contradiction.
  - unfold call_read, d_run_read, call_ok. cbn [s_state s_reader].
    destruct rd as [sv|].
    2:{ intros _. eexists _, _, _. split; [reflexivity|]. split; [reflexivity|]. cbn [fst snd srel]. splits; eauto. }
    pose proof (sv_read_ex E len sv s r t kn (proj1 Hrd)) as H.
    assert (Hok : forall o sv' s' r', d_sv_read E len sv s r = MOk (o, sv') s' r' -> reader_ok s' (Some sv')).
    { intros o sv' s' r'. apply sv_read_ok. exact Hrd. }
    rewrite arun_bind.
    assert (Hend : d_sv_read E len sv s r = MFail None -> string_reader_active s = true).
    { unfold d_sv_read. destruct (sv_reached_end sv) eqn:Er; [discriminate|]. intros _. apply Hrd. exact Er. }
    destruct (d_sv_read E len sv s r) as [[o sv'] s' r'|e s' r'|[n|]| |]; cbn [fst snd] in *; try contradiction.
    + intros _. destruct H as (kn' & H). unfold exec in H. rewrite H. cbn [arun]. eexists _, _, _. split; [reflexivity|].
      split; [reflexivity|]. specialize (Hok _ _ _ _ eq_refl). cbn [reader_ok] in Hok. cbn [fst snd srel]; splits; eauto; apply Hok.
    + intros _. destruct H as (e & sv' & s' & a' & H & Ha & Hs & Hact). unfold exec in H. rewrite H. cbn [arun].
      eexists _, _, _. split; [reflexivity|]. split; [eexists; split; [reflexivity|exact Ha]|].
      exists s', sv'. splits; auto. rewrite Hact. apply Hend. reflexivity.
  - intros _. eexists _, _, _. split; [reflexivity|]. split; [reflexivity|]. cbn [fst snd srel]; splits; eauto.
  - unfold call_consume, d_run_consume, call_ok. cbn [s_state]. intros Hb.
    pose proof (call_agree t _ _ to_unit s rd r kn (agree_consume_trailing E t)) as H.
    unfold call_ok, d_run in H. rewrite arun_bind.
    destruct (d_consume_trailing E t s r) as [x s' r'|e s' r'|n| |]; cbn [fst snd] in *;
      try (destruct (H ltac:(discriminate)) as (o & st' & a' & -> & Hm & _); eexists _, _, _; split; [reflexivity|];
           split; [exact Hm|reflexivity]).
    contradiction.
Qed.

(** Calls while the string reader is active do not use the input *)
Definition panics_misuse {A : Type} (m : M A) (s : rstate) : Prop := exists s', m s = Ret (Panic Misuse, s').

Lemma pm_bind {A B : Type} (m : M A) (f : A -> M B) s : panics_misuse m s -> panics_misuse (bind m f) s.
Proof. intros (s' & H). exists s'. unfold bind. rewrite H. reflexivity. Qed.
Lemma pm_get {B : Type} (f : rstate -> M B) s : panics_misuse (f s) s -> panics_misuse (bind get_state f) s.
Proof. intros (s' & H). exists s'. exact H. Qed.
Lemma pm_misuse {B : Type} b (f : unit -> M B) s :
  (b = false -> panics_misuse (f tt) s) -> panics_misuse (bind (misuse_if b) f) s.
Proof.
  intros H. destruct b; [exists s; reflexivity|]. destruct (H eq_refl) as (s' & Hs). exists s'. exact Hs.
Qed.
Lemma pm_misuse_true {B : Type} (f : unit -> M B) s : panics_misuse (bind (misuse_if true) f) s.
Proof. exists s. reflexivity. Qed.

Lemma pm_ret {A B : Type} (x : A) (f : A -> M B) s : panics_misuse (f x) s -> panics_misuse (bind (ret x) f) s.
Proof. intros (s' & H). exists s'. exact H. Qed.

Lemma pm_peek_optional E s : string_reader_active s = true -> panics_misuse (peek_internal_optional E) s.
Proof. intros Hs. apply pm_get. rewrite Hs. apply pm_misuse_true. Qed.
Lemma pm_peek_internal E s : string_reader_active s = true -> panics_misuse (peek_internal E) s.
Proof. intros Hs. apply pm_bind, pm_peek_optional, Hs. Qed.
Lemma pm_peek E s : string_reader_active s = true -> panics_misuse (peek E) s.
Proof. intros Hs. apply pm_get, pm_misuse. intros _. apply pm_bind, pm_peek_internal, Hs. Qed.
Lemma pm_start E s e c : string_reader_active s = true -> panics_misuse (start_expected_value_type E e c) s.
Proof. intros Hs. apply pm_get, pm_misuse. intros _. apply pm_bind, pm_peek_internal, Hs. Qed.
Lemma pm_has_next E s : string_reader_active s = true -> panics_misuse (has_next E) s.
Proof.
  intros Hs. apply pm_get, pm_misuse. intros _. apply pm_bind. destruct (stack s).
  - apply pm_misuse. intros _. apply pm_misuse. intros _. apply pm_peek_optional, Hs.
  - apply pm_bind, pm_peek_internal, Hs.
Qed.
Lemma pm_before_name E s : string_reader_active s = true -> panics_misuse (before_name E) s.
Proof. intros Hs. apply pm_get, pm_misuse. intros _. rewrite Hs. apply pm_misuse_true. Qed.
Lemma pm_end_array E s : string_reader_active s = true -> panics_misuse (end_array E) s.
Proof. intros Hs. apply pm_get, pm_misuse. intros _. apply pm_bind, pm_peek_internal, Hs. Qed.
Lemma pm_end_object E s : string_reader_active s = true -> panics_misuse (end_object E) s.
Proof. intros Hs. apply pm_get, pm_misuse. intros _. apply pm_misuse. intros _. apply pm_bind, pm_peek_internal, Hs. Qed.
Lemma pm_skip_value E s : (0 < fuel E)%nat -> string_reader_active s = true -> panics_misuse (skip_value E) s.
Proof.
  intros Hf Hs. apply pm_get, pm_misuse. intros Hn. destruct (fuel E) as [|f]; [lia|].
  cbn [skip_value_loop]. apply pm_ret. cbn [negb]. apply pm_bind. apply pm_get. rewrite Hn. apply pm_ret.
  apply pm_bind, pm_bind, pm_peek, Hs.
Qed.
Lemma pm_skip_items E s : (0 < fuel E)%nat -> string_reader_active s = true -> panics_misuse (skip_items E (fuel E)) s.
Proof. intros Hf Hs. destruct (fuel E) as [|f]; [lia|]. apply pm_bind, pm_has_next, Hs. Qed.
Lemma pm_skip_members E s : (0 < fuel E)%nat -> string_reader_active s = true -> panics_misuse (skip_members E (fuel E)) s.
Proof. intros Hf Hs. destruct (fuel E) as [|f]; [lia|]. apply pm_bind, pm_has_next, Hs. Qed.
Lemma pm_seek_back E s p : (0 < fuel E)%nat -> string_reader_active s = true -> p <> [] ->
  panics_misuse (seek_back E p) s.
Proof.
  intros Hf Hs Hp. unfold seek_back. destruct (rev p) as [|[i|n] q] eqn:Er.
  - apply (f_equal (@rev piece)) in Er. rewrite rev_involutive in Er. contradiction.
  - apply pm_bind, pm_skip_items; assumption.
  - apply pm_bind, pm_skip_members; assumption.
Qed.
Lemma pm_skip_to_top E s : string_reader_active s = true -> panics_misuse (skip_to_top_level E) s.
Proof. intros Hs. apply pm_get. rewrite Hs. apply pm_misuse_true. Qed.
Lemma pm_consume E s : string_reader_active s = true -> panics_misuse (consume_trailing_whitespace E) s.
Proof. intros Hs. apply pm_get. rewrite Hs. apply pm_misuse_true. Qed.

Lemma call_misuse {A : Type} t (m : M A) val s rd a : panics_misuse m s ->
  call_ok t (call m val (Session s rd Running)) a (DOut (OPanic Misuse), DStop).
Proof.
  intros (s' & H) _. unfold call. cbn [s_state]. rewrite H. cbn [pbind arun].
  eexists _, _, _. split; [reflexivity|]. split; reflexivity.
Qed.

Lemma call_dead_agree E t c s sv held a : (0 < fuel E)%nat ->
  string_reader_active s = true -> sv_error sv = true ->
  call_ok t (client_call E c (Session s (if held : bool then Some sv else None) Running)) a (d_call_dead c held).
Proof.
  intros Hf Hs He. unfold client_call. cbn [s_phase].
  destruct c; cbn [d_call_dead]; try (apply call_misuse;
    first [ apply pm_peek | apply pm_has_next | apply pm_end_array | apply pm_end_object
          | apply pm_bind, pm_before_name | apply pm_bind, pm_bind, pm_start | apply pm_bind, pm_start
          | apply pm_skip_value | apply pm_bind, pm_peek | apply pm_skip_to_top
          | apply pm_bind, pm_bind, pm_bind, pm_start ]; assumption).
  - intros _. unfold call_string_reader. cbn [s_state]. unfold next_string_reader.
    destruct (pm_bind _ (fun _ => update (set_active true) ;; ret (SvState [] 0 false false))%rm _ (pm_start E s TString false Hs)) as (s' & ->).
    cbn [pbind arun]. eexists _, _, _. split; [reflexivity|]. split; reflexivity.
  - destruct held; intros _; unfold call_read; cbn [s_reader].
    + unfold sv_read. rewrite He. cbn [s_state]. eexists _, _, _. split; [reflexivity|]. split; [reflexivity|].
      exists s, sv. auto.
    + eexists _, _, _. split; [reflexivity|]. split; [reflexivity|]. exists s, sv. auto.
  - destruct path as [|p path].
    + intros _. eexists _, _, _. split; [reflexivity|]. split; [reflexivity|]. exists s, sv. auto.
    + apply call_misuse. apply pm_seek_back; auto. discriminate.
  - intros _. eexists _, _, _. split; [reflexivity|]. split; [eexists; reflexivity|]. exists s, sv. auto.
  - intros _. unfold call_consume, call. cbn [s_state]. destruct (pm_consume E s Hs) as (s' & ->).
    cbn [pbind arun fst snd]. eexists _, _, _. split; [reflexivity|]. split; reflexivity.
Qed.

Lemma client_call_agree E t c st a d : (0 < fuel E)%nat -> srel t st a d -> call_ok t (client_call E c st) a (d_call E t c d).
Proof.
  intros Hf H. destruct d as [s rd r|held| | |]; cbn [srel d_call] in *.
  - destruct H as (-> & (kn & ->) & Hrd). apply call_run_agree. exact Hrd.
  - destruct H as (s & sv & -> & Hs & He). apply call_dead_agree; assumption.
  - unfold client_call. rewrite H. intros _. eexists _, _, _. split; [reflexivity|]. split; [reflexivity|exact H].
  - unfold client_call. rewrite H. intros _. eexists _, _, _. split; [reflexivity|]. split; [reflexivity|exact H].
  - intros []. reflexivity.
Qed.

Lemma d_calls_bug E t cs : snd (d_calls E t cs DBug) = DBug.
Proof. induction cs as [|c cs IH]; [reflexivity|]. cbn [d_calls d_call]. destruct (d_calls E t cs DBug). exact IH. Qed.

Lemma calls_agree E t cs : (0 < fuel E)%nat -> forall st a d, srel t st a d ->
  snd (d_calls E t cs d) <> DBug ->
  exists os st' a', arun (client_calls E cs st) a = Some ((os, st'), a') /\
    Forall2 matches os (fst (d_calls E t cs d)) /\ srel t st' a' (snd (d_calls E t cs d)).
Proof.
  intros Hf. induction cs as [|c cs IH]; intros st a d H Hb; cbn [d_calls client_calls] in *.
  - eexists _, _, _. split; [reflexivity|]. split; [constructor|exact H].
  - pose proof (client_call_agree E t c st a d Hf H) as Hc. unfold call_ok in Hc.
    destruct (d_call E t c d) as [o d1]. cbn [fst snd] in *.
    assert (Hd1 : d1 <> DBug).
    { intros ->. apply Hb. pose proof (d_calls_bug E t cs) as Hx. destruct (d_calls E t cs DBug). exact Hx. }
    destruct (Hc Hd1) as (o1 & st1 & a1 & Hrun & Hm & Hr).
    specialize (IH st1 a1 d1 Hr). destruct (d_calls E t cs d1) as [os d2]. cbn [fst snd] in *.
    destruct (IH Hb) as (os2 & st2 & a2 & Hrun2 & Hm2 & Hr2).
    rewrite arun_bind, Hrun. cbn [snd]. rewrite arun_bind, Hrun2. cbn [arun fst snd].
    eexists _, _, _. split; [reflexivity|]. split; [constructor; assumption|exact Hr2].
Qed.

(** ** The whole program *)

Definition d_session (s : settings) (evs : list event) (cs : list rcall) : list dout * dstate :=
  d_calls (Env s (enough_fuel (fst (supplied evs)))) (snd (supplied evs)) cs
    (DRun (rstate_new s) None (fst (supplied evs))).

Lemma session_agree s evs cs : snd (d_session s evs cs) <> DBug ->
  exists os st' a', arun (client_calls (Env s (enough_fuel (fst (supplied evs)))) cs (session_new s))
      (asrc_new (fst (supplied evs)) (snd (supplied evs))) = Some ((os, st'), a') /\
    read_session s evs cs = os /\ Forall2 matches os (fst (d_session s evs cs)).
Proof.
  intros Hb.
  destruct (calls_agree (Env s (enough_fuel (fst (supplied evs)))) (snd (supplied evs)) cs
    ltac:(cbn; unfold enough_fuel; lia) (session_new s) (asrc_new (fst (supplied evs)) (snd (supplied evs)))
    (DRun (rstate_new s) None (fst (supplied evs)))) as (os & st' & a' & Hrun & Hm & _).
  - cbn [fst snd srel]. splits; [reflexivity| |exact I]. exists false. reflexivity.
  - exact Hb.
  - exists os, st', a'. split; [exact Hrun|]. split; [|exact Hm].
    unfold read_session. destruct (refines _ _ _ _ _ (rel_new evs) Hrun) as (c' & -> & _). reflexivity.
Qed.

(** C17: the schedule does not matter *)
Lemma session_schedule s evs1 evs2 cs : supplied evs1 = supplied evs2 -> snd (d_session s evs1 cs) <> DBug ->
  read_session s evs1 cs = read_session s evs2 cs.
Proof.
  intros H Hb.
  assert (Hb2 : snd (d_session s evs2 cs) <> DBug) by (unfold d_session in *; rewrite <- H; exact Hb).
  destruct (session_agree s evs1 cs Hb) as (os1 & st1 & a1 & Hr1 & -> & _).
  destruct (session_agree s evs2 cs Hb2) as (os2 & st2 & a2 & Hr2 & -> & _).
  rewrite H in Hr1. rewrite Hr1 in Hr2. injection Hr2 as <- _ _. reflexivity.
Qed.
