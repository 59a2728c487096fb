(** * Client programs on a known document

    Auxiliary: the results of any client program are those of the walk of
    [SpecCursor] through the data. *)

From Verif Require Import Base Utf8Model Utf8Proofs NumberModel SpecNumber NumberProofs SpecJson SourceModel ReaderModel
  ReaderScan ReaderLex ReaderLexStr ReaderMid ReaderAgree ReaderSess ReaderGrammar ReaderSafe SpecCursor ReaderRepr ReaderForward
  ReaderSkip ReaderSeek.

(** ** Reading from a string reader *)

Definition is_open (E : env) (inp : bytes) (fs : list frame) (vs : list json) (v : str) (s : rstate) (r : bytes) : Prop :=
  inside E inp fs vs s r /\ string_reader_active s = true /\ reading_text E fs vs v r.

Lemma reading_cons E fs vs c v r : reading_text E fs vs (c :: v) r -> exists w r', r = w ++ r' /\ unit_text w c /\ reading_text E fs vs v r'.
Proof.
  intros (body & t' & -> & Hb & Ho). remember (c :: v) as cv eqn:Ecv. revert c v Ecv.
  induction Hb as [|w x t s Hu Hs IH] using str_text_ind'; intros c v [= -> ->].
  exists w, (t ++ B_QUOTE :: t'). rewrite <- app_assoc. splits; auto. exists t, t'. auto.
Qed.
Lemma reading_nil E fs vs r : reading_text E fs vs [] r -> exists t', r = B_QUOTE :: t' /\ outer (reader_syntax (cfg E)) fs vs t'.
Proof.
  intros (body & t' & -> & Hb & Ho). remember (@nil char) as e eqn:Ee.
  induction Hb as [|w x t s Hu Hs IH] using str_text_ind'; [|discriminate]. exists t'. auto.
Qed.

Lemma firstn_app_exact {A : Type} (a b : list A) : firstn (length a) (a ++ b) = a.
Proof. rewrite firstn_app, firstn_all, Nat.sub_diag. cbn. apply app_nil_r. Qed.
Lemma skipn_app_exact {A : Type} (a b : list A) : skipn (length a) (a ++ b) = b.
Proof. rewrite skipn_app, skipn_all, Nat.sub_diag. reflexivity. Qed.

Lemma sv_loop_forward E inp fs vs len f : forall out sv v s r, (length inp < fuel E)%nat -> is_open E inp fs vs v s r -> (length r < f)%nat ->
  sv_reached_end sv = false -> sv_error sv = false -> ((length out < len)%nat -> sv_buf sv = [] /\ sv_start sv = O) -> (length out <= len)%nat ->
  if Nat.leb len (length (out ++ sv_buf sv ++ encode_utf8 v))
  then exists sv' v' s' r', d_sv_loop f len out sv s r = MOk (firstn len (out ++ sv_buf sv ++ encode_utf8 v), sv') s' r' /\
    is_open E inp fs vs v' s' r' /\ sv_reached_end sv' = false /\ sv_error sv' = false /\
    skipn len (out ++ sv_buf sv ++ encode_utf8 v) = sv_buf sv' ++ encode_utf8 v'
  else exists sv' s' r', d_sv_loop f len out sv s r = MOk (out ++ sv_buf sv ++ encode_utf8 v, sv') s' r' /\
    repr E inp (frames_done fs) vs true s' r' /\ sv_reached_end sv' = true /\ sv_error sv' = false.
Proof.
  induction f as [|f IH]; intros out sv v s r Hf Ho Hl He1 He2 Hbuf Hle; [lia|]. cbn [d_sv_loop].
  destruct (Nat.ltb_spec (length out) len) as [Hlt|Hge].
  - destruct (Hbuf Hlt) as [Hb1 Hb2]. rewrite Hb1, Hb2. cbn [length Nat.eqb andb negb app].
    destruct Ho as (Hin & Ha & Hrt). destruct v as [|c v].
    + destruct (reading_nil _ _ _ _ Hrt) as (t' & -> & Ho). cbn [encode_utf8 flat_map]. rewrite !app_nil_r.
      destruct (Nat.leb_spec len (length out)) as [Hx|_]; [lia|].
      change (scan_unit (B_QUOTE :: t')) with (UEnd t'). cbn iota.
      assert (Hin' : inside E inp fs vs (set_active false (move [B_QUOTE] s)) t').
      { destruct Hin as [[Hi H1 H2 H3] Hp Hn Ht].
        pose proof (inv_moved E inp s _ [B_QUOTE] t' Hi Hp eq_refl (tok_valid PkStringStart) ltac:(repeat constructor; lia)) as Hi'.
        split; auto. split; auto. destruct Hi'. split; auto.
        unfold peek_ok in *. cbn. rewrite peeked_move, Hp. exact I. }
      destruct (value_end_forward _ _ _ _ _ _ Hin' eq_refl Ho) as (s2 & He & Hr2).
      unfold dbind, dupdate. rewrite He. eexists _, _, _. split; [reflexivity|]. auto.
    + destruct (reading_cons _ _ _ _ _ _ Hrt) as (w & r' & -> & Hu & Hrt'). rewrite (scan_unit_complete _ _ _ Hu).
      cbv zeta. pose proof (encode_char_max c) as Hmax.
      destruct (Nat.ltb_spec STRING_VALUE_READER_BUF_SIZE (length (skipn (len - length out) (encode_char c)))) as [Hx|_].
      { rewrite skipn_length in Hx. unfold STRING_VALUE_READER_BUF_SIZE in Hx. lia. }
      assert (Hin' : is_open E inp fs vs v (move w s) r').
      { destruct (unit_text_valid _ _ Hu) as [Hv Hg]. destruct Hin as [Hb Hp Hn Ht].
        pose proof (inv_moved E inp s _ w r' (b_inv _ _ _ _ _ _ Hb) Hp eq_refl Hv Hg) as Hi'.
        unfold is_open; splits; [|rewrite active_move; exact Ha|exact Hrt'].
        apply (inside_same E inp fs vs s (w ++ r')); [split; auto|apply same_move|rewrite peeked_move; exact Hp|exact Hi']. }
      pose proof (IH (out ++ firstn (len - length out) (encode_char c))
        (SvState (skipn (len - length out) (encode_char c)) 0 false (sv_error sv)) v (move w s) r' Hf Hin') as H.
      cbn [sv_buf sv_start sv_error sv_reached_end] in H.
      assert (Hcat : (out ++ firstn (len - length out) (encode_char c)) ++ skipn (len - length out) (encode_char c) ++ encode_utf8 v =
        out ++ encode_utf8 (c :: v)).
      { rewrite <- app_assoc. f_equal. rewrite app_assoc, firstn_skipn, encode_utf8_cons. reflexivity. }
      rewrite Hcat in H. apply H; auto.
      * pose proof (unit_text_nonempty _ _ Hu). rewrite app_length in Hl. destruct w; [contradiction|cbn in Hl; lia].
      * rewrite app_length, firstn_length. intros Hlt2. split; [|reflexivity].
        apply length_zero_iff_nil. rewrite skipn_length. lia.
      * rewrite app_length, firstn_length. lia.
  - assert (Hlen : length out = len) by lia.
    destruct (Nat.leb_spec len (length (out ++ sv_buf sv ++ encode_utf8 v))) as [_|Hx]; [|rewrite app_length in Hx; lia].
    exists sv, v, s, r. rewrite <- Hlen, firstn_app_exact, skipn_app_exact. splits; auto; apply Ho.
Qed.

Lemma sv_read_forward E inp fs vs len sv v s r : (length inp < fuel E)%nat -> is_open E inp fs vs v s r ->
  sv_reached_end sv = false -> sv_error sv = false ->
  if Nat.leb len (length (sv_buf sv ++ encode_utf8 v))
  then exists sv' v' s' r', d_sv_read E len sv s r = MOk (firstn len (sv_buf sv ++ encode_utf8 v), sv') s' r' /\
    is_open E inp fs vs v' s' r' /\ sv_reached_end sv' = false /\ sv_error sv' = false /\
    skipn len (sv_buf sv ++ encode_utf8 v) = sv_buf sv' ++ encode_utf8 v'
  else exists sv' s' r', d_sv_read E len sv s r = MOk (sv_buf sv ++ encode_utf8 v, sv') s' r' /\
    repr E inp (frames_done fs) vs true s' r' /\ sv_reached_end sv' = true /\ sv_error sv' = false.
Proof.
  intros Hf Ho Hre Her. unfold d_sv_read. rewrite Hre. cbn [orb].
  destruct (Nat.eqb_spec len 0) as [->|Hn0]; [cbn [Nat.leb firstn skipn]; exists sv, v, s, r; splits; auto; apply Ho|].
  cbv zeta. pose proof (inside_length _ _ _ _ _ _ (proj1 Ho)) as Hl.
  destruct (Nat.eqb_spec (Nat.min (length (sv_buf sv)) len) (length (sv_buf sv))) as [Hm|Hm].
  - pose proof (sv_loop_forward E inp fs vs len (fuel E) (firstn (Nat.min (length (sv_buf sv)) len) (sv_buf sv))
      (SvState [] 0 false (sv_error sv)) v s r Hf Ho ltac:(lia) eq_refl Her ltac:(auto)) as H.
    rewrite Hm, firstn_all in H. rewrite Hm, firstn_all. apply H. lia.
  - pose proof (sv_loop_forward E inp fs vs len (fuel E) (firstn (Nat.min (length (sv_buf sv)) len) (sv_buf sv))
      (SvState (skipn (Nat.min (length (sv_buf sv)) len) (sv_buf sv)) (sv_start sv + Nat.min (length (sv_buf sv)) len) false (sv_error sv))
      v s r Hf Ho ltac:(lia) eq_refl Her) as H.
    cbn [sv_buf sv_start] in H. rewrite app_assoc, firstn_skipn in H. apply H; rewrite firstn_length; lia.
Qed.

(** ** Calls while a string reader prevents them *)

Lemma peek_optional_active E t s r : string_reader_active s = true -> d_peek_optional E t s r = MMisuse.
Proof. intros H. unfold d_peek_optional, dbind, dget. rewrite H. reflexivity. Qed.
Lemma peek_internal_active E t s r : string_reader_active s = true -> d_peek_internal E t s r = MMisuse.
Proof. intros H. unfold d_peek_internal. apply dbind_misuse. apply peek_optional_active. exact H. Qed.

Lemma misuse_cont {A : Type} b (m : D A) s r : m s r = MMisuse -> (dmisuse_if b ;; m)%dm s r = MMisuse.
Proof. unfold dmisuse_if, dbind. destruct b; auto. Qed.
Lemma get_cont {A : Type} (m : rstate -> D A) s r : m s s r = MMisuse -> dbind dget m s r = MMisuse.
Proof. auto. Qed.

Lemma start_active E t ty chk s r : string_reader_active s = true -> d_start E t ty chk s r = MMisuse.
Proof. intros H. unfold d_start. apply get_cont, misuse_cont, dbind_misuse, peek_internal_active. exact H. Qed.
Lemma peek_active E t s r : string_reader_active s = true -> d_peek E t s r = MMisuse.
Proof. intros H. unfold d_peek. apply get_cont, misuse_cont, dbind_misuse, peek_internal_active. exact H. Qed.
Lemma has_next_active E t s r : string_reader_active s = true -> d_has_next E t s r = MMisuse.
Proof.
  intros H. unfold d_has_next. apply get_cont, misuse_cont, dbind_misuse. destruct (stack s).
  - apply misuse_cont, misuse_cont, peek_optional_active. exact H.
  - apply dbind_misuse, peek_internal_active. exact H.
Qed.
Lemma end_array_active E t s r : string_reader_active s = true -> d_end_array E t s r = MMisuse.
Proof. intros H. unfold d_end_array. apply get_cont, misuse_cont, dbind_misuse, peek_internal_active. exact H. Qed.
Lemma end_object_active E t s r : string_reader_active s = true -> d_end_object E t s r = MMisuse.
Proof. intros H. unfold d_end_object. apply get_cont, misuse_cont, misuse_cont, dbind_misuse, peek_internal_active. exact H. Qed.
Lemma before_name_active E t s r : string_reader_active s = true -> d_before_name E t s r = MMisuse.
Proof. intros H. unfold d_before_name. apply get_cont, misuse_cont. rewrite H. reflexivity. Qed.
Lemma skip_value_active E t s r : string_reader_active s = true -> expects_member_name s = false -> (0 < fuel E)%nat ->
  d_skip_value E t s r = MMisuse.
Proof.
  intros H Hn Hf. unfold d_skip_value. apply get_cont, misuse_cont. destruct (fuel E) as [|f]; [lia|]. cbn [d_skip_value_loop].
  apply dbind_misuse. unfold d_skip_step. change (dbind (dret true) ?k s r) with (k true s r). cbn [negb].
  apply get_cont. rewrite Hn. change (dbind (dret tt) ?k s r) with (k tt s r).
  apply dbind_misuse. unfold d_skip_value_start. apply dbind_misuse, peek_active. exact H.
Qed.
Lemma seek_back_active E t p path s r : string_reader_active s = true -> (0 < fuel E)%nat -> d_seek_back_pieces E t (p :: path) s r = MMisuse.
Proof.
  intros H Hf. destruct (fuel E) as [|f] eqn:Ef; [lia|]. destruct p; cbn [d_seek_back_pieces]; rewrite Ef;
    cbn [d_skip_items d_skip_members]; apply dbind_misuse, dbind_misuse, has_next_active; exact H.
Qed.

(** ** One call *)

Definition lrepr (E : env) (inp : bytes) (c : cursor) (s : rstate) (r : bytes) : Prop :=
  match reading c with
  | NotReading | ReadAll => repr E inp (frames c) (top c) (started c) s r
  | Reading rest _ => exists v, is_open E inp (frames c) (top c) v s r /\ started c = true
  end.

Definition srepr (E : env) (inp : bytes) (c : cursor) (s : rstate) (rd : option sv_state) (r : bytes) : Prop :=
  match reading c with
  | NotReading => repr E inp (frames c) (top c) (started c) s r /\ rd = None
  | ReadAll => repr E inp (frames c) (top c) (started c) s r /\ exists sv, rd = Some sv /\ sv_reached_end sv = true
  | Reading rest held => exists v, is_open E inp (frames c) (top c) v s r /\ started c = true /\
      if held then exists sv, rd = Some sv /\ sv_reached_end sv = false /\ sv_error sv = false /\ rest = sv_buf sv ++ encode_utf8 v
      else rd = None
  end.

Definition wrep (E : env) (inp : bytes) (w : walk) (d : dstate) : Prop :=
  match w with
  | AtCursor c => exists s rd r, d = DRun s rd r /\ srepr E inp c s rd r
  | Halted => d = DStop
  | GivenAway => d = DDone
  end.

Definition dres (s : settings) (x : expected) (d : dout) : Prop := forall o, matches o d -> is_result s x o.

Definition step_rep (E : env) (inp : bytes) (xw : expected * walk) (od : dout * dstate) : Prop :=
  dres (cfg E) (fst xw) (fst od) /\ wrep E inp (snd xw) (snd od).

(** [od] is the outcome of the function result [m], apart from its value *)
Definition runs {A : Type} (m : mres A) (od : dout * dstate) : Prop :=
  match m with
  | MOk _ _ _ => True
  | MErr e s' r' => od = (DOut (OErr e), DRun s' None r')
  | MFail n => od = (DErr n, DStop)
  | MMisuse => od = (DOut (OPanic Misuse), DStop)
  | MBug => True
  end.

Lemma run_runs {A : Type} (m : D A) val s r : runs (m s r) (d_run m val s r).
Proof. unfold runs, d_run. destruct (m s r); auto. Qed.
Lemma reader_runs E t s r : runs (d_next_string_reader E t s r) (d_run_reader E t s r).
Proof. unfold runs, d_run_reader. destruct (d_next_string_reader E t s r); auto. Qed.

Lemma misuse_step E inp (od : dout * dstate) : od = (DOut (OPanic Misuse), DStop) -> step_rep E inp (XMisuse, Halted) od.
Proof. intros ->. split; [|reflexivity]. intros o ->. reflexivity. Qed.

Lemma erep_step {A : Type} E inp c x (m : mres A) od : erep E inp (frames c) (top c) (started c) x m -> runs m od -> reading c = NotReading ->
  step_rep E inp (continue x c) od.
Proof.
  intros He Hr Hn.
  assert (Hs : forall s' r', repr E inp (frames c) (top c) (started c) s' r' -> exists s rd r, DRun s' None r' = DRun s rd r /\ srepr E inp c s rd r).
  { intros s' r' H. exists s', None, r'. split; [reflexivity|]. unfold srepr. rewrite Hn. auto. }
  destruct x; cbn [erep] in He; try contradiction.
  - destruct He as (s' & r' & -> & H & ->). cbn in Hr. subst od. split; [|exact (Hs _ _ H)].
    intros o ->. eexists. split; [reflexivity|]. exact (location_path _ _ _ _ _ _ (r_base _ _ _ _ _ _ _ H)).
  - destruct He as (s' & r' & -> & H & ->). cbn in Hr. subst od. split; [|exact (Hs _ _ H)].
    intros o ->. eexists. split; [reflexivity|]. exact (location_path _ _ _ _ _ _ (r_base _ _ _ _ _ _ _ H)).
  - subst m. cbn in Hr. subst od. split; [|reflexivity]. intros o H. exact H.
  - subst m. cbn in Hr. subst od. apply misuse_step. reflexivity.
Qed.

Lemma ok_step {A : Type} E inp c (m : D A) val s r x s' r' : m s r = MOk x s' r' -> repr E inp (frames c) (top c) (started c) s' r' ->
  reading c = NotReading -> step_rep E inp (XOk (val x), AtCursor c) (d_run m val s r).
Proof.
  intros He Hr Hn. unfold d_run. rewrite He. split.
  - intros o ->. reflexivity.
  - exists s', None, r'. split; [reflexivity|]. unfold srepr. rewrite Hn. auto.
Qed.

Lemma at_val_eq E c : reading c = NotReading -> at_value (cfg E) c = at_val E (frames c) (top c) (started c).
Proof. destruct c as [fs vs st rd]. cbn. intros ->. reflexivity. Qed.
Lemma more_eq E c : reading c = NotReading -> more (cfg E) c = more_at E (frames c) (top c) (started c).
Proof. destruct c as [fs vs st rd]. cbn. intros ->. reflexivity. Qed.
Lemma name_eq c : reading c = NotReading -> at_name c = name_at (frames c) (top c) (started c).
Proof. destruct c as [fs vs st rd]. cbn. intros ->. reflexivity. Qed.

Lemma type_dec_eqb a b : value_type_eqb a b = if value_type_dec a b then true else false.
Proof. destruct a, b; reflexivity. Qed.

Lemma value_step {A : Type} E inp c ty P f (m : mres A) od : reading c = NotReading ->
  vrep E inp (frames c) (top c) (started c) ty P m -> runs m od ->
  (forall v x s' r', at_value (cfg E) c = inr v -> json_type v = ty -> m = MOk x s' r' -> P v x s' r' -> step_rep E inp (f v) od) ->
  step_rep E inp (on_value (cfg E) ty c f) od.
Proof.
  intros Hn Hv Hr Hk. unfold vrep in Hv. unfold on_value. rewrite (at_val_eq _ _ Hn) in *.
  destruct (at_val E (frames c) (top c) (started c)) as [x|v] eqn:Ev; [exact (erep_step _ _ _ _ _ _ Hv Hr Hn)|].
  rewrite type_dec_eqb in Hv. destruct (value_type_dec (json_type v) ty) as [Hty|Hty].
  - destruct Hv as (x & s' & r' & He & Hp). exact (Hk v x s' r' eq_refl Hty He Hp).
  - exact (erep_step _ _ _ _ _ _ Hv Hr Hn).
Qed.

Lemma behind_repr E inp c s r s' r' : repr E inp (frames c) (top c) (started c) s r -> behind E inp (frames c) (top c) s' r' ->
  repr E inp (frames (behind_value c)) (top (behind_value c)) (started (behind_value c)) s' r'.
Proof.
  intros Hr H. unfold behind_value. rewrite done_f, done_t, done_s, enter_f, enter_t, (enter_s _ _ _ _ _ Hr). exact H.
Qed.
Lemma behind_reading c : reading (behind_value c) = reading c.
Proof. unfold behind_value. rewrite done_r, enter_r. reflexivity. Qed.
Lemma open_repr E inp c v s r s' r' : repr E inp (frames c) (top c) (started c) s r -> open_behind E inp (frames c) (top c) v s' r' ->
  repr E inp (frames (open_frame (opened v) (enter_value c))) (top (open_frame (opened v) (enter_value c)))
    (started (open_frame (opened v) (enter_value c))) s' r'.
Proof. intros Hr H. cbn. rewrite enter_f, enter_t, (enter_s _ _ _ _ _ Hr). exact H. Qed.

Lemma name_step {A : Type} E inp c (val : A -> rvalue) (res : str -> rvalue) (m : D A) s r : reading c = NotReading ->
  repr E inp (frames c) (top c) (started c) s r ->
  match name_at (frames c) (top c) (started c) with
  | inl x => erep E inp (frames c) (top c) (started c) x (m s r)
  | inr (n, v, ms, fs) => exists x s' r', m s r = MOk x s' r' /\ val x = res n /\ repr E inp (AtValue n v ms :: fs) (top c) true s' r'
  end ->
  step_rep E inp (on_name c res) (d_run m val s r).
Proof.
  intros Hn Hr H. unfold on_name. rewrite (name_eq _ Hn). destruct (name_at _ _ _) as [x|[[[n v] ms] fs]] eqn:En.
  - exact (erep_step _ _ _ _ _ _ H (run_runs _ _ _ _) Hn).
  - assert (Hst : started c = true).
    { destruct c as [[|f fs'] vs st rd]; [discriminate En|]. exact (repr_started _ _ _ _ _ _ _ _ Hr). }
    rewrite <- Hst in H. destruct H as (x & s' & r' & He & <- & Hr'). exact (ok_step E inp (set_frames (AtValue n v ms :: fs) c) m val s r x s' r' He Hr' Hn).
Qed.

Lemma crep_step {A : Type} E inp val x c (m : D A) s r : crep E inp val x c (m s r) -> reading c = NotReading ->
  step_rep E inp (continue x c) (d_run m val s r).
Proof.
  intros H Hn. unfold crep in H. destruct x; try exact (erep_step _ _ _ _ _ _ H (run_runs _ _ _ _) Hn).
  destruct H as (y & s' & r' & He & <- & Hr). cbn [continue]. exact (ok_step _ _ _ _ _ _ _ _ _ _ He Hr Hn).
Qed.

Lemma seek_reading path : forall c, reading (snd (seek path c)) = reading c.
Proof.
  induction path as [|[i|n] path IH]; intros c; cbn [seek]; auto; destruct (next_value c) as [[|b|t|x|l|l]|]; auto.
  - destruct (i <? _); [rewrite IH|]; cbn; apply enter_r.
  - destruct (find_member n l) as [[]|]; [rewrite IH|]; cbn; apply enter_r.
Qed.
Lemma seek_up_reading path : forall c, reading (snd (seek_up path c)) = reading c.
Proof.
  induction path as [|p path IH]; intros c; cbn [seek_up]; auto. destruct (is_reading c); auto.
  destruct p, (frames c) as [|[]]; auto; rewrite IH; unfold close_frame; rewrite done_r; reflexivity.
Qed.

Lemma number_step E inp c s r : (length inp < fuel E)%nat -> reading c = NotReading -> repr E inp (frames c) (top c) (started c) s r ->
  step_rep E inp (call_at (cfg E) CNextNumberStr c) (d_run (d_next_number E TEof) RStr s r).
Proof.
  intros Hf Hn Hr. pose proof (number_forward E inp _ _ _ s r (restrict_number_values (cfg E)) Hf Hr) as H.
  cbn [call_at]. unfold on_value. rewrite (at_val_eq _ _ Hn).
  destruct (at_val E (frames c) (top c) (started c)) as [x|v]; [exact (erep_step _ _ _ _ _ _ H (run_runs _ _ _ _) Hn)|].
  destruct v as [|b|t|y|l|l]; cbn [json_type value_type_dec value_type_rec value_type_rect];
    try exact (erep_step _ _ _ _ _ _ H (run_runs _ _ _ _) Hn).
  destruct (restrict_number_values (cfg E) && unsupported_number t).
  - apply (erep_step E inp c (XUnsupportedNumber t) _ _ H (run_runs _ _ _ _) Hn).
  - destruct H as (s' & r' & He & Hp).
    apply (ok_step E inp (behind_value c) (d_next_number E TEof) RStr _ _ _ _ _ He (behind_repr _ _ _ _ _ _ _ Hr Hp)).
    rewrite behind_reading. exact Hn.
Qed.

Lemma consume_step E inp c s r : (length inp < fuel E)%nat -> reading c = NotReading -> repr E inp (frames c) (top c) (started c) s r ->
  step_rep E inp (call_at (cfg E) CConsumeTrailingWhitespace c) (d_run_consume E TEof s r).
Proof.
  intros Hf Hn Hr. cbn [call_at]. unfold is_reading. rewrite Hn.
  assert (Hmis : d_consume_trailing E TEof s r = MMisuse -> step_rep E inp (XMisuse, GivenAway) (d_run_consume E TEof s r)).
  { intros H. unfold d_run_consume. rewrite H. split; [|reflexivity]. intros o ->. reflexivity. }
  assert (Hstack : stack s = map frame_kind (frames c)) by exact (b_stack _ _ _ _ _ _ (r_base _ _ _ _ _ _ _ Hr)).
  assert (Heq : d_consume_trailing E TEof s r =
     ((match frames c with [] => dmisuse_if (is_empty s) | _ => dmisuse end) ;;
      (ob <- d_ws E TEof ;; match ob with Some _ => dfail | None => dret tt end))%dm s r).
  { unfold d_consume_trailing, dbind at 1, dget. rewrite (r_active _ _ _ _ _ _ _ Hr), Hstack. destruct (frames c); reflexivity. }
  destruct (frames c) as [|f fs] eqn:Efs; [|apply Hmis; rewrite Heq; reflexivity].
  assert (Hempty : is_empty s = negb (started c)).
  { pose proof (r_names _ _ _ _ _ _ _ Hr) as H. unfold names_ok in H. apply H. }
  rewrite Hempty in Heq. destruct (started c) eqn:Est; [|apply Hmis; rewrite Heq; reflexivity].
  change ((dmisuse_if (negb true);; ?k)%dm s r) with (k s r) in Heq.
  destruct (top c) as [|v vs] eqn:Etop.
  - assert (Hpk : peeked s = None).
    { pose proof (r_text _ _ _ _ _ _ _ Hr) as H. unfold text_ok in H. destruct (peeked s); [destruct H; discriminate|reflexivity]. }
    pose proof (r_text _ _ _ _ _ _ _ Hr) as Ht. unfold text_ok in Ht. rewrite Hpk in Ht.
    destruct Ht as [(w & b & _ & _ & [])|(_ & _ & Hfin)].
    unfold d_run_consume. rewrite Heq. unfold dbind, d_ws. rewrite (ws_scan_final E inp s r Hf (repr_inv _ _ _ _ _ _ _ Hr) Hfin).
    split; [|reflexivity]. intros o ->. reflexivity.
  - split; [intros o _; exact I|]. cbn [snd wrep]. unfold d_run_consume.
    pose proof (consume_trailing_nobug E inp TEof s r Hf (repr_inv _ _ _ _ _ _ _ Hr)) as Hg.
    destruct (d_consume_trailing E TEof s r); try reflexivity. contradiction.
Qed.

(** A call which is not prevented *)
Lemma call_step E inp call c s rd r : (length inp < fuel E)%nat -> reading c = NotReading ->
  repr E inp (frames c) (top c) (started c) s r -> (forall n, call <> CRead n) ->
  step_rep E inp (call_at (cfg E) call c) (d_call_run E TEof call s rd r).
Proof.
  intros Hf Hn Hr Hnr. assert (Hir : is_reading c = false) by (unfold is_reading; rewrite Hn; reflexivity).
  destruct call; cbn [call_at d_call_run].
  - rewrite (at_val_eq _ _ Hn). pose proof (peek_forward E inp _ _ _ s r Hf Hr) as H.
    destruct (at_val E (frames c) (top c) (started c)) as [x|v]; [exact (erep_step _ _ _ _ _ _ H (run_runs _ _ _ _) Hn)|].
    destruct H as (s' & r' & He & Hr' & _). exact (ok_step _ _ _ _ _ _ _ _ _ _ He Hr' Hn).
  - rewrite (more_eq _ _ Hn). pose proof (has_next_forward E inp _ _ _ s r Hf Hr) as H.
    destruct (more_at E (frames c) (top c) (started c)) as [x|b].
    + destruct H as [-> H]. apply misuse_step. unfold d_run. rewrite H. reflexivity.
    + destruct H as (s' & r' & He & Hr' & _). exact (ok_step _ _ _ _ _ _ _ _ _ _ He Hr' Hn).
  - apply (value_step _ _ _ _ _ _ _ _ Hn (begin_array_forward E inp _ _ _ s r Hf Hr) (run_runs _ _ _ _)).
    intros v x s' r' _ Hty He Hp. destruct v as [|b|t|y|l|l]; try discriminate.
    apply (ok_step E inp _ _ to_unit _ _ _ _ _ He (open_repr _ _ _ _ _ _ _ _ Hr Hp)). cbn. rewrite enter_r. exact Hn.
  - rewrite Hir. pose proof (end_array_forward E inp _ _ _ s r Hf Hr) as H.
    destruct (frames c) as [|[i [|v l]|n l|n v l] fs] eqn:Efs;
      try (apply misuse_step; unfold d_run; rewrite H; reflexivity).
    + destruct H as (x & s' & r' & He & Hr' & _).
      apply (ok_step E inp _ _ to_unit _ _ _ _ _ He); unfold close_frame; rewrite ?done_f, ?done_t, ?done_s, ?done_r; cbn; rewrite ?Efs; auto.
      pose proof (repr_started _ _ _ _ _ _ _ _ Hr) as ->. exact Hr'.
    + cbn [end_rep is_nil] in H. rewrite <- Efs in H.
      replace (cursor_path c) with (path_of (frames c)) by reflexivity.
      exact (erep_step _ _ _ _ _ _ H (run_runs _ _ _ _) Hn).
  - apply (value_step _ _ _ _ _ _ _ _ Hn (begin_object_forward E inp _ _ _ s r Hf Hr) (run_runs _ _ _ _)).
    intros v x s' r' _ Hty He Hp. destruct v as [|b|t|y|l|l]; try discriminate.
    apply (ok_step E inp _ _ to_unit _ _ _ _ _ He (open_repr _ _ _ _ _ _ _ _ Hr Hp)). cbn. rewrite enter_r. exact Hn.
  - rewrite Hir. pose proof (end_object_forward E inp _ _ _ s r Hf Hr) as H.
    destruct (frames c) as [|[i l|n [|[m v] l]|n v l] fs] eqn:Efs;
      try (apply misuse_step; unfold d_run; rewrite H; reflexivity).
    + destruct H as (x & s' & r' & He & Hr' & _).
      apply (ok_step E inp _ _ to_unit _ _ _ _ _ He); unfold close_frame; rewrite ?done_f, ?done_t, ?done_s, ?done_r; cbn; rewrite ?Efs; auto.
      pose proof (repr_started _ _ _ _ _ _ _ _ Hr) as ->. exact Hr'.
    + cbn [end_rep is_nil] in H. rewrite <- Efs in H.
      replace (cursor_path c) with (path_of (frames c)) by reflexivity.
      exact (erep_step _ _ _ _ _ _ H (run_runs _ _ _ _) Hn).
  - apply name_step; auto. pose proof (next_name_forward E inp _ _ _ s r Hf Hr) as H.
    destruct (name_at _ _ _) as [x|[[[n v] ms] fs]]; auto. destruct H as (s' & r' & He & Hr'). eexists _, s', r'. eauto.
  - apply name_step; auto. pose proof (next_name_forward E inp _ _ _ s r Hf Hr) as H.
    destruct (name_at _ _ _) as [x|[[[n v] ms] fs]]; auto. destruct H as (s' & r' & He & Hr'). eexists _, s', r'. eauto.
  - apply name_step; auto. pose proof (skip_name_forward E inp _ _ _ s r Hf Hr) as H.
    destruct (name_at _ _ _) as [x|[[[n v] ms] fs]]; auto. destruct H as (s' & r' & He & Hr'). eexists _, s', r'. eauto.
  - apply (value_step _ _ _ _ _ _ _ _ Hn (next_string_forward E inp _ _ _ s r Hf Hr) (run_runs _ _ _ _)).
    intros v x s' r' _ Hty He [Hp1 Hp2]. destruct v as [|b|t|y|l|l]; try discriminate. injection Hp1 as ->.
    apply (ok_step E inp _ _ RStr _ _ _ _ _ He (behind_repr _ _ _ _ _ _ _ Hr Hp2)). rewrite behind_reading. exact Hn.
  - apply (value_step _ _ _ _ _ _ _ _ Hn (next_string_forward E inp _ _ _ s r Hf Hr) (run_runs _ _ _ _)).
    intros v x s' r' _ Hty He [Hp1 Hp2]. destruct v as [|b|t|y|l|l]; try discriminate. injection Hp1 as ->.
    apply (ok_step E inp _ _ RStr _ _ _ _ _ He (behind_repr _ _ _ _ _ _ _ Hr Hp2)). rewrite behind_reading. exact Hn.
  - apply (value_step _ _ _ _ _ _ _ _ Hn (string_reader_forward E inp _ _ _ s r Hf Hr) (reader_runs _ _ _ _)).
    intros v x s' r' _ Hty He (-> & H1 & H2 & y & -> & H3). unfold d_run_reader. rewrite He. split; [intros o ->; reflexivity|].
    eexists _, _, _. split; [reflexivity|]. cbn. exists y. splits.
    + rewrite enter_f, enter_t. unfold is_open. auto.
    + exact (enter_s _ _ _ _ _ Hr).
    + eexists. splits; reflexivity.
  - exfalso. eapply Hnr. reflexivity.
  - exact (number_step _ _ _ _ _ Hf Hn Hr).
  - exact (number_step _ _ _ _ _ Hf Hn Hr).
  - apply (value_step _ _ _ _ _ _ _ _ Hn (next_bool_forward E inp _ _ _ s r Hf Hr) (run_runs _ _ _ _)).
    intros v x s' r' _ Hty He [Hp1 Hp2]. destruct v as [|b|t|y|l|l]; try discriminate. injection Hp1 as ->.
    apply (ok_step E inp _ _ RBool _ _ _ _ _ He (behind_repr _ _ _ _ _ _ _ Hr Hp2)). rewrite behind_reading. exact Hn.
  - apply (value_step _ _ _ _ _ _ _ _ Hn (next_null_forward E inp _ _ _ s r Hf Hr) (run_runs _ _ _ _)).
    intros v x s' r' _ Hty He Hp.
    apply (ok_step E inp _ _ to_unit _ _ _ _ _ He (behind_repr _ _ _ _ _ _ _ Hr Hp)). rewrite behind_reading. exact Hn.
  - rewrite (at_val_eq _ _ Hn). pose proof (skip_value_forward E inp _ _ _ s r Hf Hr) as H.
    destruct (at_val E (frames c) (top c) (started c)) as [x|v]; [exact (erep_step _ _ _ _ _ _ H (run_runs _ _ _ _) Hn)|].
    destruct H as (s' & r' & He & Hp).
    apply (ok_step E inp _ _ to_unit _ _ _ _ _ He (behind_repr _ _ _ _ _ _ _ Hr Hp)). rewrite behind_reading. exact Hn.
  - rewrite (at_val_eq _ _ Hn). pose proof (seek_to_forward E inp path c s r Hf Hr) as H.
    destruct (at_val E (frames c) (top c) (started c)) as [x|v]; [exact (erep_step _ _ _ _ _ _ H (run_runs _ _ _ _) Hn)|].
    pose proof (seek_reading path c) as Hsr. destruct (seek path c) as [x c']. cbn [fst snd] in *.
    apply crep_step; [exact H|congruence].
  - pose proof (seek_back_forward E inp (rev path) c s r Hf Hr Hir) as H.
    pose proof (seek_up_reading (rev path) c) as Hsr. destruct (seek_up (rev path) c) as [x c']. cbn [fst snd] in *.
    apply crep_step; [exact H|congruence].
  - rewrite Hir. destruct (skip_to_top_forward E inp _ _ _ s r Hf Hr) as (s' & r' & He & Hr').
    apply (ok_step E inp _ _ to_unit _ _ _ _ _ He); auto.
  - split.
    + intros o ->. eexists. split; [reflexivity|]. cbn [p_path current_position].
      rewrite (b_path _ _ _ _ _ _ (r_base _ _ _ _ _ _ _ Hr)). unfold tracked, cursor_path, path_of.
      destruct include_path, (track_path (cfg E)); reflexivity.
    + exists s, None, r. split; [reflexivity|]. unfold srepr. rewrite Hn. auto.
  - exact (consume_step _ _ _ _ _ Hf Hn Hr).
Qed.

Lemma open_expects E inp fs vs v s r : is_open E inp fs vs v s r -> expects_member_name s = false.
Proof. intros (Hi & _). exact (n_expects _ _ _ _ _ _ Hi). Qed.

Lemma run_misuse {A : Type} E inp (m : D A) val s r : m s r = MMisuse -> step_rep E inp (XMisuse, Halted) (d_run m val s r).
Proof. intros H. apply misuse_step. unfold d_run. rewrite H. reflexivity. Qed.

(** A call which is prevented by a string reader *)
Lemma call_active E inp call c s rd r rest v : (length inp < fuel E)%nat -> reading c = Reading rest false ->
  is_open E inp (frames c) (top c) v s r -> started c = true -> (forall n, call <> CRead n) ->
  step_rep E inp (call_at (cfg E) call c) (d_call_run E TEof call s rd r).
Proof.
  intros Hf Hrd Ho Hst Hnr. assert (Hir : is_reading c = true) by (unfold is_reading; rewrite Hrd; reflexivity).
  pose proof (open_expects _ _ _ _ _ _ _ Ho) as Hn. destruct Ho as (Hin & Ha & Hrt).
  assert (Hf0 : (0 < fuel E)%nat) by lia.
  assert (Hself : exists s1 rd1 r1, DRun s None r = DRun s1 rd1 r1 /\ srepr E inp c s1 rd1 r1).
  { exists s, None, r. split; [reflexivity|]. unfold srepr. rewrite Hrd. exists v. unfold is_open. auto. }
  destruct call; cbn [call_at d_call_run]; unfold on_value, on_name, at_value, at_name, more; rewrite ?Hir; cbn [continue];
    try (apply run_misuse).
  - apply peek_active; exact Ha.
  - apply has_next_active; exact Ha.
  - unfold d_begin_array, d_on_container_start. apply dbind_misuse, dbind_misuse, start_active. exact Ha.
  - apply end_array_active; exact Ha.
  - unfold d_begin_object, d_on_container_start. apply dbind_misuse, dbind_misuse, start_active. exact Ha.
  - apply end_object_active; exact Ha.
  - apply dbind_misuse, before_name_active; exact Ha.
  - apply dbind_misuse, before_name_active; exact Ha.
  - apply dbind_misuse, before_name_active; exact Ha.
  - apply dbind_misuse, start_active; exact Ha.
  - apply dbind_misuse, start_active; exact Ha.
  - apply misuse_step. unfold d_run_reader, d_next_string_reader. rewrite dbind_misuse; [reflexivity|]. apply start_active; exact Ha.
  - exfalso. eapply Hnr. reflexivity.
  - apply dbind_misuse, start_active; exact Ha.
  - apply dbind_misuse, start_active; exact Ha.
  - apply dbind_misuse, start_active; exact Ha.
  - apply dbind_misuse, start_active; exact Ha.
  - apply skip_value_active; auto.
  - apply dbind_misuse, peek_active. exact Ha.
  - unfold d_seek_back. destruct (rev path) as [|p ps]; cbn [seek_up].
    + split; [intros o ->; reflexivity|exact Hself].
    + rewrite Hir. cbn [continue]. apply run_misuse. apply seek_back_active; auto.
  - unfold d_skip_to_top_level. apply get_cont. rewrite Ha. reflexivity.
  - split; [|exact Hself].
    intros o ->. eexists. split; [reflexivity|]. cbn [p_path current_position].
    rewrite (b_path _ _ _ _ _ _ (n_base _ _ _ _ _ _ Hin)). unfold tracked, cursor_path, path_of.
    destruct include_path, (track_path (cfg E)); reflexivity.
  - unfold d_run_consume. replace (d_consume_trailing E TEof s r) with (@MMisuse unit); [split; [intros o ->; reflexivity|reflexivity]|].
    symmetry. unfold d_consume_trailing. apply get_cont. rewrite Ha. reflexivity.
Qed.

Lemma read_step E inp len c s rd r : (length inp < fuel E)%nat -> srepr E inp c s rd r ->
  step_rep E inp (read_string len c) (d_run_read E len s rd r).
Proof.
  intros Hf Hs. pose proof Hs as Hs0. unfold srepr in Hs. unfold read_string, d_run_read. destruct (reading c) as [|rest held|] eqn:Hrd.
  - destruct Hs as [Hr ->]. split; [intros o ->; reflexivity|]. exists s, None, r. auto.
  - destruct Hs as (v & Ho & Hst & Hh). destruct held.
    + destruct Hh as (sv & -> & H1 & H2 & ->). pose proof (sv_read_forward E inp _ _ len sv v s r Hf Ho H1 H2) as H.
      destruct (Nat.leb len (length (sv_buf sv ++ encode_utf8 v))).
      * destruct H as (sv' & v' & s' & r' & -> & Ho' & H3 & H4 & ->). split; [intros o ->; reflexivity|].
        eexists _, _, _. split; [reflexivity|]. unfold srepr. cbn [set_reading reading frames top started]. exists v'. splits; auto. exists sv'. auto.
      * destruct H as (sv' & s' & r' & -> & Hr & H3 & H4). split; [intros o ->; reflexivity|].
        eexists _, _, _. split; [reflexivity|]. unfold srepr. rewrite done_r, done_f, done_t, done_s. cbn [set_reading reading frames top started].
        rewrite Hst. split; [exact Hr|]. exists sv'. auto.
    + subst rd. split; [intros o ->; reflexivity|]. exists s, None, r. auto.
  - destruct Hs as (Hr & sv & -> & H). unfold d_sv_read. rewrite H. split; [intros o ->; reflexivity|]. exists s, (Some sv), r. auto.
Qed.

Lemma walk_step E inp call w d : (length inp < fuel E)%nat -> wrep E inp w d ->
  step_rep E inp (walk_call (cfg E) call w) (d_call E TEof call d).
Proof.
  intros Hf Hw. destruct w as [c| |]; cbn [wrep walk_call] in *.
  - destruct Hw as (s & rd & r & -> & Hs). cbn [d_call].
    assert (Hread : forall n, call = CRead n -> step_rep E inp (call_at (cfg E) call (before_call call c)) (d_call_run E TEof call s rd r)).
    { intros n ->. exact (read_step E inp n c s rd r Hf Hs). }
    assert (Hother : (forall n, call <> CRead n) -> before_call call c = drop_reader c ->
      step_rep E inp (call_at (cfg E) call (before_call call c)) (d_call_run E TEof call s rd r)).
    { intros Hn ->. unfold srepr in Hs. unfold drop_reader. destruct (reading c) as [|rest held|] eqn:Hrd.
      - apply (call_step E inp); auto. apply Hs.
      - destruct Hs as (v & Ho & Hst & _). apply (call_active E inp call _ s rd r rest v); auto.
      - apply (call_step E inp); auto. apply Hs. }
    destruct call; try (apply Hother; [intros; discriminate|reflexivity]). eapply Hread. reflexivity.
  - subst d. split; [intros o ->; reflexivity|reflexivity].
  - subst d. split; [intros o ->; reflexivity|reflexivity].
Qed.

Lemma walk_steps E inp cs : (length inp < fuel E)%nat -> forall w d, wrep E inp w d ->
  Forall2 (dres (cfg E)) (fst (walk_calls (cfg E) cs w)) (fst (d_calls E TEof cs d)) /\
  wrep E inp (snd (walk_calls (cfg E) cs w)) (snd (d_calls E TEof cs d)).
Proof.
  intros Hf. induction cs as [|c cs IH]; intros w d Hw; cbn [walk_calls d_calls]; [split; [constructor|exact Hw]|].
  destruct (walk_step E inp c w d Hf Hw) as [H1 H2]. destruct (walk_call (cfg E) c w) as [x w1], (d_call E TEof c d) as [o d1].
  cbn [fst snd] in *. destruct (IH w1 d1 H2) as [H3 H4].
  destruct (walk_calls (cfg E) cs w1) as [xs w2], (d_calls E TEof cs d1) as [os d2]. cbn [fst snd] in *. split; [constructor; auto|exact H4].
Qed.

(** ** The start *)

Lemma final_gap sx t : final_ws_text sx t -> starts_gap t.
Proof.
  intros [H|(w & body & -> & Hw & _ & _)].
  - destruct H as [|b w Hb Hw|body b w Hc Hbody Hb Hw|body w Hc Hbody Hw]; cbn; auto.
  - destruct Hw as [|b w Hb Hw|body' b w Hc Hbody Hb Hw|body' w Hc Hbody Hw]; cbn; auto.
Qed.

Lemma input_stream s vs t : input_text s vs t -> stream_text (syntax_of s) vs t /\ vs <> [] /\ (allow_multiple_top_level s = false -> tl vs = []).
Proof.
  unfold input_text. destruct (allow_multiple_top_level s); [intros [H1 H2]; splits; auto; discriminate|].
  intros (v & -> & w1 & tv & w2 & -> & Hw1 & Hv & Hw2). splits; auto; [|discriminate].
  apply ST_value; auto; [constructor; exact Hw2|]. intros _. exact (final_gap _ _ Hw2).
Qed.

Lemma repr_start s vs inp f : Forall is_byte inp -> input_text s vs inp -> within_limit s vs ->
  repr (Env s f) inp [] vs false (rstate_new s) inp.
Proof.
  intros Hb Ht Hl. destruct (input_stream _ _ _ Ht) as (Hs & Hne & Htl). split.
  - split; auto.
    + apply inv_start. exact Hb.
    + unfold fits. unfold within_limit in Hl. cbn [cfg]. destruct (max_nesting_depth s); [|exact I].
      split; [exact I|]. exact Hl.
  - reflexivity.
  - split; reflexivity.
  - unfold top_ok; splits; auto.
  - unfold text_ok. cbn. exact (stream_cur _ _ _ Hs).
Qed.

(** C20 *)
Lemma walk_session s vs evs cs : Forall is_byte (fst (supplied evs)) -> snd (supplied evs) = TEof ->
  input_text s vs (fst (supplied evs)) -> within_limit s vs ->
  Forall2 (is_result s) (fst (walk_calls s cs (AtCursor (cursor_start vs)))) (read_session s evs cs).
Proof.
  intros Hb He Ht Hl. destruct (session_agree s evs cs (session_no_bug s evs cs Hb)) as (os & st' & a' & _ & -> & Hm).
  unfold d_session in Hm. rewrite He in Hm.
  destruct (walk_steps (Env s (enough_fuel (fst (supplied evs)))) (fst (supplied evs)) cs
    ltac:(cbn; unfold enough_fuel; lia) (AtCursor (cursor_start vs)) (DRun (rstate_new s) None (fst (supplied evs)))) as [H _].
  - exists (rstate_new s), None, (fst (supplied evs)). split; [reflexivity|]. split; [|reflexivity]. apply repr_start; auto.
  - cbn [cfg] in H. revert Hm H. generalize (fst (d_calls (Env s (enough_fuel (fst (supplied evs)))) TEof cs (DRun (rstate_new s) None (fst (supplied evs))))).
    generalize (fst (walk_calls s cs (AtCursor (cursor_start vs)))). clear. intros xs ds Hm. revert xs.
    induction Hm as [|o d os ds H Hm IH]; intros xs Hx; inversion Hx; subst; constructor; auto.
Qed.
