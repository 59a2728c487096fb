(** * Writer: how much is held back, how often the sink is called *)

From Verif Require Import Base Utf8Model Utf8Proofs NumberModel SpecNumber SpecJson WriterModel SpecWriter
  WriterProofs WriterDocProofs WriterStringProofs WriterSession WriterRun WriterMore WriterSafe SpecBuffer.

Notation CAP := WRITER_BUF_SIZE (only parsing).

Transparent WRITER_BUF_SIZE.
Lemma cap_eq : CAP = N.to_nat 1024.
Proof. reflexivity. Qed.
Opaque WRITER_BUF_SIZE.

Definition bulk (s : sink) : Prop := Forall (eq (SAccept 1024)) (write_resps s).

(** The effect of a part of the program which calls [flush] [k] times *)
Definition stp (k : nat) (ok : bool) (st st' : wst) : Prop :=
  (length (w_buf st) <= CAP)%nat ->
  (length (w_buf st') <= CAP)%nat /\
  (ok = true -> (length (w_buf st) < CAP)%nat -> (length (w_buf st') < CAP)%nat) /\
  (ok = true -> flushes (w_sink st') = flushes (w_sink st) + N.of_nat k) /\
  (bulk (w_sink st) -> bulk (w_sink st') /\
     (CAP * length (write_resps (w_sink st)) + length (received (w_sink st)) <=
      CAP * length (write_resps (w_sink st')) + length (received (w_sink st')) + CAP * k)%nat).

Definition is_ok {A} (r : res werr A) : bool := match r with Ok _ => true | _ => false end.
Definition bf {A} (m : W A) : Prop := forall st, stp 0 (is_ok (fst (m st))) st (snd (m st)).

Lemma stp_refl ok st : stp 0 ok st st.
Proof. intros Hl. splits; auto. rewrite N.add_0_r. reflexivity. intros Hb. split; auto. lia. Qed.
Lemma stp_trans k1 k2 ok st1 st2 st3 : stp k1 true st1 st2 -> stp k2 ok st2 st3 -> stp (k1 + k2) ok st1 st3.
Proof.
  intros H1 H2 Hl. destruct (H1 Hl) as (A1 & A2 & A3 & A4). destruct (H2 A1) as (B1 & B2 & B3 & B4). splits; auto.
  - intros E. rewrite (B3 E), (A3 eq_refl). lia.
  - intros Hb. destruct (A4 Hb) as [C1 C2]. destruct (B4 C1) as [D1 D2]. split; auto. lia.
Qed.
Lemma stp_weaken k ok st st' : stp k true st st' -> stp k ok st st'.
Proof. intros H Hl. destruct (H Hl) as (A1 & A2 & A3 & A4). splits; auto. Qed.

Lemma bulk_write_all s buf : bulk s -> (0 < length buf <= CAP)%nat ->
  exists s', write_all s buf = (Ok tt, s') /\ bulk s' /\ received s' = received s ++ buf /\ flushes s' = flushes s /\
    (length (write_resps s) <= S (length (write_resps s')))%nat.
Proof.
  intros Hb Hl. unfold write_all, bulk in *. destruct buf as [|x buf]; [cbn in Hl; lia|].
  destruct (write_resps s) as [|r l] eqn:E; cbn [write_all_loop].
  - eexists. splits; [reflexivity|constructor|reflexivity|reflexivity|cbn; lia].
  - inversion Hb as [|? ? Hr Hb']; subst.
    assert (Hk : N.to_nat (N.min 1024 (N.of_nat (length (x :: buf)))) = length (x :: buf)).
    { rewrite cap_eq in Hl. lia. }
    rewrite Hk. cbn [length]. rewrite firstn_all2 by (cbn; lia). rewrite skipn_all2 by (cbn; lia).
    assert (Hnil : forall l recv, write_all_loop l recv [] = (Ok tt, recv, l)) by (destruct l0; reflexivity).
    rewrite Hnil. eexists. splits; [reflexivity|exact Hb'|reflexivity|reflexivity|cbn; lia].
Qed.
Lemma write_all_flushes s buf : flushes (snd (write_all s buf)) = flushes s.
Proof. unfold write_all. destruct (write_all_loop _ _ _) as [[? ?] ?]. reflexivity. Qed.

Lemma bf_bytes_loop fuel : forall bs st, stp 0 (is_ok (fst (write_bytes_loop fuel bs st))) st (snd (write_bytes_loop fuel bs st)).
Proof.
  induction fuel as [|fuel IH]; intros bs st; destruct bs as [|b bs]; cbn [write_bytes_loop]; try apply stp_refl.
  cbv zeta. set (k := Nat.min _ _). set (buf' := w_buf st ++ firstn k (b :: bs)).
  assert (Hl' : (length (w_buf st) <= CAP -> length buf' <= CAP)%nat).
  { intros Hl. unfold buf'. rewrite app_length, firstn_length. unfold k. lia. }
  destruct (Nat.leb CAP (length buf')) eqn:E.
  - apply Nat.leb_le in E.
    assert (Hb0 : forall r s', write_all (w_sink st) buf' = (r, s') -> bulk (w_sink st) -> (length (w_buf st) <= CAP)%nat ->
      r = Ok tt /\ bulk s' /\ received s' = received (w_sink st) ++ buf' /\ (length (write_resps (w_sink st)) <= S (length (write_resps s')))%nat).
    { intros r s' Hw Hb Hl. destruct (bulk_write_all (w_sink st) buf') as (s2 & H2 & A & B & C & D); auto.
      - pose proof buf_size_pos. specialize (Hl' Hl). lia.
      - rewrite H2 in Hw. injection Hw as <- <-. auto. }
    pose proof (write_all_flushes (w_sink st) buf') as Hf.
    destruct (write_all (w_sink st) buf') as [r s'] eqn:Ew. cbn [snd] in Hf. specialize (Hb0 r s' eq_refl).
    destruct r as [[]|e|k0|]; cbn [fst snd is_ok].
    + pose proof (IH (skipn k (b :: bs)) (set_sink_buf st s' [])) as H.
      destruct (write_bytes_loop fuel _ _) as [r2 st2]. cbn [fst snd] in *.
      apply (stp_trans 0 0 _ _ (set_sink_buf st s' []) _); [|exact H].
      intros Hl. cbn [w_buf w_sink set_sink_buf length]. pose proof buf_size_pos. splits; [lia|intros; lia|intros; lia|].
      intros Hb. destruct (Hb0 Hb Hl) as (_ & A & B & C). split; [exact A|].
      rewrite B, app_length. specialize (Hl' Hl). nia.
    + intros Hl. cbn [w_buf w_sink set_sink_buf length]. splits; [auto|discriminate|discriminate|].
      intros Hb. destruct (Hb0 Hb Hl) as (Hx & _). discriminate.
    + intros Hl. cbn [w_buf w_sink set_sink_buf length]. splits; [auto|discriminate|discriminate|].
      intros Hb. destruct (Hb0 Hb Hl) as (Hx & _). discriminate.
    + intros Hl. cbn [w_buf w_sink set_sink_buf length]. splits; [auto|discriminate|discriminate|].
      intros Hb. destruct (Hb0 Hb Hl) as (Hx & _). discriminate.
  - apply Nat.leb_gt in E. pose proof (IH (skipn k (b :: bs)) (set_sink_buf st (w_sink st) buf')) as H.
    destruct (write_bytes_loop fuel _ _) as [r2 st2]. cbn [fst snd] in *.
    apply (stp_trans 0 0 _ _ (set_sink_buf st (w_sink st) buf') _); [|exact H].
    intros Hl. cbn [w_buf w_sink set_sink_buf]. splits; [lia|auto|intros; lia|]. intros Hb. split; [exact Hb|lia].
Qed.
Lemma bf_bytes bs : bf (write_bytes bs).
Proof. intros st. apply bf_bytes_loop. Qed.

Lemma stp_flush st : stp 1 (is_ok (fst (flush st))) st (snd (flush st)) /\
  (is_ok (fst (flush st)) = true -> w_buf (snd (flush st)) = []).
Proof.
  unfold flush. pose proof (write_all_flushes (w_sink st) (w_buf st)) as Hf.
  pose proof (bulk_write_all (w_sink st) (w_buf st)) as Hb0.
  destruct (write_all (w_sink st) (w_buf st)) as [r s'] eqn:Ew. cbn [snd] in Hf.
  assert (Hbulk : bulk (w_sink st) -> (length (w_buf st) <= CAP)%nat ->
     r = Ok tt /\ bulk s' /\ received s' = received (w_sink st) ++ w_buf st /\ (length (write_resps (w_sink st)) <= S (length (write_resps s')))%nat).
  { intros Hb Hl. destruct (w_buf st) as [|x l] eqn:El.
    - unfold write_all in Ew.
      assert (Hnil : forall l recv, write_all_loop l recv [] = (Ok tt, recv, l)) by (destruct l; reflexivity).
      rewrite Hnil in Ew. injection Ew as <- <-. cbn. rewrite app_nil_r. splits; auto.
    - destruct Hb0 as (s2 & H2 & A & B & C & D); auto; [cbn in *; lia|]. injection H2 as -> ->. auto. }
  destruct r as [[]|e|k0|]; cbn [fst snd is_ok].
  - assert (Hs : forall r2 s2, sink_flush s' = (r2, s2) -> received s2 = received s' /\ write_resps s2 = write_resps s' /\ flushes s2 = flushes s' + 1).
    { intros r2 s2. unfold sink_flush. destruct (flush_resps s') as [|[]]; intros Hx; injection Hx as <- <-; auto. }
    destruct (sink_flush s') as [r2 s2]. destruct (Hs r2 s2 eq_refl) as (A & B & C). cbn [fst snd]. split; [|reflexivity].
    intros Hl. cbn [w_buf w_sink set_sink_buf length]. pose proof buf_size_pos. splits; [lia|intros; lia|intros; lia|].
    intros Hb. destruct (Hbulk Hb Hl) as (_ & A' & B' & C'). split; [unfold bulk in *; rewrite B; exact A'|].
    rewrite A, B, B', app_length. nia.
  - split; [|discriminate]. intros Hl. cbn [w_buf w_sink set_sink_buf]. splits; [auto|discriminate|discriminate|].
    intros Hb. destruct (Hbulk Hb Hl) as (Hx & _). discriminate.
  - split; [|discriminate]. intros Hl. cbn [w_buf w_sink set_sink_buf]. splits; [auto|discriminate|discriminate|].
    intros Hb. destruct (Hbulk Hb Hl) as (Hx & _). discriminate.
  - split; [|discriminate]. intros Hl. cbn [w_buf w_sink set_sink_buf]. splits; [auto|discriminate|discriminate|].
    intros Hb. destruct (Hbulk Hb Hl) as (Hx & _). discriminate.
Qed.

(** ** The functions of the writer *)

Lemma bf_bind {A B} (m : W A) (f : A -> W B) : bf m -> (forall a, bf (f a)) -> bf (wbind m f).
Proof.
  intros Hm Hf st. specialize (Hm st). unfold wbind. destruct (m st) as [[a| | |] st']; cbn [fst snd is_ok] in *; try exact Hm.
  apply (stp_trans 0 0 _ _ st' _ Hm), Hf.
Qed.
Lemma bf_ret {A} (a : A) : bf (wret a).
Proof. intros st. apply stp_refl. Qed.
Lemma bf_panic {A} k : bf (@wpanic A k).
Proof. intros st. apply stp_refl. Qed.
Lemma bf_get {A} (g : wst -> A) : bf (wget g).
Proof. intros st. apply stp_refl. Qed.
Lemma stp_same ok st st' : w_sink st' = w_sink st -> w_buf st' = w_buf st -> stp 0 ok st st'.
Proof. intros Hs Hb. intros Hl. rewrite Hs, Hb. splits; auto. rewrite N.add_0_r. reflexivity. intros H. split; auto. lia. Qed.
Lemma bf_modify f : (forall st, w_sink (f st) = w_sink st /\ w_buf (f st) = w_buf st) -> bf (wmodify f).
Proof. intros Hf st. destruct (Hf st). apply stp_same; auto. Qed.
Create HintDb bf.
Global Hint Resolve bf_bytes bf_bind bf_ret bf_panic bf_get : bf.
Global Hint Extern 2 (bf (wmodify _)) => apply bf_modify; intros; split; reflexivity : bf.

Lemma bf_indentation : bf write_indentation.
Proof.
  assert (H : forall n, bf (write_indentation_loop n)).
  { induction n; cbn [write_indentation_loop]; auto with bf. }
  intros st. unfold write_indentation. apply H.
Qed.
Lemma bf_increase : bf increase_indentation.
Proof. unfold increase_indentation. auto with bf. Qed.
Lemma bf_decrease : bf decrease_indentation.
Proof. intros st. unfold decrease_indentation. destruct (w_indentation st); cbn [fst snd]; apply stp_same; reflexivity. Qed.
Global Hint Resolve bf_indentation bf_increase bf_decrease : bf.
Ltac bf_if := repeat match goal with |- context[if ?b then _ else _] => destruct b; auto with bf end.
Lemma bf_before_element cfg : bf (before_container_element cfg).
Proof. unfold before_container_element. apply bf_bind; auto with bf. intros a. bf_if. Qed.
Global Hint Resolve bf_before_element : bf.
Lemma bf_before_value cfg : bf (before_value cfg).
Proof.
  unfold before_value. apply bf_bind; auto with bf. intros []; auto with bf. apply bf_bind; auto with bf. intros []; auto with bf.
  apply bf_bind; auto with bf. intros b1. apply bf_bind; auto with bf. intros b2. apply bf_bind.
  - destruct b1; [destruct (multi_top_level_value_separator cfg); auto with bf|]. destruct b2; auto with bf.
  - intros _. apply bf_bind; auto with bf. intros _. apply bf_bind; auto with bf. intros []; auto with bf.
Qed.
Global Hint Resolve bf_before_value : bf.
Lemma bf_u_escape v : bf (write_unicode_escape v).
Proof. unfold write_unicode_escape. apply bf_bind; auto with bf. intros _. destruct (get_unicode_escape v); auto with bf. Qed.
Global Hint Resolve bf_u_escape : bf.
Lemma bf_escaped_char c : bf (write_escaped_char c).
Proof. unfold write_escaped_char. bf_if. Qed.
Global Hint Resolve bf_escaped_char : bf.
Lemma bf_piece cfg s : bf (write_string_value_piece cfg s).
Proof.
  assert (H : forall bs chars i j, bf (string_piece_loop cfg bs chars i j)).
  { intros bs. induction chars as [|c chars IH]; intros i j; cbn [string_piece_loop]; auto with bf.
    destruct (should_escape cfg c); auto with bf.
    apply bf_bind; [destruct (Nat.ltb j i); auto with bf|]. intros _. apply bf_bind; auto with bf. }
  unfold write_string_value_piece. apply bf_bind; auto. intros n. destruct (Nat.ltb _ _); auto with bf.
Qed.
Global Hint Resolve bf_piece : bf.
Lemma bf_string cfg s : bf (write_string_value cfg s).
Proof. unfold write_string_value. auto with bf. Qed.
Global Hint Resolve bf_string : bf.
Lemma bf_container_end cfg : bf (on_container_end cfg).
Proof.
  unfold on_container_end. apply bf_bind; auto with bf. intros _. apply bf_bind; auto with bf. intros a.
  apply bf_bind; [destruct (negb a && pretty_print cfg); auto with bf|]. intros _. apply bf_bind; auto with bf.
Qed.
Global Hint Resolve bf_container_end : bf.

Definition svbf {A} (m : SV A) : Prop := forall sv st, stp 0 (is_ok (fst (fst (m sv st)))) st (snd (m sv st)).
Lemma svbf_lift {A} (m : W A) : bf m -> svbf (sv_lift m).
Proof. intros Hm sv st. specialize (Hm st). unfold sv_lift. destruct (m st). exact Hm. Qed.
Lemma svbf_bind {A B} (m : SV A) (f : A -> SV B) : svbf m -> (forall a, svbf (f a)) -> svbf (sv_bind m f).
Proof.
  intros Hm Hf sv st. specialize (Hm sv st). unfold sv_bind. destruct (m sv st) as [[[a| | |] sv'] st']; cbn [fst snd is_ok] in *; try exact Hm.
  apply (stp_trans 0 0 _ _ st' _ Hm), Hf.
Qed.
Lemma svbf_const {A} (g : svw -> res werr A * svw) : svbf (fun sv st => (g sv, st)).
Proof. intros sv st. apply stp_refl. Qed.
Lemma svbf_ret {A} (a : A) : svbf (sv_ret a).
Proof. apply (svbf_const (fun sv => (Ok a, sv))). Qed.
Lemma svbf_err {A} e : svbf (@sv_err A e).
Proof. apply (svbf_const (fun sv => (Err e, sv))). Qed.
Lemma svbf_panic {A} e : svbf (@sv_panic A e).
Proof. apply (svbf_const (fun sv => (Panic e, sv))). Qed.
Lemma svbf_set b n : svbf (sv_set b n).
Proof. apply (svbf_const (fun sv => (Ok tt, Svw b n (sv_error sv)))). Qed.
Lemma svbf_utf8 bs : svbf (sv_from_utf8 bs).
Proof. unfold sv_from_utf8. destruct (from_utf8 bs); [apply svbf_ret|apply svbf_err]. Qed.
Lemma svbf_piece cfg s : svbf (sv_lift (write_string_value_piece cfg s)).
Proof. apply svbf_lift, bf_piece. Qed.
Global Hint Resolve svbf_bind svbf_ret svbf_err svbf_panic svbf_set svbf_utf8 svbf_piece : bf.
Lemma svbf_scan cfg fuel : forall buf sp i, svbf (write_scan_loop cfg fuel buf sp i).
Proof.
  induction fuel as [|fuel IH]; intros buf sp i; cbn [write_scan_loop]; [apply (svbf_const (fun sv => (OutOfFuel, sv)))|].
  destruct (nth_error buf i) as [b|]; [|destruct (Nat.ltb _ _); auto with bf].
  destruct (is_1byte b); auto.
  assert (H : forall n, svbf (if Nat.ltb (length buf - i) n then
     if Nat.ltb i sp then sv_panic Bug else
            s <-% sv_from_utf8 (slice buf sp i) ;;
            sv_lift (write_string_value_piece cfg s) ;;%
            sv_set (skipn i buf) n ;;%
            sv_ret (length buf)
          else write_scan_loop cfg fuel buf sp (i + (n - 1) + 1))).
  { intros n. destruct (Nat.ltb (length buf - i) n); auto. destruct (Nat.ltb i sp); auto 8 with bf. }
  cbv zeta. repeat match goal with |- context[if ?f b then _ else _] => destruct (f b); auto end. auto with bf.
Qed.
Global Hint Resolve svbf_scan : bf.
Lemma svbf_write_impl cfg buf : svbf (sv_write_impl cfg buf).
Proof.
  intros sv st. unfold sv_write_impl. destruct buf as [|x buf]; [apply stp_refl|].
  match goal with |- context[sv_bind ?m ?f sv st] => assert (H : svbf (sv_bind m f)) end; [|apply H].
  apply svbf_bind.
  - destruct (sv_buf sv); auto with bf. destruct (Nat.ltb _ _); auto with bf.
    cbv zeta. destruct (Nat.ltb _ _); auto with bf. apply svbf_bind; auto with bf.
    destruct (Nat.leb _ _); auto with bf. apply svbf_bind; auto with bf. intros _.
    apply svbf_bind; auto with bf. unfold decode_utf8_char. apply svbf_bind; auto with bf.
    intros [|c [|]]; auto with bf.
  - intros sp. destruct (max_or_offset_negative _ _ _); auto with bf.
Qed.
Lemma svbf_check : svbf check_previous_error.
Proof. intros sv st. unfold check_previous_error. destruct (sv_error sv); apply stp_refl. Qed.
Lemma stp_tracked {A} k (m : SV A) sv st : (forall sv st, stp k (is_ok (fst (fst (m sv st)))) st (snd (m sv st))) ->
  let o := run_with_error_tracking m sv st in stp k (is_ok (fst (fst o))) st (snd o).
Proof.
  intros H. cbv zeta. unfold run_with_error_tracking, sv_bind, check_previous_error.
  destruct (sv_error sv).
  - cbn. intros Hl. splits; auto; try discriminate. intros Hb; split; auto; lia.
  - specialize (H sv st). destruct (m sv st) as [[[a| | |] sv'] st']; exact H.
Qed.

(** ** Sessions *)

Definition res_ok (r : wresult) : bool :=
  match r with RDone | RInvalidNumber | RCount _ => true | _ => false end.
Definition fcount (c : wcall) : nat := if is_flush c then 1 else 0.

Lemma bf_json m s : bf m -> stp 0 (res_ok (fst (json_call m s))) (ws_writer s) (ws_writer (snd (json_call m s))).
Proof. intros Hm. specialize (Hm (ws_writer s)). unfold json_call. destruct (m (ws_writer s)) as [[[]| | |] st']; exact Hm. Qed.
Lemma bf_number m s : bf m -> stp 0 (res_ok (fst (number_call m s))) (ws_writer s) (ws_writer (snd (number_call m s))).
Proof. intros Hm. specialize (Hm (ws_writer s)). unfold number_call. destruct (m (ws_writer s)) as [[[]| | |] st']; exact Hm. Qed.
Lemma stp_string {A} k f (m : SV A) s : (forall a, res_ok (f a) = true) ->
  (forall sv st, stp k (is_ok (fst (fst (m sv st)))) st (snd (m sv st))) ->
  stp k (res_ok (fst (string_call f m s))) (ws_writer s) (ws_writer (snd (string_call f m s))).
Proof.
  intros Hf Hm. unfold string_call. destruct (ws_string s) as [sv|].
  - specialize (Hm sv (ws_writer s)). destruct (m sv (ws_writer s)) as [[[a| | |] sv'] st']; cbn [fst snd wresult_of ws_writer is_ok res_ok] in *; auto.
    rewrite Hf. exact Hm.
  - cbn. intros Hl. splits; auto; try discriminate. intros Hb; split; auto; lia.
Qed.

Lemma step_stp cfg c s : stp (fcount c) (res_ok (fst (wstep cfg c s))) (ws_writer s) (ws_writer (snd (wstep cfg c s))).
Proof.
  destruct c as [| | | |n|v|b| |z|v|v| |bs|v| |]; cbn [wstep]; change (fcount _) with 0%nat || change (fcount _) with 1%nat.
  - apply bf_json. unfold begin_object. auto 10 with bf.
  - apply bf_json. unfold end_object. apply bf_bind; auto with bf. intros []; cbn [negb]; auto with bf.
    apply bf_bind; auto with bf. intros []; auto with bf. apply bf_bind; auto with bf. intros []; cbn [negb]; auto with bf.
  - apply bf_json. unfold begin_array. auto 10 with bf.
  - apply bf_json. unfold end_array. apply bf_bind; auto with bf. intros []; cbn [negb]; auto with bf.
    apply bf_bind; auto with bf. intros []; auto with bf.
  - apply bf_json. unfold name. apply bf_bind; auto with bf. intros []; cbn [negb]; auto with bf.
    apply bf_bind; auto with bf. intros []; auto 10 with bf.
  - apply bf_json. unfold string_value. auto with bf.
  - apply bf_json. unfold bool_value. auto with bf.
  - apply bf_json. unfold null_value. auto with bf.
  - apply bf_json. unfold number_value, number_str_value. destruct (negb _); auto with bf.
  - apply bf_number. unfold fp_number_value, number_str_value. destruct v; auto with bf. destruct (negb _); auto with bf.
  - apply bf_number. unfold number_value_from_string. destruct (is_valid_json_number v); auto with bf.
  - assert (H : bf (string_value_writer cfg)) by (unfold string_value_writer; auto 10 with bf).
    specialize (H (ws_writer s)). destruct (string_value_writer cfg (ws_writer s)) as [[a| | |] st']; exact H.
  - apply stp_string; [reflexivity|]. intros sv st. apply stp_tracked, svbf_write_impl.
  - apply stp_string; [reflexivity|]. intros sv st. apply stp_tracked. clear sv st. intros sv st.
    destruct (sv_buf sv); [apply svbf_piece|]. cbn. apply stp_refl.
  - apply stp_string; [reflexivity|]. intros sv st. apply stp_tracked. clear sv st. intros sv st.
    unfold sv_lift. pose proof (stp_flush st) as [H _]. destruct (flush st). exact H.
  - assert (H : svbf sv_finish_value).
    { unfold sv_finish_value. apply svbf_bind; [apply svbf_check|]. intros _ sv st.
      destruct (sv_buf sv); [|apply stp_refl]. apply svbf_bind; [apply svbf_lift, bf_bytes|].
      intros _. apply svbf_lift. auto with bf. }
    pose proof (stp_string 0 (fun _ : unit => RDone) sv_finish_value s (fun _ => eq_refl) H) as Hs.
    destruct (string_call _ sv_finish_value s). exact Hs.
Qed.

Definition weak (k : nat) (st st' : wst) : Prop := stp k false st st'.
Lemma weak_trans k1 k2 st1 st2 st3 : weak k1 st1 st2 -> weak k2 st2 st3 -> weak (k1 + k2) st1 st3.
Proof.
  intros H1 H2 Hl. destruct (H1 Hl) as (A1 & _ & _ & A4). destruct (H2 A1) as (B1 & _ & _ & B4). splits; auto; try discriminate.
  intros Hb. destruct (A4 Hb) as [C1 C2]. destruct (B4 C1) as [D1 D2]. split; auto. lia.
Qed.
Lemma weak_of k ok st st' : stp k ok st st' -> weak k st st'.
Proof. intros H Hl. destruct (H Hl) as (A1 & A2 & A3 & A4). splits; auto; discriminate. Qed.
Lemma weak_more k k' st st' : (k <= k')%nat -> weak k st st' -> weak k' st st'.
Proof. intros Hk H Hl. destruct (H Hl) as (A1 & A2 & A3 & A4). splits; auto; try discriminate. intros Hb. destruct (A4 Hb). split; auto. nia. Qed.
Lemma flush_calls_cons c cs : flush_calls (c :: cs) = (fcount c + flush_calls cs)%nat.
Proof. unfold flush_calls, fcount. cbn [filter]. destruct (is_flush c); reflexivity. Qed.

Lemma run_weak cfg cs : forall s, weak (flush_calls cs) (ws_writer s) (ws_writer (snd (wrun cfg cs s))).
Proof.
  induction cs as [|c cs IH]; intros s; cbn [wrun]; [apply weak_of with (ok := true), stp_refl|].
  rewrite flush_calls_cons. pose proof (weak_of _ _ _ _ (step_stp cfg c s)) as H.
  destruct (wstep cfg c s) as [r s']. specialize (IH s'). cbn [snd] in H.
  destruct (wrun cfg cs s') as [rs s'']. cbn [snd] in *.
  assert (G : weak (fcount c + flush_calls cs) (ws_writer s) (ws_writer s'')) by (eapply weak_trans; eauto).
  destruct r; cbn [snd]; try exact G. eapply weak_more; [|exact H]. lia.
Qed.
Lemma run_ok cfg cs : forall s rs s', wrun cfg cs s = (rs, s') -> Forall (fun r => res_ok r = true) rs ->
  length rs = length cs /\ stp (flush_calls cs) true (ws_writer s) (ws_writer s').
Proof.
  induction cs as [|c cs IH]; intros s rs s'; cbn [wrun].
  - intros H _. injection H as <- <-. split; [reflexivity|apply stp_refl].
  - rewrite flush_calls_cons. pose proof (step_stp cfg c s) as H.
    destruct (wstep cfg c s) as [r s1]. cbn [fst snd] in H.
    destruct (wrun cfg cs s1) as [rs1 s2] eqn:E. intros Hr Hok.
    assert (Hr' : r :: rs1 = rs /\ s2 = s').
    { destruct r; try (injection Hr as <- <-; auto; fail). injection Hr as <- <-. apply Forall_inv in Hok. discriminate. }
    destruct Hr' as [<- <-]. clear Hr. destruct (IH s1 rs1 s2 E (Forall_inv_tail Hok)) as [IH1 IH2]. cbn [length]. split; [lia|].
    rewrite (Forall_inv Hok) in H. eapply stp_trans; eauto.
Qed.
Lemma success_ok c r : success c r -> res_ok r = true.
Proof. destruct c as [| | | |n|v|b| |z|[v|]|v| |bs|v| |]; cbn; try (intros ->; reflexivity). intros [[_ ->]|[_ ->]]; reflexivity. Qed.
