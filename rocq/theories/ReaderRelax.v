(** * Comparing two runs of the reader

    The left run has stricter settings, or its input breaks off with an IO
    error, or both.  The two runs have the same results until the left one
    reports an error which is due to this ([hit]). *)

From Verif Require Import Base Utf8Model NumberModel SourceModel SourceProofs ReaderModel ReaderLex SpecSessions.

(** The settings on the right are more lenient *)
Record relaxes (hit : reader_error -> Prop) (E1 E2 : env) : Prop := {
  rx_fuel : (fuel E1 <= fuel E2)%nat;
  rx_comments : allow_comments (cfg E1) = allow_comments (cfg E2) \/
    allow_comments (cfg E1) = false /\ forall p, hit (ESyntax CommentsNotEnabled p);
  rx_comma : allow_trailing_comma (cfg E1) = allow_trailing_comma (cfg E2) \/
    allow_trailing_comma (cfg E1) = false /\ forall p, hit (ESyntax TrailingCommaNotEnabled p);
  rx_multi : allow_multiple_top_level (cfg E1) = allow_multiple_top_level (cfg E2);
  rx_depth : max_nesting_depth (cfg E1) = max_nesting_depth (cfg E2) \/
    exists m, max_nesting_depth (cfg E1) = Some m /\ (forall p, hit (EMaxNestingDepth m p)) /\
      forall m', max_nesting_depth (cfg E2) = Some m' -> m <= m';
  rx_number : restrict_number_values (cfg E1) = restrict_number_values (cfg E2) \/
    restrict_number_values (cfg E1) = true /\ forall n p, hit (EUnsupportedNumber n p)
}.

(** The sources are the same, or the left one breaks off *)
Definition cutoff (hit : reader_error -> Prop) (a1 a2 : asrc) : Prop :=
  a_mode a1 = a_mode a2 /\ a_failed a1 = false /\ a_failed a2 = false /\
  (a_known a1 = true -> a_known a2 = true) /\ (a_known a1 = true -> a_rest a1 <> []) /\
  exists more e, a_rest a2 = a_rest a1 ++ more /\ a_tail a1 = TErr e /\ forall p, hit (EIo (IoSource e) p).
Definition cut (hit : reader_error -> Prop) (a1 a2 : asrc) : Prop := a1 = a2 \/ cutoff hit a1 a2.

Definition ext {A : Type} (hit : reader_error -> Prop) (bad : A -> Prop) (m1 m2 : M A) : Prop :=
  forall s a1 a2, cut hit a1 a2 ->
  match arun (m1 s) a1 with
  | Some ((Ok x, s1), a1') => bad x \/ exists a2', arun (m2 s) a2 = Some ((Ok x, s1), a2') /\ cut hit a1' a2'
  | Some ((Err e, s1), a1') => hit e \/ exists a2', arun (m2 s) a2 = Some ((Err e, s1), a2') /\ cut hit a1' a2'
  | Some ((Panic k, s1), a1') => k = Bug \/ exists a2', arun (m2 s) a2 = Some ((Panic k, s1), a2') /\ cut hit a1' a2'
  | Some ((OutOfFuel, _), _) => True
  | None => True
  end.

Definition fine {A : Type} (x : A) : Prop := False.

Lemma ext_bind {A B} hit bad (m1 m2 : M A) (f1 f2 : A -> M B) :
  ext hit fine m1 m2 -> (forall x, ext hit bad (f1 x) (f2 x)) -> ext hit bad (bind m1 f1) (bind m2 f2).
Proof.
  intros Hm Hf s a1 a2 Ha. unfold bind. rewrite arun_bind. specialize (Hm s a1 a2 Ha).
  destruct (arun (m1 s) a1) as [[[[x|e|k|] s1] a1']|]; cbn [arun]; auto.
  - destruct Hm as [[]|(a2' & Hm & Ha')]. specialize (Hf x s1 a1' a2' Ha').
    rewrite arun_bind, Hm. exact Hf.
  - destruct Hm as [Hm|(a2' & Hm & Ha')]; [auto|]. right. exists a2'. rewrite arun_bind, Hm. auto.
  - destruct Hm as [Hm|(a2' & Hm & Ha')]; [auto|]. right. exists a2'. rewrite arun_bind, Hm. auto.
Qed.

Lemma ext_get {B} hit bad (f1 f2 : rstate -> M B) :
  (forall s, ext hit bad (f1 s) (f2 s)) -> ext hit bad (bind get_state f1) (bind get_state f2).
Proof. intros H s a1 a2 Ha. exact (H s s a1 a2 Ha). Qed.

Lemma ext_same {A} hit bad (m : M A) : (forall s, exists r, m s = Ret r) -> ext hit bad m m.
Proof.
  intros H s a1 a2 Ha. destruct (H s) as ([[x|e|k|] s1] & ->); cbn; auto; right; eauto.
Qed.
Lemma ext_ret {A} hit bad (x : A) : ext hit bad (ret x) (ret x).
Proof. apply ext_same. intros. eexists. reflexivity. Qed.
Lemma ext_update hit bad f : ext hit bad (update f) (update f).
Proof. apply ext_same. intros. eexists. reflexivity. Qed.
Lemma ext_fail {A} hit bad e : ext (A := A) hit bad (fail e) (fail e).
Proof. apply ext_same. intros. eexists. reflexivity. Qed.
Lemma ext_syntax {A} hit bad k : ext (A := A) hit bad (syntax_err k) (syntax_err k).
Proof. apply ext_fail. Qed.
Lemma ext_structure {A} hit bad k : ext (A := A) hit bad (structure_err k) (structure_err k).
Proof. apply ext_fail. Qed.
Lemma ext_panics {A} hit bad k : ext (A := A) hit bad (panics k) (panics k).
Proof. apply ext_same. intros. eexists. reflexivity. Qed.
Lemma ext_no_fuel {A} hit bad (m : M A) : ext hit bad no_fuel m.
Proof. intros s a1 a2 Ha. exact I. Qed.
Lemma ext_misuse_if hit bad c : ext hit bad (misuse_if c) (misuse_if c).
Proof. destruct c; [apply ext_panics|apply ext_ret]. Qed.
(** An error on the left which is due to the difference *)
Lemma ext_hit {A} (hit : reader_error -> Prop) bad e (m : M A) : (forall p, hit (e p)) -> ext hit bad (fail e) m.
Proof. intros H s a1 a2 Ha. left. apply H. Qed.

(** ** The operations of the source *)

Lemma ext_peek_gen (hit : reader_error -> Prop) bad (m : M (option byte)) p (peekf : asrc -> option (peek_res * asrc)) :
  (forall s, m s = p (from_peek s)) ->
  (forall (k : peek_res -> prog (res reader_error (option byte) * rstate)) a,
     arun (p k) a = match peekf a with Some (r, a') => arun (k r) a' | None => None end) ->
  (forall a1 a2 r1 a1', cutoff hit a1 a2 -> peekf a1 = Some (r1, a1') ->
     match r1 with
     | PkErr e => forall p, hit (EIo (IoSource e) p)
     | _ => exists a2', peekf a2 = Some (r1, a2') /\ cutoff hit a1' a2'
     end) -> ext hit bad m m.
Proof.
  intros Hm Hp Hc s a1 a2 Ha. rewrite !Hm, !Hp.
  destruct (peekf a1) as [[r1 a1']|] eqn:E1; [|exact I].
  destruct Ha as [<-|Ha].
  - rewrite E1. destruct r1; cbn; right; exists a1'; (split; [reflexivity|left; reflexivity]).
  - specialize (Hc _ _ _ _ Ha E1). destruct r1; cbn; [left; apply Hc| |];
      destruct Hc as (a2' & -> & Hc); cbn; right; exists a2'; (split; [reflexivity|right; exact Hc]).
Qed.

Lemma ext_peek_byte hit bad : ext hit bad peek_byte peek_byte.
Proof.
  apply (ext_peek_gen hit bad _ DPeek a_peek); [reflexivity|reflexivity|].
  intros a1 a2 r1 a1' (Hm & H1 & H2 & Hk & Hn & more & e & Hr & Ht & He) H.
  unfold a_peek in *. rewrite H1 in H. rewrite H2, <- Hm. unfold a_peek_res in *.
  destruct (a_rest a1) as [|b r] eqn:Er.
  - rewrite Ht in H. destruct (a_mode a1); [injection H as <- <-; exact He|discriminate|].
    destruct (a_known a1); [destruct (Hn eq_refl eq_refl)|discriminate].
  - rewrite Hr. cbn [app] in *. destruct (a_mode a1) eqn:Em; [|discriminate|].
    + injection H as <- <-. eexists. split; [reflexivity|]. unfold cutoff. cbn. splits; auto; try discriminate.
      exists more, e. auto.
    + destruct (a_known a1) eqn:Ek; [|discriminate]. injection H as <- <-. rewrite (Hk eq_refl).
      eexists. split; [reflexivity|]. unfold cutoff. rewrite Er. splits; auto; try congruence.
      exists more, e. auto.
Qed.
Lemma ext_value_peek hit bad : ext hit bad value_peek value_peek.
Proof.
  apply (ext_peek_gen hit bad _ DVPeek a_vpeek); [reflexivity|reflexivity|].
  intros a1 a2 r1 a1' (Hm & H1 & H2 & Hk & Hn & more & e & Hr & Ht & He) H.
  unfold a_vpeek in *. rewrite H1 in H. rewrite H2, <- Hm. unfold a_peek_res in *.
  destruct (a_mode a1) as [|acc jr []|] eqn:Em; try discriminate.
  destruct (a_rest a1) as [|b r] eqn:Er.
  - rewrite Ht in H. destruct (a_known a1); [discriminate|]. injection H as <- <-. exact He.
  - rewrite Hr. cbn [app] in *.
    assert (H' : Some (PkByte b, ASrc (b :: r) (a_tail a1) true (VActive acc false false) false) = Some (r1, a1'))
      by (destruct (a_known a1); exact H).
    injection H' as <- <-. eexists. split; [destruct (a_known a2); reflexivity|].
    unfold cutoff. cbn. splits; auto; try discriminate. exists more, e. auto.
Qed.

(** An operation without result *)
Lemma ext_op_gen hit bad (m : M unit) p (op : asrc -> option asrc) :
  (forall s, m s = p (Ret (Ok tt, s))) ->
  (forall (k : prog (res reader_error unit * rstate)) a,
     arun (p k) a = match op a with Some a' => arun k a' | None => None end) ->
  (forall a1 a2 a1', cutoff hit a1 a2 -> op a1 = Some a1' -> exists a2', op a2 = Some a2' /\ cutoff hit a1' a2') ->
  ext hit bad m m.
Proof.
  intros Hm Hp Hc s a1 a2 Ha. rewrite !Hm, !Hp.
  destruct (op a1) as [a1'|] eqn:E1; [|exact I]. cbn. right.
  destruct Ha as [<-|Ha].
  - rewrite E1. cbn. exists a1'. split; [reflexivity|left; reflexivity].
  - destruct (Hc _ _ _ Ha E1) as (a2' & -> & Hc'). exists a2'. split; [reflexivity|right; exact Hc'].
Qed.

Ltac ext_op :=
  intros a1 a2 a1' (Hm & H1 & H2 & Hk & Hn & more & e & Hr & Ht & He) H;
  unfold a_skip, a_vnew, a_vconsume, a_vskip_prev, a_vskip_final, a_vpush, a_vget in *;
  rewrite H1 in H; rewrite H2, <- Hm;
  repeat match type of H with
  | match ?x with _ => _ end = _ => destruct x eqn:?; try discriminate
  end;
  injection H as <-.

Lemma ext_skip_byte hit bad : ext hit bad skip_peeked_byte skip_peeked_byte.
Proof.
  apply (ext_op_gen hit bad _ DSkip a_skip); [reflexivity|reflexivity|]. ext_op.
  rewrite (Hk eq_refl), Hr. cbn [app]. eexists. split; [reflexivity|]. unfold cutoff. cbn. splits; auto; try discriminate.
  exists more, e. auto.
Qed.
Lemma ext_value_new hit bad : ext hit bad value_reader_new value_reader_new.
Proof.
  apply (ext_op_gen hit bad _ DVNew a_vnew); [reflexivity|reflexivity|]. ext_op.
  eexists. split; [reflexivity|]. unfold cutoff. cbn. splits; auto.
  - rewrite Hr. destruct (a_rest a1); [discriminate|exact Hk].
  - destruct (a_rest a1); [discriminate|exact Hn].
  - exists more, e. auto.
Qed.
Lemma ext_value_consume hit bad : ext hit bad value_consume value_consume.
Proof.
  apply (ext_op_gen hit bad _ DVConsume a_vconsume); [reflexivity|reflexivity|]. ext_op.
  rewrite (Hk eq_refl), Hr. cbn [app]. eexists. split; [reflexivity|]. unfold cutoff. cbn. splits; auto; try discriminate.
  exists more, e. auto.
Qed.
Ltac ext_mode := ext_op; (eexists; split; [reflexivity|]; unfold cutoff; cbn; splits; eauto).
Lemma ext_value_skip_previous hit bad : ext hit bad value_skip_previous value_skip_previous.
Proof. apply (ext_op_gen hit bad _ DVSkipPrev a_vskip_prev); [reflexivity|reflexivity|]. ext_mode. Qed.
Lemma ext_value_skip_final hit bad : ext hit bad value_skip_final value_skip_final.
Proof. apply (ext_op_gen hit bad _ DVSkipFinal a_vskip_final); [reflexivity|reflexivity|]. ext_mode. Qed.
Lemma ext_value_push hit bad bs : ext hit bad (value_push bs) (value_push bs).
Proof. apply (ext_op_gen hit bad _ (DVPush bs) (a_vpush bs)); [reflexivity|reflexivity|]. ext_mode. Qed.
Lemma ext_value_get hit bad b : ext hit bad (value_get b) (value_get b).
Proof. apply (ext_op_gen hit bad _ (DVGet b) (a_vget b)); [reflexivity|reflexivity|]. ext_mode. Qed.

Lemma ext_value_str_peek hit bad : ext hit bad value_str_peek value_str_peek.
Proof.
  intros s a1 a2 Ha. cbn. destruct (a_vstr_peek a1) as [x|] eqn:E1; [|exact I]. cbn. right.
  destruct Ha as [<-|Ha]; [rewrite E1; cbn; exists a1; split; [reflexivity|left; reflexivity]|].
  exists a2. split; [|right; exact Ha]. destruct Ha as (Hm & H1 & H2 & _). unfold a_vstr_peek in *.
  rewrite H1 in E1. rewrite H2, <- Hm, E1. reflexivity.
Qed.
Lemma ext_value_str_gen hit bad b p (op : asrc -> option (str * asrc)) (m : M str) :
  (forall s, m s = p (fun t => Ret (Ok t, s))) ->
  (forall (k : str -> prog (res reader_error str * rstate)) a,
     arun (p k) a = match op a with Some (s, a') => arun (k s) a' | None => None end) ->
  (forall a, op a = match a_failed a, a_mode a with
    | false, VGot bs c => if b || c then match from_utf8 bs with
       | Some s => Some (s, ASrc (a_rest a) (a_tail a) (a_known a) VNone false) | None => None end else None
    | _, _ => None end) -> ext hit bad m m.
Proof.
  intros Hm Hp Ho s a1 a2 Ha. rewrite !Hm, !Hp.
  destruct (op a1) as [[x a1']|] eqn:E1; [|exact I]. cbn. right.
  destruct Ha as [<-|Ha]; [rewrite E1; cbn; exists a1'; split; [reflexivity|left; reflexivity]|].
  destruct Ha as (Hmo & H1 & H2 & Hk & Hn & more & e & Hr & Ht & He).
  rewrite Ho in E1 |- *. rewrite H1 in E1. rewrite H2, <- Hmo.
  destruct (a_mode a1); try discriminate. destruct (b || _); [|discriminate].
  destruct (from_utf8 _); [|discriminate]. injection E1 as -> <-. eexists. split; [reflexivity|]. right.
  unfold cutoff. cbn. splits; auto. exists more, e. auto.
Qed.
Lemma ext_value_str hit bad : ext hit bad value_str value_str.
Proof.
  apply (ext_value_str_gen hit bad false DVStr a_vstr); reflexivity.
Qed.
Lemma ext_value_string hit bad : ext hit bad value_string value_string.
Proof.
  apply (ext_value_str_gen hit bad true DVString a_vstring); reflexivity.
Qed.

Create HintDb rlx discriminated.
#[export] Hint Resolve ext_ret ext_update ext_fail ext_syntax ext_structure ext_panics ext_no_fuel ext_misuse_if
  ext_peek_byte ext_value_peek ext_skip_byte ext_value_new ext_value_consume ext_value_skip_previous
  ext_value_skip_final ext_value_push ext_value_get ext_value_str_peek ext_value_str ext_value_string : rlx.
#[export] Hint Resolve rx_fuel : rlx.

Ltac rx1 :=
  lazymatch goal with
  | |- ext _ _ (bind get_state _) _ => apply ext_get; intro
  | |- ext _ _ (bind _ _) _ => apply ext_bind; [|intro]
  | |- ext _ _ (if ?c then _ else _) (if ?c then _ else _) => destruct c
  | |- ext _ _ (match ?c with _ => _ end) (match ?c with _ => _ end) => destruct c
  | |- ext _ _ _ _ => solve [auto 4 with rlx | eauto 6 with rlx]
  end.
Ltac rxs := repeat rx1.

(** ** The functions of the reader *)

Lemma ext_read_byte hit bad k : ext hit bad (read_byte k) (read_byte k).
Proof. unfold read_byte. rxs. Qed.
Lemma ext_value_read_byte hit bad k : ext hit bad (value_read_byte k) (value_read_byte k).
Proof. unfold value_read_byte. rxs. Qed.
#[export] Hint Resolve ext_read_byte ext_value_read_byte : rlx.
Lemma ext_value_read_skipped hit bad k : ext hit bad (value_read_skipped_byte k) (value_read_skipped_byte k).
Proof. unfold value_read_skipped_byte. rxs. Qed.
#[export] Hint Resolve ext_value_read_skipped : rlx.
Lemma ext_multibyte hit bad rb b0 : (forall k, ext hit fine (rb k) (rb k)) ->
  ext hit bad (read_utf8_multibyte rb b0) (read_utf8_multibyte rb b0).
Proof. intros H. unfold read_utf8_multibyte. rxs. Qed.
#[export] Hint Resolve ext_multibyte : rlx.
Lemma ext_eof hit bad k : ext hit bad (eof_result k) (eof_result k).
Proof. unfold eof_result. rxs. Qed.
#[export] Hint Resolve ext_eof : rlx.
Lemma ext_skip_to_loop hit bad st k : forall f1 f2 cr, (f1 <= f2)%nat ->
  ext hit bad (skip_to_loop f1 st k cr) (skip_to_loop f2 st k cr).
Proof.
  induction f1 as [|f1 IH]; intros f2 cr Hf; [apply ext_no_fuel|].
  destruct f2 as [|f2]; [lia|]. cbn [skip_to_loop]. assert (Hf' : (f1 <= f2)%nat) by lia. rxs.
Qed.
Lemma ext_skip_to hit bad E1 E2 st k : relaxes hit E1 E2 -> ext hit bad (skip_to E1 st k) (skip_to E2 st k).
Proof. intros H. apply ext_skip_to_loop, H. Qed.
#[export] Hint Resolve ext_skip_to : rlx.
Lemma ext_line_comment hit bad E1 E2 k : relaxes hit E1 E2 ->
  ext hit bad (skip_to_line_comment_end E1 k) (skip_to_line_comment_end E2 k).
Proof. intros H. unfold skip_to_line_comment_end. rxs. Qed.
Lemma ext_block_comment hit bad E1 E2 : relaxes hit E1 E2 ->
  ext hit bad (skip_to_block_comment_end E1) (skip_to_block_comment_end E2).
Proof.
  intros H. unfold skip_to_block_comment_end. pose proof (rx_fuel _ _ _ H) as Hf. revert Hf.
  generalize (fuel E1). generalize (fuel E2). intros f2 f1. revert f2.
  induction f1 as [|f1 IH]; intros f2 Hf; [apply ext_no_fuel|].
  destruct f2 as [|f2]; [lia|]. cbn [skip_to_block_comment_end_loop]. assert (Hf' : (f1 <= f2)%nat) by lia. rxs.
Qed.
#[export] Hint Resolve ext_line_comment ext_block_comment : rlx.
Lemma ext_ws hit bad E1 E2 k : relaxes hit E1 E2 -> ext hit bad (skip_whitespace E1 k) (skip_whitespace E2 k).
Proof.
  intros H. unfold skip_whitespace. pose proof (rx_fuel _ _ _ H) as Hf. revert Hf.
  generalize (fuel E1). generalize (fuel E2). intros f2 f1. revert f2.
  induction f1 as [|f1 IH]; intros f2 Hf; [apply ext_no_fuel|].
  destruct f2 as [|f2]; [lia|]. cbn [skip_whitespace_loop]. assert (Hf' : (f1 <= f2)%nat) by lia. rxs.
  destruct (rx_comments _ _ _ H) as [->|[-> Hh]]; [rxs|]. cbn [negb]. apply ext_hit. exact Hh.
Qed.
#[export] Hint Resolve ext_ws : rlx.
Lemma ext_ws_no_eof hit bad E1 E2 k : relaxes hit E1 E2 ->
  ext hit bad (skip_whitespace_no_eof E1 k) (skip_whitespace_no_eof E2 k).
Proof. intros H. unfold skip_whitespace_no_eof. rxs. Qed.
Lemma ext_verify_sep hit bad x k : ext hit bad (verify_value_separator x k) (verify_value_separator x k).
Proof. unfold verify_value_separator. rxs. Qed.
#[export] Hint Resolve ext_ws_no_eof ext_verify_sep : rlx.
Lemma ext_verify_next hit bad k : ext hit bad (verify_next_separator k) (verify_next_separator k).
Proof. unfold verify_next_separator. rxs. Qed.
#[export] Hint Resolve ext_verify_next : rlx.
Lemma ext_literal hit bad l : ext hit bad (consume_literal l) (consume_literal l).
Proof. induction l as [|e l IH]; cbn [consume_literal]; rxs. Qed.
#[export] Hint Resolve ext_literal : rlx.
Lemma ext_after_name hit bad E1 E2 : relaxes hit E1 E2 -> ext hit bad (after_name E1) (after_name E2).
Proof. intros H. unfold after_name. rxs. Qed.
#[export] Hint Resolve ext_after_name : rlx.
Lemma ext_peek_token hit bad s x : ext hit bad (peek_token s x) (peek_token s x).
Proof. unfold peek_token. rxs. Qed.
#[export] Hint Resolve ext_peek_token : rlx.
Lemma ext_finish_peek hit bad E1 E2 c k p r : relaxes hit E1 E2 ->
  ext hit bad (finish_peek E1 c k p r) (finish_peek E2 c k p r).
Proof.
  intros H. unfold finish_peek. rxs.
  destruct (rx_comma _ _ _ H) as [->|[-> Hh]]; [rxs|]. cbn [negb].
  intros s a1 a2 Ha. cbn. left. apply Hh.
Qed.
#[export] Hint Resolve ext_finish_peek : rlx.
Lemma ext_peek_after hit bad E1 E2 x : relaxes hit E1 E2 -> ext hit bad (peek_after_ws E1 x) (peek_after_ws E2 x).
Proof. intros H. unfold peek_after_ws. rxs. Qed.
#[export] Hint Resolve ext_peek_after : rlx.
Lemma ext_peek_opt hit bad E1 E2 : relaxes hit E1 E2 ->
  ext hit bad (peek_internal_optional E1) (peek_internal_optional E2).
Proof. intros H. unfold peek_internal_optional. rewrite (rx_multi _ _ _ H). rxs. Qed.
#[export] Hint Resolve ext_peek_opt : rlx.
Lemma ext_peek_internal hit bad E1 E2 : relaxes hit E1 E2 -> ext hit bad (peek_internal E1) (peek_internal E2).
Proof. intros H. unfold peek_internal. rewrite (rx_multi _ _ _ H). rxs. Qed.
#[export] Hint Resolve ext_peek_internal : rlx.
Lemma ext_map_peeked hit bad p : ext hit bad (map_peeked p) (map_peeked p).
Proof. unfold map_peeked. rxs. Qed.
Lemma ext_consume_peeked hit bad : ext hit bad consume_peeked consume_peeked.
Proof. unfold consume_peeked. rxs. Qed.
#[export] Hint Resolve ext_map_peeked ext_consume_peeked : rlx.
Lemma ext_depth {A} hit bad E1 E2 (d : bool) s (m1 m2 : M A) : relaxes hit E1 E2 -> ext hit bad m1 m2 ->
  ext hit bad (match (if d then depth_exceeded E1 s else None) with Some m => fail (EMaxNestingDepth m) | None => m1 end)
      (match (if d then depth_exceeded E2 s else None) with Some m => fail (EMaxNestingDepth m) | None => m2 end).
Proof.
  intros H Hm. destruct d; [|exact Hm]. unfold depth_exceeded.
  destruct (rx_depth _ _ _ H) as [->|(m & -> & Hh & Hm')]; [rxs|].
  destruct (m <=? N.of_nat (length (stack s))) eqn:El; [apply ext_hit; exact Hh|].
  destruct (max_nesting_depth (cfg E2)) as [m'|]; [|exact Hm]. specialize (Hm' _ eq_refl).
  destruct (m' <=? N.of_nat (length (stack s))) eqn:El'; [|exact Hm]. lia.
Qed.
Lemma ext_start hit bad E1 E2 t d : relaxes hit E1 E2 ->
  ext hit bad (start_expected_value_type E1 t d) (start_expected_value_type E2 t d).
Proof. intros H. unfold start_expected_value_type. rxs. apply ext_depth; [exact H|]. rxs. Qed.
#[export] Hint Resolve ext_start : rlx.
Lemma ext_container_start hit bad E1 E2 t v : relaxes hit E1 E2 ->
  ext hit bad (on_container_start E1 t v) (on_container_start E2 t v).
Proof. intros H. unfold on_container_start. rxs. Qed.
Lemma ext_value_end hit bad : ext hit bad on_value_end on_value_end.
Proof. unfold on_value_end. rxs. Qed.
#[export] Hint Resolve ext_container_start ext_value_end : rlx.
Lemma ext_container_end hit bad : ext hit bad on_container_end on_container_end.
Proof. unfold on_container_end. rxs. Qed.
Lemma ext_set_path_name hit bad n : ext hit bad (set_path_name n) (set_path_name n).
Proof. unfold set_path_name. rxs. Qed.
#[export] Hint Resolve ext_container_end ext_set_path_name : rlx.

Lemma ext_unicode hit bad rb : (forall k, ext hit fine (rb k) (rb k)) ->
  ext hit bad (read_unicode_escape rb) (read_unicode_escape rb).
Proof. intros H. unfold read_unicode_escape, read_hex_byte. rxs. Qed.
#[export] Hint Resolve ext_unicode : rlx.
Lemma ext_unicode_char hit bad rb : (forall k, ext hit fine (rb k) (rb k)) ->
  ext hit bad (read_unicode_escape_char rb) (read_unicode_escape_char rb).
Proof. intros H. unfold read_unicode_escape_char, char_from_u32. rxs. Qed.
#[export] Hint Resolve ext_unicode_char : rlx.
Lemma ext_string_bytes hit bad : ext hit bad read_string_bytes read_string_bytes.
Proof. unfold read_string_bytes. rxs. Qed.
#[export] Hint Resolve ext_string_bytes : rlx.
Lemma ext_skip_string_bytes hit bad E1 E2 : relaxes hit E1 E2 ->
  ext hit bad (skip_all_string_bytes E1) (skip_all_string_bytes E2).
Proof.
  intros H. unfold skip_all_string_bytes. pose proof (rx_fuel _ _ _ H) as Hf. revert Hf.
  generalize (fuel E1). generalize (fuel E2). intros f2 f1. revert f2.
  induction f1 as [|f1 IH]; intros f2 Hf; [apply ext_no_fuel|].
  destruct f2 as [|f2]; [lia|]. cbn [skip_all_string_bytes_loop]. assert (Hf' : (f1 <= f2)%nat) by lia. rxs.
Qed.
Lemma ext_string_escape hit bad : ext hit bad read_string_escape read_string_escape.
Proof. unfold read_string_escape. rxs. Qed.
#[export] Hint Resolve ext_skip_string_bytes ext_string_escape : rlx.
Lemma ext_read_string hit bad E1 E2 r : relaxes hit E1 E2 -> ext hit bad (read_string E1 r) (read_string E2 r).
Proof.
  intros H. unfold read_string. rx1; [rxs|]. pose proof (rx_fuel _ _ _ H) as Hf. revert Hf.
  generalize (fuel E1). generalize (fuel E2). intros f2 f1. revert f2.
  induction f1 as [|f1 IH]; intros f2 Hf; [apply ext_no_fuel|].
  destruct f2 as [|f2]; [lia|]. cbn [read_string_loop]. assert (Hf' : (f1 <= f2)%nat) by lia. rxs.
Qed.
#[export] Hint Resolve ext_read_string : rlx.

(** Numbers: more fuel *)
Inductive nle : nprog -> nprog -> Prop :=
| nle_fuel p : nle NFuel p
| nle_ret r : nle (NRet r) (NRet r)
| nle_next k k' : (forall ob, nle (k ob) (k' ob)) -> nle (NNext k) (NNext k').

Lemma nle_digits k k' : (forall b, nle (k b) (k' b)) -> forall f1 f2, (f1 <= f2)%nat ->
  nle (digits_loop f1 k) (digits_loop f2 k').
Proof.
  intros Hk. induction f1 as [|f1 IH]; intros f2 Hf; [constructor|]. destruct f2 as [|f2]; [lia|].
  cbn. constructor. intros [b|]; [|constructor]. destruct (is_digit b); [apply IH; lia|auto].
Qed.
Lemma nle_refl : forall p, nle p p.
Proof. induction p; constructor; auto. Qed.
Lemma nle_exponent : forall f1 f2 n, (f1 <= f2)%nat -> nle (exponent_loop f1 n number_end) (exponent_loop f2 n number_end).
Proof.
  induction f1 as [|f1 IH]; intros f2 n Hf; [constructor|]. destruct f2 as [|f2]; [lia|].
  cbn. constructor. intros [b|]; [|constructor]. destruct (is_digit b); [|apply nle_refl].
  destruct (_ || _); apply IH; lia.
Qed.
Lemma nle_number f1 f2 b : (f1 <= f2)%nat -> nle (consume_json_number f1 b) (consume_json_number f2 b).
Proof.
  intros Hf.
  assert (He : forall x, nle (exponent_part f1 x) (exponent_part f2 x)).
  { intros x. unfold exponent_part, exponent_digits. destruct (_ || _); [|apply nle_refl].
    constructor. intros [c|]; [|constructor]. destruct (_ || _).
    - constructor. intros [d|]; [|constructor]. destruct (is_digit19 d); [apply nle_exponent; lia|].
      destruct (negb _); [constructor|apply nle_exponent; lia].
    - destruct (is_digit19 c); [apply nle_exponent; lia|].
      destruct (negb _); [constructor|apply nle_exponent; lia]. }
  assert (Hfr : forall x, nle (fraction_part f1 x) (fraction_part f2 x)).
  { intros x. unfold fraction_part. destruct (_ =? _); [|apply He]. constructor. intros [c|]; [|constructor].
    destruct (negb _); [constructor|]. apply nle_digits; auto. }
  assert (Hi : forall x, nle (integer_part f1 x) (integer_part f2 x)).
  { intros x. unfold integer_part. destruct (is_digit19 x); [apply nle_digits; auto|].
    destruct (_ =? _); [|constructor]. constructor. intros [c|]; [auto|constructor]. }
  unfold consume_json_number. destruct (_ =? _); [|auto]. constructor. intros [c|]; [auto|constructor].
Qed.
Lemma ext_run_number hit bad next : ext hit fine next next -> forall p1 p2, nle p1 p2 -> forall n,
  ext hit bad (run_number next p1 n) (run_number next p2 n).
Proof.
  intros H p1 p2 Hp. induction Hp as [p|r|k k' Hk IH]; intros n; cbn [run_number]; rxs.
Qed.
Lemma ext_number_next hit bad : ext hit bad number_next number_next.
Proof. unfold number_next. rxs. Qed.
Lemma ext_number_skip_next hit bad : ext hit bad number_skip_next number_skip_next.
Proof. unfold number_skip_next. rxs. Qed.
Lemma ext_number_start hit bad E1 E2 : relaxes hit E1 E2 -> ext hit bad (number_start E1) (number_start E2).
Proof. intros H. unfold number_start. rxs. Qed.
Lemma ext_number_checks hit bad n : ext hit bad (number_end_checks n) (number_end_checks n).
Proof. unfold number_end_checks. rxs. Qed.
#[export] Hint Resolve ext_run_number ext_number_next ext_number_skip_next ext_number_start ext_number_checks nle_number : rlx.
Lemma ext_skip_number hit bad E1 E2 : relaxes hit E1 E2 -> ext hit bad (skip_number E1) (skip_number E2).
Proof. intros H. unfold skip_number. rxs. Qed.
#[export] Hint Resolve ext_skip_number : rlx.

(** The number is only dropped by the restriction if it can be retrieved *)
Lemma ext_number_bytes hit bad E1 E2 r : relaxes hit E1 E2 ->
  ext hit bad (read_number_bytes E1 r) (read_number_bytes E2 r).
Proof.
  intros H. unfold read_number_bytes. rxs.
  destruct (rx_number _ _ _ H) as [->|[-> Hh]]; [rxs|]. cbn [andb].
  destruct ((2 <? n) || (100 <? snd x1)); [|rewrite andb_false_r; rxs].
  intros s a1 a2 Ha. unfold bind, value_get, value_string. cbn [pbind arun].
  destruct (a_vget false a1) as [a1'|]; [|exact I]. cbn [pbind arun].
  destruct (a_vstring a1') as [[t a1'']|]; [|exact I]. cbn [pbind arun fail]. left. apply Hh.
Qed.
#[export] Hint Resolve ext_number_bytes : rlx.

Lemma ext_peek hit bad E1 E2 : relaxes hit E1 E2 -> ext hit bad (peek E1) (peek E2).
Proof. intros H. unfold peek. rxs. Qed.
Lemma ext_begin_array hit bad E1 E2 : relaxes hit E1 E2 -> ext hit bad (begin_array E1) (begin_array E2).
Proof. intros H. unfold begin_array. rxs. Qed.
Lemma ext_begin_object hit bad E1 E2 : relaxes hit E1 E2 -> ext hit bad (begin_object E1) (begin_object E2).
Proof. intros H. unfold begin_object. rxs. Qed.
Lemma ext_end_array hit bad E1 E2 : relaxes hit E1 E2 -> ext hit bad (end_array E1) (end_array E2).
Proof. intros H. unfold end_array. rxs. Qed.
Lemma ext_end_object hit bad E1 E2 : relaxes hit E1 E2 -> ext hit bad (end_object E1) (end_object E2).
Proof. intros H. unfold end_object. rxs. Qed.
Lemma ext_has_next hit bad E1 E2 : relaxes hit E1 E2 -> ext hit bad (has_next E1) (has_next E2).
Proof. intros H. unfold has_next. rewrite (rx_multi _ _ _ H). rxs. Qed.
#[export] Hint Resolve ext_peek ext_begin_array ext_begin_object ext_end_array ext_end_object ext_has_next : rlx.
Lemma ext_before_name hit bad E1 E2 : relaxes hit E1 E2 -> ext hit bad (before_name E1) (before_name E2).
Proof. intros H. unfold before_name. rxs. Qed.
#[export] Hint Resolve ext_before_name : rlx.
Lemma ext_next_name_owned hit bad E1 E2 : relaxes hit E1 E2 -> ext hit bad (next_name_owned E1) (next_name_owned E2).
Proof. intros H. unfold next_name_owned. rxs. Qed.
Lemma ext_next_name hit bad E1 E2 : relaxes hit E1 E2 -> ext hit bad (next_name E1) (next_name E2).
Proof. intros H. unfold next_name. rxs. Qed.
Lemma ext_skip_name hit bad E1 E2 : relaxes hit E1 E2 -> ext hit bad (skip_name E1) (skip_name E2).
Proof. intros H. unfold skip_name. rxs. Qed.
Lemma ext_next_bool hit bad E1 E2 : relaxes hit E1 E2 -> ext hit bad (next_bool E1) (next_bool E2).
Proof. intros H. unfold next_bool. rxs. Qed.
Lemma ext_next_null hit bad E1 E2 : relaxes hit E1 E2 -> ext hit bad (next_null E1) (next_null E2).
Proof. intros H. unfold next_null. rxs. Qed.
Lemma ext_next_string hit bad E1 E2 : relaxes hit E1 E2 -> ext hit bad (next_string E1) (next_string E2).
Proof. intros H. unfold next_string. rxs. Qed.
Lemma ext_next_str hit bad E1 E2 : relaxes hit E1 E2 -> ext hit bad (next_str E1) (next_str E2).
Proof. intros H. unfold next_str. rxs. Qed.
Lemma ext_number_string hit bad E1 E2 : relaxes hit E1 E2 ->
  ext hit bad (next_number_as_string E1) (next_number_as_string E2).
Proof. intros H. unfold next_number_as_string. rxs. Qed.
Lemma ext_number_str hit bad E1 E2 : relaxes hit E1 E2 -> ext hit bad (next_number_as_str E1) (next_number_as_str E2).
Proof. intros H. unfold next_number_as_str. rxs. Qed.
#[export] Hint Resolve ext_next_name ext_skip_name ext_next_bool ext_next_null ext_next_name_owned ext_next_string
  ext_next_str ext_number_string ext_number_str : rlx.
Lemma ext_skip_value_start hit bad E1 E2 : relaxes hit E1 E2 -> ext hit bad (skip_value_start E1) (skip_value_start E2).
Proof. intros H. unfold skip_value_start. rxs. Qed.
Lemma ext_end_container hit bad E1 E2 : relaxes hit E1 E2 -> ext hit bad (end_container E1) (end_container E2).
Proof. intros H. unfold end_container. rxs. Qed.
#[export] Hint Resolve ext_skip_value_start ext_end_container : rlx.
Lemma ext_skip_value hit bad E1 E2 : relaxes hit E1 E2 -> ext hit bad (skip_value E1) (skip_value E2).
Proof.
  intros H. unfold skip_value. rxs. pose proof (rx_fuel _ _ _ H) as Hf. revert Hf. generalize 0%nat.
  generalize (fuel E1). generalize (fuel E2). intros f2 f1. revert f2.
  induction f1 as [|f1 IH]; intros f2 d Hf; [apply ext_no_fuel|].
  destruct f2 as [|f2]; [lia|]. cbn [skip_value_loop]. assert (Hf' : (f1 <= f2)%nat) by lia. rxs.
Qed.
#[export] Hint Resolve ext_skip_value : rlx.
Lemma ext_skip_items hit bad E1 E2 : relaxes hit E1 E2 -> forall f1 f2, (f1 <= f2)%nat ->
  ext hit bad (skip_items E1 f1) (skip_items E2 f2).
Proof.
  intros H. induction f1 as [|f1 IH]; intros f2 Hf; [apply ext_no_fuel|].
  destruct f2 as [|f2]; [lia|]. cbn [skip_items]. assert (Hf' : (f1 <= f2)%nat) by lia. rxs.
Qed.
Lemma ext_skip_members hit bad E1 E2 : relaxes hit E1 E2 -> forall f1 f2, (f1 <= f2)%nat ->
  ext hit bad (skip_members E1 f1) (skip_members E2 f2).
Proof.
  intros H. induction f1 as [|f1 IH]; intros f2 Hf; [apply ext_no_fuel|].
  destruct f2 as [|f2]; [lia|]. cbn [skip_members]. assert (Hf' : (f1 <= f2)%nat) by lia. rxs.
Qed.
#[export] Hint Resolve ext_skip_items ext_skip_members : rlx.
Lemma ext_skip_to_top hit bad E1 E2 : relaxes hit E1 E2 -> ext hit bad (skip_to_top_level E1) (skip_to_top_level E2).
Proof.
  intros H. unfold skip_to_top_level. rx1. rx1; [rxs|]. rx1; [rxs|].
  assert (Hl : forall f1 f2, (f1 <= f2)%nat -> ext hit bad (skip_to_top_level_loop E1 f1) (skip_to_top_level_loop E2 f2)).
  { induction f1 as [|f1 IH]; intros f2 Hf; [apply ext_no_fuel|].
    destruct f2 as [|f2]; [lia|]. cbn [skip_to_top_level_loop]. assert (Hf' : (f1 <= f2)%nat) by lia. rxs. }
  apply Hl, H.
Qed.
Lemma ext_seek_item hit bad E1 E2 i : relaxes hit E1 E2 -> forall f1 f2 r, (f1 <= f2)%nat ->
  ext hit bad (seek_item E1 f1 i r) (seek_item E2 f2 i r).
Proof.
  intros H. induction f1 as [|f1 IH]; intros f2 r Hf; [apply ext_no_fuel|].
  destruct f2 as [|f2]; [lia|]. cbn [seek_item]. assert (Hf' : (f1 <= f2)%nat) by lia. rxs.
Qed.
Lemma ext_seek_member hit bad E1 E2 n : relaxes hit E1 E2 -> forall f1 f2, (f1 <= f2)%nat ->
  ext hit bad (seek_member E1 f1 n) (seek_member E2 f2 n).
Proof.
  intros H. induction f1 as [|f1 IH]; intros f2 Hf; [apply ext_no_fuel|].
  destruct f2 as [|f2]; [lia|]. cbn [seek_member]. assert (Hf' : (f1 <= f2)%nat) by lia. rxs.
Qed.
#[export] Hint Resolve ext_seek_item ext_seek_member : rlx.
Lemma ext_seek_to hit bad E1 E2 p : relaxes hit E1 E2 -> ext hit bad (seek_to E1 p) (seek_to E2 p).
Proof.
  intros H. unfold seek_to. rx1; [rxs|]. induction p as [|[i|n] p IH]; cbn [seek_pieces]; rxs.
Qed.
Lemma ext_seek_back hit bad E1 E2 p : relaxes hit E1 E2 -> ext hit bad (seek_back E1 p) (seek_back E2 p).
Proof.
  intros H. unfold seek_back. induction (rev p) as [|[i|n] q IH]; cbn [seek_back_pieces]; rxs.
Qed.
Lemma ext_consume hit bad E1 E2 : relaxes hit E1 E2 ->
  ext hit bad (consume_trailing_whitespace E1) (consume_trailing_whitespace E2).
Proof. intros H. unfold consume_trailing_whitespace. rxs. Qed.
Lemma ext_next_string_reader hit bad E1 E2 : relaxes hit E1 E2 ->
  ext hit bad (next_string_reader E1) (next_string_reader E2).
Proof. intros H. unfold next_string_reader. rxs. Qed.

(** The string reader *)
Definition bad_read {A B : Type} (hit : reader_error -> Prop) (r : (A + reader_error) * B) : Prop :=
  match r with (inr e, _) => hit e | _ => False end.

Lemma ext_catch {A B} hit bad (m1 m2 : M A) (f1 f2 : A + reader_error -> M B) :
  ext hit fine m1 m2 -> (forall x, ext hit bad (f1 x) (f2 x)) ->
  (forall e, hit e -> exists x, f1 (inr e) = ret x /\ bad x) ->
  ext hit bad (bind (catch m1) f1) (bind (catch m2) f2).
Proof.
  intros Hm Hf Hb s a1 a2 Ha. unfold bind, catch. rewrite !arun_bind. specialize (Hm s a1 a2 Ha).
  destruct (arun (m1 s) a1) as [[[[x|e|k|] s1] a1']|]; cbn [arun]; auto.
  - destruct Hm as [[]|(a2' & -> & Ha')]. cbn [arun]. apply Hf, Ha'.
  - destruct Hm as [He|(a2' & -> & Ha')].
    + destruct (Hb e He) as (x & -> & Hx). cbn. left. exact Hx.
    + cbn [arun]. apply Hf, Ha'.
  - destruct Hm as [He|(a2' & -> & Ha')]; [left; exact He|]. cbn [arun]. right. eauto.
Qed.

Lemma ext_sv_loop hit len : forall f1 f2 out sv, (f1 <= f2)%nat ->
  ext hit (bad_read hit) (sv_read_loop f1 len out sv) (sv_read_loop f2 len out sv).
Proof.
  induction f1 as [|f1 IH]; intros f2 out sv Hf; cbn [sv_read_loop].
  - destruct (Nat.ltb (length out) len) eqn:El; [apply ext_no_fuel|].
    destruct f2; cbn [sv_read_loop]; rewrite El; rxs.
  - destruct f2 as [|f2]; [lia|]. assert (Hf' : (f1 <= f2)%nat) by lia. cbn [sv_read_loop].
    destruct (Nat.ltb (length out) len); [|rxs]. destruct (negb _); [rxs|].
    apply ext_catch; [rxs|..].
    + intros [[e bs]|e]; [|rxs]. cbn zeta. rxs.
    + intros e He. eexists. split; [reflexivity|]. exact He.
Qed.

Definition bad_sv {A B : Type} (hit : reader_error -> Prop) (r : (A + sv_read_error) * B) : Prop :=
  match r with (inr (SvError e), _) => hit e | _ => False end.

Lemma ext_sv_read hit E1 E2 len sv : relaxes hit E1 E2 ->
  ext hit (bad_sv hit) (sv_read E1 len sv) (sv_read E2 len sv).
Proof.
  intros H. unfold sv_read. destruct (sv_error sv); [rxs|].
  assert (Hi : ext hit (bad_read hit) (sv_read_impl E1 len sv) (sv_read_impl E2 len sv)).
  { unfold sv_read_impl. destruct (_ || _); [rxs|]. cbn zeta. apply ext_sv_loop, H. }
  intros s a1 a2 Ha. unfold bind. rewrite !arun_bind. specialize (Hi s a1 a2 Ha).
  destruct (arun (sv_read_impl E1 len sv s) a1) as [[[[x|e|k|] s1] a1']|]; cbn [arun]; auto.
  - destruct Hi as [Hb|(a2' & -> & Ha')].
    + destruct x as [[bs|e] sv']; [destruct Hb|]. left. exact Hb.
    + destruct x as [[bs|e] sv']; cbn; right; eauto.
  - destruct Hi as [Hi|(a2' & -> & Ha')]; [left; exact Hi|]. cbn [arun]. right. eauto.
  - destruct Hi as [Hi|(a2' & -> & Ha')]; [left; exact Hi|]. cbn [arun]. right. eauto.
Qed.

(** ** Sessions *)

(** The left outcome shows the difference *)
Definition insane (o : outcome) : Prop := o = OPanic Bug \/ o = OFuel.

Definition oext (hit : reader_error -> Prop) (p1 p2 : prog (outcome * session)) : Prop :=
  forall a1 a2, cut hit a1 a2 ->
  match arun p1 a1 with
  | Some ((o, st), a1') => hit_outcome hit o \/ insane o \/
      exists a2', arun p2 a2 = Some ((o, st), a2') /\ cut hit a1' a2'
  | None => True
  end.

Lemma oext_call {A} hit (m1 m2 : M A) val st : ext hit fine m1 m2 -> oext hit (call m1 val st) (call m2 val st).
Proof.
  intros H a1 a2 Ha. unfold call. rewrite !arun_bind. specialize (H (s_state st) a1 a2 Ha).
  destruct (arun (m1 (s_state st)) a1) as [[[[x|e|k|] s1] a1']|]; cbn [arun]; auto.
  - destruct H as [[]|(a2' & -> & Ha')]. right; right. cbn. eauto.
  - destruct H as [H|(a2' & -> & Ha')]; [left; exact H|]. right; right. cbn. eauto.
  - destruct H as [->|(a2' & -> & Ha')]; [right; left; left; reflexivity|]. right; right. cbn. eauto.
  - right; left; right. reflexivity.
Qed.

Lemma oext_ret hit x : oext hit (Ret x) (Ret x).
Proof. intros a1 a2 Ha. destruct x. cbn. right; right. eauto. Qed.

Lemma oext_client hit E1 E2 c st : relaxes hit E1 E2 -> oext hit (client_call E1 c st) (client_call E2 c st).
Proof.
  intros HR. unfold client_call. destruct (s_phase st); try apply oext_ret.
  destruct c; try (apply oext_call; solve [auto with rlx]).
  - intros a1 a2 Ha. unfold call_string_reader. rewrite !arun_bind.
    pose proof (ext_next_string_reader hit fine E1 E2 HR (s_state st) a1 a2 Ha) as H.
    destruct (arun (next_string_reader E1 (s_state st)) a1) as [[[[x|e|k|] s1] a1']|]; cbn [arun]; auto.
    + destruct H as [[]|(a2' & -> & Ha')]. right; right. cbn. eauto.
    + destruct H as [H|(a2' & -> & Ha')]; [left; exact H|]. right; right. cbn. eauto.
    + destruct H as [->|(a2' & -> & Ha')]; [right; left; left; reflexivity|]. right; right. cbn. eauto.
    + right; left; right. reflexivity.
  - intros a1 a2 Ha. unfold call_read. destruct (s_reader st) as [sv|]; [|apply oext_ret; exact Ha].
    rewrite !arun_bind. pose proof (ext_sv_read hit E1 E2 len sv HR (s_state st) a1 a2 Ha) as H.
    destruct (arun (sv_read E1 len sv (s_state st)) a1) as [[[[x|e|k|] s1] a1']|]; cbn [arun]; auto.
    + destruct x as [[bs|e] sv']; cbn [arun].
      * destruct H as [[]|(a2' & -> & Ha')]. right; right. cbn. eauto.
      * destruct H as [H|(a2' & -> & Ha')]; [left; destruct e; exact H|]. right; right. cbn. eauto.
    + right; left; left. reflexivity.
    + destruct H as [->|(a2' & -> & Ha')]; [right; left; left; reflexivity|]. right; right. cbn. eauto.
    + right; left; right. reflexivity.
  - apply oext_call, ext_seek_to, HR.
  - apply oext_call, ext_seek_back, HR.
  - apply oext_call, ext_skip_to_top, HR.
  - apply oext_call, ext_same. intros. eexists. reflexivity.
  - intros a1 a2 Ha. unfold call_consume. rewrite !arun_bind.
    pose proof (oext_call hit _ _ to_unit st (ext_consume hit fine E1 E2 HR) a1 a2 Ha) as H.
    destruct (arun (call (consume_trailing_whitespace E1) to_unit st) a1) as [[[o st1] a1']|]; [|exact I].
    cbn [arun fst snd]. destruct H as [H|[H|(a2' & -> & Ha')]]; auto. right; right. cbn. eauto.
Qed.

(** The same outcomes until one shows the difference *)

Lemma oext_calls hit E1 E2 : relaxes hit E1 E2 -> forall cs st a1 a2 os1 st1 a1' os2 st2 a2', cut hit a1 a2 ->
  arun (client_calls E1 cs st) a1 = Some ((os1, st1), a1') ->
  arun (client_calls E2 cs st) a2 = Some ((os2, st2), a2') ->
  same_until (fun o => hit_outcome hit o \/ insane o) os1 os2.
Proof.
  intros HR. induction cs as [|c cs IH]; intros st a1 a2 os1 st1 a1' os2 st2 a2' Ha H1 H2.
  - cbn in H1, H2. injection H1 as <- <- <-. injection H2 as <- <- <-. constructor.
  - cbn [client_calls] in H1, H2. rewrite arun_bind in H1, H2.
    pose proof (oext_client hit E1 E2 c st HR a1 a2 Ha) as H.
    destruct (arun (client_call E1 c st) a1) as [[[o1 st1'] a3]|]; [|discriminate].
    destruct (arun (client_call E2 c st) a2) as [[[o2 st2'] a4]|] eqn:E4; [|discriminate].
    cbn [fst snd] in H1, H2. rewrite arun_bind in H1, H2.
    destruct (arun (client_calls E1 cs st1') a3) as [[[os3 st3] a5]|] eqn:E5; [|discriminate].
    destruct (arun (client_calls E2 cs st2') a4) as [[[os4 st4] a6]|] eqn:E6; [|discriminate].
    cbn [arun fst snd] in H1, H2. injection H1 as <- _ _. injection H2 as <- _ _.
    destruct H as [H|[H|(a2'' & H & Ha')]]; [apply su_diff; auto|apply su_diff; auto|].
    injection H as -> -> ->. apply su_same. eapply IH; eassumption.
Qed.
