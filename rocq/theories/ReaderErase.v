(** Path tracking does not influence reading: a run of the reader with path
    tracking corresponds to the run without, in which the path is missing from
    the state and from the positions. *)
From Coq Require Import NArith List Bool Lia.
From Verif Require Import Base Utf8Model NumberModel SourceModel SourceProofs ReaderModel ReaderLex.
Import ListNotations.
Local Open Scope N_scope.
Local Open Scope rmonad_scope.

Definition erase (s : rstate) : rstate := set_path None s.
Definition erase_pos (p : position) : position := Position None (p_line p) (p_column p) (p_byte p).
Definition erase_err (e : reader_error) : reader_error :=
  match e with
  | ESyntax k p => ESyntax k (erase_pos p)
  | EUnexpectedType x y p => EUnexpectedType x y (erase_pos p)
  | EUnexpectedStructure k p => EUnexpectedStructure k (erase_pos p)
  | EMaxNestingDepth m p => EMaxNestingDepth m (erase_pos p)
  | EUnsupportedNumber n p => EUnsupportedNumber n (erase_pos p)
  | EIo k p => EIo k (erase_pos p)
  end.

(** The settings without path tracking *)
Definition untracked (c : settings) : settings :=
  Settings (allow_comments c) (allow_trailing_comma c) (allow_multiple_top_level c) false
           (max_nesting_depth c) (restrict_number_values c).
Definition uenv (E : env) : env := Env (untracked (cfg E)) (fuel E).

(** [sim b eA m m']: whatever [m] does on a state and a source, [m'] does on
    the state without path; the source after an error which ends the processing
    may differ unless [b]. *)
Definition sim {A : Type} (b : bool) (eA : A -> A) (m m' : M A) : Prop := forall s a,
  match arun (m s) a with
  | None => True
  | Some ((Panic Bug, _), _) => True
  | Some ((Ok x, s1), a1) => arun (m' (erase s)) a = Some ((Ok (eA x), erase s1), a1)
  | Some ((Panic Misuse, s1), a1) => exists a2,
      arun (m' (erase s)) a = Some ((Panic Misuse, erase s1), a2) /\ (b = true -> a2 = a1)
  | Some ((Err e, s1), a1) => exists a2,
      arun (m' (erase s)) a = Some ((Err (erase_err e), erase s1), a2) /\
      (b || recoverable e = true -> a2 = a1)
  | Some ((OutOfFuel, s1), a1) => exists a2,
      arun (m' (erase s)) a = Some ((OutOfFuel, erase s1), a2) /\ (b = true -> a2 = a1)
  end.

Definition idf {A : Type} (x : A) : A := x.

Lemma erase_erase s : erase (erase s) = erase s.
Proof. reflexivity. Qed.

Lemma sim_weak {A} eA (m m' : M A) : sim true eA m m' -> forall b, sim b eA m m'.
Proof.
  intros H b s a. specialize (H s a). destruct (arun (m s) a) as [[[[x|e|[]|] s1] a1]|]; auto.
  - destruct H as (a2 & H & H'). rewrite (H' eq_refl) in H. exists a1. auto.
  - destruct H as (a2 & H & H'). rewrite (H' eq_refl) in H. exists a1. auto.
  - destruct H as (a2 & H & H'). rewrite (H' eq_refl) in H. exists a1. auto.
Qed.

Lemma sim_bind {A B} b eA eB (m m' : M A) (f f' : A -> M B) :
  sim b eA m m' -> (forall x, sim b eB (f x) (f' (eA x))) -> sim b eB (bind m f) (bind m' f').
Proof.
  intros Hm Hf s a. unfold bind. rewrite arun_bind. specialize (Hm s a).
  destruct (arun (m s) a) as [[[[x|e|[]|] s1] a1]|]; cbn [arun]; auto.
  - specialize (Hf x s1 a1). destruct (arun (f x s1) a1) as [[[[y|e|[]|] s2] a2]|]; auto;
      rewrite arun_bind, Hm; cbn; try exact Hf.
  - destruct Hm as (a2 & Hm & Ha). exists a2. rewrite arun_bind, Hm. auto.
  - destruct Hm as (a2 & Hm & Ha). exists a2. rewrite arun_bind, Hm. auto.
  - destruct Hm as (a2 & Hm & Ha). exists a2. rewrite arun_bind, Hm. auto.
Qed.

Lemma sim_bind_id {A B} b eB (m m' : M A) (f f' : A -> M B) :
  sim b idf m m' -> (forall x, sim b eB (f x) (f' x)) -> sim b eB (bind m f) (bind m' f').
Proof. intros Hm Hf. apply (sim_bind b idf); auto. Qed.

Lemma sim_ret {A} b (x : A) : sim b idf (ret x) (ret x).
Proof. intros s a. reflexivity. Qed.

Lemma sim_get {B} b eB (f f' : rstate -> M B) :
  (forall s, sim b eB (f s) (f' (erase s))) -> sim b eB (bind get_state f) (bind get_state f').
Proof.
  intros H. apply (sim_bind b erase); [|exact H]. intros s a. reflexivity.
Qed.

Lemma sim_update b f : (forall s, f (erase s) = erase (f s)) -> sim b idf (update f) (update f).
Proof. intros H s a. cbn. rewrite H. reflexivity. Qed.

Lemma sim_fail {A} b (e : position -> reader_error) : (forall p, e (erase_pos p) = erase_err (e p)) ->
  sim (A := A) b idf (fail e) (fail e).
Proof.
  intros H s a. unfold fail. cbn [arun]. exists a. split; [|auto]. unfold location. rewrite <- H. reflexivity.
Qed.
Lemma sim_syntax {A} b k : sim (A := A) b idf (syntax_err k) (syntax_err k).
Proof. apply sim_fail. reflexivity. Qed.
Lemma sim_structure {A} b k : sim (A := A) b idf (structure_err k) (structure_err k).
Proof. apply sim_fail. reflexivity. Qed.
Lemma sim_panics {A} b k : sim (A := A) b idf (panics k) (panics k).
Proof. intros s a. destruct k; cbn; eauto. Qed.
Lemma sim_fuel {A} b : sim (A := A) b idf no_fuel no_fuel.
Proof. intros s a. cbn. eauto. Qed.
Lemma sim_misuse_if b c : sim b idf (misuse_if c) (misuse_if c).
Proof. destruct c; [apply sim_panics|apply sim_ret]. Qed.

(** A primitive operation of the source *)
Lemma sim_peek_gen b (m : M (option byte)) p : (forall s, m s = p (from_peek s)) ->
  (p = DPeek \/ p = DVPeek) -> sim b idf m m.
Proof.
  intros H [-> | ->] s a; rewrite !H; cbn [arun];
    [destruct (a_peek a) as [[[]]|]|destruct (a_vpeek a) as [[[]]|]]; cbn; auto; eauto.
Qed.
Lemma sim_peek_byte b : sim b idf peek_byte peek_byte.
Proof. apply (sim_peek_gen b _ DPeek); auto. Qed.
Lemma sim_value_peek b : sim b idf value_peek value_peek.
Proof. apply (sim_peek_gen b _ DVPeek); auto. Qed.

Ltac sim_prim := let s := fresh in let a := fresh in intros s a; cbn;
  repeat match goal with |- context [match ?x with _ => _ end] => destruct x end; auto.
Lemma sim_skip_byte b : sim b idf skip_peeked_byte skip_peeked_byte.
Proof. intros s a. cbn. destruct (a_skip a); cbn; auto. Qed.
Lemma sim_value_new b : sim b idf value_reader_new value_reader_new.
Proof. intros s a. cbn. destruct (a_vnew a); cbn; auto. Qed.
Lemma sim_value_consume b : sim b idf value_consume value_consume.
Proof. intros s a. cbn. destruct (a_vconsume a); cbn; auto. Qed.
Lemma sim_value_skip_previous b : sim b idf value_skip_previous value_skip_previous.
Proof. intros s a. cbn. destruct (a_vskip_prev a); cbn; auto. Qed.
Lemma sim_value_skip_final b : sim b idf value_skip_final value_skip_final.
Proof. intros s a. cbn. destruct (a_vskip_final a); cbn; auto. Qed.
Lemma sim_value_push b bs : sim b idf (value_push bs) (value_push bs).
Proof. intros s a. cbn. destruct (a_vpush bs a); cbn; auto. Qed.
Lemma sim_value_get b r : sim b idf (value_get r) (value_get r).
Proof. intros s a. cbn. destruct (a_vget r a); cbn; auto. Qed.
Lemma sim_value_str_peek b : sim b idf value_str_peek value_str_peek.
Proof. intros s a. cbn. destruct (a_vstr_peek a); cbn; auto. Qed.
Lemma sim_value_str b : sim b idf value_str value_str.
Proof. intros s a. cbn. destruct (a_vstr a) as [[]|]; cbn; auto. Qed.
Lemma sim_value_string b : sim b idf value_string value_string.
Proof. intros s a. cbn. destruct (a_vstring a) as [[]|]; cbn; auto. Qed.

Create HintDb sim discriminated.
#[export] Hint Resolve sim_ret sim_syntax sim_structure sim_panics sim_fuel sim_misuse_if sim_peek_byte
  sim_value_peek sim_skip_byte sim_value_new sim_value_consume sim_value_skip_previous sim_value_skip_final
  sim_value_push sim_value_get sim_value_str_peek sim_value_str sim_value_string : sim.

(** Structural steps; the conditions do not depend on the path *)
Ltac sim1 :=
  lazymatch goal with
  | |- sim _ _ (bind get_state _) _ => apply sim_get; intro
  | |- sim _ _ (bind _ _) _ => apply sim_bind_id; [|intro]
  | |- sim _ _ (update _) _ => apply sim_update; intro;
    first [reflexivity | match goal with |- context [if ?c then _ else _] => destruct c end; reflexivity]
  | |- sim _ _ (fail _) _ => apply sim_fail; intro; reflexivity
  | |- sim _ _ (if ?c then _ else _) (if ?c' then _ else _) => change c' with c; destruct c
  | |- sim _ _ (match ?c with _ => _ end) (match ?c' with _ => _ end) => change c' with c; destruct c
  | |- sim _ _ _ _ => solve [trivial with sim | auto 2 with sim]
  end.
Ltac sims := repeat sim1.

Lemma sim_read_byte b k : sim b idf (read_byte k) (read_byte k).
Proof. unfold read_byte. sims. Qed.
Lemma sim_value_read_byte b k : sim b idf (value_read_byte k) (value_read_byte k).
Proof. unfold value_read_byte. sims. Qed.
#[export] Hint Resolve sim_read_byte sim_value_read_byte : sim.
Lemma sim_value_read_skipped b k : sim b idf (value_read_skipped_byte k) (value_read_skipped_byte k).
Proof. unfold value_read_skipped_byte. sims. Qed.
#[export] Hint Resolve sim_value_read_skipped : sim.

Lemma sim_multibyte b rb b0 : (forall k, sim b idf (rb k) (rb k)) ->
  sim b idf (read_utf8_multibyte rb b0) (read_utf8_multibyte rb b0).
Proof. intros H. unfold read_utf8_multibyte. sims. Qed.

#[export] Hint Resolve sim_multibyte : sim.
Lemma sim_eof b k : sim b idf (eof_result k) (eof_result k).
Proof. unfold eof_result. sims. Qed.
#[export] Hint Resolve sim_eof : sim.

Lemma sim_skip_to_loop b st k : forall f cr, sim b idf (skip_to_loop f st k cr) (skip_to_loop f st k cr).
Proof. induction f as [|f IH]; intros cr; cbn [skip_to_loop]; sims. Qed.
Lemma sim_skip_to b E st k : sim b idf (skip_to E st k) (skip_to (uenv E) st k).
Proof. apply sim_skip_to_loop. Qed.
#[export] Hint Resolve sim_skip_to : sim.
Lemma sim_line_comment b E k : sim b idf (skip_to_line_comment_end E k) (skip_to_line_comment_end (uenv E) k).
Proof. unfold skip_to_line_comment_end. sims. Qed.
Lemma sim_block_comment b E : sim b idf (skip_to_block_comment_end E) (skip_to_block_comment_end (uenv E)).
Proof.
  unfold skip_to_block_comment_end. change (fuel (uenv E)) with (fuel E). generalize (fuel E) at 1 2. intros f.
  induction f as [|f IH]; cbn [skip_to_block_comment_end_loop]; sims.
Qed.
#[export] Hint Resolve sim_line_comment sim_block_comment : sim.
Lemma sim_ws b E k : sim b idf (skip_whitespace E k) (skip_whitespace (uenv E) k).
Proof.
  unfold skip_whitespace. change (fuel (uenv E)) with (fuel E). generalize (fuel E) at 1 2. intros f.
  induction f as [|f IH]; cbn [skip_whitespace_loop]; sims.
Qed.
#[export] Hint Resolve sim_ws : sim.
Lemma sim_ws_no_eof b E k : sim b idf (skip_whitespace_no_eof E k) (skip_whitespace_no_eof (uenv E) k).
Proof. unfold skip_whitespace_no_eof. sims. Qed.
Lemma sim_verify_sep b x k : sim b idf (verify_value_separator x k) (verify_value_separator x k).
Proof. unfold verify_value_separator. sims. Qed.
#[export] Hint Resolve sim_ws_no_eof sim_verify_sep : sim.
Lemma sim_verify_next b k : sim b idf (verify_next_separator k) (verify_next_separator k).
Proof. unfold verify_next_separator. sims. Qed.
#[export] Hint Resolve sim_verify_next : sim.
Lemma sim_literal b l : sim b idf (consume_literal l) (consume_literal l).
Proof. induction l as [|e l IH]; cbn [consume_literal]; sims. Qed.
#[export] Hint Resolve sim_literal : sim.
Lemma sim_after_name b E : sim b idf (after_name E) (after_name (uenv E)).
Proof. unfold after_name. sims. Qed.
#[export] Hint Resolve sim_after_name : sim.
Lemma sim_peek_token b s x : sim b idf (peek_token s x) (peek_token (erase s) x).
Proof. unfold peek_token. sims. Qed.
#[export] Hint Resolve sim_peek_token : sim.
Lemma sim_finish_peek b E c k p r : sim b idf (finish_peek E c k p r) (finish_peek (uenv E) c k p r).
Proof. unfold finish_peek. sims. Qed.
#[export] Hint Resolve sim_finish_peek : sim.
Lemma sim_peek_after b E x : sim b idf (peek_after_ws E x) (peek_after_ws (uenv E) x).
Proof. unfold peek_after_ws. sims. Qed.
#[export] Hint Resolve sim_peek_after : sim.
Lemma sim_peek_opt b E : sim b idf (peek_internal_optional E) (peek_internal_optional (uenv E)).
Proof. unfold peek_internal_optional. sims. Qed.
#[export] Hint Resolve sim_peek_opt : sim.
Lemma sim_peek_internal b E : sim b idf (peek_internal E) (peek_internal (uenv E)).
Proof. unfold peek_internal. sims. Qed.
#[export] Hint Resolve sim_peek_internal : sim.
Lemma sim_map_peeked b p : sim b idf (map_peeked p) (map_peeked p).
Proof. unfold map_peeked. sims. Qed.
Lemma sim_consume_peeked b : sim b idf consume_peeked consume_peeked.
Proof. unfold consume_peeked. sims. Qed.
#[export] Hint Resolve sim_map_peeked sim_consume_peeked : sim.
Lemma sim_start b E t d : sim b idf (start_expected_value_type E t d) (start_expected_value_type (uenv E) t d).
Proof. unfold start_expected_value_type. sims. Qed.
#[export] Hint Resolve sim_start : sim.
Lemma sim_container_start b E t v : sim b idf (on_container_start E t v) (on_container_start (uenv E) t v).
Proof. unfold on_container_start. sims. Qed.
#[export] Hint Resolve sim_container_start : sim.

(** Functions which use the path *)
Lemma sim_value_end b : sim b idf on_value_end on_value_end.
Proof.
  unfold on_value_end. apply sim_get. intros s. apply sim_bind_id; intros.
  - change (is_in_array (erase s)) with (is_in_array s). cbn [json_path erase set_path].
    destruct (is_in_array s); [|sims].
    intros s' a. destruct (json_path s) as [[|[i|n] l]|]; cbn; auto.
  - apply sim_update. intros. unfold is_in_object, erase. cbn. destruct (stack s0) as [|[] ?]; reflexivity.
Qed.
#[export] Hint Resolve sim_value_end : sim.
Lemma sim_container_end b : sim b idf on_container_end on_container_end.
Proof. unfold on_container_end. sims. Qed.
#[export] Hint Resolve sim_container_end : sim.
Lemma sim_set_path_name b n : sim b idf (set_path_name n) (ret tt).
Proof.
  intros s a. unfold set_path_name. cbn. destruct (json_path s) as [[|[] ?]|]; cbn; auto.
Qed.

(** ** Skipping a name: without path tracking the name is not collected *)

(** The left source collects a value, the right one only reads *)
Definition vrel (a a' : asrc) : Prop :=
  a_failed a = false /\ a_failed a' = false /\ a_mode a' = VNone /\
  a_rest a = a_rest a' /\ a_tail a = a_tail a' /\
  exists acc jr, a_mode a = VActive acc jr false /\ (jr = true -> a_known a = a_known a').

Definition vsim {A A' : Type} (R : A -> A' -> Prop) (m : M A) (m' : M A') : Prop := forall s a a', vrel a a' ->
  match arun (m s) a with
  | None => True
  | Some ((Panic Bug, _), _) => True
  | Some ((Ok x, s1), a1) => exists x' a1',
      arun (m' (erase s)) a' = Some ((Ok x', erase s1), a1') /\ R x x' /\ vrel a1 a1'
  | Some ((Panic Misuse, s1), a1) => exists a2, arun (m' (erase s)) a' = Some ((Panic Misuse, erase s1), a2)
  | Some ((Err e, s1), a1) => exists a2,
      arun (m' (erase s)) a' = Some ((Err (erase_err e), erase s1), a2) /\ recoverable e = false
  | Some ((OutOfFuel, s1), a1) => exists a2, arun (m' (erase s)) a' = Some ((OutOfFuel, erase s1), a2)
  end.

Lemma vsim_bind {A A' B B'} (R : A -> A' -> Prop) (Q : B -> B' -> Prop) m m' (f : A -> M B) (f' : A' -> M B') :
  vsim R m m' -> (forall x x', R x x' -> vsim Q (f x) (f' x')) -> vsim Q (bind m f) (bind m' f').
Proof.
  intros Hm Hf s a a' Ha. unfold bind. rewrite arun_bind. specialize (Hm s a a' Ha).
  destruct (arun (m s) a) as [[[[x|e|[]|] s1] a1]|]; cbn [arun]; auto.
  - destruct Hm as (x' & a1' & Hm & Hx & Ha1). specialize (Hf x x' Hx s1 a1 a1' Ha1).
    destruct (arun (f x s1) a1) as [[[[y|e|[]|] s2] a2]|]; auto;
      rewrite arun_bind, Hm; cbn; exact Hf.
  - destruct Hm as (a2 & Hm & He). exists a2. rewrite arun_bind, Hm. auto.
  - destruct Hm as (a2 & Hm). exists a2. rewrite arun_bind, Hm. auto.
  - destruct Hm as (a2 & Hm). exists a2. rewrite arun_bind, Hm. auto.
Qed.

Lemma vsim_ret {A A'} (R : A -> A' -> Prop) x x' : R x x' -> vsim R (ret x) (ret x').
Proof. intros H s a a' Ha. cbn. eauto. Qed.
Lemma vsim_fail {A A'} (R : A -> A' -> Prop) (e : position -> reader_error) :
  (forall p, e (erase_pos p) = erase_err (e p)) -> (forall p, recoverable (e p) = false) ->
  vsim R (fail e) (fail e).
Proof.
  intros H He s a a' Ha. unfold fail. cbn [arun]. eexists. split; [|auto]. unfold location. rewrite <- H. reflexivity.
Qed.
Lemma vsim_syntax {A A'} (R : A -> A' -> Prop) k : vsim R (syntax_err k) (syntax_err k).
Proof. apply vsim_fail; reflexivity. Qed.
Lemma vsim_io {A A'} (R : A -> A' -> Prop) k : vsim R (fail (EIo k)) (fail (EIo k)).
Proof. apply vsim_fail; reflexivity. Qed.
Lemma vsim_panics {A A'} (R : A -> A' -> Prop) k : vsim R (panics k) (panics k).
Proof. intros s a a' Ha. destruct k; cbn; eauto. Qed.
Lemma vsim_update f : (forall s, f (erase s) = erase (f s)) -> vsim eq (update f) (update f).
Proof. intros H s a a' Ha. cbn. rewrite H. eauto. Qed.

Lemma vrel_peek a a' r a1 : vrel a a' -> a_vpeek a = Some (r, a1) ->
  exists a1', a_peek a' = Some (r, a1') /\ (is_err r = false -> vrel a1 a1' /\ a_known a1 = true /\ a_known a1' = true).
Proof.
  intros (H1 & H2 & H3 & H4 & H5 & acc & jr & H6 & H7). unfold a_vpeek, a_peek. rewrite H1, H2, H3, H6.
  assert (Hr : a_peek_res a = a_peek_res a') by (unfold a_peek_res; rewrite H4, H5; reflexivity).
  intros Hp.
  assert (Hp' : Some (a_peek_res a, ASrc (a_rest a) (a_tail a) true (VActive acc false false) (is_err (a_peek_res a))) = Some (r, a1))
    by (destruct (a_known a), (a_rest a); congruence).
  injection Hp' as <- <-. rewrite <- Hr. eexists. split; [reflexivity|]. intros He. rewrite He.
  unfold vrel. cbn. splits; auto. exists acc, false. split; [reflexivity|discriminate].
Qed.

Lemma vrel_consume a a' a1 : vrel a a' -> a_known a' = true -> a_vconsume a = Some a1 ->
  exists a1', a_skip a' = Some a1' /\ vrel a1 a1'.
Proof.
  intros (H1 & H2 & H3 & H4 & H5 & acc & jr & H6 & H7) Hk. unfold a_vconsume, a_skip. rewrite H1, H2, H3, H6, Hk, <- H4.
  destruct (a_known a), (a_rest a) as [|b r]; try discriminate. intros [= <-].
  eexists. split; [reflexivity|]. unfold vrel. cbn. splits; auto. exists (acc ++ [b]), true. auto.
Qed.

Lemma vsim_read_byte k : vsim eq (value_read_byte k) (read_byte k).
Proof.
  intros s a a' Ha. unfold value_read_byte, read_byte, bind, value_peek, peek_byte. cbn [pbind arun].
  destruct (a_vpeek a) as [[r a1]|] eqn:E1; [|exact I].
  destruct (vrel_peek _ _ _ _ Ha E1) as (a1' & -> & Hr).
  destruct r as [e| |b]; cbn [from_peek pbind arun].
  - exists a1'. split; reflexivity.
  - exists a1'. split; reflexivity.
  - destruct (Hr eq_refl) as (Hr1 & _ & Hk'). cbn [value_consume skip_peeked_byte pbind arun].
    destruct (a_vconsume a1) as [a2|] eqn:E2; [|exact I].
    destruct (vrel_consume _ _ _ Hr1 Hk' E2) as (a2' & -> & Hr2). cbn. eauto.
Qed.

Lemma vrel_skip_prev a a' a1 : vrel a a' -> a_vskip_prev a = Some a1 -> vrel a1 a'.
Proof.
  intros (H1 & H2 & H3 & H4 & H5 & acc & jr & H6 & H7). unfold a_vskip_prev. rewrite H1, H6.
  destruct jr; [|discriminate]. intros [= <-]. unfold vrel. cbn. splits; auto.
  exists (removelast acc), false. split; [reflexivity|discriminate].
Qed.
Lemma vrel_push bs a a' a1 : vrel a a' -> a_vpush bs a = Some a1 -> vrel a1 a'.
Proof.
  intros (H1 & H2 & H3 & H4 & H5 & acc & jr & H6 & H7). unfold a_vpush. rewrite H1, H6.
  intros [= <-]. unfold vrel. cbn. splits; auto.
  exists (acc ++ bs), false. split; [reflexivity|discriminate].
Qed.

Lemma vsim_left_skip {A A'} (R : A -> A' -> Prop) m m' : vsim R m m' -> vsim R (value_skip_previous ;; m) m'.
Proof.
  intros H s a a' Ha. unfold bind, value_skip_previous. cbn [pbind arun].
  destruct (a_vskip_prev a) as [a1|] eqn:E1; [|exact I]. apply H. eapply vrel_skip_prev; eauto.
Qed.
Lemma vsim_left_push {A'} (R : unit -> A' -> Prop) bs x' : R tt x' -> vsim R (value_push bs) (ret x').
Proof.
  intros H s a a' Ha. unfold value_push. cbn [arun].
  destruct (a_vpush bs a) as [a1|] eqn:E1; [|exact I]. cbn. exists x', a'. splits; auto. eapply vrel_push; eauto.
Qed.

Lemma vsim_read_skipped k : vsim eq (value_read_skipped_byte k) (read_byte k).
Proof.
  intros s a a' Ha. unfold value_read_skipped_byte, bind. rewrite arun_bind.
  pose proof (vsim_read_byte k s a a' Ha) as H.
  destruct (arun (value_read_byte k s) a) as [[[[x|e|[]|] s1] a1]|]; cbn [arun]; auto.
  destruct H as (x' & a1' & H & Hx & Hr). unfold value_skip_previous. cbn [pbind arun].
  destruct (a_vskip_prev a1) as [a2|] eqn:E1; [|exact I]. cbn [ret pbind arun].
  exists x', a1'. splits; auto. eapply vrel_skip_prev; eauto.
Qed.

Ltac vsim1 :=
  lazymatch goal with
  | |- vsim _ (bind _ _) (bind _ _) =>
    apply (vsim_bind eq); [|let x := fresh "x" in intros x ? <-]
  | |- vsim _ (update _) _ => apply vsim_update; reflexivity
  | |- vsim _ (syntax_err _) _ => apply vsim_syntax
  | |- vsim _ (panics _) _ => apply vsim_panics
  | |- vsim _ (fail _) _ => apply vsim_io
  | |- vsim _ (ret _) _ => apply vsim_ret; try reflexivity
  | |- vsim _ (if ?c then _ else _) (if ?c then _ else _) => destruct c
  | |- vsim _ (match ?c with _ => _ end) (match ?c with _ => _ end) => destruct c
  | |- vsim _ _ _ => solve [auto]
  end.
Ltac vsims := repeat vsim1.

Lemma vsim_multibyte rb rb' b0 : (forall k, vsim eq (rb k) (rb' k)) ->
  vsim eq (read_utf8_multibyte rb b0) (read_utf8_multibyte rb' b0).
Proof. intros H. unfold read_utf8_multibyte. vsims. Qed.
Lemma vsim_unicode rb rb' : (forall k, vsim eq (rb k) (rb' k)) ->
  vsim eq (read_unicode_escape rb) (read_unicode_escape rb').
Proof. intros H. unfold read_unicode_escape, read_hex_byte. vsims. Qed.
Lemma vsim_unicode_char rb rb' : (forall k, vsim eq (rb k) (rb' k)) ->
  vsim eq (read_unicode_escape_char rb) (read_unicode_escape_char rb').
Proof.
  intros H. pose proof (vsim_unicode _ _ H). unfold read_unicode_escape_char, char_from_u32. vsims.
Qed.

(** One character of [read_string], with the result of [read_string_bytes] *)
Definition string_step : M bool :=
  b <- value_read_byte IncompleteDocument ;;
  if b =? B_BACKSLASH then read_string_escape ;; ret false
  else if b =? B_QUOTE then update (advance 1 1) ;; ret true
  else if b <=? 0x1F then syntax_err NotEscapedControlCharacter
  else if b <=? 0x7F then update (advance 1 1) ;; ret false
  else
    bs <- read_utf8_multibyte value_read_byte b ;;
    update (advance 1 (len64 bs)) ;;
    ret false.

Lemma string_loop_step f rb s a :
  arun (read_string_loop (S f) rb s) a =
  arun (bind string_step (fun r : bool => if r then value_skip_final ;; value_get rb else read_string_loop f rb) s) a.
Proof.
  change (arun (bind ?m ?k s) a) with (exec (bind m k) s a).
  change (arun (read_string_loop (S f) rb s) a) with (exec (read_string_loop (S f) rb) s a).
  unfold string_step. cbn [read_string_loop]. rewrite !exec_bind.
  destruct (exec (value_read_byte IncompleteDocument) s a) as [[[[b|e|[]|] s1] a1]|]; try reflexivity.
  destruct (b =? B_BACKSLASH).
  { rewrite !exec_bind. destruct (exec read_string_escape s1 a1) as [[[[x|e|[]|] s2] a2]|]; reflexivity. }
  destruct (b =? B_QUOTE); [reflexivity|]. destruct (b <=? 0x1F); [reflexivity|].
  destruct (b <=? 0x7F); [reflexivity|]. rewrite !exec_bind.
  destruct (exec (read_utf8_multibyte value_read_byte b) s1 a1) as [[[[x|e|[]|] s2] a2]|]; reflexivity.
Qed.

Lemma erase_advance c b s : erase (advance c b s) = advance c b (erase s).
Proof. reflexivity. Qed.
Lemma advance_add c b c' b' s : advance c b (advance c' b' s) = advance (c' + c) (b' + b) s.
Proof. unfold advance, set_position. cbn. rewrite !N.add_assoc. reflexivity. Qed.

Lemma vsim_step : vsim (fun x y => x = fst y) string_step read_string_bytes.
Proof.
  unfold string_step, read_string_bytes.
  apply (vsim_bind eq); [apply vsim_read_byte|]. intros b ? <-.
  destruct (b =? B_BACKSLASH).
  - intros s a a' Ha.
    assert (Hv : vsim (fun x y => x = fst y) (read_string_escape ;; ret false)
       (e <- read_byte MalformedEscapeSequence ;;
        if escape_literal e then update (advance 2 2) ;; ret (false, [e])
        else
          match escape_replacement e with
          | Some r => update (advance 2 2) ;; ret (false, [r])
          | None =>
            if e =? B_u then
              cn <- read_unicode_escape_char read_byte ;;
              update (advance (2 + snd cn) (2 + snd cn)) ;;
              ret (false, encode_char (fst cn))
            else syntax_err UnknownEscapeSequence
          end)); [|exact (Hv s a a' Ha)]. clear s a a' Ha.
    intros s a a' Ha.
    change (arun (bind read_string_escape (fun _ => ret false) s) a) with
      (exec (bind read_string_escape (fun _ => ret false)) s a).
    unfold read_string_escape. rewrite !exec_bind. unfold exec at 1, value_skip_previous at 1. cbn [arun].
    destruct (a_vskip_prev a) as [a1|] eqn:E1; [|exact I]. pose proof (vrel_skip_prev _ _ _ Ha E1) as Hr1.
    cbn [arun]. rewrite exec_bind. pose proof (vsim_read_byte MalformedEscapeSequence s a1 a' Hr1) as Hb.
    change (arun (bind ?m ?k ?s) ?a) with (exec (bind m k) s a). rewrite (exec_bind (read_byte _)).
    unfold exec at 1.
    destruct (arun (value_read_byte MalformedEscapeSequence s) a1) as [[[[x|e|[]|] s1] a2]|]; auto.
    2:{ destruct Hb as (a3 & Hb & He). exists a3. unfold exec. rewrite Hb. auto. }
    2:{ destruct Hb as (a3 & Hb). exists a3. unfold exec. rewrite Hb. auto. }
    2:{ destruct Hb as (a3 & Hb). exists a3. unfold exec. rewrite Hb. auto. }
    destruct Hb as (x' & a2' & Hb & <- & Hr2).
    assert (Hrb : exec (read_byte MalformedEscapeSequence) (erase s) a' = Some (Ok x, erase s1, a2')) by exact Hb.
    rewrite Hrb. rewrite exec_bind.
    destruct (escape_literal x).
    { cbn. eexists _, _. split; [reflexivity|]. split; [reflexivity|exact Hr2]. }
    destruct (escape_replacement x) as [r|].
    { rewrite exec_bind. unfold exec at 1, value_skip_previous at 1. cbn [arun].
      destruct (a_vskip_prev a2) as [a3|] eqn:E3; [|exact I]. pose proof (vrel_skip_prev _ _ _ Hr2 E3) as Hr3.
      cbn [arun]. unfold exec at 1, value_push at 1. cbn [arun].
      destruct (a_vpush [r] a3) as [a4|] eqn:E4; [|exact I]. pose proof (vrel_push _ _ _ _ Hr3 E4) as Hr4.
      cbn. eexists _, _. split; [reflexivity|]. split; [reflexivity|exact Hr4]. }
    destruct (x =? B_u).
    2:{ cbn. eexists. split; reflexivity. }
    rewrite exec_bind. unfold exec at 1, value_skip_previous at 1. cbn [arun].
    destruct (a_vskip_prev a2) as [a3|] eqn:E3; [|exact I]. pose proof (vrel_skip_prev _ _ _ Hr2 E3) as Hr3.
    cbn [arun]. rewrite !exec_bind.
    pose proof (vsim_unicode_char _ _ vsim_read_skipped s1 a3 a2' Hr3) as Hc. unfold exec at 1.
    destruct (arun (read_unicode_escape_char value_read_skipped_byte s1) a3) as [[[[cn|e|[]|] s2] a4]|]; auto.
    2:{ destruct Hc as (a5 & Hc & He). exists a5. unfold exec. rewrite Hc. auto. }
    2:{ destruct Hc as (a5 & Hc). exists a5. unfold exec. rewrite Hc. auto. }
    2:{ destruct Hc as (a5 & Hc). exists a5. unfold exec. rewrite Hc. auto. }
    destruct Hc as (x' & a4' & Hc & <- & Hr4).
    assert (Hrc : exec (read_unicode_escape_char read_byte) (erase s1) a2' = Some (Ok cn, erase s2, a4')) by exact Hc.
    rewrite Hrc. rewrite exec_bind. unfold exec at 1, update at 1. cbn [arun].
    unfold exec at 1, value_push at 1. cbn [arun].
    destruct (a_vpush (encode_char (fst cn)) a4) as [a5|] eqn:E5; [|exact I]. pose proof (vrel_push _ _ _ _ Hr4 E5) as Hr5.
    unfold exec at 1, update at 1. cbn [arun].
    exists (false, encode_char (fst cn)), a4'. split; [|split; [reflexivity|exact Hr5]].
    rewrite exec_bind. unfold exec at 1, update at 1. cbn [arun]. unfold exec, ret. cbn [arun].
    rewrite advance_add, <- erase_advance. rewrite (N.add_comm 2). reflexivity.
  - destruct (b =? B_QUOTE); [vsims|]. destruct (b <=? 0x1F); [vsims|]. destruct (b <=? 0x7F); [vsims|].
    pose proof (vsim_multibyte _ _ b vsim_read_byte). vsims.
Qed.

Lemma sim_skip_loop : forall f s a a', vrel a a' ->
  match arun ((read_string_loop f false ;; name <- value_string ;; set_path_name name) s) a with
  | None => True
  | Some ((Panic Bug, _), _) => True
  | Some ((Ok x, s1), a1) => arun (skip_all_string_bytes_loop f (erase s)) a' = Some ((Ok x, erase s1), a1)
  | Some ((Panic Misuse, s1), a1) => exists a2,
      arun (skip_all_string_bytes_loop f (erase s)) a' = Some ((Panic Misuse, erase s1), a2)
  | Some ((Err e, s1), a1) => exists a2,
      arun (skip_all_string_bytes_loop f (erase s)) a' = Some ((Err (erase_err e), erase s1), a2) /\ recoverable e = false
  | Some ((OutOfFuel, s1), a1) => exists a2,
      arun (skip_all_string_bytes_loop f (erase s)) a' = Some ((OutOfFuel, erase s1), a2)
  end.
Proof.
  induction f as [|f IH]; intros s a a' Ha.
  - cbn. eauto.
  - change (arun ((read_string_loop (S f) false ;; name <- value_string ;; set_path_name name) s) a) with
      (exec (read_string_loop (S f) false ;; name <- value_string ;; set_path_name name) s a).
    change (arun (skip_all_string_bytes_loop (S f) (erase s)) a') with
      (exec (r <- read_string_bytes ;; if fst r then ret tt else skip_all_string_bytes_loop f) (erase s) a').
    rewrite !exec_bind. unfold exec at 1. rewrite string_loop_step.
    change (arun (bind ?m ?k s) a) with (exec (bind m k) s a). rewrite exec_bind.
    pose proof (vsim_step s a a' Ha) as Hs. unfold exec at 1.
    destruct (arun (string_step s) a) as [[[[x|e|[]|] s1] a1]|]; auto.
    2:{ destruct Hs as (a3 & Hs & He). exists a3. unfold exec. rewrite Hs. auto. }
    2:{ destruct Hs as (a3 & Hs). exists a3. unfold exec. rewrite Hs. auto. }
    2:{ destruct Hs as (a3 & Hs). exists a3. unfold exec. rewrite Hs. auto. }
    destruct Hs as ([x' bs] & a1' & Hs & Hx & Hr). cbn in Hx. subst x'.
    assert (Hs' : exec read_string_bytes (erase s) a' = Some (Ok (x, bs), erase s1, a1')) by exact Hs.
    rewrite Hs'. cbn [fst]. destruct x.
    + rewrite exec_bind. unfold exec at 1, value_skip_final. cbn [arun].
      destruct Hr as (H1 & H2 & H3 & H4 & H5 & acc & jr & H6 & H7). unfold a_vskip_final. rewrite H1, H6.
      destruct jr; [|exact I]. cbn [arun]. unfold exec at 1, value_get. cbn [arun a_vget a_failed a_mode a_rest a_tail a_known].
      rewrite exec_bind. unfold exec at 1, value_string. cbn [arun a_vstring a_failed a_mode a_rest a_tail a_known].
      destruct (from_utf8 (removelast acc)) as [n|]; [|exact I]. cbn [arun].
      pose proof (sim_set_path_name true n s1 (ASrc (a_rest a1) (a_tail a1) (a_known a1) VNone false)) as Hp.
      assert (Ea : a1' = ASrc (a_rest a1) (a_tail a1) (a_known a1) VNone false).
      { destruct a1'. cbn in *. subst. rewrite (H7 eq_refl). reflexivity. }
      rewrite Ea. unfold exec.
      destruct (arun (set_path_name n s1) _) as [[[[y|e|[]|] s2] a2]|]; auto.
      * destruct Hp as (? & [=] & _).
      * destruct Hp as (? & [=] & _).
      * destruct Hp as (? & [=] & _).
    + specialize (IH s1 a1 a1' Hr).
      change (arun ((read_string_loop f false ;; name <- value_string ;; set_path_name name) s1) a1) with
        (exec (read_string_loop f false ;; name <- value_string ;; set_path_name name) s1 a1) in IH.
      rewrite exec_bind in IH. exact IH.
Qed.

Lemma sim_skip_string E : sim false idf (read_string E false ;; name <- value_string ;; set_path_name name)
  (skip_all_string_bytes (uenv E)).
Proof.
  intros s a. unfold read_string, skip_all_string_bytes. change (fuel (uenv E)) with (fuel E).
  change (arun (bind ?m ?k s) a) with (exec (bind m k) s a). rewrite !exec_bind.
  unfold exec at 1, value_reader_new. cbn [arun].
  destruct (a_vnew a) as [a1|] eqn:E1; [|exact I]. cbn [arun].
  assert (Hr : vrel a1 a).
  { unfold a_vnew in E1. destruct (a_failed a) eqn:Ef, (a_mode a) eqn:Em; try discriminate. injection E1 as <-.
    unfold vrel. cbn. splits; auto. exists [], false. split; [reflexivity|discriminate]. }
  pose proof (sim_skip_loop (fuel E) s a1 a Hr) as H.
  change (arun (bind ?m ?k s) ?a) with (exec (bind m k) s a) in H. rewrite exec_bind in H.
  destruct (exec (read_string_loop (fuel E) false) s a1) as [[[[y|e|[]|] s2] a2]|]; auto.
  - destruct (exec (name <- value_string ;; set_path_name name) s2 a2) as [[[[y'|e|[]|] s3] a3]|]; auto.
    + destruct H as (x & H & He). exists x. split; [exact H|]. rewrite He. discriminate.
    + destruct H as (x & H). exists x. split; [exact H|discriminate].
    + destruct H as (x & H). exists x. split; [exact H|discriminate].
  - destruct H as (x & H & He). exists x. split; [exact H|]. rewrite He. discriminate.
  - destruct H as (x & H). exists x. split; [exact H|discriminate].
  - destruct H as (x & H). exists x. split; [exact H|discriminate].
Qed.

(** ** The remaining functions *)

Lemma sim_unicode b rb : (forall k, sim b idf (rb k) (rb k)) -> sim b idf (read_unicode_escape rb) (read_unicode_escape rb).
Proof. intros H. unfold read_unicode_escape, read_hex_byte. sims. Qed.
#[export] Hint Resolve sim_unicode : sim.
Lemma sim_unicode_char b rb : (forall k, sim b idf (rb k) (rb k)) ->
  sim b idf (read_unicode_escape_char rb) (read_unicode_escape_char rb).
Proof.
  intros H. pose proof (sim_unicode b rb H). unfold read_unicode_escape_char, char_from_u32. sims.
Qed.
#[export] Hint Resolve sim_unicode_char : sim.
Lemma sim_string_bytes b : sim b idf read_string_bytes read_string_bytes.
Proof. unfold read_string_bytes. sims. Qed.
#[export] Hint Resolve sim_string_bytes : sim.
Lemma sim_skip_string_bytes b E : sim b idf (skip_all_string_bytes E) (skip_all_string_bytes (uenv E)).
Proof.
  unfold skip_all_string_bytes. change (fuel (uenv E)) with (fuel E). generalize (fuel E). intros f.
  induction f as [|f IH]; cbn [skip_all_string_bytes_loop]; sims.
Qed.
Lemma sim_string_escape b : sim b idf read_string_escape read_string_escape.
Proof. unfold read_string_escape. sims. Qed.
#[export] Hint Resolve sim_skip_string_bytes sim_string_escape : sim.
Lemma sim_string_loop b r : forall f, sim b idf (read_string_loop f r) (read_string_loop f r).
Proof. induction f as [|f IH]; cbn [read_string_loop]; sims. Qed.
#[export] Hint Resolve sim_string_loop : sim.
Lemma sim_read_string b E r : sim b idf (read_string E r) (read_string (uenv E) r).
Proof. unfold read_string. change (fuel (uenv E)) with (fuel E). sims. Qed.
#[export] Hint Resolve sim_read_string : sim.
Lemma sim_run_number b next : sim b idf next next -> forall p n, sim b idf (run_number next p n) (run_number next p n).
Proof. intros H. induction p as [r|k IH|]; intros n; cbn [run_number]; sims. Qed.
#[export] Hint Resolve sim_run_number : sim.
Lemma sim_number_next b : sim b idf number_next number_next.
Proof. unfold number_next. sims. Qed.
Lemma sim_number_skip_next b : sim b idf number_skip_next number_skip_next.
Proof. unfold number_skip_next. sims. Qed.
Lemma sim_number_start b E : sim b idf (number_start E) (number_start (uenv E)).
Proof. unfold number_start. sims. Qed.
Lemma sim_number_checks b n : sim b idf (number_end_checks n) (number_end_checks n).
Proof. unfold number_end_checks. sims. Qed.
#[export] Hint Resolve sim_number_next sim_number_skip_next sim_number_start sim_number_checks : sim.
Lemma sim_number_bytes b E r : sim b idf (read_number_bytes E r) (read_number_bytes (uenv E) r).
Proof. unfold read_number_bytes. change (fuel (uenv E)) with (fuel E). sims. Qed.
Lemma sim_skip_number b E : sim b idf (skip_number E) (skip_number (uenv E)).
Proof. unfold skip_number. change (fuel (uenv E)) with (fuel E). sims. Qed.
#[export] Hint Resolve sim_number_bytes sim_skip_number : sim.

Lemma sim_peek b E : sim b idf (peek E) (peek (uenv E)).
Proof. unfold peek. sims. Qed.
Lemma sim_begin_array b E : sim b idf (begin_array E) (begin_array (uenv E)).
Proof. unfold begin_array. sims. Qed.
Lemma sim_begin_object b E : sim b idf (begin_object E) (begin_object (uenv E)).
Proof. unfold begin_object. sims. Qed.
Lemma sim_end_array b E : sim b idf (end_array E) (end_array (uenv E)).
Proof. unfold end_array. sims. Qed.
Lemma sim_end_object b E : sim b idf (end_object E) (end_object (uenv E)).
Proof. unfold end_object. sims. Qed.
Lemma sim_has_next b E : sim b idf (has_next E) (has_next (uenv E)).
Proof. unfold has_next. sims. Qed.
#[export] Hint Resolve sim_peek sim_begin_array sim_begin_object sim_end_array sim_end_object sim_has_next : sim.
Lemma sim_before_name b E : sim b idf (before_name E) (before_name (uenv E)).
Proof. unfold before_name. sims. Qed.
#[export] Hint Resolve sim_before_name : sim.

Lemma sim_set_path_name_both b n : sim b idf (set_path_name n) (set_path_name n).
Proof. intros s a. exact (sim_set_path_name b n s a). Qed.
#[export] Hint Resolve sim_set_path_name_both : sim.
Lemma sim_next_name_owned b E : sim b idf (next_name_owned E) (next_name_owned (uenv E)).
Proof. unfold next_name_owned. sims. Qed.

Lemma sim_next_name b E : sim b idf (next_name E) (next_name (uenv E)).
Proof.
  unfold next_name. sims. cbn [json_path erase set_path]. destruct (json_path s) as [l|]; [|sims].
  intros s' a. unfold bind, value_str_peek. cbn [pbind arun].
  destruct (a_vstr_peek a) as [n|]; [|exact I]. apply (sim_set_path_name b n s' a).
Qed.

Lemma sim_skip_name E : sim false idf (skip_name E) (skip_name (uenv E)).
Proof.
  unfold skip_name. sims. cbn [json_path erase set_path]. destruct (json_path s) as [l|]; [|sims].
  apply sim_skip_string.
Qed.
Lemma sim_next_bool b E : sim b idf (next_bool E) (next_bool (uenv E)).
Proof. unfold next_bool. sims. Qed.
Lemma sim_next_null b E : sim b idf (next_null E) (next_null (uenv E)).
Proof. unfold next_null. sims. Qed.
Lemma sim_next_string b E : sim b idf (next_string E) (next_string (uenv E)).
Proof. unfold next_string. sims. Qed.
Lemma sim_next_str b E : sim b idf (next_str E) (next_str (uenv E)).
Proof. unfold next_str. sims. Qed.
Lemma sim_number_string b E : sim b idf (next_number_as_string E) (next_number_as_string (uenv E)).
Proof. unfold next_number_as_string. sims. Qed.
Lemma sim_number_str b E : sim b idf (next_number_as_str E) (next_number_as_str (uenv E)).
Proof. unfold next_number_as_str. sims. Qed.
#[export] Hint Resolve sim_next_name sim_skip_name sim_next_bool sim_next_null : sim.
Lemma sim_skip_value_start b E : sim b idf (skip_value_start E) (skip_value_start (uenv E)).
Proof. unfold skip_value_start. sims. Qed.
Lemma sim_end_container b E : sim b idf (end_container E) (end_container (uenv E)).
Proof. unfold end_container. sims. Qed.
#[export] Hint Resolve sim_skip_value_start sim_end_container : sim.
Lemma sim_skip_value_loop E : forall f d, sim false idf (skip_value_loop E f d) (skip_value_loop (uenv E) f d).
Proof. induction f as [|f IH]; intros d; cbn [skip_value_loop]; sims. Qed.
#[export] Hint Resolve sim_skip_value_loop : sim.
Lemma sim_skip_value E : sim false idf (skip_value E) (skip_value (uenv E)).
Proof. unfold skip_value. change (fuel (uenv E)) with (fuel E). sims. Qed.
#[export] Hint Resolve sim_skip_value : sim.
Lemma sim_skip_items E : forall f, sim false idf (skip_items E f) (skip_items (uenv E) f).
Proof. induction f as [|f IH]; cbn [skip_items]; sims. Qed.
Lemma sim_skip_members E : forall f, sim false idf (skip_members E f) (skip_members (uenv E) f).
Proof. induction f as [|f IH]; cbn [skip_members]; sims. Qed.
#[export] Hint Resolve sim_skip_items sim_skip_members : sim.
Lemma sim_top_loop E : forall f, sim false idf (skip_to_top_level_loop E f) (skip_to_top_level_loop (uenv E) f).
Proof. induction f as [|f IH]; cbn [skip_to_top_level_loop]; change (fuel (uenv E)) with (fuel E); sims. Qed.
#[export] Hint Resolve sim_top_loop : sim.
Lemma sim_skip_to_top E : sim false idf (skip_to_top_level E) (skip_to_top_level (uenv E)).
Proof. unfold skip_to_top_level. change (fuel (uenv E)) with (fuel E). sims. Qed.
Lemma sim_seek_item E i : forall f r, sim false idf (seek_item E f i r) (seek_item (uenv E) f i r).
Proof. induction f as [|f IH]; intros r; cbn [seek_item]; sims. Qed.
Lemma sim_seek_member E n : forall f, sim false idf (seek_member E f n) (seek_member (uenv E) f n).
Proof. induction f as [|f IH]; cbn [seek_member]; sims. Qed.
#[export] Hint Resolve sim_seek_item sim_seek_member : sim.
Lemma sim_seek_pieces E : forall p, sim false idf (seek_pieces E p) (seek_pieces (uenv E) p).
Proof. induction p as [|[i|n] p IH]; cbn [seek_pieces]; change (fuel (uenv E)) with (fuel E); sims. Qed.
#[export] Hint Resolve sim_seek_pieces : sim.
Lemma sim_seek_to E p : sim false idf (seek_to E p) (seek_to (uenv E) p).
Proof. unfold seek_to. sims. Qed.
Lemma sim_seek_back E p : sim false idf (seek_back E p) (seek_back (uenv E) p).
Proof.
  unfold seek_back. induction (rev p) as [|[i|n] q IH]; cbn [seek_back_pieces]; change (fuel (uenv E)) with (fuel E); sims.
Qed.
Lemma sim_consume b E : sim b idf (consume_trailing_whitespace E) (consume_trailing_whitespace (uenv E)).
Proof. unfold consume_trailing_whitespace. sims. Qed.
Lemma sim_next_string_reader b E : sim b idf (next_string_reader E) (next_string_reader (uenv E)).
Proof. unfold next_string_reader. sims. Qed.

(** The string reader *)
Definition erase_r {A B : Type} (r : (A + reader_error) * B) : (A + reader_error) * B :=
  match r with (inr e, x) => (inr (erase_err e), x) | r => r end.

Definition erase_c {A : Type} (r : A + reader_error) : A + reader_error :=
  match r with inr e => inr (erase_err e) | r => r end.

Lemma sim_catch {A} (m m' : M A) : sim true idf m m' -> sim true erase_c (catch m) (catch m').
Proof.
  intros H s a. unfold catch. rewrite arun_bind. specialize (H s a).
  destruct (arun (m s) a) as [[[[y|e|[]|] s2] a2]|]; cbn [arun]; auto.
  - rewrite arun_bind, H. reflexivity.
  - destruct H as (a3 & H & Ha). rewrite arun_bind, H, (Ha eq_refl). reflexivity.
  - destruct H as (a3 & H & Ha). exists a2. rewrite arun_bind, H, (Ha eq_refl). auto.
  - destruct H as (a3 & H & Ha). exists a2. rewrite arun_bind, H, (Ha eq_refl). auto.
Qed.

Lemma sim_ret_gen {A} b eA (x : A) y : y = eA x -> sim b eA (ret x) (ret y).
Proof. intros -> s a. reflexivity. Qed.
Lemma sim_panics_gen {A} b eA k : sim (A := A) b eA (panics k) (panics k).
Proof. intros s a. destruct k; cbn; eauto. Qed.

Lemma sim_sv_loop len : forall f out sv, sim true erase_r (sv_read_loop f len out sv) (sv_read_loop f len out sv).
Proof.
  induction f as [|f IH]; intros out sv; cbn [sv_read_loop]; destruct (Nat.ltb (length out) len);
    try (apply sim_ret_gen; reflexivity).
  - intros s a. cbn. eauto.
  - destruct (negb _); [apply sim_panics_gen|].
    apply (sim_bind true erase_c); [apply sim_catch; sims|]. intros [[e bs]|e]; cbn [erase_c].
    2:{ apply sim_ret_gen. reflexivity. }
    cbn zeta. destruct (Nat.ltb _ _); [apply sim_panics_gen|]. destruct e; [|apply IH].
    apply (sim_bind true idf); [sims|]. intros. apply (sim_bind true idf); [sims|]. intros.
    apply sim_ret_gen. reflexivity.
Qed.

Definition erase_sv (e : sv_read_error) : sv_read_error :=
  match e with SvError e => SvError (erase_err e) | SvPreviousError => SvPreviousError end.
Definition erase_read {A B : Type} (r : (A + sv_read_error) * B) : (A + sv_read_error) * B :=
  match r with (inr e, x) => (inr (erase_sv e), x) | r => r end.

Lemma sim_sv_read E len sv : sim true erase_read (sv_read E len sv) (sv_read (uenv E) len sv).
Proof.
  unfold sv_read. destruct (sv_error sv); [apply sim_ret_gen; reflexivity|].
  apply (sim_bind true erase_r).
  - unfold sv_read_impl. destruct (_ || _); [apply sim_ret_gen; reflexivity|].
    cbn zeta. change (fuel (uenv E)) with (fuel E). apply sim_sv_loop.
  - intros [[bs|e] sv']; apply sim_ret_gen; reflexivity.
Qed.

(** ** Sessions *)

Definition erase_value (v : rvalue) : rvalue := match v with RPos p => RPos (erase_pos p) | v => v end.
Definition erase_outcome (o : outcome) : outcome :=
  match o with
  | OOk v => OOk (erase_value v)
  | OErr e => OErr (erase_err e)
  | OReadErr e => OReadErr (erase_sv e)
  | o => o
  end.
Definition erase_session (st : session) : session := Session (erase (s_state st)) (s_reader st) (s_phase st).

Definition osim (p p' : prog (outcome * session)) : Prop := forall a,
  match arun p a with
  | None => True
  | Some ((o, st), a1) => o = OPanic Bug \/
      exists a2, arun p' a = Some ((erase_outcome o, erase_session st), a2) /\ (s_phase st = Running -> a2 = a1)
  end.

Lemma osim_call {A} (eA : A -> A) (m m' : M A) val st :
  sim false eA m m' -> (forall x, val (eA x) = erase_value (val x)) ->
  osim (call m val st) (call m' val (erase_session st)).
Proof.
  intros H Hv a. unfold call. rewrite arun_bind. specialize (H (s_state st) a).
  change (s_state (erase_session st)) with (erase (s_state st)).
  destruct (arun (m (s_state st)) a) as [[[[y|e|[]|] s2] a2]|]; cbn [arun]; auto; right.
  - exists a2. rewrite arun_bind, H. cbn. rewrite Hv. auto.
  - destruct H as (a3 & H & Ha). exists a3. rewrite arun_bind, H. cbn.
    assert (Hr : recoverable (erase_err e) = recoverable e) by (destruct e; reflexivity). rewrite Hr.
    split; [reflexivity|]. cbn in Ha. destruct (recoverable e); [auto|discriminate].
  - destruct H as (a3 & H & Ha). exists a3. rewrite arun_bind, H. cbn. split; [reflexivity|discriminate].
  - destruct H as (a3 & H & Ha). exists a3. rewrite arun_bind, H. cbn. split; [reflexivity|discriminate].
Qed.

Lemma osim_client E c st : osim (client_call E c st) (client_call (uenv E) c (erase_session st)).
Proof.
  unfold client_call. change (s_phase (erase_session st)) with (s_phase st).
  destruct (s_phase st) eqn:Ep.
  2:{ intros a. cbn. right. exists a. auto. }
  2:{ intros a. cbn. right. exists a. auto. }
  destruct c; try (apply (osim_call idf); [|reflexivity]).
  - apply sim_peek.
  - apply sim_has_next.
  - apply sim_begin_array.
  - apply sim_end_array.
  - apply sim_begin_object.
  - apply sim_end_object.
  - apply sim_next_name.
  - apply sim_next_name_owned.
  - apply sim_skip_name.
  - apply sim_next_string.
  - apply sim_next_str.
  - intros a. unfold call_string_reader. rewrite arun_bind.
    pose proof (sim_next_string_reader false E (s_state st) a) as H.
    change (s_state (erase_session st)) with (erase (s_state st)).
    destruct (arun (next_string_reader E (s_state st)) a) as [[[[y|e|[]|] s2] a2]|]; cbn [arun]; auto; right.
    + exists a2. rewrite arun_bind, H. cbn. auto.
    + destruct H as (a3 & H & Ha). exists a3. rewrite arun_bind, H. cbn.
      assert (Hr : recoverable (erase_err e) = recoverable e) by (destruct e; reflexivity). rewrite Hr.
      split; [reflexivity|]. cbn in Ha. destruct (recoverable e); [auto|discriminate].
    + destruct H as (a3 & H & Ha). exists a3. rewrite arun_bind, H. cbn. split; [reflexivity|discriminate].
    + destruct H as (a3 & H & Ha). exists a3. rewrite arun_bind, H. cbn. split; [reflexivity|discriminate].
  - intros a. unfold call_read. change (s_reader (erase_session st)) with (s_reader st).
    destruct (s_reader st) as [sv|]; [|cbn; right; exists a; auto]. rewrite arun_bind.
    pose proof (sim_sv_read E len sv (s_state st) a) as H.
    change (s_state (erase_session st)) with (erase (s_state st)).
    destruct (arun (sv_read E len sv (s_state st)) a) as [[[[y|e|[]|] s2] a2]|]; auto.
    + destruct y as [[bs|e] sv']; cbn [arun]; right; exists a2; rewrite arun_bind, H; cbn; auto.
    + cbn. auto.
    + destruct H as (a3 & H & Ha). cbn. right. exists a3. rewrite arun_bind, H. cbn. split; [reflexivity|discriminate].
    + cbn. auto.
    + destruct H as (a3 & H & Ha). cbn. right. exists a3. rewrite arun_bind, H. cbn. split; [reflexivity|discriminate].
  - apply sim_number_str.
  - apply sim_number_string.
  - apply sim_next_bool.
  - apply sim_next_null.
  - apply sim_skip_value.
  - apply sim_seek_to.
  - apply sim_seek_back.
  - apply sim_skip_to_top.
  - apply (osim_call erase_pos); [|reflexivity]. intros s a. cbn. destruct include_path; reflexivity.
  - intros a. unfold call_consume. rewrite arun_bind.
    pose proof (osim_call idf _ _ to_unit st (sim_consume false E) (fun x => eq_refl) a) as H.
    destruct (arun (call (consume_trailing_whitespace E) to_unit st) a) as [[[o st1] a1]|]; [|exact I].
    cbn [arun fst snd]. destruct H as [H|(a2 & H & _)]; [auto|]. right. exists a2. rewrite arun_bind, H. cbn.
    split; [reflexivity|discriminate].
Qed.

Lemma osim_calls E : forall cs st a a', (s_phase st = Running -> a' = a) ->
  match arun (client_calls E cs st) a with
  | None => True
  | Some ((os, st1), a1) => In (OPanic Bug) os \/
      exists a2, arun (client_calls (uenv E) cs (erase_session st)) a' = Some ((map erase_outcome os, erase_session st1), a2)
  end.
Proof.
  induction cs as [|c cs IH]; intros st a a' Ha.
  - cbn. right. exists a'. reflexivity.
  - cbn [client_calls]. rewrite arun_bind. pose proof (osim_client E c st a) as H.
    destruct (arun (client_call E c st) a) as [[[o st1] a1]|] eqn:E1; [|exact I]. cbn [snd fst]. rewrite arun_bind.
    assert (H' : o = OPanic Bug \/ exists a2, arun (client_call (uenv E) c (erase_session st)) a' =
       Some ((erase_outcome o, erase_session st1), a2) /\ (s_phase st1 = Running -> a2 = a1)).
    { destruct (s_phase st) eqn:Ep; [rewrite (Ha eq_refl); exact H| |];
        unfold client_call in *; cbn [erase_session s_phase] in *; rewrite Ep in *;
        right; injection E1 as <- <- <-; exists a'; (split; [reflexivity|congruence]). }
    clear H. destruct H' as [->|(a2 & H & Hr)].
    { destruct (arun (client_calls E cs st1) a1) as [[[os st2] a3]|]; [|exact I]. cbn. auto. }
    specialize (IH st1 a1 a2 Hr).
    destruct (arun (client_calls E cs st1) a1) as [[[os st2] a3]|]; [|exact I]. cbn [arun fst snd].
    destruct IH as [IH|(a4 & IH)]; [left; right; exact IH|]. right. exists a4.
    rewrite arun_bind, H. cbn [snd fst]. rewrite arun_bind, IH. reflexivity.
Qed.
