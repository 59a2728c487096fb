(** * Which functions of the reader collect bytes

    Auxiliary. *)

From Verif Require Import Base Utf8Model NumberModel SourceModel SourceProofs ReaderModel SpecCost SpecMemory MemSource.

(** the function uses the operations on values only if [v] holds, and if the
    path is not tracked ([T = false]), then it stays so *)
Definition untracked (T : bool) (s : rstate) : Prop := T = false -> json_path s = None.
Definition fm {A : Type} (v T : bool) (m : M A) : Prop := forall s, untracked T s -> ops v (m s) (fun rs => untracked T (snd rs)).

Lemma fm_bind {A B : Type} v T (m : M A) (f : A -> M B) : fm v T m -> (forall a, fm v T (f a)) -> fm v T (bind m f).
Proof.
  intros Hm Hf s Hs. unfold bind. apply ops_pbind. eapply ops_impl; [apply Hm, Hs|].
  intros [[a|e|k|] s'] H; cbn [snd] in H; [apply Hf, H|exact H..].
Qed.
Lemma fm_get_bind {B : Type} v T (f : rstate -> M B) : (forall s0, untracked T s0 -> fm v T (f s0)) -> fm v T (bind get_state f).
Proof. intros Hf s Hs. exact (Hf s Hs s Hs). Qed.
Lemma fm_ret {A : Type} v T (a : A) : fm v T (ret a).
Proof. intros s Hs. exact Hs. Qed.
Lemma fm_update v T f : (forall s, untracked T s -> untracked T (f s)) -> fm v T (update f).
Proof. intros H s Hs. apply H, Hs. Qed.
Lemma fm_fail {A : Type} v T e : fm v T (fail e : M A).
Proof. intros s Hs. exact Hs. Qed.
Lemma fm_syntax {A : Type} v T e : fm v T (syntax_err e : M A).
Proof. intros s Hs. exact Hs. Qed.
Lemma fm_structure {A : Type} v T e : fm v T (structure_err e : M A).
Proof. intros s Hs. exact Hs. Qed.
Lemma fm_panics {A : Type} v T k : fm v T (panics k : M A).
Proof. intros s Hs. exact Hs. Qed.
Lemma fm_no_fuel {A : Type} v T : fm v T (no_fuel : M A).
Proof. intros s Hs. exact Hs. Qed.
Lemma fm_misuse v T b : fm v T (misuse_if b).
Proof. intros s Hs. destruct b; exact Hs. Qed.
Lemma fm_catch {A : Type} v T (m : M A) : fm v T m -> fm v T (catch m).
Proof.
  intros Hm s Hs. unfold catch. apply ops_pbind. eapply ops_impl; [apply Hm, Hs|].
  intros [[a|e|k|] s'] H; exact H.
Qed.

Create HintDb fm.
#[export] Hint Resolve fm_ret fm_fail fm_syntax fm_structure fm_panics fm_no_fuel fm_misuse : fm.

Ltac unt := intros; unfold untracked in *; cbn [set_empty set_stack set_path set_expects_name set_peeked set_active set_position advance json_path] in *;
  repeat match goal with |- context [if ?b then _ else _] => destruct b end;
  cbn [set_empty set_stack set_path set_expects_name set_peeked set_active set_position advance json_path]; auto;
  try (intros ?HT; match goal with H : ?T = false -> _, H' : ?T = false |- _ => rewrite (H H') end; reflexivity).
Ltac fmg := repeat first
  [ progress intros
  | match goal with
    | |- fm _ _ (bind get_state _) => apply fm_get_bind
    | |- fm _ _ (bind _ _) => apply fm_bind
    | |- fm _ _ (update _) => apply fm_update; solve [unt]
    | |- fm _ _ (let _ := _ in _) => cbv zeta
    | |- fm _ _ (if ?b then _ else _) => destruct b
    | |- fm _ _ (match ?x with _ => _ end) => destruct x eqn:?
    end
  | solve [auto with fm] ].

Lemma fm_peek_byte v T : fm v T peek_byte.
Proof. intros s Hs r. destruct r; exact Hs. Qed.
Lemma fm_skip_byte v T : fm v T skip_peeked_byte.
Proof. intros s Hs. exact Hs. Qed.
#[export] Hint Resolve fm_peek_byte fm_skip_byte : fm.
Lemma fm_read_byte v T k : fm v T (read_byte k).
Proof. unfold read_byte. fmg. Qed.
#[export] Hint Resolve fm_read_byte : fm.
Lemma fm_multibyte v T rb b : (forall k, fm v T (rb k)) -> fm v T (read_utf8_multibyte rb b).
Proof. intros H. unfold read_utf8_multibyte. fmg. Qed.
#[export] Hint Resolve fm_multibyte : fm.
Lemma fm_eof v T k : fm v T (eof_result k).
Proof. unfold eof_result. fmg. Qed.
#[export] Hint Resolve fm_eof : fm.
Lemma fm_skip_to_loop v T stop k : forall f cr, fm v T (skip_to_loop f stop k cr).
Proof. induction f as [|f IH]; intros cr; cbn [skip_to_loop]; fmg. Qed.
Lemma fm_skip_to v T E stop k : fm v T (skip_to E stop k).
Proof. apply fm_skip_to_loop. Qed.
#[export] Hint Resolve fm_skip_to : fm.
Lemma fm_block v T E : forall f, fm v T (skip_to_block_comment_end_loop E f).
Proof. induction f as [|f IH]; cbn [skip_to_block_comment_end_loop]; fmg. Qed.
#[export] Hint Resolve fm_block : fm.
Lemma fm_ws_loop v T E k : forall f, fm v T (skip_whitespace_loop E f k).
Proof. induction f as [|f IH]; cbn [skip_whitespace_loop]; unfold skip_to_block_comment_end, skip_to_line_comment_end; fmg. Qed.
Lemma fm_ws v T E k : fm v T (skip_whitespace E k).
Proof. apply fm_ws_loop. Qed.
#[export] Hint Resolve fm_ws : fm.
Lemma fm_ws_no_eof v T E k : fm v T (skip_whitespace_no_eof E k).
Proof. unfold skip_whitespace_no_eof. fmg. Qed.
#[export] Hint Resolve fm_ws_no_eof : fm.
Lemma fm_separator v T k : fm v T (verify_next_separator k).
Proof. unfold verify_next_separator, verify_value_separator. fmg. Qed.
#[export] Hint Resolve fm_separator : fm.
Lemma fm_literal v T : forall l, fm v T (consume_literal l).
Proof. induction l as [|e l IH]; cbn [consume_literal]; fmg. Qed.
#[export] Hint Resolve fm_literal : fm.
Lemma fm_peek_token v T s b : fm v T (peek_token s b).
Proof. unfold peek_token. fmg. Qed.
Lemma fm_finish v T E cc comma p ad : fm v T (finish_peek E cc comma p ad).
Proof. unfold finish_peek. fmg. Qed.
#[export] Hint Resolve fm_peek_token fm_finish : fm.
Lemma fm_peek_after v T E b : fm v T (peek_after_ws E b).
Proof. unfold peek_after_ws. fmg. Qed.
#[export] Hint Resolve fm_peek_after : fm.
Lemma fm_peek_optional v T E : fm v T (peek_internal_optional E).
Proof. unfold peek_internal_optional, after_name. fmg. Qed.
#[export] Hint Resolve fm_peek_optional : fm.
Lemma fm_peek_internal v T E : fm v T (peek_internal E).
Proof. unfold peek_internal. fmg. Qed.
#[export] Hint Resolve fm_peek_internal : fm.
Lemma fm_map_peeked v T p : fm v T (map_peeked p).
Proof. unfold map_peeked. fmg. Qed.
Lemma fm_consume v T : fm v T consume_peeked.
Proof. unfold consume_peeked. fmg. Qed.
#[export] Hint Resolve fm_map_peeked fm_consume : fm.
Lemma fm_start v T E t d : fm v T (start_expected_value_type E t d).
Proof. unfold start_expected_value_type. fmg. Qed.
#[export] Hint Resolve fm_start : fm.
Lemma fm_value_end v T : fm v T on_value_end.
Proof. unfold on_value_end. fmg; apply fm_update; unfold untracked in *; intros ? ? HT; specialize (H HT); congruence. Qed.
#[export] Hint Resolve fm_value_end : fm.
Lemma fm_container_end v T : fm v T on_container_end.
Proof. unfold on_container_end. fmg. Qed.
#[export] Hint Resolve fm_container_end : fm.
Lemma fm_container_start v T E t x : fm v T (on_container_start E t x).
Proof. unfold on_container_start. fmg. Qed.
#[export] Hint Resolve fm_container_start : fm.

Lemma fm_hex v T rb : (forall k, fm v T (rb k)) -> fm v T (read_hex_byte rb).
Proof. intros H. unfold read_hex_byte. fmg. Qed.
#[export] Hint Resolve fm_hex : fm.
Lemma fm_unicode v T rb : (forall k, fm v T (rb k)) -> fm v T (read_unicode_escape rb).
Proof. intros H. unfold read_unicode_escape. fmg. Qed.
#[export] Hint Resolve fm_unicode : fm.
Lemma fm_unicode_char v T rb : (forall k, fm v T (rb k)) -> fm v T (read_unicode_escape_char rb).
Proof. intros H. unfold read_unicode_escape_char, char_from_u32. fmg. Qed.
#[export] Hint Resolve fm_unicode_char : fm.
Lemma fm_string_bytes v T : fm v T read_string_bytes.
Proof. unfold read_string_bytes. fmg. Qed.
#[export] Hint Resolve fm_string_bytes : fm.
Lemma fm_skip_string_loop v T : forall f, fm v T (skip_all_string_bytes_loop f).
Proof. induction f as [|f IH]; cbn [skip_all_string_bytes_loop]; fmg. Qed.
Lemma fm_skip_string v T E : fm v T (skip_all_string_bytes E).
Proof. apply fm_skip_string_loop. Qed.
#[export] Hint Resolve fm_skip_string : fm.

(** the operations on values *)
Lemma fm_vnew T : fm true T value_reader_new. Proof. intros s Hs. split; [reflexivity|exact Hs]. Qed.
Lemma fm_vpeek T : fm true T value_peek. Proof. intros s Hs. split; [reflexivity|]. intros r. destruct r; exact Hs. Qed.
Lemma fm_vconsume T : fm true T value_consume. Proof. intros s Hs. split; [reflexivity|exact Hs]. Qed.
Lemma fm_vprev T : fm true T value_skip_previous. Proof. intros s Hs. split; [reflexivity|exact Hs]. Qed.
Lemma fm_vfinal T : fm true T value_skip_final. Proof. intros s Hs. split; [reflexivity|exact Hs]. Qed.
Lemma fm_vpush T bs : fm true T (value_push bs). Proof. intros s Hs. split; [reflexivity|exact Hs]. Qed.
Lemma fm_vget T b : fm true T (value_get b). Proof. intros s Hs. split; [reflexivity|exact Hs]. Qed.
Lemma fm_vstr_peek T : fm true T value_str_peek. Proof. intros s Hs. split; [reflexivity|]. intros r. exact Hs. Qed.
Lemma fm_vstr T : fm true T value_str. Proof. intros s Hs. split; [reflexivity|]. intros r. exact Hs. Qed.
Lemma fm_vstring T : fm true T value_string. Proof. intros s Hs. split; [reflexivity|]. intros r. exact Hs. Qed.
#[export] Hint Resolve fm_vnew fm_vpeek fm_vconsume fm_vprev fm_vfinal fm_vpush fm_vget fm_vstr_peek fm_vstr fm_vstring : fm.
Lemma fm_vread T k : fm true T (value_read_byte k).
Proof. unfold value_read_byte. fmg. Qed.
#[export] Hint Resolve fm_vread : fm.
Lemma fm_vskipped T k : fm true T (value_read_skipped_byte k).
Proof. unfold value_read_skipped_byte. fmg. Qed.
#[export] Hint Resolve fm_vskipped : fm.
Lemma fm_string_loop T b : forall f, fm true T (read_string_loop f b).
Proof. induction f as [|f IH]; cbn [read_string_loop]; unfold read_string_escape; fmg. Qed.
Lemma fm_string T E b : fm true T (read_string E b).
Proof. unfold read_string. pose proof (fm_string_loop T b (fuel E)). fmg. Qed.
#[export] Hint Resolve fm_string : fm.

(** numbers *)
Lemma fm_run_number v T next : fm v T next -> forall p n, fm v T (run_number next p n).
Proof. intros Hn. induction p as [r|k IH|]; intros n; cbn [run_number]; fmg. Qed.
#[export] Hint Resolve fm_run_number : fm.
Lemma fm_number_next T : fm true T number_next.
Proof. unfold number_next. fmg. Qed.
Lemma fm_number_skip v T : fm v T number_skip_next.
Proof. unfold number_skip_next. fmg. Qed.
#[export] Hint Resolve fm_number_next fm_number_skip : fm.
Lemma fm_number_start v T E : fm v T (number_start E).
Proof. unfold number_start. fmg. Qed.
Lemma fm_number_end v T n : fm v T (number_end_checks n).
Proof. unfold number_end_checks. fmg. Qed.
#[export] Hint Resolve fm_number_start fm_number_end : fm.
Lemma fm_number T E b : fm true T (read_number_bytes E b).
Proof. unfold read_number_bytes. fmg. Qed.
Lemma fm_skip_number v T E : fm v T (skip_number E).
Proof. unfold skip_number. fmg. Qed.
#[export] Hint Resolve fm_number fm_skip_number : fm.

(** ** The methods *)

Lemma fm_peek v T E : fm v T (peek E).
Proof. unfold peek. fmg. Qed.
Lemma fm_begin_array v T E : fm v T (begin_array E).
Proof. unfold begin_array. fmg. Qed.
Lemma fm_end_array v T E : fm v T (end_array E).
Proof. unfold end_array. fmg. Qed.
Lemma fm_begin_object v T E : fm v T (begin_object E).
Proof. unfold begin_object. fmg. Qed.
Lemma fm_end_object v T E : fm v T (end_object E).
Proof. unfold end_object. fmg. Qed.
Lemma fm_has_next v T E : fm v T (has_next E).
Proof. unfold has_next. fmg. Qed.
#[export] Hint Resolve fm_peek fm_begin_array fm_end_array fm_begin_object fm_end_object fm_has_next : fm.
Lemma fm_before_name v T E : fm v T (before_name E).
Proof. unfold before_name. fmg. Qed.
Lemma fm_path_name v T n : fm v T (set_path_name n).
Proof. unfold set_path_name. fmg; apply fm_update; unfold untracked in *; intros ? ? HT; specialize (H HT); congruence. Qed.
#[export] Hint Resolve fm_before_name fm_path_name : fm.
Lemma fm_next_name_owned T E : fm true T (next_name_owned E).
Proof. unfold next_name_owned. fmg. Qed.
Lemma fm_next_name T E : fm true T (next_name E).
Proof. unfold next_name. fmg. Qed.
#[export] Hint Resolve fm_next_name_owned fm_next_name : fm.

(** names are only collected if the path is tracked *)
Definition may_skip (v T : bool) : Prop := v = true \/ T = false.
Lemma fm_skip_name v T E : may_skip v T -> fm v T (skip_name E).
Proof.
  intros H. unfold skip_name. apply fm_bind; [auto with fm|intros ?]. apply fm_get_bind. intros s0 Hs0.
  destruct (json_path s0) eqn:Hp; [|fmg]. destruct H as [->|HT]; [fmg|]. rewrite (Hs0 HT) in Hp. discriminate.
Qed.
#[export] Hint Resolve fm_skip_name : fm.
Lemma fm_bool v T E : fm v T (next_bool E).
Proof. unfold next_bool. fmg. Qed.
Lemma fm_null v T E : fm v T (next_null E).
Proof. unfold next_null. fmg. Qed.
Lemma fm_next_string T E : fm true T (next_string E).
Proof. unfold next_string. fmg. Qed.
Lemma fm_next_str T E : fm true T (next_str E).
Proof. unfold next_str. fmg. Qed.
Lemma fm_number_string T E : fm true T (next_number_as_string E).
Proof. unfold next_number_as_string. fmg. Qed.
Lemma fm_number_str T E : fm true T (next_number_as_str E).
Proof. unfold next_number_as_str. fmg. Qed.
#[export] Hint Resolve fm_bool fm_null fm_next_string fm_next_str fm_number_string fm_number_str : fm.
Lemma fm_skip_start v T E : fm v T (skip_value_start E).
Proof. unfold skip_value_start. fmg. Qed.
Lemma fm_end_container v T E : fm v T (end_container E).
Proof. unfold end_container. fmg. Qed.
#[export] Hint Resolve fm_skip_start fm_end_container : fm.
Lemma fm_skip_loop v T E : may_skip v T -> forall f depth, fm v T (skip_value_loop E f depth).
Proof. intros H. induction f as [|f IH]; intros depth; cbn [skip_value_loop]; fmg. Qed.
Lemma fm_skip_value v T E : may_skip v T -> fm v T (skip_value E).
Proof. intros H. unfold skip_value. pose proof (fm_skip_loop v T E H (fuel E) 0). fmg. Qed.
#[export] Hint Resolve fm_skip_value : fm.
Lemma fm_skip_items v T E : may_skip v T -> forall f, fm v T (skip_items E f).
Proof. intros H. induction f as [|f IH]; cbn [skip_items]; fmg. Qed.
Lemma fm_skip_members v T E : may_skip v T -> forall f, fm v T (skip_members E f).
Proof. intros H. induction f as [|f IH]; cbn [skip_members]; fmg. Qed.
#[export] Hint Resolve fm_skip_items fm_skip_members : fm.
Lemma fm_top_loop v T E : may_skip v T -> forall f, fm v T (skip_to_top_level_loop E f).
Proof. intros H. induction f as [|f IH]; cbn [skip_to_top_level_loop]; fmg. Qed.
Lemma fm_top_level v T E : may_skip v T -> fm v T (skip_to_top_level E).
Proof. intros H. unfold skip_to_top_level. pose proof (fm_top_loop v T E H (fuel E)). fmg. Qed.
#[export] Hint Resolve fm_top_level : fm.
Lemma fm_seek_item v T E index : may_skip v T -> forall f r, fm v T (seek_item E f index r).
Proof. intros H. induction f as [|f IH]; intros r; cbn [seek_item]; fmg. Qed.
Lemma fm_seek_member T E name : forall f, fm true T (seek_member E f name).
Proof. assert (may_skip true T) by (left; reflexivity). induction f as [|f IH]; cbn [seek_member]; fmg. Qed.
#[export] Hint Resolve fm_seek_item fm_seek_member : fm.
Definition names_in (path : list piece) : bool := existsb (fun p => match p with PName _ => true | PIndex _ => false end) path.
Lemma fm_seek_pieces v T E : may_skip v T -> forall path, (v = true \/ names_in path = false) -> fm v T (seek_pieces E path).
Proof.
  intros H. induction path as [|[i|n] path IH]; cbn [seek_pieces names_in existsb orb]; intros Hn.
  - fmg.
  - specialize (IH Hn). fmg.
  - destruct Hn as [->|Hn]; [|discriminate]. specialize (IH (or_introl eq_refl)). fmg.
Qed.
Lemma fm_seek_to v T E path : may_skip v T -> (v = true \/ names_in path = false) -> fm v T (seek_to E path).
Proof. intros H Hn. unfold seek_to. pose proof (fm_seek_pieces v T E H path Hn). fmg. Qed.
Lemma fm_seek_back v T E path : may_skip v T -> fm v T (seek_back E path).
Proof. intros H. unfold seek_back. induction (rev path) as [|[i|n] p IH]; cbn [seek_back_pieces]; fmg. Qed.
Lemma fm_trailing v T E : fm v T (consume_trailing_whitespace E).
Proof. unfold consume_trailing_whitespace. fmg. Qed.
Lemma fm_string_reader v T E : fm v T (next_string_reader E).
Proof. unfold next_string_reader. fmg. Qed.
#[export] Hint Resolve fm_seek_to fm_seek_back fm_trailing fm_string_reader fm_catch : fm.
Lemma fm_sv_loop v T len : forall f out sv, fm v T (sv_read_loop f len out sv).
Proof.
  induction f as [|f IH]; intros out sv; cbn [sv_read_loop]; destruct (Nat.ltb _ _); fmg.
Qed.
#[export] Hint Resolve fm_sv_loop : fm.
Lemma fm_sv_read v T E len sv : fm v T (sv_read E len sv).
Proof. unfold sv_read, sv_read_impl. fmg. Qed.
#[export] Hint Resolve fm_sv_read : fm.
