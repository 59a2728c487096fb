(** * The cost of the functions of the reader

    Auxiliary: a token which was peeked holds credits for its consumption. *)

From Coq Require Import ZArith.
From Verif Require Import Base Utf8Model NumberModel SourceModel SourceProofs ReaderModel SpecCost CostProofs.
Local Open Scope Z_scope.

Definition W : Z := 18.

Definition w (s : rstate) : Z :=
  match peeked s with None | Some PkNumberStart => 0 | Some _ => W end.

(** [m], run in the state [s], costs at most [F] if it fails; otherwise its
    result, the new state and the cost satisfy [Q] *)
Definition spends {A : Type} (m : M A) (s : rstate) (F : Z) (Q : A -> rstate -> Z -> Prop) : Prop :=
  forall n, bound (m s) n (fun rs n' =>
    match rs with
    | (Ok a, s') => Q a s' ((n - w s) - (n' - w s'))
    | (_, s') => (n - w s) - (n' - w s') <= F
    end).

Lemma spends_bind {A B : Type} (m : M A) (f : A -> M B) s F1 F Q1 Q : spends m s F1 Q1 -> F1 <= F ->
  (forall a s' c, Q1 a s' c -> spends (f a) s' (F - c) (fun b s'' c' => Q b s'' (c + c'))) ->
  spends (bind m f) s F Q.
Proof.
  intros Hm HF Hf n. unfold bind. apply bound_pbind. eapply bound_impl; [apply Hm|].
  intros [[a|e|k|] s'] n' H; cbv beta iota zeta in H.
  - eapply bound_impl; [apply (Hf _ _ _ H)|]. intros [[b|e|k|] s''] n'' H2; cbv beta iota zeta in H2; [|lia..].
    match type of H2 with Q _ _ ?x => match goal with |- Q _ _ ?y => replace y with x by lia end end. exact H2.
  - cbn [bound]. lia.
  - cbn [bound]. lia.
  - cbn [bound]. lia.
Qed.

Lemma spends_weak {A : Type} (m : M A) s F1 F (Q1 Q : A -> rstate -> Z -> Prop) : spends m s F1 Q1 -> F1 <= F ->
  (forall a s' c, Q1 a s' c -> Q a s' c) -> spends m s F Q.
Proof.
  intros Hm HF HQ n. eapply bound_impl; [apply Hm|]. intros [[a|e|k|] s'] n' H; cbv beta iota zeta in H; auto; lia.
Qed.

Lemma spends_ret {A : Type} (a : A) s F (Q : A -> rstate -> Z -> Prop) : Q a s 0 -> spends (ret a) s F Q.
Proof. intros H n. cbn [ret bound]. replace (n - w s - (n - w s)) with 0 by lia. exact H. Qed.
Lemma spends_get s F (Q : rstate -> rstate -> Z -> Prop) : Q s s 0 -> spends get_state s F Q.
Proof. intros H n. cbn [get_state bound]. replace (n - w s - (n - w s)) with 0 by lia. exact H. Qed.
Lemma spends_update f s F (Q : unit -> rstate -> Z -> Prop) : Q tt (f s) (w (f s) - w s) -> spends (update f) s F Q.
Proof. intros H n. cbn [update bound]. replace (n - w s - (n - w (f s))) with (w (f s) - w s) by lia. exact H. Qed.
Lemma spends_fail {A : Type} e s F (Q : A -> rstate -> Z -> Prop) : 0 <= F -> spends (fail e) s F Q.
Proof. intros H n. cbn [fail bound]. lia. Qed.
Lemma spends_syntax {A : Type} k s F (Q : A -> rstate -> Z -> Prop) : 0 <= F -> spends (syntax_err k) s F Q.
Proof. apply spends_fail. Qed.
Lemma spends_structure {A : Type} k s F (Q : A -> rstate -> Z -> Prop) : 0 <= F -> spends (structure_err k) s F Q.
Proof. apply spends_fail. Qed.
Lemma spends_panics {A : Type} k s F (Q : A -> rstate -> Z -> Prop) : 0 <= F -> spends (panics k) s F Q.
Proof. intros H n. cbn [panics bound]. lia. Qed.
Lemma spends_no_fuel {A : Type} s F (Q : A -> rstate -> Z -> Prop) : 0 <= F -> spends no_fuel s F Q.
Proof. intros H n. cbn [no_fuel bound]. lia. Qed.
Lemma spends_misuse_if b s F (Q : unit -> rstate -> Z -> Prop) : 0 <= F -> Q tt s 0 -> spends (misuse_if b) s F Q.
Proof. intros H HQ. destruct b; [apply spends_panics; exact H|apply spends_ret; exact HQ]. Qed.

(** Functions which do not concern the peeked token: they cost at most [F], and
    [C] if they succeed *)
Definition plain_cost {A : Type} (F C : Z) (m : M A) : Prop :=
  forall s, spends m s F (fun _ s' c => peeked s' = peeked s /\ c <= C).

Lemma plain_weak {A : Type} F C F' C' (m : M A) : plain_cost F C m -> F <= F' -> C <= C' -> plain_cost F' C' m.
Proof. intros H HF HC s. eapply spends_weak; [apply H|exact HF|]. intros a s' c [H1 H2]. split; [exact H1|lia]. Qed.

Lemma plain_bind {A B : Type} F1 C1 F C C2 F2 (m : M A) (f : A -> M B) : plain_cost F1 C1 m ->
  (forall a, plain_cost F2 C2 (f a)) -> F1 <= F -> C1 + F2 <= F -> C1 + C2 <= C -> plain_cost F C (bind m f).
Proof.
  intros Hm Hf H1 H2 H3 s. eapply spends_bind; [apply Hm|lia|]. intros a s' c [Hp Hc].
  eapply spends_weak; [apply Hf|lia|]. intros b s'' c' [Hp' Hc']. split; [congruence|lia].
Qed.
Lemma plain_ret {A : Type} (a : A) F C : 0 <= C -> plain_cost F C (ret a).
Proof. intros H s. apply spends_ret. auto. Qed.
Lemma plain_syntax {A : Type} k F C : 0 <= F -> plain_cost (A := A) F C (syntax_err k).
Proof. intros H s. apply spends_syntax. exact H. Qed.
Lemma plain_fail {A : Type} k F C : 0 <= F -> plain_cost (A := A) F C (fail k).
Proof. intros H s. apply spends_fail. exact H. Qed.
Lemma plain_panics {A : Type} k F C : 0 <= F -> plain_cost (A := A) F C (panics k).
Proof. intros H s. apply spends_panics. exact H. Qed.
Lemma plain_no_fuel {A : Type} F C : 0 <= F -> plain_cost (A := A) F C no_fuel.
Proof. intros H s. apply spends_no_fuel. exact H. Qed.
Lemma plain_update f F C : 0 <= C -> (forall s, peeked (f s) = peeked s) -> plain_cost F C (update f).
Proof. intros H Hf s. apply spends_update. split; [apply Hf|]. unfold w. rewrite Hf. lia. Qed.
Lemma plain_get F C : 0 <= C -> plain_cost F C get_state.
Proof. intros H s. apply spends_get. auto. Qed.

Ltac op_cost := intros s n; cbn [bound]; intros; cbv beta iota zeta; try lia; try (split; [reflexivity|unfold K in *; lia]).

Lemma cost_peek_byte : plain_cost 1 1 peek_byte.
Proof. intros s n. cbn. intros [e| |b]; cbn [bound from_peek]; [lia|split; [reflexivity|lia]..]. Qed.
Lemma cost_skip_byte : plain_cost 0 (1 - K) skip_peeked_byte.
Proof. op_cost. Qed.
Lemma cost_value_new : plain_cost 0 1 value_reader_new.
Proof. op_cost. Qed.
Lemma cost_value_peek : plain_cost 1 1 value_peek.
Proof. intros s n. cbn. intros [e| |b]; cbn [bound from_peek]; [lia|split; [reflexivity|lia]..]. Qed.
Lemma cost_value_consume : plain_cost 0 (1 - K) value_consume.
Proof. op_cost. Qed.
Lemma cost_value_skip_previous : plain_cost 0 1 value_skip_previous.
Proof. op_cost. Qed.
Lemma cost_value_skip_final : plain_cost 0 1 value_skip_final.
Proof. op_cost. Qed.
Lemma cost_value_push bs : plain_cost 0 1 (value_push bs).
Proof. op_cost. Qed.
Lemma cost_value_get b : plain_cost 0 1 (value_get b).
Proof. op_cost. Qed.
Lemma cost_value_str_peek : plain_cost 0 1 value_str_peek.
Proof. op_cost. Qed.
Lemma cost_value_str : plain_cost 0 1 value_str.
Proof. op_cost. Qed.
Lemma cost_value_string : plain_cost 0 1 value_string.
Proof. op_cost. Qed.

Ltac ar := unfold K, W in *; lia.
Ltac clear_unit := repeat match goal with u : unit |- _ => clear u end.
Ltac obyte := match goal with ob : option byte |- context [match ?x with _ => _ end] => constr_eq ob x; destruct ob as [?|] end.
(** a step: the cost of the first part is given *)
Ltac pb H F2 C2 := eapply (plain_bind _ _ _ _ C2 F2); [apply H|intros ?; clear_unit|ar|ar|ar].
Ltac pu := eapply (plain_bind 0 0); [apply plain_update; [lia|reflexivity]|intros ?|ar|ar|ar].

Lemma cost_read_byte k : plain_cost 1 (2 - K) (read_byte k).
Proof.
  unfold read_byte. pb cost_peek_byte 0 (1 - K). obyte; [|apply plain_syntax; lia].
  pb cost_skip_byte 0 0. apply plain_ret. lia.
Qed.
Lemma cost_value_read_byte k : plain_cost 1 (2 - K) (value_read_byte k).
Proof.
  unfold value_read_byte. pb cost_value_peek 0 (1 - K). obyte; [|apply plain_syntax; lia].
  pb cost_value_consume 0 0. apply plain_ret. lia.
Qed.
Lemma cost_value_read_skipped k : plain_cost 1 (3 - K) (value_read_skipped_byte k).
Proof.
  unfold value_read_skipped_byte. pb (cost_value_read_byte k) 1 1. pb cost_value_skip_previous 0 0. apply plain_ret. lia.
Qed.

(** A function which reads a byte *)
Definition reads_byte (rb : syntax_error -> M byte) : Prop := forall k, plain_cost 1 (3 - K) (rb k).

Lemma reads_read_byte : reads_byte read_byte.
Proof. intros k. eapply plain_weak; [apply cost_read_byte|lia|lia]. Qed.
Lemma reads_value_read_byte : reads_byte value_read_byte.
Proof. intros k. eapply plain_weak; [apply cost_value_read_byte|lia|lia]. Qed.
Lemma reads_value_read_skipped : reads_byte value_read_skipped_byte.
Proof. exact cost_value_read_skipped. Qed.

Ltac pif := match goal with |- plain_cost _ _ (if ?b then _ else _) => destruct b end.
Ltac pdone := first [apply plain_syntax; ar|apply plain_fail; ar|apply plain_ret; ar|apply plain_panics; ar|apply plain_no_fuel; ar].

Lemma cost_multibyte rb b : reads_byte rb -> plain_cost 1 (3 - K) (read_utf8_multibyte rb b).
Proof.
  intros H. unfold read_utf8_multibyte. pb (H IncompleteDocument) 1 0. pif; [pdone|]. pif; [pif; pdone|].
  pb (H IncompleteDocument) 1 0. pif; [pdone|]. pif; [pif; pdone|]. pif; [|pdone].
  pb (H IncompleteDocument) 1 0. pif; [pdone|]. pif; pdone.
Qed.

Lemma cost_hex rb : reads_byte rb -> plain_cost 1 (3 - K) (read_hex_byte rb).
Proof. intros H. unfold read_hex_byte. pb (H MalformedEscapeSequence) 0 0. destruct (hex_digit a); pdone. Qed.
Lemma cost_unicode_escape rb : reads_byte rb -> plain_cost 1 (3 - K) (read_unicode_escape rb).
Proof.
  intros H. unfold read_unicode_escape. pb (cost_hex rb H) 1 0. pb (cost_hex rb H) 1 0. pb (cost_hex rb H) 1 0.
  pb (cost_hex rb H) 0 0. pdone.
Qed.
Lemma cost_unicode_char rb : reads_byte rb -> plain_cost 1 (3 - K) (read_unicode_escape_char rb).
Proof.
  intros H. assert (Hc : forall c, plain_cost 0 0 (char_from_u32 c)) by (intros c; unfold char_from_u32; pif; pdone).
  unfold read_unicode_escape_char. pb (cost_unicode_escape rb H) 1 0. pif; [pdone|]. pif.
  - pb (H UnpairedSurrogatePairEscapeSequence) 1 0. pif; [pdone|].
    pb (H UnpairedSurrogatePairEscapeSequence) 1 0. pif; [pdone|].
    pb (cost_unicode_escape rb H) 0 0. pif; [pdone|].
    eapply (plain_bind 0 0 _ _ 0 0); [apply Hc|intros ?; pdone|lia..].
  - eapply (plain_bind 0 0 _ _ 0 0); [apply Hc|intros ?; pdone|lia..].
Qed.

Lemma cost_skip_to_loop stop k : forall f cr, plain_cost 1 1 (skip_to_loop f stop k cr).
Proof.
  induction f as [|f IH]; intros cr; cbn [skip_to_loop]; [pdone|].
  pb cost_peek_byte 0 0. obyte; [|destruct k; pdone]. pif; [pdone|]. pif; [pdone|].
  pb cost_skip_byte 2 2. eapply (plain_bind 1 0 _ _ 1 1); [|intros ?; apply IH|ar..].
  pif; [apply plain_update; [lia|intros s; destruct cr; reflexivity]|].
  pif; [apply plain_update; [lia|reflexivity]|]. pif; [apply plain_update; [lia|reflexivity]|].
  eapply (plain_bind 1 (3 - K) _ _ 0 0); [apply cost_multibyte, reads_read_byte|intros ?; apply plain_update; [lia|reflexivity]|ar..].
Qed.
Lemma cost_skip_to E stop k : plain_cost 1 1 (skip_to E stop k).
Proof. apply cost_skip_to_loop. Qed.

Lemma cost_block_comment_loop E : forall f, plain_cost 1 0 (skip_to_block_comment_end_loop E f).
Proof.
  induction f as [|f IH]; cbn [skip_to_block_comment_end_loop]; [pdone|].
  pb (cost_skip_to E (fun b => N.eqb b B_STAR) (Some BlockCommentNotClosed)) 0 (-1).
  eapply (plain_bind 0 0 _ _ (-1) 0); [apply plain_update; [lia|reflexivity]|intros ?; clear_unit|lia..].
  pb cost_skip_byte 2 2. pb cost_peek_byte 1 0. obyte; [|pdone]. pif; [|exact IH].
  pb cost_skip_byte 0 0. apply plain_update; [lia|reflexivity].
Qed.
Lemma cost_block_comment E : plain_cost 1 0 (skip_to_block_comment_end E).
Proof. apply cost_block_comment_loop. Qed.

Lemma cost_eof k : plain_cost 0 0 (eof_result k).
Proof. destruct k; pdone. Qed.

Lemma cost_ws_loop E k : forall f, plain_cost 2 2 (skip_whitespace_loop E f k).
Proof.
  induction f as [|f IH]; cbn [skip_whitespace_loop]; [pdone|].
  pb (cost_skip_to E (fun b => negb (is_ws b)) None) 1 1. pb cost_peek_byte 0 0. obyte.
  2:{ pb (cost_eof k) 0 0. pdone. }
  pif; [|pdone]. pif; [pdone|]. pb cost_skip_byte 3 3.
  eapply (plain_bind 0 0 _ _ 3 3); [apply plain_update; [lia|reflexivity]|intros ?; clear_unit|lia..].
  pb (cost_read_byte IncompleteComment) 3 3. pif.
  - eapply (plain_bind 0 0 _ _ 3 3); [apply plain_update; [lia|reflexivity]|intros ?; clear_unit|lia..].
    pb (cost_block_comment E) 2 2. exact IH.
  - pif; [|pdone]. eapply (plain_bind 0 0 _ _ 3 3); [apply plain_update; [lia|reflexivity]|intros ?; clear_unit|lia..].
    unfold skip_to_line_comment_end. pb (cost_skip_to E (fun b => N.eqb b B_LF || N.eqb b B_CR)%bool k) 2 2. exact IH.
Qed.
Lemma cost_ws E k : plain_cost 2 2 (skip_whitespace E k).
Proof. apply cost_ws_loop. Qed.
Lemma cost_ws_no_eof E k : plain_cost 2 2 (skip_whitespace_no_eof E k).
Proof. unfold skip_whitespace_no_eof. pb (cost_ws E (Some k)) 0 0. destruct a; pdone. Qed.

Lemma cost_separator k : plain_cost 1 1 (verify_next_separator k).
Proof.
  unfold verify_next_separator. pb cost_peek_byte 0 0. obyte; [|pdone].
  unfold verify_value_separator. pif; pdone.
Qed.

Lemma cost_literal_any l : plain_cost 1 1 (consume_literal l).
Proof.
  induction l as [|e l IH]; cbn [consume_literal]; [apply cost_separator|].
  pb (cost_read_byte InvalidLiteral) 1 1. pif; [pdone|exact IH].
Qed.
Lemma cost_literal e l : plain_cost 1 (3 - K) (consume_literal (e :: l)).
Proof.
  cbn [consume_literal]. pb (cost_read_byte InvalidLiteral) 1 1. pif; [pdone|apply cost_literal_any].
Qed.

Lemma cost_after_name E : plain_cost 2 0 (after_name E).
Proof.
  unfold after_name. pb (cost_ws_no_eof E MissingColon) 0 (-2). pif; [|pdone].
  pb cost_skip_byte 0 0. apply plain_update; [lia|reflexivity].
Qed.

(** ** Strings *)

Lemma cost_string_bytes : plain_cost 1 (2 - K) read_string_bytes.
Proof.
  unfold read_string_bytes. pb (cost_read_byte IncompleteDocument) 1 0. pif.
  - pb (cost_read_byte MalformedEscapeSequence) 1 0. pif.
    { eapply (plain_bind 0 0 _ _ 0 0); [apply plain_update; [lia|reflexivity]|intros ?; pdone|lia..]. }
    destruct (escape_replacement a0).
    { eapply (plain_bind 0 0 _ _ 0 0); [apply plain_update; [lia|reflexivity]|intros ?; pdone|lia..]. }
    pif; [|pdone].
    eapply (plain_bind 1 (3 - K) _ _ 0 0); [apply cost_unicode_char, reads_read_byte|intros ?; clear_unit|ar..].
    eapply (plain_bind 0 0 _ _ 0 0); [apply plain_update; [lia|reflexivity]|intros ?; pdone|lia..].
  - pif. { eapply (plain_bind 0 0 _ _ 0 0); [apply plain_update; [lia|reflexivity]|intros ?; pdone|lia..]. }
    pif; [pdone|].
    pif. { eapply (plain_bind 0 0 _ _ 0 0); [apply plain_update; [lia|reflexivity]|intros ?; pdone|lia..]. }
    eapply (plain_bind 1 (3 - K) _ _ 0 0); [apply cost_multibyte, reads_read_byte|intros ?; clear_unit|ar..].
    eapply (plain_bind 0 0 _ _ 0 0); [apply plain_update; [lia|reflexivity]|intros ?; pdone|lia..].
Qed.

Lemma cost_skip_string E : plain_cost 1 (2 - K) (skip_all_string_bytes E).
Proof.
  unfold skip_all_string_bytes. induction (fuel E) as [|f IH]; cbn [skip_all_string_bytes_loop]; [pdone|].
  pb cost_string_bytes 1 0. pif; [pdone|]. eapply plain_weak; [exact IH|ar|ar].
Qed.

Lemma cost_escape : plain_cost 2 0 read_string_escape.
Proof.
  unfold read_string_escape. pb cost_value_skip_previous 1 (-1). pb (cost_value_read_byte MalformedEscapeSequence) 4 4.
  eapply (plain_bind 3 3 _ _ 0 0); [|intros ?; apply plain_update; [lia|reflexivity]|lia..].
  pif; [pdone|]. destruct (escape_replacement a).
  - pb cost_value_skip_previous 0 1. eapply plain_weak; [apply cost_value_push|lia|lia].
  - pif; [|pdone]. pb cost_value_skip_previous 2 2.
    eapply (plain_bind 1 (3 - K) _ _ 1 1); [apply cost_unicode_char, reads_value_read_skipped|intros ?; clear_unit|ar..].
    eapply (plain_bind 0 0 _ _ 1 0); [apply plain_update; [lia|reflexivity]|intros ?; apply cost_value_push|lia..].
Qed.

Lemma cost_string_loop b : forall f, plain_cost 1 (4 - K) (read_string_loop f b).
Proof.
  induction f as [|f IH]; cbn [read_string_loop]; [pdone|].
  pb (cost_value_read_byte IncompleteDocument) 2 2. pif.
  { pb cost_escape 2 2. eapply plain_weak; [exact IH|ar|ar]. }
  pif.
  { eapply (plain_bind 0 0 _ _ 2 2); [apply plain_update; [lia|reflexivity]|intros ?; clear_unit|lia..].
    pb cost_value_skip_final 1 1. eapply plain_weak; [apply cost_value_get|ar|ar]. }
  pif; [pdone|]. pif.
  { eapply (plain_bind 0 0 _ _ 2 2); [apply plain_update; [lia|reflexivity]|intros ?; clear_unit|lia..].
    eapply plain_weak; [exact IH|ar|ar]. }
  eapply (plain_bind 1 (3 - K) _ _ 2 2); [apply cost_multibyte, reads_value_read_byte|intros ?; clear_unit|ar..].
  eapply (plain_bind 0 0 _ _ 2 2); [apply plain_update; [lia|reflexivity]|intros ?; clear_unit|lia..].
  eapply plain_weak; [exact IH|ar|ar].
Qed.
Lemma cost_string E b : plain_cost 2 (5 - K) (read_string E b).
Proof. unfold read_string. pb cost_value_new 1 (4 - K). apply cost_string_loop. Qed.

(** ** Numbers *)

Definition pays_number (next : M (option byte)) : Prop := plain_cost 1 (2 - K) next.

Lemma pays_number_next : pays_number number_next.
Proof. unfold pays_number, number_next. pb cost_value_consume (K) 1. eapply plain_weak; [apply cost_value_peek|ar|ar]. Qed.
Lemma pays_number_skip : pays_number number_skip_next.
Proof. unfold pays_number, number_skip_next. pb cost_skip_byte K 1. eapply plain_weak; [apply cost_peek_byte|ar|ar]. Qed.

Lemma cost_run_any next p : pays_number next -> forall n, plain_cost 1 0 (run_number next p n).
Proof.
  intros H. induction p as [r|k IH|]; intros n; cbn [run_number]; [pdone| |pdone].
  pb H 1 0. apply IH.
Qed.

Definition is_some_number (rc : option N * N) : Prop := fst rc <> None.

Lemma cost_number next f b : pays_number next -> forall s,
  spends (run_number next (consume_json_number f b) 0) s 1
    (fun rc s' c => peeked s' = peeked s /\ c <= 0 /\ (fst rc <> None -> c <= 2 - K)).
Proof.
  intros H s.
  assert (Hnone : forall n, spends (run_number next (NRet None) n) s 1 (fun rc s' c => peeked s' = peeked s /\ c <= 0 /\ (fst rc <> None -> c <= 2 - K))).
  { intros n. cbn [run_number]. apply spends_ret. split; [reflexivity|]. split; [lia|]. intros []. reflexivity. }
  assert (Hnext : forall k n, spends (run_number next (NNext k) n) s 1 (fun rc s' c => peeked s' = peeked s /\ c <= 0 /\ (fst rc <> None -> c <= 2 - K))).
  { intros k n. cbn [run_number]. eapply spends_bind; [apply H|lia|]. intros ob s' c [Hp Hc]. cbv beta in *.
    eapply spends_weak; [apply (cost_run_any next (k ob) H)|ar|]. intros rc s2 c2 [Hp2 Hc2]. split; [congruence|]. split; [ar|intros _; ar]. }
  assert (Hfuel : forall n, spends (run_number next NFuel n) s 1 (fun rc s' c => peeked s' = peeked s /\ c <= 0 /\ (fst rc <> None -> c <= 2 - K))).
  { intros n. cbn [run_number]. apply spends_no_fuel. lia. }
  unfold consume_json_number. destruct (N.eqb b B_MINUS); [apply Hnext|]. unfold integer_part.
  destruct (is_digit19 b).
  - destruct f; cbn [digits_loop]; [apply Hfuel|apply Hnext].
  - destruct (N.eqb b B_0); [apply Hnext|apply Hnone].
Qed.

(** ** Peeking *)

Lemma w_nonneg s : 0 <= w s <= W.
Proof. unfold w. destruct (peeked s) as [[]|]; ar. Qed.
Lemma w_none s : peeked s = None -> w s = 0.
Proof. unfold w. intros ->. reflexivity. Qed.

(** The cost of the token itself *)
Definition token_cost (p : peeked_value) (adv : bool) (c : Z) : Prop :=
  if adv then p <> PkNumberStart /\ c <= 0
  else match p with PkNumberStart => c <= 0 | _ => c <= 3 - K end.

Lemma cost_peek_token s0 b s :
  spends (peek_token s0 b) s 1 (fun pa s' c => peeked s' = peeked s /\ token_cost (fst pa) (snd pa) c).
Proof.
  unfold peek_token.
  repeat match goal with
  | |- spends (if ?x then _ else _) _ _ _ => destruct x
  | |- spends (syntax_err _) _ _ _ => apply spends_syntax; lia
  | |- spends (ret _) _ _ _ => apply spends_ret; cbn; repeat split; try discriminate; lia
  end.
  all: eapply spends_bind; [apply cost_literal|lia|]; intros [] s' c [Hp Hc]; apply spends_ret; cbn; split; [exact Hp|ar].
Qed.

Lemma cost_finish_peek E cc comma p adv s c0 : peeked s = None -> token_cost p adv c0 ->
  spends (finish_peek E cc comma p adv) s 0 (fun op s' c => c0 + c <= 0 /\ forall q, op = Some q -> peeked s' = Some q).
Proof.
  intros Hs Ht. unfold finish_peek.
  assert (H1 : forall F : Z, 0 <= F -> spends (if is_end_token p then
     match comma with
     | Some (l, c, b) =>
       if negb (allow_trailing_comma (cfg E))
       then update (set_position l c b) ;; syntax_err TrailingCommaNotEnabled
       else ret tt
     | None => ret tt
     end
   else
     match comma with
     | None => if cc then syntax_err MissingComma else ret tt
     | Some _ => ret tt
     end) s F (fun _ s' c => s' = s /\ c = 0)).
  { intros F HF. destruct (is_end_token p); destruct comma as [[[l c] b]|].
    - destruct (negb _); [|apply spends_ret; auto]. eapply spends_bind; [apply (spends_update _ _ F (fun _ s' c => c = 0)); unfold w; cbn; lia|lia|].
      intros ? s' c1 ->. apply spends_syntax. lia.
    - apply spends_ret. auto.
    - apply spends_ret. auto.
    - destruct cc; [apply spends_syntax; exact HF|apply spends_ret; auto]. }
  eapply spends_bind; [apply (H1 0); lia|lia|]. intros [] s1 c1 [-> ->]. clear H1.
  eapply (spends_bind _ _ _ 0 _ (fun _ s' c => peeked s' = None /\ c = if adv then 1 - K else 0)).
  { destruct adv; [|apply spends_ret; auto]. intros n. cbn [skip_peeked_byte bound]. split; [exact Hs|]. lia. }
  { lia. }
  intros [] s2 c2 [Hs2 ->].
  eapply (spends_bind _ _ _ 0 _ (fun _ s' c => peeked s' = Some p /\ c = w (set_peeked (Some p) s2))).
  { apply spends_update. split; [reflexivity|]. rewrite (w_none _ Hs2). lia. }
  { destruct adv; ar. }
  intros [] s3 c3 [Hs3 ->]. apply spends_ret. split; [|intros q [= <-]; exact Hs3].
  unfold token_cost in Ht. unfold w. cbn [peeked set_peeked]. destruct adv; [destruct Ht as [Hn Ht]|]; destruct p; try congruence; ar.
Qed.

Lemma cost_peek_after_ws E b s : peeked s = None ->
  spends (peek_after_ws E b) s 1 (fun op s' c => c <= 0 /\ forall q, op = Some q -> peeked s' = Some q).
Proof.
  intros Hs. unfold peek_after_ws. eapply (spends_bind _ _ _ 0 _ (fun s1 s' c => s1 = s /\ s' = s /\ c = 0)); [apply spends_get; auto|lia|].
  intros s1 s2 c (-> & -> & ->). destruct (N.eqb b B_COMMA).
  - destruct (negb _); [apply spends_syntax; lia|].
    eapply spends_bind; [apply cost_skip_byte|lia|]. intros [] s3 c3 [Hp3 Hc3].
    eapply (spends_bind _ _ _ 0 _ (fun _ s' c => peeked s' = None /\ c = 0)).
    { apply spends_update. split; [cbn; congruence|]. unfold w. cbn. lia. }
    { ar. }
    intros [] s4 c4 [Hp4 ->]. eapply spends_bind; [apply cost_ws_no_eof|ar|]. intros b' s5 c5 [Hp5 Hc5].
    eapply spends_bind; [apply cost_peek_token|ar|]. intros pa s6 c6 [Hp6 Hc6].
    eapply spends_weak; [apply (cost_finish_peek _ _ _ _ _ _ c6); [congruence|exact Hc6]| |].
    + unfold token_cost in Hc6. destruct (snd pa), (fst pa); ar.
    + intros op s7 c7 [Hc7 Hq]. split; [ar|exact Hq].
  - eapply spends_bind; [apply cost_peek_token|ar|]. intros pa s6 c6 [Hp6 Hc6].
    eapply spends_weak; [apply (cost_finish_peek _ _ _ _ _ _ c6); [congruence|exact Hc6]| |].
    + unfold token_cost in Hc6. destruct (snd pa), (fst pa); ar.
    + intros op s7 c7 [Hc7 Hq]. split; [ar|exact Hq].
Qed.

Lemma cost_peek_optional E s : spends (peek_internal_optional E) s 3
  (fun op s' c => c <= 2 /\ forall q, op = Some q -> peeked s' = Some q).
Proof.
  unfold peek_internal_optional. eapply (spends_bind _ _ _ 0 _ (fun s1 s' c => s1 = s /\ s' = s /\ c = 0)); [apply spends_get; auto|lia|].
  intros ? ? ? (-> & -> & ->). eapply (spends_bind _ _ _ 0 _ (fun _ s' c => s' = s /\ c = 0)); [apply spends_misuse_if; [lia|auto]|lia|].
  intros [] ? ? [-> ->]. destruct (peeked s) as [p|] eqn:Ep; [apply spends_ret; split; [lia|]; intros q [= <-]; exact Ep|].
  eapply (spends_bind _ _ _ 0 _ (fun _ s' c => s' = s /\ c = 0)); [apply spends_misuse_if; [lia|auto]|lia|].
  intros [] ? ? [-> ->].
  eapply (spends_bind _ _ _ 2 _ (fun _ s' c => peeked s' = None /\ c <= 0)).
  { destruct (expects_member_value s); [|apply spends_ret; auto with zarith].
    eapply spends_weak; [apply cost_after_name|lia|]. intros a s1 c [H1 H2]. split; [congruence|exact H2]. }
  { lia. }
  intros [] s1 c1 (Hp1 & Hc1). eapply spends_bind; [apply cost_ws|lia|]. intros ob s2 c2 [Hp2 Hc2].
  destruct ob as [b|].
  - eapply spends_weak; [apply cost_peek_after_ws; congruence|lia|]. intros op s3 c3 [Hc3 Hq]. split; [lia|exact Hq].
  - apply spends_ret. split; [lia|discriminate].
Qed.

Lemma cost_peek_internal E s : spends (peek_internal E) s 3 (fun p s' c => c <= 2 /\ peeked s' = Some p).
Proof.
  unfold peek_internal. eapply spends_bind; [apply cost_peek_optional|lia|]. intros [p|] s1 c1 [Hc Hq].
  - apply spends_ret. split; [lia|apply Hq; reflexivity].
  - eapply (spends_bind _ _ _ 0 _ (fun _ s' c => c = 0)); [apply spends_get; reflexivity|lia|]. intros s2 s3 c ->.
    destruct (_ && _)%bool; [apply spends_structure; lia|apply spends_syntax; lia].
Qed.

Lemma cost_map_peeked p s : spends (map_peeked p) s 0
  (fun t s' c => s' = s /\ c = 0 /\ (t = TNumber <-> p = PkNumberStart)).
Proof.
  unfold map_peeked. destruct p;
    first [apply spends_panics; lia|apply spends_structure; lia|apply spends_ret; repeat split; try discriminate; auto].
Qed.

Lemma cost_consume_peeked s p : peeked s = Some p ->
  spends consume_peeked s 0 (fun _ s' c => peeked s' = None /\ c = match p with PkNumberStart => 0 | _ => - W end).
Proof.
  intros Hp. unfold consume_peeked. eapply (spends_bind _ _ _ 0 _ (fun s1 s' c => s1 = s /\ s' = s /\ c = 0)); [apply spends_get; auto|lia|].
  intros ? ? ? (-> & -> & ->). rewrite Hp. apply spends_update. split; [reflexivity|].
  unfold w. cbn [peeked advance set_position set_peeked]. rewrite Hp. destruct p; lia.
Qed.

(** ** Values *)

Lemma cost_start E t d s : spends (start_expected_value_type E t d) s 3
  (fun p s' c => peeked s' = None /\ c <= match t with TNumber => 2 | _ => 2 - W end).
Proof.
  unfold start_expected_value_type. eapply (spends_bind _ _ _ 0 _ (fun _ s' c => s' = s /\ c = 0)); [apply spends_get; auto|lia|].
  intros ? ? ? [-> ->]. eapply (spends_bind _ _ _ 0 _ (fun _ s' c => s' = s /\ c = 0)); [apply spends_misuse_if; [lia|auto]|lia|].
  intros [] ? ? [-> ->]. eapply spends_bind; [apply cost_peek_internal|lia|]. intros p s3 c3 [Hc3 Hp3].
  eapply spends_bind; [apply cost_map_peeked|lia|]. intros ty s4 c4 (-> & -> & Ht).
  destruct (value_type_eqb ty t) eqn:Et; [|apply spends_fail; lia].
  eapply (spends_bind _ _ _ 0 _ (fun _ s' c => s' = s3 /\ c = 0)); [apply spends_get; auto|lia|].
  intros s5 s6 c6 [-> ->]. destruct (if d then _ else _); [apply spends_fail; lia|].
  eapply spends_bind; [apply (cost_consume_peeked _ _ Hp3)|lia|]. intros [] s7 c7 [Hp7 ->]. apply spends_ret. split; [exact Hp7|].
  assert (ty = t) as -> by (destruct ty, t; try discriminate; reflexivity).
  destruct t, p; try lia; destruct Ht as [Ht1 Ht2]; try (discriminate (Ht2 eq_refl)); ar.
Qed.

Lemma cost_on_value_end : plain_cost 0 0 on_value_end.
Proof.
  unfold on_value_end. eapply (plain_bind 0 0 _ _ 0 0); [apply plain_get; lia|intros s|lia..].
  eapply (plain_bind 0 0 _ _ 0 0); [|intros ?; apply plain_update; [lia|intros s1; cbn; destruct (is_in_object s1); reflexivity]|lia..].
  destruct (is_in_array s); [|pdone]. destruct (json_path s) as [[|[i|n] l]|]; [pdone| |pdone..].
  apply plain_update; [lia|reflexivity].
Qed.
Lemma cost_on_container_end : plain_cost 0 0 on_container_end.
Proof.
  unfold on_container_end. eapply (plain_bind 0 0 _ _ 0 0); [apply plain_update; [lia|reflexivity]|intros ?; apply cost_on_value_end|lia..].
Qed.

(** [m] costs at most [F], and at most [C] if it succeeds *)
Definition costs {A : Type} (F C : Z) (m : M A) : Prop := forall s, spends m s F (fun _ _ c => c <= C).

Lemma costs_weak {A : Type} F C F' C' (m : M A) : costs F C m -> F <= F' -> C <= C' -> costs F' C' m.
Proof. intros H HF HC s. eapply spends_weak; [apply H|exact HF|]. cbv beta. lia. Qed.
Lemma costs_plain {A : Type} F C (m : M A) : plain_cost F C m -> costs F C m.
Proof. intros H s. eapply spends_weak; [apply H|lia|]. cbv beta. intros ? ? ? [? ?]; assumption. Qed.
Lemma costs_bind {A B : Type} F1 C1 F C C2 F2 (m : M A) (f : A -> M B) : costs F1 C1 m ->
  (forall a, costs F2 C2 (f a)) -> F1 <= F -> C1 + F2 <= F -> C1 + C2 <= C -> costs F C (bind m f).
Proof.
  intros Hm Hf H1 H2 H3 s. eapply spends_bind; [apply Hm|lia|]. cbv beta. intros a s' c Hc.
  eapply spends_weak; [apply Hf|lia|]. cbv beta. lia.
Qed.
Lemma costs_start E t d : costs 3 (match t with TNumber => 2 | _ => 2 - W end) (start_expected_value_type E t d).
Proof. intros s. eapply spends_weak; [apply cost_start|lia|]. cbv beta. intros ? ? ? [? ?]; assumption. Qed.

Ltac cb H F2 C2 := eapply (costs_bind _ _ _ _ C2 F2); [apply H|intros ?; clear_unit|ar|ar|ar].
Ltac cif := match goal with |- costs _ _ (if ?b then _ else _) => destruct b end.
Ltac cdone := apply costs_plain; pdone.
Ltac cp H := apply costs_plain; apply H.
Ltac cpb H F2 C2 := eapply (costs_bind _ _ _ _ C2 F2); [apply costs_plain; apply H|intros ?; clear_unit|ar|ar|ar].
Ltac cg := match goal with |- costs ?F ?C _ => eapply (costs_bind 0 0 F C C F) end; [apply costs_plain; apply plain_get; lia|intros ?; clear_unit|lia..].
Ltac cm := match goal with |- costs ?F ?C _ => eapply (costs_bind 0 0 F C C F) end; [apply costs_plain; unfold misuse_if; pif; pdone|intros ?; clear_unit|lia..].
Ltac cu := apply costs_plain; apply plain_update; [lia|reflexivity].

Lemma cost_peek E : costs 3 2 (peek E).
Proof.
  unfold peek. intros s. eapply (spends_bind _ _ _ 0 _ (fun _ s' c => s' = s /\ c = 0)); [apply spends_get; auto|lia|].
  intros ? ? ? [-> ->]. eapply (spends_bind _ _ _ 0 _ (fun _ s' c => s' = s /\ c = 0)); [apply spends_misuse_if; [lia|auto]|lia|].
  intros [] ? ? [-> ->]. eapply spends_bind; [apply cost_peek_internal|lia|]. intros p s3 c3 [Hc3 Hp3].
  eapply spends_weak; [apply cost_map_peeked|lia|]. cbv beta. lia.
Qed.

Lemma cost_begin_array E : costs 3 (2 - W) (begin_array E).
Proof.
  unfold begin_array, on_container_start.
  eapply (costs_bind 3 (2 - W) _ _ 0 0); [|intros ?; cu|ar..].
  cb (costs_start E TArray true) 0 0. cu.
Qed.
Lemma cost_begin_object E : costs 3 (2 - W) (begin_object E).
Proof.
  unfold begin_object, on_container_start.
  eapply (costs_bind 3 (2 - W) _ _ 0 0); [|intros ?; cu|ar..].
  cb (costs_start E TObject true) 0 0. cu.
Qed.

Lemma cost_end_array E : costs 3 (2 - W) (end_array E).
Proof.
  unfold end_array. intros s. eapply (spends_bind _ _ _ 0 _ (fun _ s' c => s' = s /\ c = 0)); [apply spends_get; auto|lia|].
  intros ? ? ? [-> ->]. eapply (spends_bind _ _ _ 0 _ (fun _ s' c => s' = s /\ c = 0)); [apply spends_misuse_if; [lia|auto]|lia|].
  intros [] ? ? [-> ->]. eapply spends_bind; [apply cost_peek_internal|lia|]. intros p s3 c3 [Hc3 Hp3].
  destruct p; try (apply spends_structure; lia).
  eapply spends_bind; [apply (cost_consume_peeked _ _ Hp3)|lia|]. intros [] s4 c4 [Hp4 ->].
  eapply spends_weak; [apply cost_on_container_end|ar|]. intros [] s5 c5 [_ Hc]. ar.
Qed.
Lemma cost_end_object E : costs 3 (2 - W) (end_object E).
Proof.
  unfold end_object. intros s. eapply (spends_bind _ _ _ 0 _ (fun _ s' c => s' = s /\ c = 0)); [apply spends_get; auto|lia|].
  intros ? ? ? [-> ->]. eapply (spends_bind _ _ _ 0 _ (fun _ s' c => s' = s /\ c = 0)); [apply spends_misuse_if; [lia|auto]|lia|].
  intros [] ? ? [-> ->]. eapply (spends_bind _ _ _ 0 _ (fun _ s' c => s' = s /\ c = 0)); [apply spends_misuse_if; [lia|auto]|lia|].
  intros [] ? ? [-> ->]. eapply spends_bind; [apply cost_peek_internal|lia|]. intros p s3 c3 [Hc3 Hp3].
  destruct p; try (apply spends_structure; lia).
  eapply spends_bind; [apply (cost_consume_peeked _ _ Hp3)|lia|]. intros [] s4 c4 [Hp4 ->].
  eapply (spends_bind _ _ _ 0 _ (fun _ s' c => c = 0)); [apply spends_update; unfold w; cbn; lia|ar|]. intros [] s5 c5 ->.
  eapply spends_weak; [apply cost_on_container_end|ar|]. intros [] s6 c6 [_ Hc]. ar.
Qed.
Lemma cost_end_container E : costs 3 (2 - W) (end_container E).
Proof. unfold end_container. cg. cif; [apply cost_end_array|apply cost_end_object]. Qed.

(** [has_next]: if there is a next element, its token is peeked *)
Lemma cost_has_next_spec E s : spends (has_next E) s 3
  (fun h s' c => c <= 2 /\ (h = true -> exists p, peeked s' = Some p)).
Proof.
  unfold has_next. eapply (spends_bind _ _ _ 0 _ (fun s1 s' c => s1 = s /\ s' = s /\ c = 0)); [apply spends_get; auto|lia|].
  intros ? ? ? (-> & -> & ->). eapply (spends_bind _ _ _ 0 _ (fun _ s' c => s' = s /\ c = 0)); [apply spends_misuse_if; [lia|auto]|lia|].
  intros [] ? ? [-> ->].
  eapply (spends_bind _ _ _ 3 _ (fun op s' c => c <= 2 /\ forall q, op = Some q -> peeked s' = Some q)).
  { destruct (stack s).
    - eapply (spends_bind _ _ _ 0 _ (fun _ s' c => s' = s /\ c = 0)); [apply spends_misuse_if; [lia|auto]|lia|].
      intros [] ? ? [-> ->].
      eapply (spends_bind _ _ _ 0 _ (fun _ s' c => s' = s /\ c = 0)); [apply spends_misuse_if; [lia|auto]|lia|].
      intros [] ? ? [-> ->]. apply cost_peek_optional.
    - eapply spends_bind; [apply cost_peek_internal|lia|]. intros p s3 c3 [Hc3 Hp3]. apply spends_ret. split; [lia|].
      intros q [= <-]. exact Hp3. }
  { lia. }
  intros op s1 c1 [Hc1 Hq]. destruct op as [p|]; [|apply spends_ret; split; [lia|discriminate]].
  eapply (spends_bind _ _ _ 0 _ (fun _ s' c => s' = s1 /\ c = 0)); [apply spends_get; auto|lia|].
  intros s2 s3 c3 (-> & ->). destruct (_ || _)%bool; [|apply spends_panics; lia]. apply spends_ret. split; [lia|].
  intros _. exists p. apply Hq. reflexivity.
Qed.
Lemma cost_has_next E : costs 3 2 (has_next E).
Proof. intros s. eapply spends_weak; [apply cost_has_next_spec|lia|]. cbv beta. intros ? ? ? [? ?]; assumption. Qed.

Lemma cost_before_name E : costs 3 2 (before_name E).
Proof.
  unfold before_name. intros s. eapply (spends_bind _ _ _ 0 _ (fun s1 s' c => s1 = s /\ s' = s /\ c = 0)); [apply spends_get; auto|lia|].
  intros ? ? ? (-> & -> & ->). eapply (spends_bind _ _ _ 0 _ (fun _ s' c => s' = s /\ c = 0)); [apply spends_misuse_if; [lia|auto]|lia|].
  intros [] ? ? [-> ->]. eapply (spends_bind _ _ _ 0 _ (fun _ s' c => s' = s /\ c = 0)); [apply spends_misuse_if; [lia|auto]|lia|].
  intros [] ? ? [-> ->]. eapply spends_bind; [apply cost_has_next_spec|lia|]. intros h s3 c3 [Hc3 Hh].
  destruct h; cbn [negb]; [|apply spends_structure; lia]. destruct (Hh eq_refl) as (p & Hp).
  eapply (spends_bind _ _ _ 0 _ (fun _ s' c => peeked s' = Some p /\ c = 0)).
  { apply spends_update. split; [exact Hp|]. unfold w. cbn. lia. }
  { lia. }
  intros [] s4 c4 [Hp4 ->]. eapply spends_weak; [apply (cost_consume_peeked _ _ Hp4)|lia|].
  intros [] s5 c5 [_ ->]. destruct p; ar.
Qed.

Lemma cost_path_name n : plain_cost 0 0 (set_path_name n).
Proof.
  unfold set_path_name. eapply (plain_bind 0 0 _ _ 0 0); [apply plain_get; lia|intros s|lia..].
  destruct (json_path s) as [[|[i|x] l]|]; [pdone..| |pdone]. apply plain_update; [lia|reflexivity].
Qed.

Lemma cost_next_name_owned E : costs 4 (8 - K) (next_name_owned E).
Proof.
  unfold next_name_owned. cb (cost_before_name E) 2 (6 - K). cpb (cost_string E false) 1 1. cpb cost_value_string 0 0.
  cpb (cost_path_name a) 0 0. cdone.
Qed.
Lemma cost_next_name E : costs 4 (9 - K) (next_name E).
Proof.
  unfold next_name. cb (cost_before_name E) 2 (7 - K). cpb (cost_string E true) 2 2. cg.
  eapply (costs_bind 1 1 _ _ 1 0); [|intros ?; cp cost_value_str|lia..].
  destruct (json_path a); [|cdone]. cpb cost_value_str_peek 0 0. cp (cost_path_name a0).
Qed.
Lemma cost_skip_name E : costs 4 (8 - K) (skip_name E).
Proof.
  unfold skip_name. cb (cost_before_name E) 2 (6 - K). cg. destruct (json_path a).
  - cpb (cost_string E false) 1 1. cpb cost_value_string 0 0. cp (cost_path_name a0).
  - eapply costs_weak; [cp (cost_skip_string E)|ar|ar].
Qed.

Lemma cost_next_bool E : costs 3 (2 - W) (next_bool E).
Proof.
  unfold next_bool. cb (costs_start E TBoolean false) 0 0. eapply (costs_bind 0 0 _ _ 0 0).
  - destruct a; cdone.
  - intros v. cpb cost_on_value_end 0 0. cdone.
  - lia.
  - lia.
  - lia.
Qed.
Lemma cost_next_null E : costs 3 (2 - W) (next_null E).
Proof. unfold next_null. cb (costs_start E TNull false) 0 0. cp cost_on_value_end. Qed.
Lemma cost_next_string E : costs 3 (8 - W - K) (next_string E).
Proof.
  unfold next_string. cb (costs_start E TString false) 2 (6 - K). cpb (cost_string E false) 1 1. cpb cost_value_string 0 0.
  cpb cost_on_value_end 0 0. cdone.
Qed.
Lemma cost_next_str E : costs 3 (8 - W - K) (next_str E).
Proof.
  unfold next_str. cb (costs_start E TString false) 2 (6 - K). cpb (cost_string E true) 1 1. cpb cost_on_value_end 0 1.
  cp cost_value_str.
Qed.

Lemma cost_number_start E : costs 3 3 (number_start E).
Proof.
  unfold number_start. cb (costs_start E TNumber false) 1 1. cpb cost_peek_byte 0 0. destruct a0; cdone.
Qed.
Lemma cost_end_checks n : costs 1 1 (number_end_checks n).
Proof.
  unfold number_end_checks. eapply (costs_bind 0 0 _ _ 1 1); [cu|intros ?; clear_unit|lia..].
  cpb (cost_separator TrailingDataAfterNumber) 0 0. cp cost_on_value_end.
Qed.
Lemma cost_read_number E b : costs 6 (8 - K) (read_number_bytes E b).
Proof.
  unfold read_number_bytes. cb (cost_number_start E) 3 (5 - K). cpb cost_value_new 2 (4 - K).
  intros s. eapply spends_bind; [apply (cost_number number_next _ _ pays_number_next)|lia|].
  intros rc s1 c1 (_ & Hc & Hn). cbv beta. destruct (fst rc) as [d|]; [|apply spends_syntax; lia].
  specialize (Hn ltac:(discriminate)). destruct (_ && _)%bool.
  - assert (Hx : costs 2 0 (value_get false ;; number <- value_string ;; fail (A := unit) (EUnsupportedNumber number))).
    { cpb (cost_value_get false) 1 (-1). cpb cost_value_string 0 (-2). cp (@plain_fail unit (EUnsupportedNumber a0) 0 (-2)). lia. }
    eapply spends_weak; [apply Hx|ar|]. cbv beta. ar.
  - assert (Hx : costs 2 2 (value_get b ;; number_end_checks (snd rc))).
    { cpb (cost_value_get b) 1 1. apply cost_end_checks. }
    eapply spends_weak; [apply Hx|ar|]. cbv beta. ar.
Qed.
Lemma cost_skip_number E : costs 5 (6 - K) (skip_number E).
Proof.
  unfold skip_number. cb (cost_number_start E) 2 (3 - K).
  intros s. eapply spends_bind; [apply (cost_number number_skip_next _ _ pays_number_skip)|lia|].
  intros rc s1 c1 (_ & Hc & Hn). cbv beta. destruct (fst rc) as [d|]; [|apply spends_syntax; lia].
  specialize (Hn ltac:(discriminate)). eapply spends_weak; [apply cost_end_checks|ar|]. cbv beta. ar.
Qed.
Lemma cost_number_string E : costs 6 (9 - K) (next_number_as_string E).
Proof. unfold next_number_as_string. cb (cost_read_number E false) 0 1. cp cost_value_string. Qed.
Lemma cost_number_str E : costs 6 (9 - K) (next_number_as_str E).
Proof. unfold next_number_as_str. cb (cost_read_number E true) 0 1. cp cost_value_str. Qed.

(** ** Skipping *)

Lemma cost_skip_start E : costs 7 (4 - W) (skip_value_start E).
Proof.
  unfold skip_value_start. cb (cost_peek E) 5 (2 - W). destruct a.
  - cb (cost_begin_array E) 0 0. cdone.
  - cb (cost_begin_object E) 0 0. cdone.
  - cb (costs_start E TString false) 1 0. cpb (cost_skip_string E) 0 0. cpb cost_on_value_end 0 0. cdone.
  - cb (cost_skip_number E) 0 0. cdone.
  - cb (cost_next_bool E) 0 0. cdone.
  - cb (cost_next_null E) 0 0. cdone.
Qed.

Lemma cost_skip_loop E : forall f d, costs 9 (6 - W) (skip_value_loop E f d).
Proof.
  induction f as [|f IH]; intros d; cbn [skip_value_loop]; [cdone|].
  eapply (costs_bind 3 2 _ _ (4 - W) 7).
  { destruct d; [cdone|apply cost_has_next]. }
  2-4: lia.
  intros h. eapply (costs_bind 7 (4 - W) _ _ 0 9).
  - destruct h; cbn [negb].
    + cg. eapply (costs_bind 4 0 _ _ (4 - W) 7).
      * cif; [eapply costs_weak; [apply cost_skip_name|ar|ar]|cdone].
      * intros []. cb (cost_skip_start E) 0 0. cdone.
      * ar.
      * ar.
      * ar.
    + cb (cost_end_container E) 0 0. cdone.
  - intros d'. destruct d'; [cdone|]. eapply costs_weak; [apply IH|lia|ar].
  - ar.
  - ar.
  - ar.
Qed.
Lemma cost_skip_value E : costs 9 (6 - W) (skip_value E).
Proof. unfold skip_value. cg. cm. apply cost_skip_loop. Qed.

Lemma cost_skip_items E : forall f, costs 11 2 (skip_items E f).
Proof.
  induction f as [|f IH]; cbn [skip_items]; [cdone|]. cb (cost_has_next E) 9 0. cif; [|cdone].
  cb (cost_skip_value E) 11 2. exact IH.
Qed.
Lemma cost_skip_members E : forall f, costs 11 2 (skip_members E f).
Proof.
  induction f as [|f IH]; cbn [skip_members]; [cdone|]. cb (cost_has_next E) 9 0. cif; [|cdone].
  cb (cost_skip_name E) 9 0. cb (cost_skip_value E) 11 2. exact IH.
Qed.
Lemma cost_top_level_loop E : forall f, costs 11 0 (skip_to_top_level_loop E f).
Proof.
  induction f as [|f IH]; cbn [skip_to_top_level_loop]; [cdone|]. cg. destruct (stack a) as [|[] l]; [cdone|..].
  - cb (cost_skip_items E (fuel E)) 3 (-2). cb (cost_end_array E) 11 0. exact IH.
  - cb (cost_skip_members E (fuel E)) 3 (-2). cb (cost_end_object E) 11 0. exact IH.
Qed.
Lemma cost_top_level E : costs 11 0 (skip_to_top_level E).
Proof.
  unfold skip_to_top_level. cg. cm. eapply (costs_bind 9 0 _ _ 0 11); [|intros ?; apply cost_top_level_loop|lia..].
  cif; [|cdone]. eapply costs_weak; [apply cost_skip_value|lia|ar].
Qed.

Lemma cost_seek_item E : forall f i r, costs 11 2 (seek_item E f i r).
Proof.
  induction f as [|f IH]; intros i r; cbn [seek_item]; [cdone|]. cb (cost_has_next E) 9 0.
  cif; [cdone|]. cif; [cdone|]. cb (cost_skip_value E) 11 2. apply IH.
Qed.
Lemma cost_seek_member E : forall f n, costs 11 2 (seek_member E f n).
Proof.
  induction f as [|f IH]; intros n; cbn [seek_member]; [cdone|]. cb (cost_has_next E) 9 0.
  cif; [cdone|]. cb (cost_next_name E) 9 0. cif; [cdone|]. cb (cost_skip_value E) 11 2. apply IH.
Qed.
Lemma cost_seek_pieces E : forall p, costs 11 0 (seek_pieces E p).
Proof.
  induction p as [|[i|n] p IH]; cbn [seek_pieces]; [cdone|..].
  - cb (cost_begin_array E) 13 2. cb (cost_seek_item E (fuel E) i i) 11 0. exact IH.
  - cb (cost_begin_object E) 13 2. cb (cost_seek_member E (fuel E) n) 11 0. exact IH.
Qed.
Lemma cost_seek_to E p : costs 13 2 (seek_to E p).
Proof. unfold seek_to. cb (cost_peek E) 11 0. apply cost_seek_pieces. Qed.
Lemma cost_seek_back_pieces E : forall p, costs 11 0 (seek_back_pieces E p).
Proof.
  induction p as [|[i|n] p IH]; cbn [seek_back_pieces]; [cdone|..].
  - cb (cost_skip_items E (fuel E)) 3 (-2). cb (cost_end_array E) 11 0. exact IH.
  - cb (cost_skip_members E (fuel E)) 3 (-2). cb (cost_end_object E) 11 0. exact IH.
Qed.
Lemma cost_seek_back E p : costs 11 0 (seek_back E p).
Proof. apply cost_seek_back_pieces. Qed.

Lemma cost_consume_trailing E : costs 2 2 (consume_trailing_whitespace E).
Proof.
  unfold consume_trailing_whitespace. cg. cm. eapply (costs_bind 0 0 _ _ 2 2); [|intros ?; clear_unit|lia..].
  - destruct (stack a); [unfold misuse_if; cif; cdone|cdone].
  - cpb (cost_ws E None) 0 0. destruct a0; cdone.
Qed.

(** ** The string reader *)

Lemma cost_next_string_reader E : costs 3 (2 - W) (next_string_reader E).
Proof.
  unfold next_string_reader. cb (costs_start E TString false) 0 0.
  eapply (costs_bind 0 0 _ _ 0 0); [cu|intros ?; cdone|lia..].
Qed.

Lemma cost_catch {A : Type} F (m : M A) : costs F F m -> costs F F (catch m).
Proof.
  intros H s n. unfold catch. apply bound_pbind. eapply bound_impl; [apply H|].
  intros [[a|e|k|] s'] n' Hn; cbn [bound]; exact Hn.
Qed.

(** An error is caught: the cost is that of the failed function *)
Lemma cost_catch_bind {A B : Type} F C C1 F2 C2 (m : M A) (f : A + reader_error -> M B) : costs F C m ->
  (forall a, costs F2 C2 (f (inl a))) -> (forall e, costs 0 0 (f (inr e))) -> 0 <= F -> C + F2 <= F -> F <= C1 -> C + C2 <= C1 ->
  costs F C1 (bind (catch m) f).
Proof.
  intros H Hl Hr H0 H1 H2 H3 s.
  assert (Hc : spends (catch m) s F (fun r _ c => match r with inl _ => c <= C | inr _ => c <= F end)).
  { intros n. unfold catch. apply bound_pbind. eapply bound_impl; [apply H|].
    intros [[a|e|k|] s'] n' Hn; cbn [bound]; exact Hn. }
  eapply spends_bind; [exact Hc|lia|]. cbv beta. intros [a|e] s' c Hx.
  - eapply spends_weak; [apply Hl|lia|]. cbv beta. lia.
  - eapply spends_weak; [apply Hr|lia|]. cbv beta. lia.
Qed.

Lemma cost_sv_loop : forall f len out sv, costs 1 1 (sv_read_loop f len out sv).
Proof.
  induction f as [|f IH]; intros len out sv; cbn [sv_read_loop]; (cif; [|cdone]); [cdone|]. cif; [cdone|].
  eapply (cost_catch_bind 1 (2 - K) 1 1 1); [cp cost_string_bytes| |intros e; cdone|ar..].
  intros [re bs]. cif; [cdone|]. cif; [|apply IH].
  eapply (costs_bind 0 0 _ _ 1 1); [cu|intros ?; clear_unit|lia..]. cpb cost_on_value_end 1 1. cdone.
Qed.
Lemma cost_sv_read E len sv : costs 1 1 (sv_read E len sv).
Proof.
  unfold sv_read. cif; [cdone|]. eapply (costs_bind 1 1 _ _ 0 0); [|intros [[bs|e] sv']; cdone|lia..].
  unfold sv_read_impl. cif; [cdone|]. apply cost_sv_loop.
Qed.

(** ** Calls *)

Definition call_cost (p : prog (outcome * session)) (st : session) : Prop :=
  forall n, bound p n (fun os n' => n - w (s_state st) - 13 <= n' - w (s_state (snd os))).

Lemma call_costs {A : Type} F C (m : M A) val st : costs F C m -> F <= 13 -> C <= 13 -> call_cost (call m val st) st.
Proof.
  intros H HF HC n. unfold call. apply bound_pbind. eapply bound_impl; [apply H|].
  intros [[a|e|k|] s'] n' Hn; cbn [bound snd s_state]; cbv beta iota in Hn; lia.
Qed.

Lemma client_call_cost E c st : call_cost (client_call E c st) st.
Proof.
  assert (H0 : forall o, call_cost (Ret (o, st)) st) by (intros o n; cbn; lia).
  unfold client_call. destruct (s_phase st); [|apply H0..]. destruct c.
  - eapply call_costs; [apply cost_peek|ar|ar].
  - eapply call_costs; [apply cost_has_next|ar|ar].
  - eapply call_costs; [apply cost_begin_array|ar|ar].
  - eapply call_costs; [apply cost_end_array|ar|ar].
  - eapply call_costs; [apply cost_begin_object|ar|ar].
  - eapply call_costs; [apply cost_end_object|ar|ar].
  - eapply call_costs; [apply cost_next_name|ar|ar].
  - eapply call_costs; [apply cost_next_name_owned|ar|ar].
  - eapply call_costs; [apply cost_skip_name|ar|ar].
  - eapply call_costs; [apply cost_next_string|ar|ar].
  - eapply call_costs; [apply cost_next_str|ar|ar].
  - intros n. unfold call_string_reader. apply bound_pbind. eapply bound_impl; [apply cost_next_string_reader|].
    intros [[a|e|k|] s'] n' Hn; cbn [bound snd s_state]; cbv beta iota in Hn; ar.
  - unfold call_read. destruct (s_reader st) as [sv|]; [|apply H0].
    intros n. apply bound_pbind. eapply bound_impl; [apply cost_sv_read|].
    intros [[[[bs|e] sv']|e|k|] s'] n' Hn; cbn [bound snd s_state]; cbv beta iota in Hn; ar.
  - eapply call_costs; [apply cost_number_str|ar|ar].
  - eapply call_costs; [apply cost_number_string|ar|ar].
  - eapply call_costs; [apply cost_next_bool|ar|ar].
  - eapply call_costs; [apply cost_next_null|ar|ar].
  - eapply call_costs; [apply cost_skip_value|ar|ar].
  - eapply call_costs; [apply cost_seek_to|ar|ar].
  - eapply call_costs; [apply cost_seek_back|ar|ar].
  - eapply call_costs; [apply cost_top_level|ar|ar].
  - intros n. cbn. lia.
  - intros n. unfold call_consume. apply bound_pbind. eapply bound_impl; [apply (call_costs 2 2 _ to_unit st (cost_consume_trailing E) ltac:(lia) ltac:(lia))|].
    intros os n' Hn. cbn [bound snd s_state]. exact Hn.
Qed.

Lemma client_calls_cost E : forall cs st n, bound (client_calls E cs st) n
  (fun os n' => n - w (s_state st) - 13 * Z.of_nat (length cs) <= n' - w (s_state (snd os))).
Proof.
  induction cs as [|c cs IH]; intros st n; cbn [client_calls].
  - cbn. lia.
  - apply bound_pbind. eapply bound_impl; [apply client_call_cost|]. intros os n1 H1.
    apply bound_pbind. eapply bound_impl; [apply IH|]. intros osl n2 H2. cbn [bound snd length]. cbv beta in H1, H2. lia.
Qed.
