(** * Which functions of the reader look at the byte behind the consumed ones

    Auxiliary. *)

From Verif Require Import Base Utf8Model NumberModel SourceModel SourceProofs ReaderModel LookReader.

(** a token which is complete once its only byte has been read *)
Definition one_byte (p : peeked_value) : bool :=
  match p with
  | PkStringStart | PkNameStart | PkArrayStart | PkArrayEnd | PkObjectStart | PkObjectEnd => true
  | _ => false
  end.

(** behind a peeked token of one byte nothing has been looked at *)
Definition linv (s : rstate) (K : bool) : Prop := forall p, peeked s = Some p -> one_byte p = true -> K = false.

Definition lk {A : Type} (m : M A) (s : rstate) (K : bool) (Q : A -> rstate -> bool -> Prop) : Prop :=
  look (m s) K (fun rs K' =>
    match rs with
    | (Ok a, s') => Q a s' K'
    | (Err e, s') => recoverable e = true -> linv s' K'
    | _ => True
    end).

Lemma lk_bind {A B : Type} (m : M A) (f : A -> M B) s K Q1 Q : lk m s K Q1 ->
  (forall a s' K', Q1 a s' K' -> lk (f a) s' K' Q) -> lk (bind m f) s K Q.
Proof.
  intros Hm Hf. unfold lk, bind. apply look_pbind. eapply look_impl; [apply Hm|].
  intros [[a|e|k|] s'] K' H; cbv beta iota zeta in H; [apply Hf; exact H|exact H..].
Qed.
Lemma lk_weak {A : Type} (m : M A) s K (Q1 Q : A -> rstate -> bool -> Prop) : lk m s K Q1 ->
  (forall a s' K', Q1 a s' K' -> Q a s' K') -> lk m s K Q.
Proof. intros Hm HQ. eapply look_impl; [apply Hm|]. intros [[a|e|k|] s'] K' H; cbv beta iota zeta in *; auto. Qed.
Lemma lk_ret {A : Type} (a : A) s K (Q : A -> rstate -> bool -> Prop) : Q a s K -> lk (ret a) s K Q.
Proof. intros H. exact H. Qed.
Lemma lk_get s K (Q : rstate -> rstate -> bool -> Prop) : Q s s K -> lk get_state s K Q.
Proof. intros H. exact H. Qed.
Lemma lk_get_bind {B : Type} (f : rstate -> M B) s K Q : lk (f s) s K Q -> lk (bind get_state f) s K Q.
Proof. intros H. exact H. Qed.
Lemma lk_update f s K (Q : unit -> rstate -> bool -> Prop) : Q tt (f s) K -> lk (update f) s K Q.
Proof. intros H. exact H. Qed.
Lemma lk_syntax {A : Type} k s K (Q : A -> rstate -> bool -> Prop) : lk (syntax_err k) s K Q.
Proof. intros H. discriminate H. Qed.
Lemma lk_io {A : Type} k s K (Q : A -> rstate -> bool -> Prop) : lk (fail (EIo k)) s K Q.
Proof. intros H. discriminate H. Qed.
Lemma lk_number_err {A : Type} n s K (Q : A -> rstate -> bool -> Prop) : lk (fail (EUnsupportedNumber n)) s K Q.
Proof. intros H. discriminate H. Qed.
Lemma lk_fail {A : Type} e s K (Q : A -> rstate -> bool -> Prop) : linv s K -> lk (fail e) s K Q.
Proof. intros H _. exact H. Qed.
Lemma lk_panics {A : Type} k s K (Q : A -> rstate -> bool -> Prop) : lk (panics k) s K Q.
Proof. exact I. Qed.
Lemma lk_no_fuel {A : Type} s K (Q : A -> rstate -> bool -> Prop) : lk no_fuel s K Q.
Proof. exact I. Qed.
Lemma lk_misuse_bind {B : Type} b (f : unit -> M B) s K Q : (b = false -> lk (f tt) s K Q) -> lk (bind (misuse_if b) f) s K Q.
Proof. intros H. destruct b; [exact I|apply H; reflexivity]. Qed.

(** ** Functions which do not concern the peeked token *)

(** nothing is said about the next byte / the next byte has not been looked at
    at the end / nothing is looked at or consumed *)
Definition any {A : Type} (m : M A) : Prop := forall s K, lk m s K (fun _ s' _ => peeked s' = peeked s).
Definition fresh {A : Type} (m : M A) : Prop := forall s K, lk m s K (fun _ s' K' => peeked s' = peeked s /\ K' = false).
Definition quiet {A : Type} (m : M A) : Prop := forall s K, lk m s K (fun _ s' K' => peeked s' = peeked s /\ K' = K).

Lemma fresh_any {A : Type} (m : M A) : fresh m -> any m.
Proof. intros H s K. eapply lk_weak; [apply H|]. cbv beta. intros a s' K' [Hp _]. exact Hp. Qed.
Lemma quiet_any {A : Type} (m : M A) : quiet m -> any m.
Proof. intros H s K. eapply lk_weak; [apply H|]. cbv beta. intros a s' K' [Hp _]. exact Hp. Qed.

Lemma any_bind {A B : Type} (m : M A) (f : A -> M B) : any m -> (forall a, any (f a)) -> any (bind m f).
Proof. intros Hm Hf s K. eapply lk_bind; [apply Hm|]. cbv beta. intros a s1 K1 H1. eapply lk_weak; [apply Hf|]. cbv beta. intros; congruence. Qed.
Lemma fresh_bind {A B : Type} (m : M A) (f : A -> M B) : any m -> (forall a, fresh (f a)) -> fresh (bind m f).
Proof.
  intros Hm Hf s K. eapply lk_bind; [apply Hm|]. cbv beta. intros a s1 K1 H1. eapply lk_weak; [apply Hf|].
  cbv beta. intros b s2 K2 [H2 H3]. split; congruence.
Qed.
Lemma fresh_then {A B : Type} (m : M A) (f : A -> M B) : fresh m -> (forall a, quiet (f a)) -> fresh (bind m f).
Proof.
  intros Hm Hf s K. eapply lk_bind; [apply Hm|]. cbv beta. intros a s1 K1 [H1 H1']. eapply lk_weak; [apply Hf|].
  cbv beta. intros b s2 K2 [H2 H3]. split; congruence.
Qed.
Lemma quiet_bind {A B : Type} (m : M A) (f : A -> M B) : quiet m -> (forall a, quiet (f a)) -> quiet (bind m f).
Proof.
  intros Hm Hf s K. eapply lk_bind; [apply Hm|]. cbv beta. intros a s1 K1 [H1 H1']. eapply lk_weak; [apply Hf|].
  cbv beta. intros b s2 K2 [H2 H3]. split; congruence.
Qed.

Lemma quiet_ret {A : Type} (a : A) : quiet (ret a).
Proof. intros s K. apply lk_ret. auto. Qed.
Lemma quiet_get : quiet get_state.
Proof. intros s K. apply lk_get. auto. Qed.
Lemma quiet_update f : (forall s, peeked (f s) = peeked s) -> quiet (update f).
Proof. intros H s K. apply lk_update. auto. Qed.
Lemma any_syntax {A : Type} k : any (syntax_err k : M A).
Proof. intros s K. apply lk_syntax. Qed.
Lemma any_io {A : Type} k : any (fail (EIo k) : M A).
Proof. intros s K. apply lk_io. Qed.
Lemma any_panics {A : Type} k : any (panics k : M A).
Proof. intros s K. exact I. Qed.
Lemma any_no_fuel {A : Type} : any (no_fuel : M A).
Proof. intros s K. exact I. Qed.
Lemma fresh_syntax {A : Type} k : fresh (syntax_err k : M A).
Proof. intros s K. apply lk_syntax. Qed.
Lemma fresh_io {A : Type} k : fresh (fail (EIo k) : M A).
Proof. intros s K. apply lk_io. Qed.
Lemma fresh_panics {A : Type} k : fresh (panics k : M A).
Proof. intros s K. exact I. Qed.
Lemma fresh_no_fuel {A : Type} : fresh (no_fuel : M A).
Proof. intros s K. exact I. Qed.
Lemma quiet_syntax {A : Type} k : quiet (syntax_err k : M A).
Proof. intros s K. apply lk_syntax. Qed.
Lemma quiet_panics {A : Type} k : quiet (panics k : M A).
Proof. intros s K. exact I. Qed.

Ltac opk := intros s K [e| |b]; cbn [look from_peek]; cbv beta iota; [discriminate|reflexivity..].
Ltac opf := intros s K; split; reflexivity.
Ltac opq := intros s K; cbn; auto.

Lemma l_peek_byte : any peek_byte.
Proof. opk. Qed.
Lemma l_value_peek : any value_peek.
Proof. opk. Qed.
Lemma l_skip_byte : fresh skip_peeked_byte.
Proof. opf. Qed.
Lemma l_value_consume : fresh value_consume.
Proof. opf. Qed.
Lemma l_value_new : quiet value_reader_new.
Proof. opq. Qed.
Lemma l_skip_previous : quiet value_skip_previous.
Proof. opq. Qed.
Lemma l_skip_final : quiet value_skip_final.
Proof. opq. Qed.
Lemma l_push bs : quiet (value_push bs).
Proof. opq. Qed.
Lemma l_get b : quiet (value_get b).
Proof. opq. Qed.
Lemma l_str_peek : quiet value_str_peek.
Proof. opq. Qed.
Lemma l_str : quiet value_str.
Proof. opq. Qed.
Lemma l_string : quiet value_string.
Proof. opq. Qed.

(** last steps *)
Ltac done := first
  [apply any_syntax|apply any_io|apply any_panics|apply any_no_fuel
  |apply fresh_syntax|apply fresh_io|apply fresh_panics|apply fresh_no_fuel
  |apply quiet_syntax|apply quiet_panics|apply quiet_ret|apply quiet_update; intros; reflexivity
  |apply quiet_any; first [apply quiet_ret|apply quiet_update; intros; reflexivity]].
Ltac br := match goal with
  | |- _ (if ?b then _ else _) => destruct b
  | |- _ (match ?x with _ => _ end) => destruct x
  end.
Ltac ab H := apply any_bind; [apply H|intros ?].
Ltac afb H := apply any_bind; [apply fresh_any, H|intros ?].
Ltac aqb H := apply any_bind; [apply quiet_any, H|intros ?].
Ltac fb H := apply fresh_bind; [apply H|intros ?].
Ltac ft H := apply fresh_then; [apply H|intros ?].

Lemma l_read_byte k : fresh (read_byte k).
Proof. unfold read_byte. fb l_peek_byte. br; [|done]. ft l_skip_byte. done. Qed.
Lemma l_value_read_byte k : fresh (value_read_byte k).
Proof. unfold value_read_byte. fb l_value_peek. br; [|done]. ft l_value_consume. done. Qed.
Lemma l_value_read_skipped k : fresh (value_read_skipped_byte k).
Proof. unfold value_read_skipped_byte. ft l_value_read_byte. apply quiet_bind; [apply l_skip_previous|intros ?; done]. Qed.

Definition fresh_reads (rb : syntax_error -> M byte) : Prop := forall k, fresh (rb k).
Lemma reads1 : fresh_reads read_byte. Proof. exact l_read_byte. Qed.
Lemma reads2 : fresh_reads value_read_byte. Proof. exact l_value_read_byte. Qed.
Lemma reads3 : fresh_reads value_read_skipped_byte. Proof. exact l_value_read_skipped. Qed.

(** the result of a step which consumes, followed by a check *)
Lemma fresh_check {A B : Type} (m : M A) (f : A -> M B) : fresh m -> (forall a s, lk (f a) s false (fun _ s' K' => peeked s' = peeked s /\ K' = false)) ->
  fresh (bind m f).
Proof.
  intros Hm Hf s K. eapply lk_bind; [apply Hm|]. cbv beta. intros a s1 K1 [H1 ->]. eapply lk_weak; [apply Hf|].
  cbv beta. intros b s2 K2 [H2 H3]. split; congruence.
Qed.
Lemma check_bind {A B : Type} (m : M A) (f : A -> M B) s : fresh m ->
  (forall a s, lk (f a) s false (fun _ s' K' => peeked s' = peeked s /\ K' = false)) ->
  lk (bind m f) s false (fun _ s' K' => peeked s' = peeked s /\ K' = false).
Proof. intros Hm Hf. exact (fresh_check m f Hm Hf s false). Qed.
Lemma check_quiet {A : Type} (m : M A) s : quiet m -> lk m s false (fun _ s' K' => peeked s' = peeked s /\ K' = false).
Proof. intros H. exact (H s false). Qed.
Lemma check_qbind {A B : Type} (m : M A) (f : A -> M B) s : quiet m ->
  (forall a s, lk (f a) s false (fun _ s' K' => peeked s' = peeked s /\ K' = false)) ->
  lk (bind m f) s false (fun _ s' K' => peeked s' = peeked s /\ K' = false).
Proof.
  intros Hm Hf. eapply lk_bind; [apply Hm|]. cbv beta. intros a s1 K1 [H1 ->]. eapply lk_weak; [apply Hf|].
  cbv beta. intros b s2 K2 [H2 H3]. split; congruence.
Qed.
Lemma check_fresh {A : Type} (m : M A) s : fresh m -> lk m s false (fun _ s' K' => peeked s' = peeked s /\ K' = false).
Proof. intros H. exact (H s false). Qed.

Ltac cend := first [apply lk_syntax|apply lk_io|apply lk_panics|apply lk_no_fuel|apply check_quiet; done].
Ltac cbr := match goal with
  | |- lk (if ?b then _ else _) _ _ _ => destruct b
  | |- lk (match ?x with _ => _ end) _ _ _ => destruct x
  end.
Ltac cb H := apply check_bind; [apply H|intros ? ?].
Ltac cq H := apply check_qbind; [first [apply H|done]|intros ? ?].
Ltac fc H := apply fresh_check; [apply H|intros ? ?].
Ltac upd := apply check_qbind; [done|intros ? ?].

Lemma l_multibyte rb b : fresh_reads rb -> fresh (read_utf8_multibyte rb b).
Proof.
  intros H. unfold read_utf8_multibyte. fc H. cbr; [cend|]. cbr; [cbr; cend|].
  cb H. cbr; [cend|]. cbr; [cbr; cend|]. cbr; [|cend]. cb H. cbr; [cend|]. cbr; cend.
Qed.
Lemma l_hex rb : fresh_reads rb -> fresh (read_hex_byte rb).
Proof. intros H. unfold read_hex_byte. fc H. cbr; cend. Qed.
Lemma l_unicode_escape rb : fresh_reads rb -> fresh (read_unicode_escape rb).
Proof.
  intros H. unfold read_unicode_escape. fc (l_hex rb H). cb (l_hex rb H). cb (l_hex rb H). cb (l_hex rb H). cend.
Qed.
Lemma l_char_from c : quiet (char_from_u32 c).
Proof. unfold char_from_u32. br; done. Qed.
Lemma l_unicode_char rb : fresh_reads rb -> fresh (read_unicode_escape_char rb).
Proof.
  intros H. unfold read_unicode_escape_char. fc (l_unicode_escape rb H). cbr; [cend|]. cbr.
  - cb H. cbr; [cend|]. cb H. cbr; [cend|]. cb (l_unicode_escape rb H). cbr; [cend|]. cq l_char_from. cend.
  - cq l_char_from. cend.
Qed.

(** ** Whitespace *)

Lemma l_skip_to_loop stop k : forall f cr, any (skip_to_loop f stop k cr).
Proof.
  induction f as [|f IH]; intros cr; cbn [skip_to_loop]; [done|].
  ab l_peek_byte. br; [|unfold eof_result; br; done]. br; [done|]. br; [done|]. ab (fresh_any _ l_skip_byte).
  apply any_bind; [|intros ?; apply IH]. br; [apply quiet_any, quiet_update; intros; destruct cr; reflexivity|]. br; [done|]. br; [done|].
  apply any_bind; [apply fresh_any, l_multibyte, reads1|intros ?]. done.
Qed.
Lemma l_skip_to E stop k : any (skip_to E stop k).
Proof. apply l_skip_to_loop. Qed.
Lemma l_block_comment_loop E : forall f, any (skip_to_block_comment_end_loop E f).
Proof.
  induction f as [|f IH]; cbn [skip_to_block_comment_end_loop]; [done|].
  ab l_skip_to. apply any_bind; [done|intros ?]. ab (fresh_any _ l_skip_byte). ab l_peek_byte. br; [|done]. br; [|apply IH].
  ab (fresh_any _ l_skip_byte). done.
Qed.
Lemma l_block_comment E : any (skip_to_block_comment_end E).
Proof. apply l_block_comment_loop. Qed.
Lemma l_ws_loop E k : forall f, any (skip_whitespace_loop E f k).
Proof.
  induction f as [|f IH]; cbn [skip_whitespace_loop]; [done|].
  ab l_skip_to. ab l_peek_byte. br; [|apply any_bind; [unfold eof_result; br; done|intros ?; done]].
  br; [|done]. br; [done|]. ab (fresh_any _ l_skip_byte). apply any_bind; [done|intros ?].
  ab (fresh_any _ (l_read_byte IncompleteComment)). br.
  - apply any_bind; [done|intros ?]. ab l_block_comment. apply IH.
  - br; [|done]. apply any_bind; [done|intros ?]. unfold skip_to_line_comment_end. ab l_skip_to. apply IH.
Qed.
Lemma l_ws E k : any (skip_whitespace E k).
Proof. apply l_ws_loop. Qed.
Lemma l_ws_no_eof E k : any (skip_whitespace_no_eof E k).
Proof. unfold skip_whitespace_no_eof. ab l_ws. br; done. Qed.

Lemma l_separator k : any (verify_next_separator k).
Proof. unfold verify_next_separator. ab l_peek_byte. br; [|done]. unfold verify_value_separator. br; done. Qed.
Lemma l_literal : forall l, any (consume_literal l).
Proof.
  induction l as [|e l IH]; cbn [consume_literal]; [apply l_separator|].
  ab (fresh_any _ (l_read_byte InvalidLiteral)). br; [done|apply IH].
Qed.
Lemma l_after_name E : any (after_name E).
Proof. unfold after_name. ab l_ws_no_eof. br; [|done]. ab (fresh_any _ l_skip_byte). done. Qed.

Lemma l_on_value_end : quiet on_value_end.
Proof.
  unfold on_value_end. apply quiet_bind; [apply quiet_get|intros s0]. apply quiet_bind.
  - br; [|done]. destruct (json_path s0) as [[|[] ?]|]; done.
  - intros ?. apply quiet_update. intros s. destruct (is_in_object s); reflexivity.
Qed.
Lemma l_container_end : quiet on_container_end.
Proof. unfold on_container_end. apply quiet_bind; [done|intros ?; apply l_on_value_end]. Qed.

(** ** Strings and numbers *)

Lemma l_string_bytes : fresh read_string_bytes.
Proof.
  unfold read_string_bytes. fc reads1. cbr.
  - cb reads1. cbr; [upd; cend|]. cbr; [upd; cend|]. cbr; [|cend]. cb (l_unicode_char _ reads1). upd. cend.
  - cbr; [upd; cend|]. cbr; [cend|]. cbr; [upd; cend|]. apply check_bind; [apply l_multibyte, reads1|intros ? ?]. upd. cend.
Qed.
Lemma l_skip_string_loop : forall f, fresh (skip_all_string_bytes_loop f).
Proof. induction f as [|f IH]; cbn [skip_all_string_bytes_loop]; [done|]. fc l_string_bytes. cbr; [cend|apply check_fresh, IH]. Qed.
Lemma l_skip_string E : fresh (skip_all_string_bytes E).
Proof. apply l_skip_string_loop. Qed.

Lemma l_escape : any read_string_escape.
Proof.
  unfold read_string_escape. ab (quiet_any _ l_skip_previous). ab (fresh_any _ (l_value_read_byte MalformedEscapeSequence)).
  apply any_bind; [|intros ?; done]. br; [done|]. br; [ab (quiet_any _ l_skip_previous); apply quiet_any, l_push|].
  br; [|done]. ab (quiet_any _ l_skip_previous). ab (fresh_any _ (l_unicode_char _ reads3)). apply any_bind; [done|intros ?].
  apply quiet_any, l_push.
Qed.
Lemma l_string_loop b : forall f, fresh (read_string_loop f b).
Proof.
  induction f as [|f IH]; cbn [read_string_loop]; [done|]. fc reads2. cbr.
  - apply check_fresh. fb l_escape. apply IH.
  - cbr; [upd; cq l_skip_final; apply check_quiet, l_get|]. cbr; [cend|]. cbr; [upd; apply check_fresh, IH|].
    apply check_bind; [apply l_multibyte, reads2|intros ? ?]. upd. apply check_fresh, IH.
Qed.
Lemma l_read_string E b : fresh (read_string E b).
Proof. unfold read_string. fb (quiet_any _ l_value_new). apply l_string_loop. Qed.

Lemma l_run_number (next : M (option byte)) : any next -> forall p n, any (run_number next p n).
Proof. intros Hn. induction p as [r|k IH|]; intros n; cbn [run_number]; [done| |done]. ab Hn. apply IH. Qed.
Lemma l_number_next : any number_next.
Proof. unfold number_next. ab (fresh_any _ l_value_consume). apply l_value_peek. Qed.
Lemma l_number_skip_next : any number_skip_next.
Proof. unfold number_skip_next. ab (fresh_any _ l_skip_byte). apply l_peek_byte. Qed.
Lemma l_number_end n : any (number_end_checks n).
Proof. unfold number_end_checks. apply any_bind; [done|intros ?]. ab l_separator. apply quiet_any, l_on_value_end. Qed.
