(** * What the functions of the reader collect is part of what they consume

    Auxiliary. *)

From Verif Require Import Base Utf8Model NumberModel SourceModel SourceProofs ReaderModel SpecCost SpecMemory MemSource.

(** behind the peeked begin of a string the last consumed byte is a quote *)
Definition quoted (p : peeked_value) : bool := match p with PkStringStart | PkNameStart => true | _ => false end.
Definition qinv (s : rstate) (g : gst) : Prop := forall p, peeked s = Some p -> quoted p = true -> g_quote g = true.

Definition mm {A : Type} (m : M A) (s : rstate) (g : gst) (Q : A -> rstate -> gst -> Prop) : Prop :=
  mem (m s) g (fun rs g' =>
    match rs with
    | (Ok a, s') => Q a s' g'
    | (Err e, s') => recoverable e = true -> qinv s' g'
    | _ => True
    end).

Lemma mm_bind {A B : Type} (m : M A) (f : A -> M B) s g Q1 Q : mm m s g Q1 ->
  (forall a s' g', Q1 a s' g' -> mm (f a) s' g' Q) -> mm (bind m f) s g Q.
Proof.
  intros Hm Hf. unfold mm, bind. apply mem_pbind. eapply mem_impl; [apply Hm|].
  intros [[a|e|k|] s'] g' H; cbv beta iota in H; [apply Hf, H|exact H..].
Qed.
Lemma mm_weak {A : Type} (m : M A) s g (Q1 Q : A -> rstate -> gst -> Prop) : mm m s g Q1 ->
  (forall a s' g', Q1 a s' g' -> Q a s' g') -> mm m s g Q.
Proof. intros Hm HQ. eapply mem_impl; [apply Hm|]. intros [[a|e|k|] s'] g' H; cbv beta iota in *; auto. Qed.
Lemma mm_ret {A : Type} (a : A) s g (Q : A -> rstate -> gst -> Prop) : Q a s g -> mm (ret a) s g Q.
Proof. intros H. exact H. Qed.
Lemma mm_get {B : Type} (f : rstate -> M B) s g Q : mm (f s) s g Q -> mm (bind get_state f) s g Q.
Proof. intros H. exact H. Qed.
Lemma mm_update f s g (Q : unit -> rstate -> gst -> Prop) : Q tt (f s) g -> mm (update f) s g Q.
Proof. intros H. exact H. Qed.
Lemma mm_syntax {A : Type} k s g (Q : A -> rstate -> gst -> Prop) : mm (syntax_err k) s g Q.
Proof. intros H. discriminate H. Qed.
Lemma mm_io {A : Type} k s g (Q : A -> rstate -> gst -> Prop) : mm (fail (EIo k)) s g Q.
Proof. intros H. discriminate H. Qed.
Lemma mm_number {A : Type} k s g (Q : A -> rstate -> gst -> Prop) : mm (fail (EUnsupportedNumber k)) s g Q.
Proof. intros H. discriminate H. Qed.
Lemma mm_fail {A : Type} e s g (Q : A -> rstate -> gst -> Prop) : qinv s g -> mm (fail e) s g Q.
Proof. intros H _. exact H. Qed.
Lemma mm_panics {A : Type} k s g (Q : A -> rstate -> gst -> Prop) : mm (panics k) s g Q.
Proof. exact I. Qed.
Lemma mm_no_fuel {A : Type} s g (Q : A -> rstate -> gst -> Prop) : mm no_fuel s g Q.
Proof. exact I. Qed.
Lemma mm_misuse {B : Type} b (f : unit -> M B) s g Q : (b = false -> mm (f tt) s g Q) -> mm (bind (misuse_if b) f) s g Q.
Proof. intros H. destruct b; [exact I|apply H; reflexivity]. Qed.
Ltac mend := first [apply mm_syntax|apply mm_io|apply mm_number|apply mm_panics|apply mm_no_fuel].

(** ** Functions which do not concern the peeked token *)

(** and, if [e] holds, do not change whether a member name is expected *)
Definition frame (e : bool) (s s' : rstate) : Prop :=
  peeked s' = peeked s /\ (e = true -> expects_member_name s' = expects_member_name s).
Definition an {A : Type} (e : bool) (m : M A) : Prop := forall s g, mm m s g (fun _ s' _ => frame e s s').

Lemma frame_refl e s : frame e s s.
Proof. split; reflexivity. Qed.
Lemma frame_trans e s s1 s2 : frame e s s1 -> frame e s1 s2 -> frame e s s2.
Proof. intros [H1 H2] [H3 H4]. split; [congruence|]. intros He. rewrite (H4 He). apply H2, He. Qed.

Lemma an_bind {A B : Type} e (m : M A) (f : A -> M B) : an e m -> (forall a, an e (f a)) -> an e (bind m f).
Proof.
  intros Hm Hf s g. eapply mm_bind; [apply Hm|]. cbv beta. intros a s1 g1 H1. eapply mm_weak; [apply Hf|].
  cbv beta. intros b s2 g2 H2. exact (frame_trans _ _ _ _ H1 H2).
Qed.
Lemma an_get_bind {B : Type} e (f : rstate -> M B) : (forall s, an e (f s)) -> an e (bind get_state f).
Proof. intros H s g. apply (H s s). Qed.
Lemma an_ret {A : Type} e (a : A) : an e (ret a).
Proof. intros s g. apply mm_ret, frame_refl. Qed.
Lemma an_update e f : (forall s, frame e s (f s)) -> an e (update f).
Proof. intros H s g. apply mm_update, H. Qed.
Lemma an_syntax {A : Type} e k : an e (syntax_err k : M A).
Proof. intros s g. apply mm_syntax. Qed.
Lemma an_io {A : Type} e k : an e (fail (EIo k) : M A).
Proof. intros s g. apply mm_io. Qed.
Lemma an_number {A : Type} e k : an e (fail (EUnsupportedNumber k) : M A).
Proof. intros s g. apply mm_number. Qed.
Lemma an_panics {A : Type} e k : an e (panics k : M A).
Proof. intros s g. exact I. Qed.
Lemma an_no_fuel {A : Type} e : an e (no_fuel : M A).
Proof. intros s g. exact I. Qed.
Lemma an_misuse e b : an e (misuse_if b).
Proof. intros s g. destruct b; [exact I|apply frame_refl]. Qed.
Lemma an_peek_byte e : an e peek_byte.
Proof. intros s g [x| |b]; [intros H; discriminate H|apply frame_refl..]. Qed.
Lemma an_skip_byte e : an e skip_peeked_byte.
Proof. intros s g. apply frame_refl. Qed.
Lemma an_str_peek e : an e value_str_peek.
Proof. intros s g r. apply frame_refl. Qed.
Lemma an_str e : an e value_str.
Proof. intros s g r. apply frame_refl. Qed.
Lemma an_string e : an e value_string.
Proof. intros s g r. apply frame_refl. Qed.
Lemma an_get e b : an e (value_get b).
Proof. intros s g. apply frame_refl. Qed.

Create HintDb an.
#[export] Hint Resolve an_ret an_syntax an_io an_number an_panics an_no_fuel an_misuse an_peek_byte an_skip_byte an_str_peek an_str an_string an_get : an.
Ltac frm := intros; unfold frame; cbn [set_empty set_stack set_path set_expects_name set_peeked set_active set_position advance peeked expects_member_name] in *;
  repeat match goal with |- context [if ?b then _ else _] => destruct b end;
  (split; [reflexivity|intros; first [reflexivity|discriminate]]).
Ltac ang := repeat first
  [ progress intros
  | match goal with
    | |- an _ (bind get_state _) => apply an_get_bind
    | |- an _ (bind _ _) => apply an_bind
    | |- an _ (update _) => apply an_update; solve [frm]
    | |- an _ (let _ := _ in _) => cbv zeta
    | |- an _ (if ?b then _ else _) => destruct b
    | |- an _ (match ?x with _ => _ end) => destruct x eqn:?
    end
  | solve [auto with an] ].

Lemma an_read_byte e k : an e (read_byte k).
Proof. unfold read_byte. ang. Qed.
#[export] Hint Resolve an_read_byte : an.
Lemma an_multibyte e rb b : (forall k, an e (rb k)) -> an e (read_utf8_multibyte rb b).
Proof. intros H. unfold read_utf8_multibyte. ang. Qed.
#[export] Hint Resolve an_multibyte : an.
Lemma an_eof e k : an e (eof_result k).
Proof. unfold eof_result. ang. Qed.
#[export] Hint Resolve an_eof : an.
Lemma an_skip_to_loop e stop k : forall f cr, an e (skip_to_loop f stop k cr).
Proof. induction f as [|f IH]; intros cr; cbn [skip_to_loop]; ang. Qed.
Lemma an_skip_to e E stop k : an e (skip_to E stop k).
Proof. apply an_skip_to_loop. Qed.
#[export] Hint Resolve an_skip_to : an.
Lemma an_block e E : forall f, an e (skip_to_block_comment_end_loop E f).
Proof. induction f as [|f IH]; cbn [skip_to_block_comment_end_loop]; ang. Qed.
#[export] Hint Resolve an_block : an.
Lemma an_ws_loop e E k : forall f, an e (skip_whitespace_loop E f k).
Proof. induction f as [|f IH]; cbn [skip_whitespace_loop]; unfold skip_to_block_comment_end, skip_to_line_comment_end; ang. Qed.
Lemma an_ws e E k : an e (skip_whitespace E k).
Proof. apply an_ws_loop. Qed.
#[export] Hint Resolve an_ws : an.
Lemma an_ws_no_eof e E k : an e (skip_whitespace_no_eof E k).
Proof. unfold skip_whitespace_no_eof. ang. Qed.
Lemma an_separator e k : an e (verify_next_separator k).
Proof. unfold verify_next_separator, verify_value_separator. ang. Qed.
#[export] Hint Resolve an_ws_no_eof an_separator : an.
Lemma an_literal e : forall l, an e (consume_literal l).
Proof. induction l as [|x l IH]; cbn [consume_literal]; ang. Qed.
Lemma an_after_name e E : an e (after_name E).
Proof. unfold after_name. ang. Qed.
#[export] Hint Resolve an_literal an_after_name : an.
Lemma an_on_value_end : an false on_value_end.
Proof. unfold on_value_end. ang. Qed.
#[export] Hint Resolve an_on_value_end : an.
Lemma an_container_end : an false on_container_end.
Proof. unfold on_container_end. ang. Qed.
Lemma an_unicode_char e rb : (forall k, an e (rb k)) -> an e (read_unicode_escape_char rb).
Proof. intros H. unfold read_unicode_escape_char, read_unicode_escape, read_hex_byte, char_from_u32. ang. Qed.
#[export] Hint Resolve an_container_end an_unicode_char : an.
Lemma an_string_bytes e : an e read_string_bytes.
Proof. unfold read_string_bytes. ang. Qed.
#[export] Hint Resolve an_string_bytes : an.
Lemma an_skip_string e E : an e (skip_all_string_bytes E).
Proof. unfold skip_all_string_bytes. generalize (fuel E). induction n as [|f IH]; cbn [skip_all_string_bytes_loop]; ang. Qed.
Lemma an_path_name n : an false (set_path_name n).
Proof. unfold set_path_name. ang. Qed.
#[export] Hint Resolve an_skip_string an_path_name : an.
Lemma an_run_number e next : an e next -> forall p n, an e (run_number next p n).
Proof. intros Hn. induction p as [r|k IH|]; intros n; cbn [run_number]; ang. Qed.
Lemma an_number_skip e : an e number_skip_next.
Proof. unfold number_skip_next. ang. Qed.
Lemma an_number_end n : an false (number_end_checks n).
Proof. unfold number_end_checks. ang. Qed.
#[export] Hint Resolve an_run_number an_number_skip an_number_end : an.

(** ** Strings *)

(** [rb] consumes a byte and drops [n] *)
Definition reads (n : nat) (rb : syntax_error -> M byte) : Prop := forall k s g, g_lex g = LPlain \/ g_lex g = LEscaped ->
  mm (rb k) s g (fun b s' g' => lex_step (g_lex g) b = Some (g_lex g') /\ (n + g_slack g <= g_slack g')%nat /\ peeked s' = peeked s).

Lemma m_value_read : reads 0 value_read_byte.
Proof.
  intros k s g Hl. unfold value_read_byte. eapply mm_bind with (Q1 := fun ob s' g' => g_lex g' = g_lex g /\ g_slack g' = g_slack g /\ g_peeked g' = ob /\ s' = s).
  - unfold mm, value_peek. cbn [mem]. intros [e| |b]; cbn [mem from_peek sees byte_of]; [discriminate|auto..].
  - cbv beta. intros [b|] s' g' (H1 & H2 & H3 & ->); [|mend]. unfold mm. cbn [bind value_consume pbind mem ret]. rewrite H3, H1.
    assert (Hx : exists l, lex_step (g_lex g) b = Some l) by (destruct Hl as [->| ->]; cbn; eauto).
    destruct Hx as (l & Hx). exists l. split; [exact Hx|]. cbn. rewrite H2. auto.
Qed.
Lemma m_value_skipped : reads 1 value_read_skipped_byte.
Proof.
  intros k s g Hl. unfold value_read_skipped_byte. eapply mm_bind; [apply m_value_read, Hl|]. cbv beta. intros b s' g' (H1 & H2 & H3).
  unfold mm. cbn. split; [exact H1|]. split; [lia|exact H3].
Qed.

Definition stays {A : Type} (n : nat) (m : M A) : Prop := forall s g, g_lex g = LPlain ->
  mm m s g (fun _ s' g' => g_lex g' = LPlain /\ (n + g_slack g <= g_slack g')%nat /\ peeked s' = peeked s).
Lemma stays_bind {A B : Type} n n' (m : M A) (f : A -> M B) : stays n m -> (forall a, stays n' (f a)) -> stays (n + n') (bind m f).
Proof.
  intros Hm Hf s g Hg. eapply mm_bind; [apply Hm, Hg|]. cbv beta. intros a s' g' (H1 & H2 & H3). eapply mm_weak; [apply Hf, H1|].
  cbv beta. intros b s2 g2 (H4 & H5 & H6). split; [exact H4|]. split; [lia|congruence].
Qed.
Lemma stays_ret {A : Type} (a : A) : stays 0 (ret a).
Proof. intros s g Hg. apply mm_ret. auto. Qed.

Lemma plain_step b l : lex_step LPlain b = Some l -> (b <? 0x20) = false -> (b =? 0x5C) = false -> (b =? 0x22) = false -> l = LPlain.
Proof. cbn. intros [= <-] H1 H2 H3. rewrite H1, H2, H3. reflexivity. Qed.
Ltac excluded H := let E := fresh in match goal with |- ?x = false => destruct x eqn:E; [|reflexivity] end;
  exfalso; apply N.eqb_eq in E; subst; discriminate H.
Lemma hex_plain b d l : hex_digit b = Some d -> lex_step LPlain b = Some l -> l = LPlain.
Proof.
  unfold hex_digit. intros H Hl. apply (plain_step _ _ Hl); [|excluded H..].
  apply N.ltb_ge. repeat match type of H with (if ?x then _ else _) = _ => destruct x eqn:?Hc end; try discriminate H;
    match goal with Hx : _ = true |- _ => apply Bool.andb_true_iff in Hx; destruct Hx as [Hx _]; apply N.leb_le in Hx; lia end.
Qed.
Lemma continuation_plain b l : is_continuation b = true -> lex_step LPlain b = Some l -> l = LPlain.
Proof.
  intros H Hl. apply (plain_step _ _ Hl); [|excluded H..].
  destruct (b <? 0x20) eqn:E; [|reflexivity]. exfalso. apply N.ltb_lt in E. unfold is_continuation in H.
  assert (Hb : b = N.of_nat (N.to_nat b)) by lia. rewrite Hb in H. assert (Hn : (N.to_nat b < 32)%nat) by lia. revert H Hn. generalize (N.to_nat b). clear.
  intros n. do 32 (destruct n as [|n]; [discriminate|]). lia.
Qed.

Lemma m_hex n rb : reads n rb -> stays n (read_hex_byte rb).
Proof.
  intros H s g Hg. unfold read_hex_byte. eapply mm_bind; [apply H; left; exact Hg|]. cbv beta. rewrite Hg. intros b s' g' (H1 & H2 & H3).
  destruct (hex_digit b) eqn:Hx; [|mend]. apply mm_ret. split; [exact (hex_plain _ _ _ Hx H1)|auto].
Qed.
Lemma m_unicode rb : reads 1 rb -> stays 4 (read_unicode_escape rb).
Proof.
  intros H. pose proof (m_hex _ _ H) as Hx. unfold read_unicode_escape. change 4%nat with (1 + (1 + (1 + (1 + 0))))%nat.
  apply stays_bind; [exact Hx|intros ?]. apply stays_bind; [exact Hx|intros ?]. apply stays_bind; [exact Hx|intros ?].
  apply stays_bind; [exact Hx|intros ?]. apply stays_ret.
Qed.
Lemma m_char c s g : mm (char_from_u32 c) s g (fun _ s' g' => s' = s /\ g' = g).
Proof. unfold char_from_u32. destruct (is_charb c); [|mend]. apply mm_ret. split; reflexivity. Qed.
Lemma m_unicode_char rb : reads 1 rb -> stays 4 (read_unicode_escape_char rb).
Proof.
  intros H s g Hg. unfold read_unicode_escape_char. eapply mm_bind; [apply (m_unicode _ H), Hg|]. cbv beta. intros c s1 g1 (H1 & H1' & H1'').
  destruct (_ && _)%bool; [mend|]. destruct (_ && _)%bool.
  - eapply mm_bind; [apply H; left; exact H1|]. cbv beta. rewrite H1. intros b1 s2 g2 (H2 & H2' & H2'').
    destruct (b1 =? B_BACKSLASH) eqn:Hb; cbn [negb]; [|mend]. apply N.eqb_eq in Hb. subst b1. cbn in H2. injection H2 as H2.
    eapply mm_bind; [apply H; right; congruence|]. cbv beta. rewrite <- H2. intros b2 s3 g3 (H3 & H3' & H3'').
    destruct (b2 =? B_u) eqn:Hb; cbn [negb]; [|mend]. apply N.eqb_eq in Hb. subst b2. cbn in H3. injection H3 as H3.
    eapply mm_bind; [apply (m_unicode _ H); congruence|]. cbv beta. intros c2 s4 g4 (H4 & H4' & H4''). destruct (negb _); [mend|].
    eapply mm_bind; [apply m_char|]. cbv beta. intros ch s5 g5 [-> ->]. apply mm_ret. split; [exact H4|]. split; [lia|congruence].
  - eapply mm_bind; [apply m_char|]. cbv beta. intros ch s5 g5 [-> ->]. apply mm_ret. auto.
Qed.
Lemma m_multibyte rb b : reads 0 rb -> stays 0 (read_utf8_multibyte rb b).
Proof.
  intros H s g Hg. unfold read_utf8_multibyte.
  eapply mm_bind; [apply H; left; exact Hg|]. cbv beta. rewrite Hg. intros b1 s1 g1 (H1 & H1' & H1'').
  destruct (is_continuation b1) eqn:C1; cbn [negb]; [|mend]. apply (continuation_plain _ _ C1) in H1.
  destruct (is_2byte_start b). { destruct (negb _); [mend|]. apply mm_ret. auto. }
  eapply mm_bind; [apply H; left; exact H1|]. cbv beta. rewrite H1. intros b2 s2 g2 (H2 & H2' & H2'').
  destruct (is_continuation b2) eqn:C2; cbn [negb]; [|mend]. apply (continuation_plain _ _ C2) in H2.
  destruct (is_3byte_start b). { destruct (negb _); [mend|]. apply mm_ret. split; [exact H2|]. split; [lia|congruence]. }
  destruct (is_4byte_start b); [|mend].
  eapply mm_bind; [apply H; left; exact H2|]. cbv beta. rewrite H2. intros b3 s3 g3 (H3 & H3' & H3'').
  destruct (is_continuation b3) eqn:C3; cbn [negb]; [|mend]. apply (continuation_plain _ _ C3) in H3.
  destruct (negb _); [mend|]. apply mm_ret. split; [exact H3|]. split; [lia|congruence].
Qed.

Lemma encode_char_length c : (length (encode_char c) <= 4)%nat.
Proof. unfold encode_char. repeat match goal with |- context [if ?b then _ else _] => destruct b end; cbn; lia. Qed.

Lemma m_prev {B : Type} (f : unit -> M B) s g Q : mm (f tt) s (slack (S (g_slack g)) g) Q -> mm (bind value_skip_previous f) s g Q.
Proof. intros H. exact H. Qed.
Lemma m_push bs s g (Q : unit -> rstate -> gst -> Prop) : (length bs <= g_slack g)%nat -> Q tt s (slack (g_slack g - length bs) g) -> mm (value_push bs) s g Q.
Proof. intros H HQ. split; [exact H|exact HQ]. Qed.
Lemma m_update {B : Type} f0 (f : unit -> M B) s g Q : mm (f tt) (f0 s) g Q -> mm (bind (update f0) f) s g Q.
Proof. intros H. exact H. Qed.

Lemma m_escape s g : g_lex g = LEscaped -> mm read_string_escape s g (fun _ s' g' => g_lex g' = LPlain /\ peeked s' = peeked s).
Proof.
  intros Hg. unfold read_string_escape. apply m_prev. eapply mm_bind; [apply m_value_read; right; exact Hg|].
  cbv beta. cbn [slack g_lex g_slack]. rewrite Hg. intros e s2 g2 (H1 & H2 & H3).
  assert (Hp : forall r : bool, (e <? 0x20) = r -> (escape_literal e = true \/ escape_replacement e <> None \/ e = B_u) -> g_lex g2 = LPlain).
  { intros r Hr Hx. cbn in H1. injection H1 as H1. destruct r; rewrite Hr in H1; [|congruence]. exfalso. apply N.ltb_lt in Hr. unfold escape_literal, escape_replacement in Hx.
    destruct Hx as [Hx|[Hx| ->]]; [| |lia].
    - repeat (apply Bool.orb_true_iff in Hx; destruct Hx as [Hx|Hx]); apply N.eqb_eq in Hx; subst e; discriminate Hr.
    - repeat match goal with H : context [if ?x =? ?y then _ else _] |- _ => let Ey := fresh in destruct (x =? y) eqn:Ey; [apply N.eqb_eq in Ey; subst; first [discriminate Hr|lia]|] end.
      congruence. }
  eapply mm_bind with (Q1 := fun _ s' g' => g_lex g' = LPlain /\ peeked s' = peeked s).
  2:{ cbv beta. intros _ s3 g3 [H4 H5]. apply mm_update. split; [exact H4|exact H5]. }
  destruct (escape_literal e) eqn:E1; [apply mm_ret; split; [apply (Hp _ eq_refl); auto|exact H3]|]. destruct (escape_replacement e) eqn:E2.
  { apply m_prev. apply m_push; [cbn; lia|]. split; [apply (Hp _ eq_refl); right; left; discriminate|exact H3]. }
  destruct (e =? B_u) eqn:E3; [|mend]. apply N.eqb_eq in E3. specialize (Hp _ eq_refl (or_intror (or_intror E3))).
  apply m_prev. eapply mm_bind; [apply (m_unicode_char _ m_value_skipped); exact Hp|]. cbv beta. cbn [slack g_slack]. intros cn s4 g4 (H4 & H5 & H6).
  apply m_update. apply m_push; [pose proof (encode_char_length (fst cn)); lia|]. split; [exact H4|]. change (peeked s4 = peeked s). congruence.
Qed.

Lemma m_string_loop b : forall f s g, g_lex g = LPlain -> mm (read_string_loop f b) s g (fun _ s' _ => peeked s' = peeked s).
Proof.
  induction f as [|f IH]; intros s g Hg; cbn [read_string_loop]; [mend|].
  eapply mm_bind; [apply m_value_read; left; exact Hg|]. cbv beta. rewrite Hg. cbn [lex_step]. intros x s1 g1 (H1 & H1' & H1'').
  assert (Hnext : forall s2 g2, peeked s2 = peeked s -> g_lex g2 = LPlain -> mm (read_string_loop f b) s2 g2 (fun _ s' _ => peeked s' = peeked s)).
  { intros s2 g2 Hp Hl. rewrite <- Hp. apply IH, Hl. }
  change B_BACKSLASH with 0x5C. change B_QUOTE with 0x22. injection H1 as H1.
  assert (Hc : x = 0x5C \/ x = 0x22 -> (x <? 0x20) = false) by (intros [-> | ->]; reflexivity).
  destruct (x =? 0x5C) eqn:E1.
  { apply N.eqb_eq in E1. rewrite (Hc (or_introl E1)) in H1.
    eapply mm_bind; [apply m_escape; congruence|]. cbv beta. intros _ s2 g2 [H2 H3]. apply Hnext; [congruence|exact H2]. }
  destruct (x =? 0x22) eqn:E2. { unfold mm. cbn. exact H1''. }
  destruct (x <=? 0x1F) eqn:E3; [mend|]. assert (E4 : (x <? 0x20) = false) by (apply N.leb_gt in E3; apply N.ltb_ge; lia). rewrite E4 in H1. symmetry in H1.
  destruct (x <=? 0x7F).
  { apply m_update. apply Hnext; [exact H1''|exact H1]. }
  eapply mm_bind; [apply (m_multibyte _ _ m_value_read), H1|]. cbv beta. intros bs s2 g2 (H2 & _ & H3).
  apply m_update. apply Hnext; [change (peeked s2 = peeked s); congruence|exact H2].
Qed.

(** behind a quote *)
Definition rs {A : Type} (m : M A) : Prop := forall s g, g_quote g = true -> mm m s g (fun _ s' _ => peeked s' = peeked s).
Lemma rs_an {A : Type} (m : M A) : an false m -> rs m.
Proof. intros H s g _. eapply mm_weak; [apply H|]. intros a s' g' [H1 _]. exact H1. Qed.
Lemma rs_bind {A B : Type} (m : M A) (f : A -> M B) : rs m -> (forall a, an false (f a)) -> rs (bind m f).
Proof.
  intros Hm Hf s g Hg. eapply mm_bind; [apply Hm, Hg|]. cbv beta. intros a s' g' H1. eapply mm_weak; [apply Hf|].
  cbv beta. intros b s2 g2 [H2 _]. congruence.
Qed.
Lemma rs_get_bind {B : Type} (f : rstate -> M B) : (forall s, rs (f s)) -> rs (bind get_state f).
Proof. intros H s g. apply (H s s). Qed.
Lemma rs_string E b : rs (read_string E b).
Proof.
  intros s g Hg. unfold read_string. unfold mm. cbn [bind value_reader_new pbind mem]. exists LPlain. split; [auto|].
  apply m_string_loop. reflexivity.
Qed.

(** ** Peeking *)

Lemma qinv_none s g : peeked s = None -> qinv s g.
Proof. intros H p Hp. congruence. Qed.
Lemma qinv_quote s g : g_quote g = true -> qinv s g.
Proof. intros H p _ _. exact H. Qed.

Lemma mm_an {A B : Type} e (m : M A) (f : A -> M B) s g Q : an e m ->
  (forall a s' g', frame e s s' -> mm (f a) s' g' Q) -> mm (bind m f) s g Q.
Proof. intros Hm Hf. eapply mm_bind; [apply Hm|]. exact Hf. Qed.

Lemma m_peek_token st b s g : mm (peek_token st b) s g (fun pa s' g' => frame true s s' /\ (quoted (fst pa) = true -> snd pa = true /\ b = B_QUOTE /\ g' = g)).
Proof.
  unfold peek_token.
  repeat match goal with
  | |- mm (if ?b =? B_QUOTE then _ else _) _ _ _ => destruct (b =? B_QUOTE) eqn:?Eq
  | |- mm (if ?b then _ else _) _ _ _ => destruct b
  | |- mm (ret _) _ _ _ => apply mm_ret; split; [apply frame_refl|cbn; first [discriminate|intros _; apply N.eqb_eq in Eq; auto]]
  | |- mm (syntax_err _) _ _ _ => apply mm_syntax
  | |- mm (bind (consume_literal _) _) _ _ _ => apply mm_an with (e := true); [apply an_literal|intros ? ? ? ?; apply mm_ret; split; [assumption|discriminate]]
  end.
Qed.

(** the next byte is known *)
Definition peeks (s : rstate) (op : option peeked_value) (s' : rstate) (g' : gst) : Prop :=
  peeked s' = op /\ qinv s' g' /\ expects_member_name s' = expects_member_name s.

Lemma m_finish_peek E c comma p adv s g : (quoted p = true -> adv = true /\ g_peeked g = Some B_QUOTE) ->
  mm (finish_peek E c comma p adv) s g (peeks s).
Proof.
  intros Hp. unfold finish_peek.
  eapply mm_bind with (Q1 := fun _ s' g' => frame true s s' /\ g' = g).
  { destruct (is_end_token p).
    - destruct comma as [[[l cc] b]|]; [|apply mm_ret; split; [apply frame_refl|reflexivity]]. destruct (negb _); [|apply mm_ret; split; [apply frame_refl|reflexivity]].
      apply m_update. mend.
    - destruct comma; [apply mm_ret; split; [apply frame_refl|reflexivity]|]. destruct c; [mend|apply mm_ret; split; [apply frame_refl|reflexivity]]. }
  cbv beta. intros _ s1 g1 [[_ H1] ->].
  eapply mm_bind with (Q1 := fun _ s' g' => s' = s1 /\ (quoted p = true -> g_quote g' = true)).
  { destruct adv.
    - unfold mm. cbn. split; [reflexivity|]. intros Hq. destruct (Hp Hq) as [_ ->]. reflexivity.
    - apply mm_ret. split; [reflexivity|]. intros Hq. destruct (Hp Hq). discriminate. }
  cbv beta. intros _ s2 g2 [-> H2]. apply m_update, mm_ret. split; [reflexivity|]. split; [|exact (H1 eq_refl)].
  intros q Hq Hb. cbn in Hq. injection Hq as <-. exact (H2 Hb).
Qed.

(** the byte which is returned has been looked at *)
Lemma m_ws E k s g : mm (skip_whitespace E k) s g (fun ob s' g' => frame true s s' /\ forall b, ob = Some b -> g_peeked g' = Some b).
Proof.
  unfold skip_whitespace. generalize (fuel E) at 1. intros f. revert s g. induction f as [|f IH]; intros s g; cbn [skip_whitespace_loop]; [mend|].
  assert (Hrec : forall (s' : rstate) (g' : gst), frame true s s' -> mm (skip_whitespace_loop E f k) s' g' (fun ob s' g' => frame true s s' /\ forall b, ob = Some b -> g_peeked g' = Some b)).
  { intros s' g' H. eapply mm_weak; [apply IH|]. cbv beta. intros ob s2 g2 [H1 H2]. split; [exact (frame_trans _ _ _ _ H H1)|exact H2]. }
  apply mm_an with (e := true); [auto with an|]. intros _ s1 g1 H1.
  eapply mm_bind with (Q1 := fun ob s' g' => s' = s1 /\ g_peeked g' = ob). { intros [x| |b]; cbn; [discriminate|auto..]. }
  cbv beta. intros [b|] s2 g2 [-> H2].
  - destruct (b =? B_SLASH). 2:{ apply mm_ret. split; [exact H1|]. intros ? [= <-]. exact H2. }
    destruct (negb _); [mend|].
    apply mm_an with (e := true); [auto with an|]. intros _ s3 g3 H3. apply mm_an with (e := true); [apply an_update; frm|]. intros _ s4 g4 H4.
    apply mm_an with (e := true); [auto with an|]. intros b2 s5 g5 H5.
    pose proof (frame_trans _ _ _ _ (frame_trans _ _ _ _ (frame_trans _ _ _ _ H1 H3) H4) H5) as H6.
    destruct (b2 =? B_STAR).
    + apply mm_an with (e := true); [apply an_update; frm|]. intros _ s7 g7 H7. apply mm_an with (e := true); [apply an_block|]. intros _ s8 g8 H8.
      apply Hrec. exact (frame_trans _ _ _ _ (frame_trans _ _ _ _ H6 H7) H8).
    + destruct (b2 =? B_SLASH); [|mend]. apply mm_an with (e := true); [apply an_update; frm|]. intros _ s7 g7 H7.
      apply mm_an with (e := true); [apply an_skip_to|]. intros _ s8 g8 H8. apply Hrec. exact (frame_trans _ _ _ _ (frame_trans _ _ _ _ H6 H7) H8).
  - apply mm_an with (e := true); [auto with an|]. intros _ s3 g3 H3. apply mm_ret. split; [exact (frame_trans _ _ _ _ H1 H3)|discriminate].
Qed.
Lemma m_ws_no_eof E k s g : mm (skip_whitespace_no_eof E k) s g (fun b s' g' => frame true s s' /\ g_peeked g' = Some b).
Proof.
  unfold skip_whitespace_no_eof. eapply mm_bind; [apply m_ws|]. cbv beta. intros [b|] s1 g1 [H1 H2]; [|mend]. apply mm_ret. auto.
Qed.

Lemma peeks_frame s s1 op s' g' : frame true s s1 -> peeks s1 op s' g' -> peeks s op s' g'.
Proof. intros [_ H1] (H2 & H3 & H4). split; [exact H2|]. split; [exact H3|]. rewrite H4. exact (H1 eq_refl). Qed.

Lemma m_token_peek E st c comma b s g : g_peeked g = Some b ->
  mm (pa <- peek_token st b ;; finish_peek E c comma (fst pa) (snd pa))%rm s g (peeks s).
Proof.
  intros Hg. eapply mm_bind; [apply m_peek_token|]. cbv beta. intros [p adv] s1 g1 [H1 H2]. cbn [fst snd] in *.
  eapply mm_weak; [apply m_finish_peek|].
  - intros Hq. destruct (H2 Hq) as (H3 & H4 & H5). subst. auto.
  - cbv beta. intros op s' g' H. exact (peeks_frame _ _ _ _ _ H1 H).
Qed.
Lemma m_peek_after_ws E b s g : g_peeked g = Some b -> mm (peek_after_ws E b) s g (peeks s).
Proof.
  intros Hg. unfold peek_after_ws. apply mm_get. destruct (b =? B_COMMA); [|apply m_token_peek, Hg].
  destruct (negb _); [mend|]. apply mm_an with (e := true); [auto with an|]. intros _ s1 g1 H1.
  apply mm_an with (e := true); [apply an_update; frm|]. intros _ s2 g2 H2. eapply mm_bind; [apply m_ws_no_eof|]. cbv beta. intros b' s3 g3 [H3 H4].
  eapply mm_weak; [apply m_token_peek, H4|]. cbv beta. intros op s' g' H.
  exact (peeks_frame _ _ _ _ _ (frame_trans _ _ _ _ (frame_trans _ _ _ _ H1 H2) H3) H).
Qed.
Lemma m_peek_optional E s g : qinv s g -> mm (peek_internal_optional E) s g (peeks s).
Proof.
  intros Hi. unfold peek_internal_optional. apply mm_get, mm_misuse. intros _. destruct (peeked s) as [p|] eqn:Hp.
  - apply mm_ret. split; [exact Hp|]. split; [exact Hi|reflexivity].
  - apply mm_misuse. intros _. apply mm_an with (e := true); [destruct (expects_member_value s); auto with an|]. intros _ s1 g1 H1.
    eapply mm_bind; [apply m_ws|]. cbv beta. intros [b|] s2 g2 [H2 H3]; pose proof (frame_trans _ _ _ _ H1 H2) as H4.
    + eapply mm_weak; [apply m_peek_after_ws, (H3 b eq_refl)|]. cbv beta. intros op s' g' H. exact (peeks_frame _ _ _ _ _ H4 H).
    + apply mm_ret. destruct H4 as [H4 H5]. split; [congruence|]. split; [apply qinv_none; congruence|exact (H5 eq_refl)].
Qed.
Lemma m_peek_internal E s g : qinv s g -> mm (peek_internal E) s g (fun p s' g' => peeks s (Some p) s' g').
Proof.
  intros Hi. unfold peek_internal. eapply mm_bind; [apply m_peek_optional, Hi|]. cbv beta. intros [p|] s1 g1 H1.
  - apply mm_ret. exact H1.
  - apply mm_get. destruct (_ && _)%bool; [|mend]. apply mm_fail, H1.
Qed.

Lemma m_map_peeked p s g : qinv s g -> mm (map_peeked p) s g (fun t s' g' => s' = s /\ g' = g /\ (t = TString -> quoted p = true)).
Proof. intros Hi. destruct p; first [exact I|apply mm_fail, Hi|apply mm_ret; split; [reflexivity|split; [reflexivity|first [discriminate|reflexivity]]]]. Qed.
Lemma value_type_eqb_eq a b : value_type_eqb a b = true -> a = b.
Proof. destruct a, b; cbn; congruence. Qed.

Lemma m_start E t d s g : qinv s g -> mm (start_expected_value_type E t d) s g
  (fun _ s' g' => peeked s' = None /\ (t = TString -> g_quote g' = true)).
Proof.
  intros Hi. unfold start_expected_value_type. apply mm_get, mm_misuse. intros _.
  eapply mm_bind; [apply m_peek_internal, Hi|]. cbv beta. intros p s1 g1 (H1 & H2 & H3).
  eapply mm_bind; [apply m_map_peeked, H2|]. cbv beta. intros t' s2 g2 (-> & -> & Ht).
  destruct (value_type_eqb t' t) eqn:He; [|apply mm_fail, H2]. apply value_type_eqb_eq in He. subst t'. apply mm_get.
  destruct (if d then depth_exceeded E s1 else None); [apply mm_fail, H2|]. unfold consume_peeked.
  eapply mm_bind with (Q1 := fun _ s' g' => peeked s' = None /\ g' = g1). { apply mm_get. rewrite H1. apply mm_update. auto. }
  cbv beta. intros _ s3 g3 [H4 ->]. apply mm_ret. split; [exact H4|]. intros Hs. exact (H2 p H1 (Ht Hs)).
Qed.

(** ** The methods *)

Definition kp {A : Type} (m : M A) : Prop := forall s g, qinv s g -> mm m s g (fun _ s' g' => qinv s' g').
(** the token is not peeked any more *)
Definition tk {A : Type} (m : M A) : Prop := forall s g, qinv s g -> mm m s g (fun _ s' _ => peeked s' = None).

Lemma kp_tk {A : Type} (m : M A) : tk m -> kp m.
Proof. intros H s g Hi. eapply mm_weak; [apply H, Hi|]. cbv beta. intros a s' g' H1. apply qinv_none, H1. Qed.
Lemma kp_bind {A B : Type} (m : M A) (f : A -> M B) : kp m -> (forall a, kp (f a)) -> kp (bind m f).
Proof. intros Hm Hf s g Hi. eapply mm_bind; [apply Hm, Hi|]. cbv beta. intros a s' g' H1. apply Hf, H1. Qed.
Lemma kp_get_bind {B : Type} (f : rstate -> M B) : (forall s, kp (f s)) -> kp (bind get_state f).
Proof. intros H s g Hi. apply (H s s g Hi). Qed.
Lemma kp_ret {A : Type} (a : A) : kp (ret a).
Proof. intros s g Hi. exact Hi. Qed.
Lemma kp_fail {A : Type} e : kp (fail e : M A).
Proof. intros s g Hi _. exact Hi. Qed.
Lemma kp_structure {A : Type} e : kp (structure_err e : M A).
Proof. intros s g Hi _. exact Hi. Qed.
Lemma kp_panics {A : Type} e : kp (panics e : M A).
Proof. intros s g Hi. exact I. Qed.
Lemma kp_no_fuel {A : Type} : kp (no_fuel : M A).
Proof. intros s g Hi. exact I. Qed.
Lemma kp_misuse b : kp (misuse_if b).
Proof. intros s g Hi. destruct b; [exact I|exact Hi]. Qed.
Lemma tk_an {A B : Type} (m : M A) (f : A -> M B) : tk m -> (forall a, an false (f a)) -> tk (bind m f).
Proof.
  intros Hm Hf s g Hi. eapply mm_bind; [apply Hm, Hi|]. cbv beta. intros a s' g' H1. eapply mm_weak; [apply Hf|].
  cbv beta. intros b s2 g2 [H2 _]. congruence.
Qed.
Lemma tk_rs {A B : Type} (m : M A) (f : A -> M B) : (forall s g, qinv s g -> mm m s g (fun _ s' g' => peeked s' = None /\ g_quote g' = true)) ->
  (forall a, rs (f a)) -> tk (bind m f).
Proof.
  intros Hm Hf s g Hi. eapply mm_bind; [apply Hm, Hi|]. cbv beta. intros a s' g' [H1 H2]. eapply mm_weak; [apply Hf, H2|].
  cbv beta. intros b s2 g2 H3. congruence.
Qed.
Create HintDb kp.
#[export] Hint Resolve kp_ret kp_fail kp_structure kp_panics kp_no_fuel kp_misuse : kp.
Ltac kpg := repeat first
  [ progress intros
  | match goal with
    | |- kp (bind get_state _) => apply kp_get_bind
    | |- kp (bind _ _) => apply kp_bind
    | |- kp (if ?b then _ else _) => destruct b
    | |- kp (match ?x with _ => _ end) => destruct x eqn:?
    end
  | solve [auto with kp]
  | solve [apply kp_tk; auto with kp] ].

Lemma kp_peek E : kp (peek E).
Proof.
  intros s g Hi. unfold peek. apply mm_get, mm_misuse. intros _. eapply mm_bind; [apply m_peek_internal, Hi|]. cbv beta. intros p s1 g1 (H1 & H2 & H3).
  eapply mm_weak; [apply m_map_peeked, H2|]. cbv beta. intros t s2 g2 (-> & -> & _). exact H2.
Qed.
Lemma tk_start E t d : tk (start_expected_value_type E t d).
Proof. intros s g Hi. eapply mm_weak; [apply m_start, Hi|]. cbv beta. intros p s' g' [H _]. exact H. Qed.
Lemma tk_begin_array E : tk (begin_array E).
Proof.
  unfold begin_array, on_container_start. apply tk_an; [apply tk_an; [apply tk_start|]|]; intros _; apply an_update; frm.
Qed.
Lemma tk_begin_object E : tk (begin_object E).
Proof.
  unfold begin_object, on_container_start. apply tk_an; [apply tk_an; [apply tk_start|]|]; intros _; apply an_update; frm.
Qed.
Lemma m_consume {B : Type} (f : unit -> M B) s g Q : (forall s', peeked s' = None -> expects_member_name s' = expects_member_name s -> mm (f tt) s' g Q) ->
  mm (bind consume_peeked f) s g Q.
Proof.
  intros H. eapply mm_bind with (Q1 := fun _ s' g' => peeked s' = None /\ expects_member_name s' = expects_member_name s /\ g' = g).
  - unfold consume_peeked. apply mm_get. destruct (peeked s); [|mend]. apply mm_update. auto.
  - cbv beta. intros [] s' g' (H1 & H2 & ->). apply H; assumption.
Qed.
Lemma tk_end_array E : tk (end_array E).
Proof.
  intros s g Hi. unfold end_array. apply mm_get, mm_misuse. intros _. eapply mm_bind; [apply m_peek_internal, Hi|]. cbv beta. intros p s1 g1 (H1 & H2 & H3).
  destruct p; try (apply mm_fail, H2). apply m_consume. intros s2 H4 _. eapply mm_weak; [apply an_container_end|]. cbv beta. intros _ s3 g3 [H5 _]. congruence.
Qed.
Lemma tk_end_object E : tk (end_object E).
Proof.
  intros s g Hi. unfold end_object. apply mm_get, mm_misuse. intros _. apply mm_misuse. intros _.
  eapply mm_bind; [apply m_peek_internal, Hi|]. cbv beta. intros p s1 g1 (H1 & H2 & H3).
  destruct p; try (apply mm_fail, H2). apply m_consume. intros s2 H4 _. apply m_update.
  eapply mm_weak; [apply an_container_end|]. cbv beta. intros _ s3 g3 [H5 _]. rewrite H5. exact H4.
Qed.

Lemma m_has_next E s g : qinv s g -> mm (has_next E) s g (fun h s' g' => qinv s' g' /\ expects_member_name s' = expects_member_name s /\
  (h = true -> expects_member_name s' = true -> peeked s' = Some PkNameStart)).
Proof.
  intros Hi. unfold has_next. apply mm_get, mm_misuse. intros _.
  eapply (mm_bind _ _ _ _ (fun op s' g' => peeks s op s' g')).
  { destruct (stack s).
    - apply mm_misuse. intros _. apply mm_misuse. intros _. apply m_peek_optional, Hi.
    - eapply mm_bind; [apply m_peek_internal, Hi|]. cbv beta. intros p s' g' H. apply mm_ret. exact H. }
  cbv beta. intros [p|] s1 g1 (H1 & H2 & H3); [|apply mm_ret; split; [exact H2|split; [exact H3|discriminate]]].
  apply mm_get. destruct (expects_member_name s1) eqn:He; cbn [negb orb].
  - destruct p; try exact I; apply mm_ret; (split; [exact H2|]); (split; [congruence|]); [discriminate|auto].
  - apply mm_ret. split; [exact H2|]. split; [congruence|congruence].
Qed.
Lemma kp_has_next E : kp (has_next E).
Proof. intros s g Hi. eapply mm_weak; [apply m_has_next, Hi|]. cbv beta. intros h s' g' [H _]. exact H. Qed.
#[export] Hint Resolve kp_peek tk_start tk_begin_array tk_begin_object tk_end_array tk_end_object kp_has_next : kp.

Lemma m_before_name E s g : qinv s g -> mm (before_name E) s g (fun _ s' g' => peeked s' = None /\ g_quote g' = true).
Proof.
  intros Hi. unfold before_name. apply mm_get, mm_misuse. intros He. apply mm_misuse. intros _.
  eapply mm_bind; [apply m_has_next, Hi|]. cbv beta. intros h s1 g1 (H1 & H2 & H3). destruct h; cbn [negb]; [|apply mm_fail, H1].
  apply m_update. unfold consume_peeked. apply mm_get. apply Bool.negb_false_iff in He.
  assert (Hp : peeked s1 = Some PkNameStart) by (apply H3; congruence). cbn [set_expects_name peeked]. rewrite Hp. apply mm_update.
  split; [reflexivity|]. exact (H1 _ Hp eq_refl).
Qed.
Lemma m_string_start E s g : qinv s g -> mm (start_expected_value_type E TString false) s g (fun _ s' g' => peeked s' = None /\ g_quote g' = true).
Proof. intros Hi. eapply mm_weak; [apply m_start, Hi|]. cbv beta. intros _ s' g' [H1 H2]. auto. Qed.

Lemma tk_next_name_owned E : tk (next_name_owned E).
Proof. unfold next_name_owned. apply tk_rs; [apply m_before_name|intros _]. apply rs_bind; [apply rs_string|intros _]. ang. Qed.
Lemma tk_next_name E : tk (next_name E).
Proof. unfold next_name. apply tk_rs; [apply m_before_name|intros _]. apply rs_bind; [apply rs_string|intros _]. ang. Qed.
Lemma tk_skip_name E : tk (skip_name E).
Proof.
  unfold skip_name. apply tk_rs; [apply m_before_name|intros _]. apply rs_get_bind. intros s0.
  destruct (json_path s0); [apply rs_bind; [apply rs_string|intros _]; ang|apply rs_an, an_skip_string].
Qed.
Lemma tk_next_string E : tk (next_string E).
Proof. unfold next_string. apply tk_rs; [apply m_string_start|intros _]. apply rs_bind; [apply rs_string|intros _]. ang. Qed.
Lemma tk_next_str E : tk (next_str E).
Proof. unfold next_str. apply tk_rs; [apply m_string_start|intros _]. apply rs_bind; [apply rs_string|intros _]. ang. Qed.
Lemma tk_bool E : tk (next_bool E).
Proof. unfold next_bool. apply tk_an; [apply tk_start|intros p]. ang. Qed.
Lemma tk_null E : tk (next_null E).
Proof. unfold next_null. apply tk_an; [apply tk_start|intros p]. ang. Qed.

(** ** Numbers *)

(** every byte which a program consumes has been looked at, and is part of a
    number *)
Fixpoint eats (cur : option byte) (p : nprog) : Prop :=
  match p with
  | NNext k => (exists b, cur = Some b /\ number_text [b] = true) /\ forall ob, eats ob (k ob)
  | _ => True
  end.

Lemma m_run_number p : forall cur n s g, eats cur p -> g_lex g = LNumber -> g_peeked g = cur ->
  mm (run_number number_next p n) s g (fun _ s' _ => peeked s' = peeked s).
Proof.
  induction p as [r|k IH|]; intros cur n s g He Hg Hc; cbn [run_number eats] in *; [apply mm_ret; reflexivity| |mend].
  destruct He as [(b & -> & Hb) Hk]. unfold mm. cbn [bind number_next value_consume value_peek pbind mem]. rewrite Hc, Hg.
  exists LNumber. cbn [lex_step]. rewrite Hb. split; [reflexivity|].
  intros [e| |b']; cbn [from_peek pbind mem byte_of]; [discriminate|apply (IH _ None); [apply Hk|reflexivity..]|apply (IH _ (Some b')); [apply Hk|reflexivity..]].
Qed.

Lemma digit_number b : is_digit b = true -> number_text [b] = true.
Proof. unfold is_digit, number_text. cbn [forallb]. intros H. rewrite H. reflexivity. Qed.
Lemma digit19_number b : is_digit19 b = true -> number_text [b] = true.
Proof.
  unfold is_digit19. intros H. apply digit_number. unfold is_digit. apply Bool.andb_true_iff in H. destruct H as [H1 H2]. rewrite H2.
  apply N.leb_le in H1. rewrite Bool.andb_true_r. apply N.leb_le. lia.
Qed.
Ltac eat := match goal with
  | H : is_digit ?b = true |- exists z, Some ?b = Some z /\ _ => exists b; split; [reflexivity|exact (digit_number _ H)]
  | H : is_digit19 ?b = true |- exists z, Some ?b = Some z /\ _ => exists b; split; [reflexivity|exact (digit19_number _ H)]
  | H : (?b =? _) = true |- exists z, Some ?b = Some z /\ _ => apply N.eqb_eq in H; subst b; eexists; split; reflexivity
  end.

Lemma eats_digits k : (forall b, eats (Some b) (k b)) -> forall f b, number_text [b] = true -> eats (Some b) (digits_loop f k).
Proof.
  intros Hk. induction f as [|f IH]; intros b Hb; cbn [digits_loop eats]; [exact I|]. split; [exists b; split; [reflexivity|exact Hb]|].
  intros [b'|]; [|exact I]. destruct (is_digit b') eqn:Hd; [apply IH, digit_number, Hd|apply Hk].
Qed.
Lemma eats_exponent_loop k : (forall b n, eats (Some b) (k b n)) -> forall f n b, number_text [b] = true -> eats (Some b) (exponent_loop f n k).
Proof.
  intros Hk. induction f as [|f IH]; intros n b Hb; cbn [exponent_loop eats]; [exact I|]. split; [exists b; split; [reflexivity|exact Hb]|].
  intros [b'|]; [|exact I]. destruct (is_digit b') eqn:Hd; [|apply Hk]. destruct (_ || _)%bool; apply IH, digit_number, Hd.
Qed.
Lemma eats_end b n : eats (Some b) (number_end b n).
Proof. unfold number_end. destruct (_ || _)%bool; exact I. Qed.
Lemma eats_exponent_digits f b : eats (Some b) (exponent_digits f b).
Proof.
  unfold exponent_digits. destruct (is_digit19 b) eqn:H1; [apply eats_exponent_loop; [apply eats_end|apply digit19_number, H1]|].
  destruct (b =? B_0) eqn:H2; cbn [negb]; [|exact I]. apply N.eqb_eq in H2. subst b. apply eats_exponent_loop; [apply eats_end|reflexivity].
Qed.
Lemma eats_exponent f b : eats (Some b) (exponent_part f b).
Proof.
  unfold exponent_part. destruct ((b =? B_e) || (b =? B_E))%bool eqn:H; [|apply eats_end]. cbn [eats]. split.
  - apply Bool.orb_true_iff in H. destruct H as [H|H]; eat.
  - intros [b2|]; [|exact I]. destruct ((b2 =? B_MINUS) || (b2 =? B_PLUS))%bool eqn:H2; [|apply eats_exponent_digits]. cbn [eats]. split.
    + apply Bool.orb_true_iff in H2. destruct H2 as [H2|H2]; eat.
    + intros [b3|]; [|exact I]. apply eats_exponent_digits.
Qed.
Lemma eats_fraction f b : eats (Some b) (fraction_part f b).
Proof.
  unfold fraction_part. destruct (b =? B_DOT) eqn:H; [|apply eats_exponent]. cbn [eats]. split; [eat|].
  intros [b2|]; [|exact I]. destruct (is_digit b2) eqn:H2; cbn [negb]; [|exact I]. apply eats_digits; [apply eats_exponent|apply digit_number, H2].
Qed.
Lemma eats_integer f b : eats (Some b) (integer_part f b).
Proof.
  unfold integer_part. destruct (is_digit19 b) eqn:H; [apply eats_digits; [apply eats_fraction|apply digit19_number, H]|].
  destruct (b =? B_0) eqn:H2; [|exact I]. cbn [eats]. split; [eat|]. intros [b2|]; [|exact I]. apply eats_fraction.
Qed.
Lemma eats_number f b : eats (Some b) (consume_json_number f b).
Proof.
  unfold consume_json_number. destruct (b =? B_MINUS) eqn:H; [|apply eats_integer]. cbn [eats]. split; [eat|].
  intros [b2|]; [|exact I]. apply eats_integer.
Qed.

Lemma m_number_start E s g : qinv s g -> mm (number_start E) s g (fun b s' g' => peeked s' = None /\ g_peeked g' = Some b).
Proof.
  intros Hi. unfold number_start. eapply mm_bind; [apply tk_start, Hi|]. cbv beta. intros _ s1 g1 H1. unfold mm.
  cbn [bind peek_byte pbind mem]. intros [e| |x]; cbn; auto. discriminate.
Qed.
Lemma tk_read_number E b : tk (read_number_bytes E b).
Proof.
  intros s g Hi. unfold read_number_bytes. eapply mm_bind; [apply m_number_start, Hi|]. cbv beta. intros x s1 g1 [H1 H2].
  unfold mm at 1. cbn [bind value_reader_new pbind mem]. exists LNumber. split; [auto|].
  change (mm (bind (run_number number_next (consume_json_number (fuel E) x) 0) (fun rc =>
    match fst rc with
    | None => syntax_err MalformedNumber
    | Some exponent_digits_count =>
      if restrict_number_values (cfg E) && ((2 <? exponent_digits_count) || (100 <? snd rc))
      then (value_get false ;; number <- value_string ;; fail (EUnsupportedNumber number))%rm
      else (value_get b ;; number_end_checks (snd rc))%rm
    end)) s1 (G LNumber 0 (g_peeked g1) false) (fun _ s' _ => peeked s' = None)).
  eapply mm_bind; [eapply m_run_number; [apply eats_number|reflexivity|exact H2]|].
  cbv beta. intros rc s2 g2 H3. assert (Hn : peeked s2 = None) by congruence.
  assert (Ha : forall m : M unit, an false m -> mm m s2 g2 (fun _ s' _ => peeked s' = None)).
  { intros m Hm. eapply mm_weak; [apply Hm|]. cbv beta. intros _ s3 g3 [H4 _]. congruence. }
  apply Ha. ang.
Qed.
Lemma tk_skip_number E : tk (skip_number E).
Proof.
  intros s g Hi. unfold skip_number. eapply mm_bind; [apply m_number_start, Hi|]. cbv beta. intros x s1 g1 [H1 _].
  assert (Ha : forall m : M unit, an false m -> mm m s1 g1 (fun _ s' _ => peeked s' = None)).
  { intros m Hm. eapply mm_weak; [apply Hm|]. cbv beta. intros _ s3 g3 [H4 _]. congruence. }
  apply Ha. ang.
Qed.
Lemma tk_number_string E : tk (next_number_as_string E).
Proof. unfold next_number_as_string. apply tk_an; [apply tk_read_number|intros _; apply an_string]. Qed.
Lemma tk_number_str E : tk (next_number_as_str E).
Proof. unfold next_number_as_str. apply tk_an; [apply tk_read_number|intros _; apply an_str]. Qed.
#[export] Hint Resolve tk_next_name_owned tk_next_name tk_skip_name tk_next_string tk_next_str tk_bool tk_null tk_skip_number tk_number_string tk_number_str : kp.

(** ** Skipping and seeking *)

Lemma kp_skip_string E : kp (start_expected_value_type E TString false ;; skip_all_string_bytes E ;; on_value_end ;; ret false)%rm.
Proof. apply kp_tk, tk_an; [apply tk_start|intros _]. ang. Qed.
#[export] Hint Resolve kp_skip_string : kp.
Lemma kp_skip_start E : kp (skip_value_start E).
Proof. unfold skip_value_start. apply kp_bind; [apply kp_peek|intros [| | | | |]]; try solve [kpg]. apply kp_skip_string. Qed.
Lemma kp_end_container E : kp (end_container E).
Proof. unfold end_container. kpg. Qed.
#[export] Hint Resolve kp_skip_start kp_end_container : kp.
Lemma kp_skip_loop E : forall f depth, kp (skip_value_loop E f depth).
Proof. induction f as [|f IH]; intros depth; cbn [skip_value_loop]; kpg. Qed.
#[export] Hint Resolve kp_skip_loop : kp.
Lemma kp_skip_value E : kp (skip_value E).
Proof. unfold skip_value. kpg. Qed.
#[export] Hint Resolve kp_skip_value : kp.
Lemma kp_skip_items E : forall f, kp (skip_items E f).
Proof. induction f as [|f IH]; cbn [skip_items]; kpg. Qed.
Lemma kp_skip_members E : forall f, kp (skip_members E f).
Proof. induction f as [|f IH]; cbn [skip_members]; kpg. Qed.
#[export] Hint Resolve kp_skip_items kp_skip_members : kp.
Lemma kp_top_loop E : forall f, kp (skip_to_top_level_loop E f).
Proof. induction f as [|f IH]; cbn [skip_to_top_level_loop]; kpg. Qed.
#[export] Hint Resolve kp_top_loop : kp.
Lemma kp_top_level E : kp (skip_to_top_level E).
Proof. unfold skip_to_top_level. kpg. Qed.
Lemma kp_seek_item E index : forall f r, kp (seek_item E f index r).
Proof. induction f as [|f IH]; intros r; cbn [seek_item]; kpg. Qed.
Lemma kp_seek_member E name : forall f, kp (seek_member E f name).
Proof. induction f as [|f IH]; cbn [seek_member]; kpg. Qed.
#[export] Hint Resolve kp_top_level kp_seek_item kp_seek_member : kp.
Lemma kp_seek_pieces E : forall path, kp (seek_pieces E path).
Proof. induction path as [|[i|n] path IH]; cbn [seek_pieces]; kpg. Qed.
#[export] Hint Resolve kp_seek_pieces : kp.
Lemma kp_seek_to E path : kp (seek_to E path).
Proof. unfold seek_to. kpg. Qed.
Lemma kp_seek_back E path : kp (seek_back E path).
Proof. unfold seek_back. induction (rev path) as [|[i|n] p IH]; cbn [seek_back_pieces]; kpg. Qed.
#[export] Hint Resolve kp_seek_to kp_seek_back : kp.

(** ** String readers *)

Lemma m_catch {A : Type} (m : M A) s g : peeked s = None -> mem (m s) g (fun rs _ => peeked (snd rs) = None) ->
  mm (catch m) s g (fun _ s' _ => peeked s' = None).
Proof.
  intros _ H. unfold mm, catch. apply mem_pbind. eapply mem_impl; [exact H|]. intros [[a|e|k|] s'] g' Hs; cbn [mem snd] in *; auto.
Qed.

(** the peeked token is left alone also if reading fails *)
Definition still {A : Type} (m : M A) : Prop := forall s g, mem (m s) g (fun rs _ => peeked (snd rs) = peeked s).
Lemma still_bind {A B : Type} (m : M A) (f : A -> M B) : still m -> (forall a, still (f a)) -> still (bind m f).
Proof.
  intros Hm Hf s g. unfold bind. apply mem_pbind. eapply mem_impl; [apply Hm|]. intros [[a|e|k|] s'] g' H; cbn [snd] in H; try exact H.
  eapply mem_impl; [apply Hf|]. cbv beta. intros r g2 H2. congruence.
Qed.
Lemma still_ret {A : Type} (a : A) : still (ret a). Proof. intros s g. reflexivity. Qed.
Lemma still_fail {A : Type} e : still (fail e : M A). Proof. intros s g. reflexivity. Qed.
Lemma still_panics {A : Type} k : still (panics k : M A). Proof. intros s g. reflexivity. Qed.
Lemma still_update f : (forall s, peeked (f s) = peeked s) -> still (update f). Proof. intros H s g. apply H. Qed.
Lemma still_read k : still (read_byte k).
Proof.
  unfold read_byte. apply still_bind; [intros s g [e| |b]; reflexivity|]. intros [b|]; [|apply still_fail].
  apply still_bind; [intros s g; reflexivity|intros ?; apply still_ret].
Qed.
Ltac stl := repeat match goal with
  | |- still (bind _ _) => apply still_bind; [|intros ?]
  | |- still (read_byte _) => apply still_read
  | |- still (if ?b then _ else _) => destruct b
  | |- still (match ?x with _ => _ end) => destruct x
  | |- still (ret _) => apply still_ret
  | |- still (fail _) => apply still_fail
  | |- still (syntax_err _) => apply still_fail
  | |- still (panics _) => apply still_panics
  | |- still (update _) => apply still_update; reflexivity
  | |- still (read_hex_byte _) => unfold read_hex_byte
  | |- still (char_from_u32 _) => unfold char_from_u32
  | |- still (read_unicode_escape _) => unfold read_unicode_escape
  end.
Lemma still_string_bytes : still read_string_bytes.
Proof. unfold read_string_bytes, read_unicode_escape_char, read_utf8_multibyte. stl. Qed.

Lemma m_sv_loop : forall f len out sv s g, peeked s = None -> mm (sv_read_loop f len out sv) s g (fun _ s' _ => peeked s' = None).
Proof.
  induction f as [|f IH]; intros len out sv s g Hp; cbn [sv_read_loop]; (destruct (Nat.ltb (length out) len); [|apply mm_ret; exact Hp]); [mend|].
  destruct (negb _); [mend|]. eapply mm_bind; [apply m_catch; [exact Hp|eapply mem_impl; [apply still_string_bytes|cbv beta; congruence]]|].
  cbv beta. intros [[re bs]|e] s1 g1 H1; [|apply mm_ret; exact H1]. destruct (Nat.ltb _ (length _)); [mend|]. destruct re; [|apply IH, H1].
  apply m_update. apply mm_an with (e := false); [apply an_on_value_end|]. intros _ s2 g2 [H2 _]. apply mm_ret. rewrite H2. exact H1.
Qed.
Lemma m_sv_read E len sv s g : peeked s = None -> mm (sv_read E len sv) s g (fun _ s' _ => peeked s' = None).
Proof.
  intros Hp. unfold sv_read. destruct (sv_error sv); [apply mm_ret; exact Hp|].
  eapply mm_bind with (Q1 := fun _ s' _ => peeked s' = None).
  - unfold sv_read_impl. destruct (_ || _)%bool; [apply mm_ret; exact Hp|]. apply m_sv_loop, Hp.
  - cbv beta. intros [[bs|e] sv'] s1 g1 H1; apply mm_ret; exact H1.
Qed.

(** ** Calls *)

Definition sinv (st : session) (g : gst) : Prop := s_phase st = Running ->
  qinv (s_state st) g /\ (s_reader st <> None -> peeked (s_state st) = None).

Lemma call_keeps {A : Type} (m : M A) val st g : kp m -> sinv st g -> s_phase st = Running ->
  mem (call m val st) g (fun os g' => sinv (snd os) g').
Proof.
  intros H Hi Hp. unfold call. apply mem_pbind. eapply mem_impl; [apply H, Hi, Hp|].
  intros [[a|e|k|] s'] g' Hx; cbn [mem snd]; cbv beta iota in Hx; intros Hr; cbn [s_phase s_state s_reader] in *.
  - split; [exact Hx|congruence].
  - destruct (recoverable e); [|discriminate]. split; [apply Hx; reflexivity|congruence].
  - discriminate.
  - discriminate.
Qed.
Lemma kp_position b : kp (fun s => Ret (Ok (current_position b s), s)).
Proof. intros s g Hi. exact Hi. Qed.
Lemma read_keeps E len st g : sinv st g -> s_phase st = Running -> mem (call_read E len st) g (fun os g' => sinv (snd os) g').
Proof.
  intros Hi Hp. unfold call_read. destruct (s_reader st) as [sv|] eqn:Hr; [|exact Hi]. apply mem_pbind.
  eapply mem_impl; [apply m_sv_read, (Hi Hp); congruence|].
  intros [[[[bs|e] sv']|e|k|] s'] g' Hx; cbn [mem snd]; cbv beta iota in Hx; intros Hq; cbn [s_phase s_state s_reader] in *; try discriminate.
  - split; [apply qinv_none, Hx|auto].
  - split; [apply qinv_none, Hx|auto].
Qed.
Lemma string_reader_keeps E st g : sinv st g -> s_phase st = Running -> mem (call_string_reader E st) g (fun os g' => sinv (snd os) g').
Proof.
  intros Hi Hp. unfold call_string_reader. apply mem_pbind. eapply mem_impl.
  { assert (H : tk (next_string_reader E)) by (unfold next_string_reader; apply tk_an; [apply tk_start|intros _; ang]). apply H, Hi, Hp. }
  intros [[a|e|k|] s'] g' Hx; cbn [mem snd]; cbv beta iota in Hx; intros Hr; cbn [s_phase s_state s_reader] in *.
  - split; [apply qinv_none, Hx|auto].
  - destruct (recoverable e); [|discriminate]. split; [apply Hx; reflexivity|congruence].
  - discriminate.
  - discriminate.
Qed.
Lemma consume_any E st g : mem (call_consume E st) g (fun os _ => s_phase (snd os) = Consumed).
Proof.
  unfold call_consume, call. apply mem_pbind, mem_pbind.
  assert (H : an false (consume_trailing_whitespace E)) by (unfold consume_trailing_whitespace; ang).
  eapply mem_impl; [apply H|]. intros [[a|e|k|] s'] g' _; reflexivity.
Qed.

Lemma client_call_mem E c st g : sinv st g -> mem (client_call E c st) g (fun os g' => sinv (snd os) g').
Proof.
  intros Hi. unfold client_call. destruct (s_phase st) eqn:Hp; [|exact Hi|exact Hi].
  destruct c; try (apply call_keeps; [first [apply kp_position|solve [auto with kp]|apply kp_tk; solve [auto with kp]]|exact Hi|exact Hp]).
  - apply string_reader_keeps; assumption.
  - apply read_keeps; assumption.
  - eapply mem_impl; [apply consume_any|]. cbv beta. intros os g' H Hq. congruence.
Qed.
Lemma client_calls_mem E : forall cs st g, sinv st g -> mem (client_calls E cs st) g (fun os g' => sinv (snd os) g').
Proof.
  induction cs as [|c cs IH]; intros st g Hi; cbn [client_calls]; [exact Hi|].
  apply mem_pbind. eapply mem_impl; [apply client_call_mem, Hi|]. cbv beta. intros os g1 H1.
  apply mem_pbind. eapply mem_impl; [apply IH, H1|]. cbv beta. intros osl g2 H2. exact H2.
Qed.
Lemma sinv_new s g : sinv (session_new s) g.
Proof. intros _. split; [apply qinv_none; reflexivity|intros _; reflexivity]. Qed.
