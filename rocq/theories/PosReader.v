(** * The positions of the reader do not exceed the number of consumed bytes

    Auxiliary: a logic which compares the change of a measure of the state with
    the number of bytes which are consumed. *)

From Coq Require Import ZArith.
From Verif Require Import Base Utf8Model NumberModel SourceModel SourceProofs ReaderModel SpecText SpecPositions CostProofs.
Local Open Scope Z_scope.

(** [Q] holds for the result and the number of consumed bytes, whatever the
    answers of the operations are *)
Fixpoint reach {A : Type} (p : prog A) (n : Z) (Q : A -> Z -> Prop) : Prop :=
  match p with
  | Ret x => Q x n
  | DPeek k | DVPeek k => forall r, reach (k r) n Q
  | DSkip k | DVConsume k => reach k (n + 1) Q
  | DVNew k | DVSkipPrev k | DVSkipFinal k | DVPush _ k | DVGet _ k => reach k n Q
  | DVStrPeek k | DVStr k | DVString k => forall s, reach (k s) n Q
  end.

Lemma reach_impl {A : Type} (p : prog A) : forall n (Q Q2 : A -> Z -> Prop), reach p n Q ->
  (forall x n', Q x n' -> Q2 x n') -> reach p n Q2.
Proof. induction p; cbn [reach]; intros n Q Q2 H1 H2; eauto. Qed.

Lemma reach_pbind {A B : Type} (p : prog A) (f : A -> prog B) : forall n Q,
  reach p n (fun x n' => reach (f x) n' Q) -> reach (pbind p f) n Q.
Proof. induction p; cbn [reach pbind]; intros n Q H1; eauto. Qed.

Lemma reach_sound {A : Type} (p : prog A) : forall n Q a x a', reach p n Q -> arun p a = Some (x, a') ->
  Q x (n + (rlen a - rlen a')).
Proof.
  induction p as [y|k IH|k IH|k IH|k IH|k IH|k IH|k IH|bs k IH|b k IH|k IH|k IH|k IH];
    intros n Q a x a' Hb H; cbn [reach arun] in *.
  - injection H as <- <-. replace (n + (rlen a - rlen a)) with n by lia. exact Hb.
  - destruct (a_peek a) as [[r a1]|] eqn:E; [|discriminate]. pose proof (IH _ _ _ _ _ _ (Hb r) H) as Hr.
    unfold rlen in *. rewrite (rest_peek _ _ _ E) in Hr. exact Hr.
  - destruct (a_skip a) as [a1|] eqn:E; [|discriminate]. pose proof (IH _ _ _ _ _ Hb H) as Hr.
    destruct (rest_skip _ _ E) as (b & He). unfold rlen in *. rewrite He. cbn [length].
    replace (n + (Z.of_nat (S (length (a_rest a1))) - Z.of_nat (length (a_rest a')))) with (n + 1 + (Z.of_nat (length (a_rest a1)) - Z.of_nat (length (a_rest a')))) by lia. exact Hr.
  - destruct (a_vnew a) as [a1|] eqn:E; [|discriminate]. pose proof (IH _ _ _ _ _ Hb H) as Hr.
    unfold rlen in *. rewrite (rest_vnew _ _ E) in Hr. exact Hr.
  - destruct (a_vpeek a) as [[r a1]|] eqn:E; [|discriminate]. pose proof (IH _ _ _ _ _ _ (Hb r) H) as Hr.
    unfold rlen in *. rewrite (rest_vpeek _ _ _ E) in Hr. exact Hr.
  - destruct (a_vconsume a) as [a1|] eqn:E; [|discriminate]. pose proof (IH _ _ _ _ _ Hb H) as Hr.
    destruct (rest_vconsume _ _ E) as (b & He). unfold rlen in *. rewrite He. cbn [length].
    replace (n + (Z.of_nat (S (length (a_rest a1))) - Z.of_nat (length (a_rest a')))) with (n + 1 + (Z.of_nat (length (a_rest a1)) - Z.of_nat (length (a_rest a')))) by lia. exact Hr.
  - destruct (a_vskip_prev a) as [a1|] eqn:E; [|discriminate]. pose proof (IH _ _ _ _ _ Hb H) as Hr.
    unfold rlen in *. rewrite (rest_vskip_prev _ _ E) in Hr. exact Hr.
  - destruct (a_vskip_final a) as [a1|] eqn:E; [|discriminate]. pose proof (IH _ _ _ _ _ Hb H) as Hr.
    unfold rlen in *. rewrite (rest_vskip_final _ _ E) in Hr. exact Hr.
  - destruct (a_vpush bs a) as [a1|] eqn:E; [|discriminate]. pose proof (IH _ _ _ _ _ Hb H) as Hr.
    unfold rlen in *. rewrite (rest_vpush _ _ _ E) in Hr. exact Hr.
  - destruct (a_vget b a) as [a1|] eqn:E; [|discriminate]. pose proof (IH _ _ _ _ _ Hb H) as Hr.
    unfold rlen in *. rewrite (rest_vget _ _ _ E) in Hr. exact Hr.
  - destruct (a_vstr_peek a) as [r|] eqn:E; [|discriminate]. exact (IH _ _ _ _ _ _ (Hb r) H).
  - destruct (a_vstr a) as [[r a1]|] eqn:E; [|discriminate]. pose proof (IH _ _ _ _ _ _ (Hb r) H) as Hr.
    unfold rlen in *. rewrite (rest_vstr _ _ _ E) in Hr. exact Hr.
  - destruct (a_vstring a) as [[r a1]|] eqn:E; [|discriminate]. pose proof (IH _ _ _ _ _ _ (Hb r) H) as Hr.
    unfold rlen in *. rewrite (rest_vstring _ _ _ E) in Hr. exact Hr.
Qed.

(** ** The measures *)

Inductive measure : Type := MBytes | MColumns | MPath.

(** what a byte adds to a position, and what a value adds to a path *)
Definition rate (m : measure) : Z := match m with MPath => 0 | _ => 1 end.
Definition val (m : measure) : Z := match m with MPath => 1 | _ => 0 end.

Definition pos_size (m : measure) (p : position) : Z :=
  match m with
  | MBytes => Z.of_N (p_byte p)
  | MColumns => Z.of_N (p_line p + p_column p)
  | MPath => match p_path p with Some l => Z.of_N (path_size l) | None => 0 end
  end.

(** the bytes of a peeked token have been consumed, but do not count yet *)
Definition pending (m : measure) (s : rstate) : Z :=
  match peeked s with
  | None | Some PkNumberStart => 0
  | Some p => match m with MPath => 1 | _ => Z.of_N (peeked_length p) end
  end.

Definition size (m : measure) (s : rstate) : Z :=
  match m with
  | MBytes => Z.of_N (byte_pos s)
  | MColumns => Z.of_N (line s + column s)
  | MPath => match json_path s with Some l => Z.of_N (path_size l) | None => 0 end
  end + pending m s.

Lemma path_size_app l l' : path_size (l ++ l') = (path_size l + path_size l')%N.
Proof. induction l as [|[i|n] l IH]; cbn [path_size app]; [reflexivity|rewrite IH; lia..]. Qed.
Lemma path_size_rev l : path_size (rev l) = path_size l.
Proof. induction l as [|[i|n] l IH]; cbn [path_size rev]; [reflexivity|rewrite path_size_app, IH; cbn [path_size]; lia..]. Qed.

Lemma pending_nonneg m s : 0 <= pending m s.
Proof. unfold pending. destruct (peeked s) as [[]|], m; lia. Qed.

Lemma pos_size_current m b s : pos_size m (current_position b s) <= size m s.
Proof.
  pose proof (pending_nonneg m s). unfold size, pos_size, current_position. destruct m; cbn [p_byte p_line p_column p_path]; [lia..|].
  destruct b; [|destruct (json_path s); lia]. destruct (json_path s) as [l|]; cbn [option_map]; [rewrite path_size_rev; lia|lia].
Qed.
Lemma pos_size_location m s : pos_size m (location s) <= size m s.
Proof. apply pos_size_current. Qed.

(** [mm], run in the state [s], increases the measure by at most [F] more than
    the number of consumed bytes if it fails, and an error is located within the
    measure; otherwise the result, the new state and the difference satisfy [Q] *)
Definition spends {A : Type} (m : measure) (mm : M A) (s : rstate) (F : Z) (Q : A -> rstate -> Z -> Prop) : Prop :=
  forall n, reach (mm s) n (fun rs n' =>
    match rs with
    | (Ok a, s') => Q a s' (size m s' - size m s - (n' - n))
    | (Err e, s') => size m s' - size m s - (n' - n) <= F /\ pos_size m (error_position e) <= size m s'
    | (_, s') => size m s' - size m s - (n' - n) <= F
    end).

Lemma spends_bind {A B : Type} m (mm : M A) (f : A -> M B) s F1 F Q1 Q : spends m mm s F1 Q1 -> F1 <= F ->
  (forall a s' c, Q1 a s' c -> spends m (f a) s' (F - c) (fun b s'' c' => Q b s'' (c + c'))) ->
  spends m (bind mm f) s F Q.
Proof.
  intros Hm HF Hf n. unfold bind. apply reach_pbind. eapply reach_impl; [apply Hm|].
  intros [[a|e|k|] s'] n' H; cbv beta iota zeta in H.
  - eapply reach_impl; [apply (Hf _ _ _ H)|]. intros [[b|e|k|] s''] n'' H2; cbv beta iota zeta in H2.
    + match type of H2 with Q _ _ ?x => match goal with |- Q _ _ ?y => replace y with x by lia end end. exact H2.
    + destruct H2 as [H2 H3]. split; [lia|exact H3].
    + lia.
    + lia.
  - cbn [reach]. destruct H as [H H3]. split; [lia|exact H3].
  - cbn [reach]. lia.
  - cbn [reach]. lia.
Qed.

Lemma spends_weak {A : Type} m (mm : M A) s F1 F (Q1 Q : A -> rstate -> Z -> Prop) : spends m mm s F1 Q1 -> F1 <= F ->
  (forall a s' c, Q1 a s' c -> Q a s' c) -> spends m mm s F Q.
Proof.
  intros Hm HF HQ n. eapply reach_impl; [apply Hm|].
  intros [[a|e|k|] s'] n' H; cbv beta iota zeta in H; auto; [destruct H; split; [lia|assumption]|lia..].
Qed.

Lemma spends_ret {A : Type} m (a : A) s F (Q : A -> rstate -> Z -> Prop) : Q a s 0 -> spends m (ret a) s F Q.
Proof. intros H n. cbn [ret reach]. replace (size m s - size m s - (n - n)) with 0 by lia. exact H. Qed.
Lemma spends_get m s F (Q : rstate -> rstate -> Z -> Prop) : Q s s 0 -> spends m get_state s F Q.
Proof. intros H n. cbn [get_state reach]. replace (size m s - size m s - (n - n)) with 0 by lia. exact H. Qed.
Lemma spends_update m f s F (Q : unit -> rstate -> Z -> Prop) : Q tt (f s) (size m (f s) - size m s) -> spends m (update f) s F Q.
Proof. intros H n. cbn [update reach]. replace (size m (f s) - size m s - (n - n)) with (size m (f s) - size m s) by lia. exact H. Qed.

(** the errors of the reader carry the current location *)
Definition locates (e : position -> reader_error) : Prop := forall p, error_position (e p) = p.
Lemma spends_fail {A : Type} m e s F (Q : A -> rstate -> Z -> Prop) : locates e -> 0 <= F -> spends m (fail e) s F Q.
Proof. intros He H n. cbn [fail reach]. split; [lia|]. rewrite He. apply pos_size_location. Qed.
Lemma spends_syntax {A : Type} m k s F (Q : A -> rstate -> Z -> Prop) : 0 <= F -> spends m (syntax_err k) s F Q.
Proof. apply spends_fail. intros p. reflexivity. Qed.
Lemma spends_structure {A : Type} m k s F (Q : A -> rstate -> Z -> Prop) : 0 <= F -> spends m (structure_err k) s F Q.
Proof. apply spends_fail. intros p. reflexivity. Qed.
Lemma spends_panics {A : Type} m k s F (Q : A -> rstate -> Z -> Prop) : 0 <= F -> spends m (panics k) s F Q.
Proof. intros H n. cbn [panics reach]. lia. Qed.
Lemma spends_no_fuel {A : Type} m s F (Q : A -> rstate -> Z -> Prop) : 0 <= F -> spends m no_fuel s F Q.
Proof. intros H n. cbn [no_fuel reach]. lia. Qed.
Lemma spends_misuse_if m b s F (Q : unit -> rstate -> Z -> Prop) : 0 <= F -> Q tt s 0 -> spends m (misuse_if b) s F Q.
Proof. intros H HQ. destruct b; [apply spends_panics; exact H|apply spends_ret; exact HQ]. Qed.

(** Functions which do not concern the peeked token *)
Definition plain {A : Type} (m : measure) (F : Z) (C : A -> Z) (mm : M A) : Prop :=
  forall s, spends m mm s F (fun a s' c => peeked s' = peeked s /\ c <= C a).

Lemma plain_weak {A : Type} m F F' (C C' : A -> Z) (mm : M A) : plain m F C mm -> F <= F' -> (forall a, C a <= C' a) -> plain m F' C' mm.
Proof. intros H HF HC s. eapply spends_weak; [apply H|exact HF|]. intros a s' c [H1 H2]. split; [exact H1|]. specialize (HC a). lia. Qed.

Lemma plain_bind {A B : Type} m F1 F (C1 : A -> Z) (C : B -> Z) (mm : M A) (f : A -> M B) : plain m F1 C1 mm -> F1 <= F ->
  (forall a, plain m (F - C1 a) (fun b => C b - C1 a) (f a)) -> plain m F C (bind mm f).
Proof.
  intros Hm HF Hf s. eapply spends_bind; [apply Hm|exact HF|]. intros a s' c [Hp Hc].
  eapply spends_weak; [apply Hf|lia|]. intros b s'' c' [Hp' Hc']. split; [congruence|lia].
Qed.
Lemma plain_ret {A : Type} m (a : A) F C : 0 <= C a -> plain m F C (ret a).
Proof. intros H s. apply spends_ret. auto. Qed.
Lemma plain_syntax {A : Type} m k F (C : A -> Z) : 0 <= F -> plain m F C (syntax_err k).
Proof. intros H s. apply spends_syntax. exact H. Qed.
Lemma plain_fail {A : Type} m e F (C : A -> Z) : locates e -> 0 <= F -> plain m F C (fail e).
Proof. intros He H s. apply spends_fail; assumption. Qed.
Lemma plain_panics {A : Type} m k F (C : A -> Z) : 0 <= F -> plain m F C (panics k).
Proof. intros H s. apply spends_panics. exact H. Qed.
Lemma plain_no_fuel {A : Type} m F (C : A -> Z) : 0 <= F -> plain m F C no_fuel.
Proof. intros H s. apply spends_no_fuel. exact H. Qed.
Lemma plain_update m f F (C : unit -> Z) : (forall s, peeked (f s) = peeked s /\ size m (f s) - size m s <= C tt) -> plain m F C (update f).
Proof. intros Hf s. apply spends_update. apply Hf. Qed.
Lemma plain_get m F (C : rstate -> Z) : (forall s, 0 <= C s) -> plain m F C get_state.
Proof. intros H s. apply spends_get. auto. Qed.

(** the position moves by [c] characters of together [b] bytes *)
Lemma plain_advance m c b F (C : unit -> Z) : (c <= b)%N -> rate m * Z.of_N b <= C tt -> plain m F C (update (advance c b)).
Proof.
  intros Hc Hb. apply plain_update. intros s. split; [reflexivity|].
  unfold size, pending. cbn [peeked advance set_position byte_pos line column json_path].
  destruct m; cbn [rate] in Hb; lia.
Qed.

Lemma plain_advance_bind {B : Type} m c b F (C : B -> Z) (f : unit -> M B) : (c <= b)%N ->
  plain m (F - rate m * Z.of_N b) (fun x => C x - rate m * Z.of_N b) (f tt) -> plain m F C (bind (update (advance c b)) f).
Proof.
  intros Hc H. eapply (plain_bind _ F _ (fun _ => rate m * Z.of_N b)); [apply plain_advance; [exact Hc|lia]|lia|]. intros []. exact H.
Qed.

Ltac op := intros s n; cbn [reach]; intros; cbv beta iota zeta; try (split; [reflexivity|lia]).
Ltac opeek := intros s n; cbn; intros [e| |b]; cbn [reach from_peek];
  [split; [lia|apply pos_size_location]|split; [reflexivity|lia]..].

Lemma p_peek_byte m : plain m 0 (fun _ => 0) peek_byte.
Proof. opeek. Qed.
Lemma p_skip_byte m : plain m 0 (fun _ => -1) skip_peeked_byte.
Proof. op. Qed.
Lemma p_skip_byte_any m F : plain m F (fun _ => -1) skip_peeked_byte.
Proof. op. Qed.
Lemma p_value_new m : plain m 0 (fun _ => 0) value_reader_new.
Proof. op. Qed.
Lemma p_value_peek m : plain m 0 (fun _ => 0) value_peek.
Proof. opeek. Qed.
Lemma p_value_consume m : plain m 0 (fun _ => -1) value_consume.
Proof. op. Qed.
Lemma p_value_skip_previous m : plain m 0 (fun _ => 0) value_skip_previous.
Proof. op. Qed.
Lemma p_value_skip_final m : plain m 0 (fun _ => 0) value_skip_final.
Proof. op. Qed.
Lemma p_value_push m bs : plain m 0 (fun _ => 0) (value_push bs).
Proof. op. Qed.
Lemma p_value_push_any m F bs : plain m F (fun _ => 0) (value_push bs).
Proof. op. Qed.
Lemma p_value_get m b : plain m 0 (fun _ => 0) (value_get b).
Proof. op. Qed.
Lemma p_value_str_peek m : plain m 0 (fun _ => 0) value_str_peek.
Proof. op. Qed.
Lemma p_value_str m : plain m 0 (fun _ => 0) value_str.
Proof. op. Qed.
Lemma p_value_string m : plain m 0 (fun _ => 0) value_string.
Proof. op. Qed.

Ltac clear_unit := repeat match goal with u : unit |- _ => clear u end.
Ltac ar := repeat (intros; clear_unit); cbv beta in *; unfold len64 in *; cbn [length fst snd] in *;
  try match goal with m : measure |- _ => destruct m; cbn [rate val] in * end; lia.
Ltac obyte := match goal with ob : option byte |- context [match ?x with _ => _ end] => constr_eq ob x; destruct ob as [?|] end.
(** a step *)
Ltac pb H := eapply plain_bind; [apply H|ar|intros ?; clear_unit].
Ltac pa := apply plain_advance_bind; [lia|].
Ltac pl H := eapply plain_weak; [apply H|ar|ar].
Ltac pif := match goal with |- plain _ _ _ (if ?b then _ else _) => destruct b end.
Ltac pdone := first [apply plain_ret; ar|apply plain_syntax; ar|apply plain_fail; [intros ?; reflexivity|ar]
                    |apply plain_panics; ar|apply plain_no_fuel; ar|apply plain_advance; [lia|ar]].

Lemma p_read_byte m k : plain m 0 (fun _ => -1) (read_byte k).
Proof. unfold read_byte. pb p_peek_byte. obyte; [|pdone]. pb p_skip_byte. pdone. Qed.
Lemma p_value_read_byte m k : plain m 0 (fun _ => -1) (value_read_byte k).
Proof. unfold value_read_byte. pb p_value_peek. obyte; [|pdone]. pb p_value_consume. pdone. Qed.
Lemma p_value_read_skipped m k : plain m 0 (fun _ => -1) (value_read_skipped_byte k).
Proof. unfold value_read_skipped_byte. pb p_value_read_byte. pb p_value_skip_previous. pdone. Qed.

Definition reads_byte (m : measure) (rb : syntax_error -> M byte) : Prop := forall k, plain m 0 (fun _ => -1) (rb k).

Lemma p_multibyte m rb b : reads_byte m rb -> plain m 0 (fun bs => Z.min 0 (1 - Z.of_N (len64 bs))) (read_utf8_multibyte rb b).
Proof.
  intros H. unfold read_utf8_multibyte. pb (H IncompleteDocument). pif; [pdone|]. pif; [pif; pdone|].
  pb (H IncompleteDocument). pif; [pdone|]. pif; [pif; pdone|]. pif; [|pdone].
  pb (H IncompleteDocument). pif; [pdone|]. pif; pdone.
Qed.

Lemma p_hex m rb : reads_byte m rb -> plain m 0 (fun _ => -1) (read_hex_byte rb).
Proof. intros H. unfold read_hex_byte. pb (H MalformedEscapeSequence). destruct (hex_digit a); pdone. Qed.
Lemma p_unicode_escape m rb : reads_byte m rb -> plain m 0 (fun _ => -4) (read_unicode_escape rb).
Proof.
  intros H. unfold read_unicode_escape. pb (p_hex m rb H). pb (p_hex m rb H). pb (p_hex m rb H). pb (p_hex m rb H). pdone.
Qed.
Lemma p_unicode_char m rb : reads_byte m rb -> plain m 0 (fun cn => - Z.of_N (snd cn)) (read_unicode_escape_char rb).
Proof.
  intros H. assert (Hc : forall c, plain m 0 (fun _ => 0) (char_from_u32 c)) by (intros c; unfold char_from_u32; pif; pdone).
  unfold read_unicode_escape_char. pb (p_unicode_escape m rb H). pif; [pdone|]. pif.
  - pb (H UnpairedSurrogatePairEscapeSequence). pif; [pdone|].
    pb (H UnpairedSurrogatePairEscapeSequence). pif; [pdone|].
    pb (p_unicode_escape m rb H). pif; [pdone|]. pb Hc. apply plain_ret. cbn [snd]. lia.
  - pb Hc. apply plain_ret. cbn [snd]. lia.
Qed.

(** a character of the given bytes *)
Lemma p_advance_char m bs F (C : unit -> Z) : 1 - Z.min 0 (1 - Z.of_N (len64 bs)) <= C tt -> plain m F C (update (advance 1 (len64 bs))).
Proof.
  intros H. apply plain_update. intros s. split; [reflexivity|]. unfold size, pending.
  cbn [peeked advance set_position byte_pos line column json_path]. destruct m; lia.
Qed.

(** ** Whitespace *)

Lemma p_skip_to_loop m stop k : forall f cr, plain m 0 (fun _ => 0) (skip_to_loop f stop k cr).
Proof.
  induction f as [|f IH]; intros cr; cbn [skip_to_loop]; [pdone|].
  pb p_peek_byte. obyte; [|destruct k; pdone]. pif; [pdone|]. pif; [pdone|].
  pb p_skip_byte. eapply (plain_bind _ 1 _ (fun _ => 1)); [|ar|intros ?; clear_unit; pl IH].
  pif. { apply plain_update. intros s. destruct cr; (split; [reflexivity|]); unfold size, pending;
    cbn [peeked advance set_position byte_pos line column json_path]; destruct m; lia. }
  pif. { apply plain_update. intros s. split; [reflexivity|]. unfold size, pending;
    cbn [peeked advance set_position byte_pos line column json_path]; destruct m; lia. }
  pif; [pdone|]. eapply plain_bind; [apply (p_multibyte m read_byte _ (p_read_byte m))|ar|intros bs]. apply p_advance_char.
  ar.
Qed.
Lemma p_skip_to m E stop k : plain m 0 (fun _ => 0) (skip_to E stop k).
Proof. apply p_skip_to_loop. Qed.

Lemma p_block_comment_loop m E : forall f, plain m 0 (fun _ => 0) (skip_to_block_comment_end_loop E f).
Proof.
  induction f as [|f IH]; cbn [skip_to_block_comment_end_loop]; [pdone|].
  pb p_skip_to. pa. eapply (plain_bind _ (- rate m)); [apply p_skip_byte_any|ar|intros ?; clear_unit].
  pb p_peek_byte. obyte; [|pdone]. pif; [|pl IH]. pb p_skip_byte. pdone.
Qed.
Lemma p_block_comment m E : plain m 0 (fun _ => 0) (skip_to_block_comment_end E).
Proof. apply p_block_comment_loop. Qed.

Lemma p_eof m k : plain m 0 (fun _ => 0) (eof_result k).
Proof. destruct k; pdone. Qed.

Lemma p_ws_loop m E k : forall f, plain m 0 (fun _ => 0) (skip_whitespace_loop E f k).
Proof.
  induction f as [|f IH]; cbn [skip_whitespace_loop]; [pdone|].
  pb p_skip_to. pb p_peek_byte. obyte; [|pb p_eof; pdone].
  pif; [|pdone]. pif; [pdone|]. pb p_skip_byte. pa. pb p_read_byte. pif.
  - pa. pb p_block_comment. pl IH.
  - pif; [|pdone]. pa. unfold skip_to_line_comment_end. pb p_skip_to. pl IH.
Qed.
Lemma p_ws m E k : plain m 0 (fun _ => 0) (skip_whitespace E k).
Proof. apply p_ws_loop. Qed.
Lemma p_ws_no_eof m E k : plain m 0 (fun _ => 0) (skip_whitespace_no_eof E k).
Proof. unfold skip_whitespace_no_eof. pb p_ws. destruct a; pdone. Qed.

Lemma p_separator m k : plain m 0 (fun _ => 0) (verify_next_separator k).
Proof. unfold verify_next_separator. pb p_peek_byte. obyte; [|pdone]. unfold verify_value_separator. pif; pdone. Qed.

Lemma p_literal m l : plain m 0 (fun _ => - Z.of_nat (length l)) (consume_literal l).
Proof.
  induction l as [|e l IH]; cbn [consume_literal]; [pl p_separator|].
  pb p_read_byte. pif; [pdone|]. pl IH.
Qed.

Lemma p_after_name m E : plain m 0 (fun _ => 0) (after_name E).
Proof. unfold after_name. pb p_ws_no_eof. pif; [|pdone]. pb p_skip_byte. pdone. Qed.

(** ** Strings *)

(** the quote at the end pays for a value *)
Lemma p_string_bytes m : plain m 0 (fun r : bool * bytes => if fst r then - val m else 0) read_string_bytes.
Proof.
  unfold read_string_bytes. pb p_read_byte. pif.
  - pb p_read_byte. pif; [pa; pdone|]. destruct (escape_replacement a0); [pa; pdone|]. pif; [|pdone].
    eapply plain_bind; [apply (p_unicode_char m read_byte (p_read_byte m))|ar|intros cn]. pa. pdone.
  - pif; [pa; pdone|]. pif; [pdone|]. pif; [pa; pdone|].
    eapply plain_bind; [apply (p_multibyte m read_byte _ (p_read_byte m))|ar|intros bs].
    eapply (plain_bind _ 0 _ (fun _ => 1 - Z.min 0 (1 - Z.of_N (len64 bs)))); [apply p_advance_char; lia|ar|intros ?; clear_unit]. pdone.
Qed.

Lemma p_skip_string m E : plain m 0 (fun _ => - val m) (skip_all_string_bytes E).
Proof.
  unfold skip_all_string_bytes. induction (fuel E) as [|f IH]; cbn [skip_all_string_bytes_loop]; [pdone|].
  pb p_string_bytes. destruct a as [[] bs]; cbn [fst]; [pdone|]. pl IH.
Qed.

Lemma p_escape m : plain m 1 (fun _ => 1) read_string_escape.
Proof.
  unfold read_string_escape. pb p_value_skip_previous. pb p_value_read_byte.
  eapply (plain_bind _ 0 _ (fun _ => 0)); [|ar|intros ?; clear_unit; pdone].
  pif; [pdone|]. destruct (escape_replacement _); [pb p_value_skip_previous; pl p_value_push|].
  pif; [|pdone]. pb p_value_skip_previous.
  eapply plain_bind; [apply (p_unicode_char m _ (p_value_read_skipped m))|ar|intros cn]. pa.
  eapply plain_weak; [apply p_value_push_any|apply Z.le_refl|ar].
Qed.

Lemma p_string_loop m b : forall f, plain m 0 (fun _ => - val m) (read_string_loop f b).
Proof.
  induction f as [|f IH]; cbn [read_string_loop]; [pdone|].
  pb p_value_read_byte. pif.
  { pb p_escape. pl IH. }
  pif.
  { pa. pb p_value_skip_final. pl p_value_get. }
  pif; [pdone|]. pif; [pa; pl IH|].
  eapply plain_bind; [apply (p_multibyte m _ _ (p_value_read_byte m))|ar|intros bs].
  eapply (plain_bind _ 0 _ (fun _ => 1 - Z.min 0 (1 - Z.of_N (len64 bs)))); [apply p_advance_char; lia|ar|intros ?; clear_unit].
  pl IH.
Qed.
Lemma p_string m E b : plain m 0 (fun _ => - val m) (read_string E b).
Proof. unfold read_string. pb p_value_new. pl p_string_loop. Qed.

(** ** Numbers *)

Definition pays_number (m : measure) (next : M (option byte)) : Prop := plain m 0 (fun _ => -1) next.

Lemma pays_number_next m : pays_number m number_next.
Proof. unfold pays_number, number_next. pb p_value_consume. pl p_value_peek. Qed.
Lemma pays_number_skip m : pays_number m number_skip_next.
Proof. unfold pays_number, number_skip_next. pb p_skip_byte. pl p_peek_byte. Qed.

Lemma p_run m next p : pays_number m next -> forall n,
  plain m 0 (fun rc => Z.of_N n - Z.max (Z.of_N n) (Z.of_N (snd rc))) (run_number next p n).
Proof.
  intros H. induction p as [r|k IH|]; intros n; cbn [run_number]; [apply plain_ret; cbn [snd]; lia| |pdone].
  pb H. eapply plain_weak; [apply (IH a (n + 1)%N)|lia|intros rc; cbv beta; lia].
Qed.

Definition digits_paid (m : measure) (rc : option N * N) : Z :=
  match fst rc with Some _ => - rate m * Z.of_N (snd rc) - val m | None => 0 end.

Lemma p_number m next f b : pays_number m next -> plain m 0 (digits_paid m) (run_number next (consume_json_number f b) 0).
Proof.
  intros H.
  assert (Hnone : plain m 0 (digits_paid m) (run_number next (NRet None) 0)) by (cbn [run_number]; apply plain_ret; cbn; lia).
  assert (Hfuel : plain m 0 (digits_paid m) (run_number next NFuel 0)) by (cbn [run_number]; pdone).
  assert (Hnext : forall k, plain m 0 (digits_paid m) (run_number next (NNext k) 0)).
  { intros k. cbn [run_number]. pb H. eapply plain_weak; [apply (p_run m next (k a) H (0 + 1)%N)|lia|].
    intros rc. unfold digits_paid. destruct (fst rc), m; cbn [rate val]; lia. }
  unfold consume_json_number. destruct (N.eqb b B_MINUS); [apply Hnext|]. unfold integer_part.
  destruct (is_digit19 b).
  - destruct f; cbn [digits_loop]; [apply Hfuel|apply Hnext].
  - destruct (N.eqb b B_0); [apply Hnext|apply Hnone].
Qed.

(** ** Peeking *)

Lemma reach_grows {A : Type} (p : prog A) : forall n Q, reach p n Q -> reach p n (fun x n' => Q x n' /\ n <= n').
Proof.
  induction p as [y|k IH|k IH|k IH|k IH|k IH|k IH|k IH|bs k IH|b k IH|k IH|k IH|k IH]; intros n Q H; cbn [reach] in *;
    [split; [exact H|lia]|..]; intros; try (apply IH; apply H); try (apply IH; exact H).
  - eapply reach_impl; [apply IH; exact H|]. cbv beta. intros x n' [Hx Hn]. split; [exact Hx|lia].
  - eapply reach_impl; [apply IH; exact H|]. cbv beta. intros x n' [Hx Hn]. split; [exact Hx|lia].
Qed.
Lemma spends_grows {A : Type} m (mm : M A) s F Q : spends m mm s F Q ->
  spends m mm s F (fun a s' c => Q a s' c /\ c <= size m s' - size m s).
Proof.
  intros H n. eapply reach_impl; [apply reach_grows, H|]. intros [[a|e|k|] s'] n' [H1 H2]; cbv beta iota zeta in *; auto.
  split; [exact H1|lia].
Qed.

Definition pend (m : measure) (p : peeked_value) : Z :=
  match p with PkNumberStart => 0 | _ => match m with MPath => 1 | _ => Z.of_N (peeked_length p) end end.

Lemma pending_some m s p : peeked s = Some p -> pending m s = pend m p.
Proof. unfold pending, pend. intros ->. destruct p; reflexivity. Qed.
Lemma pending_none m s : peeked s = None -> pending m s = 0.
Proof. unfold pending. intros ->. reflexivity. Qed.
Lemma size_set_peeked m s p : peeked s = None -> size m (set_peeked (Some p) s) = size m s + pend m p.
Proof.
  intros H. unfold size. rewrite (pending_none m s H), (pending_some m (set_peeked (Some p) s) p) by reflexivity.
  cbn [set_peeked byte_pos line column json_path]. lia.
Qed.

(** The token itself *)
Definition token_cost (m : measure) (pa : peeked_value * bool) : Z := (if snd pa then 1 else 0) - pend m (fst pa).

Lemma p_peek_token m s0 b : plain m 0 (fun pa => Z.min 0 (token_cost m pa)) (peek_token s0 b).
Proof.
  unfold peek_token.
  repeat match goal with
  | |- plain _ _ _ (if ?x then _ else _) => destruct x
  | |- plain _ _ _ (syntax_err _) => pdone
  | |- plain _ _ _ (ret _) => apply plain_ret; unfold token_cost, pend; destruct m; cbn; lia
  end.
  all: eapply plain_bind; [apply p_literal|ar|intros ?; apply plain_ret; unfold token_cost, pend; destruct m; cbn; lia].
Qed.

Lemma p_finish_peek m E cc comma p adv s F : peeked s = None -> 0 <= F ->
  (forall l c b, comma = Some (l, c, b) -> size m (set_position l c b s) - size m s <= F) ->
  spends m (finish_peek E cc comma p adv) s F (fun op s' c => c <= - token_cost m (p, adv) /\ op = Some p /\ peeked s' = Some p).
Proof.
  intros Hs HF Hcomma. unfold finish_peek.
  eapply (spends_bind _ _ _ _ F _ (fun _ s' c => s' = s /\ c = 0)); [|lia|].
  { destruct (is_end_token p); destruct comma as [[[l c] b]|].
    - destruct (negb _); [|apply spends_ret; auto].
      eapply (spends_bind _ _ _ _ F _ (fun _ s' c => c <= F)); [apply spends_update; apply Hcomma; reflexivity|lia|].
      intros ? s' c1 Hc1. apply spends_syntax. lia.
    - apply spends_ret. auto.
    - apply spends_ret. auto.
    - destruct cc; [apply spends_syntax; exact HF|apply spends_ret; auto]. }
  intros [] ? ? [-> ->].
  eapply (spends_bind _ _ _ _ 0 _ (fun _ s' c => s' = s /\ c = if adv then -1 else 0)); [|lia|].
  { destruct adv; [|apply spends_ret; auto]. intros n. cbn [skip_peeked_byte reach]. split; [reflexivity|lia]. }
  intros [] ? ? [-> ->].
  eapply (spends_bind _ _ _ _ 0 _ (fun _ s' c => s' = set_peeked (Some p) s /\ c = pend m p)); [| |].
  { apply spends_update. split; [reflexivity|]. rewrite size_set_peeked by exact Hs. lia. }
  { destruct adv; lia. }
  intros [] ? ? [-> ->]. apply spends_ret. split; [|auto]. unfold token_cost. cbn [fst snd]. destruct adv; lia.
Qed.

Lemma p_peek_after_ws m E b s : peeked s = None ->
  spends m (peek_after_ws E b) s 0 (fun op s' c => c <= 0 /\ forall q, op = Some q -> peeked s' = Some q).
Proof.
  intros Hs. unfold peek_after_ws. eapply (spends_bind _ _ _ _ 0 _ (fun s1 s' c => s1 = s /\ s' = s /\ c = 0)); [apply spends_get; auto|lia|].
  intros ? ? ? (-> & -> & ->). destruct (N.eqb b B_COMMA).
  - destruct (negb _); [apply spends_syntax; lia|].
    eapply spends_bind; [apply spends_grows, p_skip_byte|lia|]. intros [] s3 c3 [[Hp3 Hc3] Hg3].
    eapply spends_bind; [apply spends_grows, (plain_advance m 1 1 0 (fun _ => rate m)); ar|cbv beta in *; lia|].
    intros [] s4 c4 [[Hp4 Hc4] Hg4].
    eapply spends_bind; [apply spends_grows, p_ws_no_eof|ar|]. intros b' s5 c5 [[Hp5 Hc5] Hg5].
    eapply spends_bind; [apply spends_grows, p_peek_token|ar|]. intros pa s6 c6 [[Hp6 Hc6] Hg6].
    assert (Hc : c3 + c4 + c5 + c6 <= -1 + rate m) by ar.
    eapply spends_weak; [apply (p_finish_peek m E _ _ (fst pa) (snd pa) s6 (0 - 0 - c3 - c4 - c5 - c6)); [congruence|ar|]|ar|].
    + intros l c b0 [= <- <- <-]. assert (H6 : peeked s6 = None) by congruence.
      unfold size in *. rewrite (pending_none m s Hs) in *. rewrite (pending_none m s6 H6) in *.
      rewrite (pending_none m (set_position _ _ _ s6) H6). cbn [set_position byte_pos line column json_path].
      destruct m; cbn [rate] in *; lia.
    + intros op s7 c7 (Hc7 & -> & Hp7). rewrite <- surjective_pairing in Hc7. split; [ar|]. intros q [= <-]. exact Hp7.
  - eapply spends_bind; [apply p_peek_token|lia|]. intros pa s6 c6 [Hp6 Hc6].
    eapply spends_weak; [apply (p_finish_peek m E _ _ (fst pa) (snd pa) s6 0); [congruence|lia|discriminate]|ar|].
    intros op s7 c7 (Hc7 & -> & Hp7). rewrite <- surjective_pairing in Hc7. split; [ar|]. intros q [= <-]. exact Hp7.
Qed.

Lemma p_peek_optional m E s : spends m (peek_internal_optional E) s 0
  (fun op s' c => c <= 0 /\ forall q, op = Some q -> peeked s' = Some q).
Proof.
  unfold peek_internal_optional. eapply (spends_bind _ _ _ _ 0 _ (fun s1 s' c => s1 = s /\ s' = s /\ c = 0)); [apply spends_get; auto|lia|].
  intros ? ? ? (-> & -> & ->). eapply (spends_bind _ _ _ _ 0 _ (fun _ s' c => s' = s /\ c = 0)); [apply spends_misuse_if; [lia|auto]|lia|].
  intros [] ? ? [-> ->]. destruct (peeked s) as [p|] eqn:Ep; [apply spends_ret; split; [lia|]; intros q [= <-]; exact Ep|].
  eapply (spends_bind _ _ _ _ 0 _ (fun _ s' c => s' = s /\ c = 0)); [apply spends_misuse_if; [lia|auto]|lia|].
  intros [] ? ? [-> ->].
  eapply (spends_bind _ _ _ _ 0 _ (fun _ s' c => peeked s' = None /\ c <= 0)).
  { destruct (expects_member_value s); [|apply spends_ret; auto with zarith].
    eapply spends_weak; [apply p_after_name|lia|]. intros a s1 c [H1 H2]. split; [congruence|exact H2]. }
  { lia. }
  intros [] s1 c1 (Hp1 & Hc1). eapply spends_bind; [apply p_ws|lia|]. intros ob s2 c2 [Hp2 Hc2].
  destruct ob as [b|].
  - eapply spends_weak; [apply p_peek_after_ws; congruence|lia|]. intros op s3 c3 [Hc3 Hq]. split; [lia|exact Hq].
  - apply spends_ret. split; [lia|discriminate].
Qed.

Lemma p_peek_internal m E s : spends m (peek_internal E) s 0 (fun p s' c => c <= 0 /\ peeked s' = Some p).
Proof.
  unfold peek_internal. eapply spends_bind; [apply p_peek_optional|lia|]. intros [p|] s1 c1 [Hc Hq].
  - apply spends_ret. split; [lia|apply Hq; reflexivity].
  - eapply (spends_bind _ _ _ _ 0 _ (fun _ s' c => c = 0)); [apply spends_get; reflexivity|lia|]. intros s2 s3 c ->.
    destruct (_ && _)%bool; [apply spends_structure; lia|apply spends_syntax; lia].
Qed.

Lemma p_map_peeked m p s : spends m (map_peeked p) s 0
  (fun t s' c => s' = s /\ c = 0 /\ (t = TNumber <-> p = PkNumberStart)).
Proof.
  unfold map_peeked. destruct p;
    first [apply spends_panics; lia|apply spends_structure; lia|apply spends_ret; repeat split; try discriminate; auto].
Qed.

Lemma p_consume_peeked m s p : peeked s = Some p ->
  spends m consume_peeked s 0 (fun _ s' c => peeked s' = None /\ c = match p with PkNumberStart => 0 | _ => - val m end).
Proof.
  intros Hp. unfold consume_peeked. eapply (spends_bind _ _ _ _ 0 _ (fun s1 s' c => s1 = s /\ s' = s /\ c = 0)); [apply spends_get; auto|lia|].
  intros ? ? ? (-> & -> & ->). rewrite Hp. apply spends_update. split; [reflexivity|].
  unfold size. rewrite (pending_some m s p Hp), (pending_none m (advance _ _ _)) by reflexivity.
  unfold pend. cbn [advance set_position set_peeked byte_pos line column json_path]. destruct p, m; cbn [peeked_length val]; lia.
Qed.

(** ** Values *)

Lemma p_start m E t d s : spends m (start_expected_value_type E t d) s 0
  (fun p s' c => peeked s' = None /\ c <= match t with TNumber => 0 | _ => - val m end).
Proof.
  unfold start_expected_value_type. eapply (spends_bind _ _ _ _ 0 _ (fun _ s' c => s' = s /\ c = 0)); [apply spends_get; auto|lia|].
  intros ? ? ? [-> ->]. eapply (spends_bind _ _ _ _ 0 _ (fun _ s' c => s' = s /\ c = 0)); [apply spends_misuse_if; [lia|auto]|lia|].
  intros [] ? ? [-> ->]. eapply spends_bind; [apply p_peek_internal|lia|]. intros p s3 c3 [Hc3 Hp3].
  eapply spends_bind; [apply p_map_peeked|lia|]. intros ty s4 c4 (-> & -> & Ht).
  destruct (value_type_eqb ty t) eqn:Et; [|apply spends_fail; [intros ?; reflexivity|lia]].
  eapply (spends_bind _ _ _ _ 0 _ (fun _ s' c => s' = s3 /\ c = 0)); [apply spends_get; auto|lia|].
  intros s5 s6 c6 [-> ->]. destruct (if d then _ else _); [apply spends_fail; [intros ?; reflexivity|lia]|].
  eapply spends_bind; [apply (p_consume_peeked m _ _ Hp3)|lia|]. intros [] s7 c7 [Hp7 ->]. apply spends_ret. split; [exact Hp7|].
  assert (ty = t) as -> by (destruct ty, t; try discriminate; reflexivity).
  destruct t, p; try lia; destruct Ht as [Ht1 Ht2]; try (discriminate (Ht2 eq_refl)); try (discriminate (Ht1 eq_refl)); lia.
Qed.

Lemma p_on_value_end m : plain m 0 (fun _ => val m) on_value_end.
Proof.
  intros s. unfold on_value_end. eapply (spends_bind _ _ _ _ 0 _ (fun s1 s' c => s1 = s /\ s' = s /\ c = 0)); [apply spends_get; auto|lia|].
  intros ? ? ? (-> & -> & ->).
  eapply (spends_bind _ _ _ _ 0 _ (fun _ s' c => peeked s' = peeked s /\ c <= val m)).
  - destruct (is_in_array s); [|apply spends_ret; split; [reflexivity|ar]].
    destruct (json_path s) as [[|[i|n] l]|] eqn:Ej;
      [apply spends_panics; lia| |apply spends_panics; lia|apply spends_ret; split; [reflexivity|ar]].
    apply spends_update. split; [reflexivity|]. unfold size, pending. cbn [set_path peeked byte_pos line column json_path].
    rewrite Ej. destruct m; cbn [path_size val]; lia.
  - lia.
  - intros [] s1 c1 [Hp1 Hc1]. apply spends_update. rewrite <- Hp1.
    assert (He : peeked (set_empty false (if is_in_object s1 then set_expects_name true s1 else s1)) = peeked s1 /\
      size m (set_empty false (if is_in_object s1 then set_expects_name true s1 else s1)) = size m s1)
      by (destruct (is_in_object s1); split; reflexivity).
    destruct He as [-> ->]. split; [reflexivity|lia].
Qed.
Lemma p_on_container_end m : plain m 0 (fun _ => val m) on_container_end.
Proof.
  unfold on_container_end. eapply (plain_bind _ 0 _ (fun _ => 0)); [|lia|intros ?; pl p_on_value_end].
  apply plain_update. intros s. split; [reflexivity|]. unfold size, pending.
  cbn [set_path set_stack peeked byte_pos line column json_path].
  destruct m; [lia..|]. destruct (json_path s) as [[|[i|n] l]|]; cbn [option_map tl path_size]; lia.
Qed.

(** [mm] adds at most [C] to the measure beyond the consumed bytes *)
Definition costs {A : Type} (m : measure) (F C : Z) (mm : M A) : Prop := forall s, spends m mm s F (fun _ _ c => c <= C).

Lemma costs_weak {A : Type} m F C F' C' (mm : M A) : costs m F C mm -> F <= F' -> C <= C' -> costs m F' C' mm.
Proof. intros H HF HC s. eapply spends_weak; [apply H|exact HF|]. cbv beta. lia. Qed.
Lemma costs_plain {A : Type} m F (C : A -> Z) C' (mm : M A) : plain m F C mm -> (forall a, C a <= C') -> costs m F C' mm.
Proof. intros H HC s. eapply spends_weak; [apply H|lia|]. cbv beta. intros a ? ? [? ?]. specialize (HC a). lia. Qed.
Lemma costs_bind {A B : Type} m F1 C1 F C (mm : M A) (f : A -> M B) : costs m F1 C1 mm -> F1 <= F ->
  (forall a, costs m (F - C1) (C - C1) (f a)) -> costs m F C (bind mm f).
Proof.
  intros Hm HF Hf s. eapply spends_bind; [apply Hm|lia|]. cbv beta. intros a s' c Hc.
  eapply spends_weak; [apply Hf|lia|]. cbv beta. lia.
Qed.
Lemma costs_bind_plain {A B : Type} m F1 (C1 : A -> Z) F C (mm : M A) (f : A -> M B) : plain m F1 C1 mm -> F1 <= F ->
  (forall a, costs m (F - C1 a) (C - C1 a) (f a)) -> costs m F C (bind mm f).
Proof.
  intros Hm HF Hf s. eapply spends_bind; [apply Hm|lia|]. cbv beta. intros a s' c [_ Hc].
  eapply spends_weak; [apply Hf|lia|]. cbv beta. lia.
Qed.
Lemma costs_start m E t d : costs m 0 (match t with TNumber => 0 | _ => - val m end) (start_expected_value_type E t d).
Proof. intros s. eapply spends_weak; [apply p_start|lia|]. cbv beta. intros ? ? ? [? ?]; assumption. Qed.

Ltac cb H := eapply costs_bind; [apply H|ar|intros ?; clear_unit].
Ltac cpb H := eapply costs_bind_plain; [apply H|ar|intros ?; clear_unit].
Ltac cl H := eapply costs_weak; [apply H|ar|ar].
Ltac cp H := eapply costs_weak; [eapply costs_plain; [apply H|intros ?; cbv beta; apply Z.le_refl]|ar|ar].
Ltac cif := match goal with |- costs _ _ _ (if ?b then _ else _) => destruct b end.
Ltac cdone := match goal with |- costs ?m ?F ?C _ => apply (costs_plain m F (fun _ => C)); [pdone|intros ?; apply Z.le_refl] end.
Ltac cg := eapply (costs_bind_plain _ 0 (fun _ => 0)); [apply plain_get; lia|ar|intros ?; clear_unit].
Ltac cm := eapply (costs_bind_plain _ 0 (fun _ => 0)); [unfold misuse_if; pif; pdone|ar|intros ?; clear_unit].

Lemma p_peek m E : costs m 0 0 (peek E).
Proof.
  unfold peek. intros s. eapply (spends_bind _ _ _ _ 0 _ (fun _ s' c => s' = s /\ c = 0)); [apply spends_get; auto|lia|].
  intros ? ? ? [-> ->]. eapply (spends_bind _ _ _ _ 0 _ (fun _ s' c => s' = s /\ c = 0)); [apply spends_misuse_if; [lia|auto]|lia|].
  intros [] ? ? [-> ->]. eapply spends_bind; [apply p_peek_internal|lia|]. intros p s3 c3 [Hc3 Hp3].
  eapply spends_weak; [apply p_map_peeked|lia|]. cbv beta. lia.
Qed.

(** a value adds [val m], which its first token has paid for *)
Lemma p_begin_array m E : costs m 0 0 (begin_array E).
Proof.
  unfold begin_array, on_container_start.
  eapply (costs_bind _ 0 (- val m)).
  - cb costs_start. eapply costs_plain; [apply (plain_update _ _ _ (fun _ => 0)); intros s; split; [reflexivity|]|ar].
    change (size m (set_empty true (set_stack (SArray :: stack s) s))) with (size m s). lia.
  - lia.
  - intros _. eapply costs_plain; [apply (plain_update _ _ _ (fun _ => val m)); intros s; split; [reflexivity|]|ar].
    unfold size, pending. cbn [set_path set_expects_name peeked byte_pos line column json_path].
    destruct m; cbn [val]; [lia..|]. destruct (json_path s); cbn [option_map path_size]; lia.
Qed.
Lemma p_begin_object m E : costs m 0 0 (begin_object E).
Proof.
  unfold begin_object, on_container_start.
  eapply (costs_bind _ 0 (- val m)).
  - cb costs_start. eapply costs_plain; [apply (plain_update _ _ _ (fun _ => 0)); intros s; split; [reflexivity|]|ar].
    change (size m (set_empty true (set_stack (SObject :: stack s) s))) with (size m s). lia.
  - lia.
  - intros _. eapply costs_plain; [apply (plain_update _ _ _ (fun _ => val m)); intros s; split; [reflexivity|]|ar].
    unfold size, pending. cbn [set_path set_expects_name peeked byte_pos line column json_path].
    destruct m; cbn [val]; [lia..|]. destruct (json_path s); cbn [option_map path_size]; lia.
Qed.

Lemma p_end_array m E : costs m 0 0 (end_array E).
Proof.
  unfold end_array. intros s. eapply (spends_bind _ _ _ _ 0 _ (fun _ s' c => s' = s /\ c = 0)); [apply spends_get; auto|lia|].
  intros ? ? ? [-> ->]. eapply (spends_bind _ _ _ _ 0 _ (fun _ s' c => s' = s /\ c = 0)); [apply spends_misuse_if; [lia|auto]|lia|].
  intros [] ? ? [-> ->]. eapply spends_bind; [apply p_peek_internal|lia|]. intros p s3 c3 [Hc3 Hp3].
  destruct p; try (apply spends_structure; lia).
  eapply spends_bind; [apply (p_consume_peeked m _ _ Hp3)|lia|]. intros [] s4 c4 [Hp4 ->].
  eapply spends_weak; [apply p_on_container_end|ar|]. intros [] s5 c5 [_ Hc]. ar.
Qed.
Lemma p_end_object m E : costs m 0 0 (end_object E).
Proof.
  unfold end_object. intros s. eapply (spends_bind _ _ _ _ 0 _ (fun _ s' c => s' = s /\ c = 0)); [apply spends_get; auto|lia|].
  intros ? ? ? [-> ->]. eapply (spends_bind _ _ _ _ 0 _ (fun _ s' c => s' = s /\ c = 0)); [apply spends_misuse_if; [lia|auto]|lia|].
  intros [] ? ? [-> ->]. eapply (spends_bind _ _ _ _ 0 _ (fun _ s' c => s' = s /\ c = 0)); [apply spends_misuse_if; [lia|auto]|lia|].
  intros [] ? ? [-> ->]. eapply spends_bind; [apply p_peek_internal|lia|]. intros p s3 c3 [Hc3 Hp3].
  destruct p; try (apply spends_structure; lia).
  eapply spends_bind; [apply (p_consume_peeked m _ _ Hp3)|lia|]. intros [] s4 c4 [Hp4 ->].
  eapply (spends_bind _ _ _ _ 0 _ (fun _ s' c => c = 0)); [apply spends_update; change (size m (set_expects_name false s4)) with (size m s4); lia|ar|]. intros [] s5 c5 ->.
  eapply spends_weak; [apply p_on_container_end|ar|]. intros [] s6 c6 [_ Hc]. ar.
Qed.
Lemma p_end_container m E : costs m 0 0 (end_container E).
Proof. unfold end_container. cg. cif; [cl p_end_array|cl p_end_object]. Qed.

Lemma p_has_next_spec m E s : spends m (has_next E) s 0
  (fun h s' c => c <= 0 /\ (h = true -> exists p, peeked s' = Some p)).
Proof.
  unfold has_next. eapply (spends_bind _ _ _ _ 0 _ (fun s1 s' c => s1 = s /\ s' = s /\ c = 0)); [apply spends_get; auto|lia|].
  intros ? ? ? (-> & -> & ->). eapply (spends_bind _ _ _ _ 0 _ (fun _ s' c => s' = s /\ c = 0)); [apply spends_misuse_if; [lia|auto]|lia|].
  intros [] ? ? [-> ->].
  eapply (spends_bind _ _ _ _ 0 _ (fun op s' c => c <= 0 /\ forall q, op = Some q -> peeked s' = Some q)).
  { destruct (stack s).
    - eapply (spends_bind _ _ _ _ 0 _ (fun _ s' c => s' = s /\ c = 0)); [apply spends_misuse_if; [lia|auto]|lia|].
      intros [] ? ? [-> ->].
      eapply (spends_bind _ _ _ _ 0 _ (fun _ s' c => s' = s /\ c = 0)); [apply spends_misuse_if; [lia|auto]|lia|].
      intros [] ? ? [-> ->]. apply p_peek_optional.
    - eapply spends_bind; [apply p_peek_internal|lia|]. intros p s3 c3 [Hc3 Hp3]. apply spends_ret. split; [lia|].
      intros q [= <-]. exact Hp3. }
  { lia. }
  intros op s1 c1 [Hc1 Hq]. destruct op as [p|]; [|apply spends_ret; split; [lia|discriminate]].
  eapply (spends_bind _ _ _ _ 0 _ (fun _ s' c => s' = s1 /\ c = 0)); [apply spends_get; auto|lia|].
  intros s2 s3 c3 (-> & ->). destruct (_ || _)%bool; [|apply spends_panics; lia]. apply spends_ret. split; [lia|].
  intros _. exists p. apply Hq. reflexivity.
Qed.
Lemma p_has_next m E : costs m 0 0 (has_next E).
Proof. intros s. eapply spends_weak; [apply p_has_next_spec|lia|]. cbv beta. intros ? ? ? [? ?]; assumption. Qed.

Lemma p_before_name m E : costs m 0 0 (before_name E).
Proof.
  unfold before_name. intros s. eapply (spends_bind _ _ _ _ 0 _ (fun s1 s' c => s1 = s /\ s' = s /\ c = 0)); [apply spends_get; auto|lia|].
  intros ? ? ? (-> & -> & ->). eapply (spends_bind _ _ _ _ 0 _ (fun _ s' c => s' = s /\ c = 0)); [apply spends_misuse_if; [lia|auto]|lia|].
  intros [] ? ? [-> ->]. eapply (spends_bind _ _ _ _ 0 _ (fun _ s' c => s' = s /\ c = 0)); [apply spends_misuse_if; [lia|auto]|lia|].
  intros [] ? ? [-> ->]. eapply spends_bind; [apply p_has_next_spec|lia|]. intros h s3 c3 [Hc3 Hh].
  destruct h; cbn [negb]; [|apply spends_structure; lia]. destruct (Hh eq_refl) as (p & Hp).
  eapply (spends_bind _ _ _ _ 0 _ (fun _ s' c => peeked s' = Some p /\ c = 0)).
  { apply spends_update. split; [exact Hp|]. change (size m (set_expects_name false s3)) with (size m s3). lia. }
  { lia. }
  intros [] s4 c4 [Hp4 ->]. eapply spends_weak; [apply (p_consume_peeked m _ _ Hp4)|lia|].
  intros [] s5 c5 [_ ->]. destruct p; ar.
Qed.

Lemma p_path_name m n : plain m 0 (fun _ => 0) (set_path_name n).
Proof.
  unfold set_path_name. intros s. eapply (spends_bind _ _ _ _ 0 _ (fun s1 s' c => s1 = s /\ s' = s /\ c = 0)); [apply spends_get; auto|lia|].
  intros ? ? ? (-> & -> & ->).
  destruct (json_path s) as [[|[i|x] l]|] eqn:Ej; [apply spends_panics; lia..| |apply spends_ret; split; [reflexivity|lia]].
  apply spends_update. split; [reflexivity|]. unfold size, pending. cbn [set_path peeked byte_pos line column json_path].
  rewrite Ej. destruct m; cbn [path_size]; lia.
Qed.

Lemma p_next_name_owned m E : costs m 0 0 (next_name_owned E).
Proof.
  unfold next_name_owned. cb p_before_name. cpb p_string. cpb p_value_string. cpb p_path_name. cdone.
Qed.
Lemma p_next_name m E : costs m 0 0 (next_name E).
Proof.
  unfold next_name. cb p_before_name. cpb p_string. cg.
  eapply (costs_bind _ 0 0); [|ar|intros ?; cp p_value_str].
  destruct (json_path _); [|cdone]. cpb p_value_str_peek. cp p_path_name.
Qed.
Lemma p_skip_name m E : costs m 0 0 (skip_name E).
Proof.
  unfold skip_name. cb p_before_name. cg. destruct (json_path _).
  - cpb p_string. cpb p_value_string. cp p_path_name.
  - cp p_skip_string.
Qed.

Lemma p_next_bool m E : costs m 0 0 (next_bool E).
Proof.
  unfold next_bool. cb costs_start. eapply (costs_bind _ 0 0); [destruct a; cdone|ar|].
  intros v. cpb p_on_value_end. cdone.
Qed.
Lemma p_next_null m E : costs m 0 0 (next_null E).
Proof. unfold next_null. cb costs_start. cp p_on_value_end. Qed.
Lemma p_next_string m E : costs m 0 0 (next_string E).
Proof. unfold next_string. cb costs_start. cpb p_string. cpb p_value_string. cpb p_on_value_end. cdone. Qed.
Lemma p_next_str m E : costs m 0 0 (next_str E).
Proof. unfold next_str. cb costs_start. cpb p_string. cpb p_on_value_end. cp p_value_str. Qed.

Lemma p_number_start m E : costs m 0 0 (number_start E).
Proof. unfold number_start. cb costs_start. cpb p_peek_byte. destruct a0; cdone. Qed.
Lemma p_end_checks m n : costs m (rate m * Z.of_N n) (rate m * Z.of_N n + val m) (number_end_checks n).
Proof.
  unfold number_end_checks. eapply (costs_bind_plain _ (rate m * Z.of_N n) (fun _ => rate m * Z.of_N n));
    [apply plain_advance; [lia|apply Z.le_refl]|lia|intros ?; clear_unit].
  cpb p_separator. cp p_on_value_end.
Qed.
Lemma p_read_number m E b : costs m 0 0 (read_number_bytes E b).
Proof.
  unfold read_number_bytes. cb p_number_start. cpb p_value_new.
  eapply costs_bind_plain; [apply p_number, pays_number_next|lia|]. intros [[d|] n]; unfold digits_paid; cbn [fst snd]; [|cdone].
  cif.
  - cpb p_value_get. cpb p_value_string. cdone.
  - cpb p_value_get. cl p_end_checks.
Qed.
Lemma p_skip_number m E : costs m 0 0 (skip_number E).
Proof.
  unfold skip_number. cb p_number_start.
  eapply costs_bind_plain; [apply p_number, pays_number_skip|lia|]. intros [[d|] n]; unfold digits_paid; cbn [fst snd]; [|cdone].
  cl p_end_checks.
Qed.
Lemma p_number_string m E : costs m 0 0 (next_number_as_string E).
Proof. unfold next_number_as_string. cb p_read_number. cp p_value_string. Qed.
Lemma p_number_str m E : costs m 0 0 (next_number_as_str E).
Proof. unfold next_number_as_str. cb p_read_number. cp p_value_str. Qed.

(** ** Skipping *)

Lemma p_skip_start m E : costs m 0 0 (skip_value_start E).
Proof.
  unfold skip_value_start. cb p_peek. destruct a.
  - cb p_begin_array. cdone.
  - cb p_begin_object. cdone.
  - cb costs_start. cpb p_skip_string. cpb p_on_value_end. cdone.
  - cb p_skip_number. cdone.
  - cb p_next_bool. cdone.
  - cb p_next_null. cdone.
Qed.

Lemma p_skip_loop m E : forall f d, costs m 0 0 (skip_value_loop E f d).
Proof.
  induction f as [|f IH]; intros d; cbn [skip_value_loop]; [cdone|].
  eapply (costs_bind _ 0 0); [destruct d; [cdone|cl p_has_next]|ar|].
  intros h. eapply (costs_bind _ 0 0).
  - destruct h; cbn [negb].
    + cg. eapply (costs_bind _ 0 0); [cif; [cl p_skip_name|cdone]|ar|]. intros []. cb p_skip_start. cdone.
    + cb p_end_container. cdone.
  - ar.
  - intros d'. destruct d'; [cdone|]. cl IH.
Qed.
Lemma p_skip_value m E : costs m 0 0 (skip_value E).
Proof. unfold skip_value. cg. cm. cl p_skip_loop. Qed.

Lemma p_skip_items m E : forall f, costs m 0 0 (skip_items E f).
Proof. induction f as [|f IH]; cbn [skip_items]; [cdone|]. cb p_has_next. cif; [|cdone]. cb p_skip_value. cl IH. Qed.
Lemma p_skip_members m E : forall f, costs m 0 0 (skip_members E f).
Proof.
  induction f as [|f IH]; cbn [skip_members]; [cdone|]. cb p_has_next. cif; [|cdone]. cb p_skip_name. cb p_skip_value. cl IH.
Qed.
Lemma p_top_level_loop m E : forall f, costs m 0 0 (skip_to_top_level_loop E f).
Proof.
  induction f as [|f IH]; cbn [skip_to_top_level_loop]; [cdone|]. cg. destruct (stack a) as [|[] l]; [cdone|..].
  - cb p_skip_items. cb p_end_array. cl IH.
  - cb p_skip_members. cb p_end_object. cl IH.
Qed.
Lemma p_top_level m E : costs m 0 0 (skip_to_top_level E).
Proof.
  unfold skip_to_top_level. cg. cm. eapply (costs_bind _ 0 0); [cif; [cl p_skip_value|cdone]|ar|intros ?; cl p_top_level_loop].
Qed.

Lemma p_seek_item m E : forall f i r, costs m 0 0 (seek_item E f i r).
Proof.
  induction f as [|f IH]; intros i r; cbn [seek_item]; [cdone|]. cb p_has_next.
  cif; [cdone|]. cif; [cdone|]. cb p_skip_value. cl IH.
Qed.
Lemma p_seek_member m E : forall f n, costs m 0 0 (seek_member E f n).
Proof.
  induction f as [|f IH]; intros n; cbn [seek_member]; [cdone|]. cb p_has_next.
  cif; [cdone|]. cb p_next_name. cif; [cdone|]. cb p_skip_value. cl IH.
Qed.
Lemma p_seek_pieces m E : forall p, costs m 0 0 (seek_pieces E p).
Proof.
  induction p as [|[i|n] p IH]; cbn [seek_pieces]; [cdone|..].
  - cb p_begin_array. cb p_seek_item. cl IH.
  - cb p_begin_object. cb p_seek_member. cl IH.
Qed.
Lemma p_seek_to m E p : costs m 0 0 (seek_to E p).
Proof. unfold seek_to. cb p_peek. cl p_seek_pieces. Qed.
Lemma p_seek_back_pieces m E : forall p, costs m 0 0 (seek_back_pieces E p).
Proof.
  induction p as [|[i|n] p IH]; cbn [seek_back_pieces]; [cdone|..].
  - cb p_skip_items. cb p_end_array. cl IH.
  - cb p_skip_members. cb p_end_object. cl IH.
Qed.
Lemma p_seek_back m E p : costs m 0 0 (seek_back E p).
Proof. apply p_seek_back_pieces. Qed.

Lemma p_consume_trailing m E : costs m 0 0 (consume_trailing_whitespace E).
Proof.
  unfold consume_trailing_whitespace. cg. cm. eapply (costs_bind _ 0 0); [|ar|intros ?; clear_unit].
  - destruct (stack _); [unfold misuse_if; cif; cdone|cdone].
  - cpb p_ws. destruct a0; cdone.
Qed.

(** ** The string reader *)

Lemma p_next_string_reader m E : costs m 0 0 (next_string_reader E).
Proof.
  unfold next_string_reader. cb costs_start.
  eapply (costs_bind_plain _ 0 (fun _ => 0)); [|ar|intros ?; cdone].
  apply plain_update. intros s. split; [reflexivity|]. change (size m (set_active true s)) with (size m s). lia.
Qed.

(** the error which is returned is located within the measure *)
Definition reading {R : Type} (m : measure) (loc : R -> option reader_error) (mm : M R) : Prop :=
  forall s, spends m mm s 0 (fun r s' c => c <= 0 /\ forall e, loc r = Some e -> pos_size m (error_position e) <= size m s').

Definition impl_error (r : (bytes + reader_error) * sv_state) : option reader_error :=
  match fst r with inr e => Some e | inl _ => None end.
Definition read_error (r : (bytes + sv_read_error) * sv_state) : option reader_error :=
  match fst r with inr (SvError e) => Some e | _ => None end.

Lemma p_catch {A : Type} m (C : A -> Z) (mm : M A) : plain m 0 C mm -> forall s, spends m (catch mm) s 0
  (fun r s' c => match r with inl a => c <= C a | inr e => c <= 0 /\ pos_size m (error_position e) <= size m s' end).
Proof.
  intros H s n. unfold catch. apply reach_pbind. eapply reach_impl; [apply H|].
  intros [[a|e|k|] s'] n' Hn; cbn [reach]; cbv beta iota in Hn; [apply Hn|exact Hn..].
Qed.

Lemma p_sv_loop m : forall f len out sv, reading m impl_error (sv_read_loop f len out sv).
Proof.
  induction f as [|f IH]; intros len out sv s; cbn [sv_read_loop];
    (destruct (Nat.ltb _ len); [|apply spends_ret; split; [lia|discriminate]]); [apply spends_no_fuel; lia|].
  destruct (negb _); [apply spends_panics; lia|].
  eapply spends_bind; [apply (p_catch m _ _ (p_string_bytes m))|lia|]. cbv beta. intros [[re bs]|e] s1 c1 Hc.
  - destruct (Nat.ltb _ (length _)); [apply spends_panics; cbn [fst] in Hc; destruct re; ar|]. cbn [fst] in Hc. destruct re.
    + eapply (spends_bind _ _ _ _ 0 _ (fun _ s' c => c = 0)); [apply spends_update; change (size m (set_active false s1)) with (size m s1); lia|ar|].
      intros [] s2 c2 ->. eapply spends_bind; [apply p_on_value_end|ar|]. intros [] s3 c3 [_ Hc3].
      apply spends_ret. split; [ar|discriminate].
    + eapply spends_weak; [apply IH|ar|]. cbv beta. intros r s2 c2 [Hc2 He]. split; [lia|exact He].
  - destruct Hc as [Hc He]. apply spends_ret. split; [lia|]. cbn. intros e' [= <-]. exact He.
Qed.
Lemma p_sv_read m E len sv : reading m read_error (sv_read E len sv).
Proof.
  intros s. unfold sv_read. destruct (sv_error sv); [apply spends_ret; split; [lia|discriminate]|].
  assert (H : reading m impl_error (sv_read_impl E len sv)).
  { intros s0. unfold sv_read_impl. destruct (_ || _)%bool; [apply spends_ret; split; [lia|discriminate]|apply p_sv_loop]. }
  eapply spends_bind; [apply H|lia|]. cbv beta. intros [[bs|e] sv'] s1 c1 [Hc He].
  - apply spends_ret. split; [lia|discriminate].
  - apply spends_ret. split; [lia|]. intros e' [= <-]. apply He. reflexivity.
Qed.

(** ** Calls *)

(** If the measure does not exceed the number of consumed bytes before, it does
    not exceed it after the call, and neither does a reported position *)
Definition call_fits (m : measure) (p : prog (outcome * session)) (st : session) : Prop :=
  forall n, size m (s_state st) <= n ->
    reach p n (fun os n' => size m (s_state (snd os)) <= n' /\
      forall q, reported_position (fst os) = Some q -> pos_size m q <= n').

Lemma call_costs {A : Type} m (mm : M A) v st : costs m 0 0 mm -> (forall a q, v a <> RPos q) -> call_fits m (call mm v st) st.
Proof.
  intros H Hv n Hn. unfold call. apply reach_pbind. eapply reach_impl; [apply H|].
  intros [[a|e|k|] s'] n' Hs; cbn [reach fst snd s_state]; cbv beta iota in Hs; (split; [lia|]).
  - intros q Hq. cbn in Hq. specialize (Hv a). destruct (v a); try discriminate. exfalso. exact (Hv _ eq_refl).
  - intros q [= <-]. lia.
  - discriminate.
  - discriminate.
Qed.

Ltac call H := apply call_costs; [apply H|discriminate].

Lemma client_call_fits m E c st : call_fits m (client_call E c st) st.
Proof.
  assert (H0 : forall o, reported_position o = None -> call_fits m (Ret (o, st)) st).
  { intros o Ho n Hn. cbn. split; [exact Hn|]. rewrite Ho. discriminate. }
  unfold client_call. destruct (s_phase st); [|apply H0; reflexivity..]. destruct c.
  - call p_peek.
  - call p_has_next.
  - call p_begin_array.
  - call p_end_array.
  - call p_begin_object.
  - call p_end_object.
  - call p_next_name.
  - call p_next_name_owned.
  - call p_skip_name.
  - call p_next_string.
  - call p_next_str.
  - intros n Hn. unfold call_string_reader. apply reach_pbind. eapply reach_impl; [apply (p_next_string_reader m)|].
    intros [[a|e|k|] s'] n' Hs; cbn [reach fst snd s_state]; cbv beta iota in Hs; (split; [lia|]); try discriminate.
    intros q [= <-]. lia.
  - unfold call_read. destruct (s_reader st) as [sv|]; [|apply H0; reflexivity].
    intros n Hn. apply reach_pbind. eapply reach_impl; [apply (p_sv_read m)|].
    intros [[[[bs|e] sv']|e|k|] s'] n' Hs; cbn [reach fst snd s_state]; cbv beta iota in Hs;
      (split; [first [lia|destruct Hs as [Hs _]; lia]|]); try discriminate.
    destruct Hs as [Hs He]. destruct e as [e|]; [|discriminate]. intros q [= <-]. specialize (He e eq_refl). lia.
  - call p_number_str.
  - call p_number_string.
  - call p_next_bool.
  - call p_next_null.
  - call p_skip_value.
  - call p_seek_to.
  - call p_seek_back.
  - call p_top_level.
  - intros n Hn. cbn. split; [exact Hn|]. intros q [= <-]. pose proof (pos_size_current m include_path (s_state st)). lia.
  - intros n Hn. unfold call_consume. apply reach_pbind.
    eapply reach_impl; [apply (call_costs m _ to_unit st (p_consume_trailing m E) ltac:(discriminate)); exact Hn|].
    intros os n' H. exact H.
Qed.

Lemma client_calls_fit m E : forall cs st n, size m (s_state st) <= n -> reach (client_calls E cs st) n
  (fun os n' => size m (s_state (snd os)) <= n' /\
     forall o q, In o (fst os) -> reported_position o = Some q -> pos_size m q <= n').
Proof.
  induction cs as [|c cs IH]; intros st n Hn; cbn [client_calls].
  - cbn. split; [exact Hn|intros o q []].
  - apply reach_pbind. eapply reach_impl; [apply client_call_fits; exact Hn|]. intros os n1 [H1 Hq1].
    apply reach_pbind. eapply reach_impl; [apply reach_grows, IH; exact H1|]. cbv beta. intros osl n2 [[H2 Hq2] H12]. cbn [reach fst snd].
    split; [exact H2|]. intros o q [<-|Hi] Hq; [specialize (Hq1 q Hq); lia|eauto].
Qed.
