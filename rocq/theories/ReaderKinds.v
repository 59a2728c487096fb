(** * The kind and the location of errors

    Auxiliary: which error the functions of the model report. *)

From Verif Require Import Base Utf8Model Utf8Proofs NumberModel SpecNumber SpecJson SourceModel SourceProofs ReaderModel
  ReaderScan ReaderLex ReaderLexStr ReaderGrammar SpecText SpecErrors.

(** [m] reports [F] at the position of [s'] *)
Definition stops {A : Type} (t : tail_end) (F : failure) (m : M A) (s s' : rstate) (a : asrc) : Prop :=
  exists e a', exec m s a = Some ((Err e, s'), a') /\ reports t F e /\ error_position e = location s'.

Lemma stops_bind {A B : Type} t F (m : M A) (f : A -> M B) s s' a : stops t F m s s' a -> stops t F (bind m f) s s' a.
Proof. intros (e & a' & H & He). exists e, a'. rewrite exec_bind, H. auto. Qed.
Lemma stops_bind_ok {A B : Type} t F (m : M A) (f : A -> M B) s s1 s' a a1 x : exec m s a = Some ((Ok x, s1), a1) ->
  stops t F (f x) s1 s' a1 -> stops t F (bind m f) s s' a.
Proof. intros H (e & a' & H1 & He). exists e, a'. rewrite exec_bind, H. auto. Qed.
Lemma stops_syntax {A : Type} t k s a : @stops A t (FSyntax k) (syntax_err k) s s a.
Proof. eexists _, _. split; [reflexivity|]. split; reflexivity. Qed.
Lemma stops_utf8 {A : Type} t s a : @stops A t FUtf8 (fail (EIo IoInvalidUtf8)) s s a.
Proof. eexists _, _. split; [reflexivity|]. split; [exact I|reflexivity]. Qed.

(** Implementations of [read_byte] *)
Record rb_kind (t : tail_end) (rb : syntax_error -> M byte) (St : bytes -> bytes -> asrc) : Prop := {
  rk_some : forall k s b r c, exec (rb k) s (St (b :: r) c) = Some ((Ok b, s), St r (c ++ [b]));
  rk_none : forall k s c, stops t (FEnd k) (rb k) s s (St [] c)
}.

Lemma read_end t k s kn : stops t (FEnd k) (read_byte k) s s (At [] t kn).
Proof. destruct t; eexists _, _; (split; [reflexivity|]); repeat split. Qed.
Lemma vread_end t k s acc jr : stops t (FEnd k) (value_read_byte k) s s (Av [] t false acc jr).
Proof. destruct t; eexists _, _; (split; [reflexivity|]); repeat split. Qed.
Lemma vread_skipped_end t k s acc jr : stops t (FEnd k) (value_read_skipped_byte k) s s (Av [] t false acc jr).
Proof. apply stops_bind, vread_end. Qed.

Lemma rk_read_byte t : rb_kind t read_byte (fun r c => At r t false).
Proof. constructor; intros; [apply read_some|apply read_end]. Qed.
Lemma rk_value_read_byte t acc : rb_kind t value_read_byte (fun r c => Av r t false (acc ++ c) true).
Proof. constructor; intros; [|apply vread_end]. rewrite vread_some, app_assoc. reflexivity. Qed.
Lemma rk_value_skipped t acc : rb_kind t value_read_skipped_byte (fun r c => Av r t false acc false).
Proof. constructor; intros; [apply vread_skipped_some|apply vread_skipped_end]. Qed.

Ltac rk_step H := first
  [ apply stops_bind; apply (rk_none _ _ _ H)
  | eapply stops_bind_ok; [apply (rk_some _ _ _ H)|] ].

(** ** UTF-8 *)
Lemma cont_iff b : is_byte b -> is_continuation b = true <-> 0x80 <= b <= 0xBF.
Proof.
  intros Hb. rewrite is_continuation_range by exact Hb. unfold in_range. rewrite andb_true_iff, !N.leb_le. reflexivity.
Qed.
Lemma announced_spec b : is_byte b -> announced b = if is_2byte_start b then 1%nat else if is_4byte_start b then 3%nat else 2%nat.
Proof.
  intros Hb. unfold announced. rewrite is_2byte_start_range, is_4byte_start_range by exact Hb. reflexivity.
Qed.

Definition multi_failure (b0 : byte) (r : bytes) : failure :=
  match r with
  | [] => FEnd IncompleteDocument
  | b1 :: r1 =>
    if negb (is_continuation b1) || is_2byte_start b0 then FUtf8
    else match r1 with
    | [] => FEnd IncompleteDocument
    | b2 :: r2 =>
      if negb (is_continuation b2) || negb (is_4byte_start b0) then FUtf8
      else match r2 with [] => FEnd IncompleteDocument | _ => FUtf8 end
    end
  end.

Lemma starts_exclude b : is_byte b -> is_3byte_start b = true -> is_4byte_start b = false.
Proof.
  intros Hb. rewrite is_3byte_start_range, is_4byte_start_range by exact Hb. unfold in_range.
  rewrite andb_true_iff, !N.leb_le. intros [H1 H2]. apply andb_false_iff. left. apply N.leb_gt. lia.
Qed.

Lemma multibyte_stops t rb St : rb_kind t rb St -> forall b0 r c s, is_byte b0 -> take_multi b0 r = None ->
  stops t (multi_failure b0 r) (read_utf8_multibyte rb b0) s s (St r c).
Proof.
  intros H b0 r c s Hb Hn. unfold take_multi in Hn. unfold read_utf8_multibyte, multi_failure.
  destruct r as [|b1 r]; [rk_step H|]. rk_step H. destruct (is_continuation b1); cbn [negb orb] in *; [|apply stops_utf8].
  destruct (is_2byte_start b0).
  { destruct (is_valid_2bytes b0 b1); [discriminate|]. apply stops_utf8. }
  destruct r as [|b2 r]; [rk_step H|]. rk_step H. destruct (is_continuation b2); cbn [negb orb] in *; [|apply stops_utf8].
  destruct (is_3byte_start b0) eqn:E3.
  { rewrite (starts_exclude _ Hb E3). cbn [negb]. destruct (is_valid_3bytes b0 b1 b2); [discriminate|]. apply stops_utf8. }
  destruct (is_4byte_start b0); cbn [negb]; [|apply stops_utf8].
  destruct r as [|b3 r]; [rk_step H|]. rk_step H. destruct (is_continuation b3); cbn [negb] in *; [|apply stops_utf8].
  destruct (is_valid_4bytes b0 b1 b2 b3); [discriminate|]. apply stops_utf8.
Qed.

Lemma multi_failure_spec b0 r : Forall is_byte (b0 :: r) ->
  (truncated (b0 :: r) /\ multi_failure b0 r = FEnd IncompleteDocument) \/
  (~ truncated (b0 :: r) /\ multi_failure b0 r = FUtf8).
Proof.
  intros Hb. inversion Hb as [|? ? Hb0 Hr]; subst.
  assert (Ht : truncated (b0 :: r) <-> (length r < announced b0)%nat /\ Forall (fun b => is_continuation b = true) r).
  { split.
    - intros (b & l & [= <- <-] & Hl & Hf). split; [exact Hl|]. rewrite Forall_forall in *. intros x Hx. apply cont_iff; auto.
    - intros [Hl Hf]. exists b0, r. splits; auto. rewrite Forall_forall in *. intros x Hx. apply cont_iff; auto. }
  rewrite Ht. rewrite (announced_spec b0 Hb0). clear Ht Hb Hb0 Hr. unfold multi_failure.
  destruct r as [|b1 r].
  { left. split; [|reflexivity]. split; [destruct (is_2byte_start b0); [|destruct (is_4byte_start b0)]; cbn; lia|constructor]. }
  destruct (is_continuation b1) eqn:E1; cbn [negb orb].
  2:{ right. split; [|reflexivity]. intros [_ Hf]. inversion Hf. congruence. }
  destruct (is_2byte_start b0). { right. split; [|reflexivity]. intros [Hl _]. cbn in Hl. lia. }
  destruct r as [|b2 r].
  { left. split; [|reflexivity]. split; [destruct (is_4byte_start b0); cbn; lia|]. repeat constructor. exact E1. }
  destruct (is_continuation b2) eqn:E2; cbn [negb orb].
  2:{ right. split; [|reflexivity]. intros [_ Hf]. inversion Hf as [|? ? _ Hf2]; subst. inversion Hf2. congruence. }
  destruct (is_4byte_start b0); cbn [negb]. 2:{ right. split; [|reflexivity]. intros [Hl _]. cbn in Hl. lia. }
  destruct r as [|b3 r].
  { left. split; [|reflexivity]. split; [cbn; lia|]. repeat constructor; assumption. }
  right. split; [|reflexivity]. intros [Hl _]. cbn in Hl. lia.
Qed.

(** ** Unicode escapes *)
Lemma hex_some b : is_hex b -> exists d, hex_digit b = Some d.
Proof. intros (v & H). exists v. apply hex_digit_iff. exact H. Qed.
Lemma hex_none b : ~ is_hex b -> hex_digit b = None.
Proof. intros H. destruct (hex_digit b) as [d|] eqn:E; [|reflexivity]. apply hex_digit_iff in E. exfalso. apply H. exists d. exact E. Qed.

Lemma hex_stops t rb St : rb_kind t rb St -> forall r c s F, hex_error r F ->
  stops t F (read_unicode_escape rb) s s (St r c).
Proof.
  intros H r c s F Hr.
  assert (Hd : forall b r c, is_hex b -> exists d, exec (read_hex_byte rb) s (St (b :: r) c) = Some ((Ok d, s), St r (c ++ [b]))).
  { intros b r0 c0 Hb. destruct (hex_some b Hb) as (d & Hd). exists d. unfold read_hex_byte.
    rewrite (exec_bind_ok _ _ _ _ _ _ _ (rk_some _ _ _ H _ _ _ _ _)), Hd. reflexivity. }
  assert (He : forall c, stops t (FEnd MalformedEscapeSequence) (read_hex_byte rb) s s (St [] c)) by (intros c0; unfold read_hex_byte; rk_step H).
  assert (Hn : forall b r c, ~ is_hex b -> stops t (FSyntax MalformedEscapeSequence) (read_hex_byte rb) s s (St (b :: r) c)).
  { intros b r0 c0 Hb. unfold read_hex_byte. rk_step H. rewrite (hex_none b Hb). apply stops_syntax. }
  destruct Hr as [ds Hl Hds|ds b r Hl Hds Hb]; unfold read_unicode_escape.
  - destruct ds as [|h1 ds]; [apply stops_bind, He|]. inversion Hds as [|? ? H1 Hds1]; subst. destruct (Hd h1 ds c H1) as (d1 & E1).
    eapply stops_bind_ok; [exact E1|]. destruct ds as [|h2 ds]; [apply stops_bind, He|]. inversion Hds1 as [|? ? H2 Hds2]; subst.
    destruct (Hd h2 ds (c ++ [h1]) H2) as (d2 & E2). eapply stops_bind_ok; [exact E2|].
    destruct ds as [|h3 ds]; [apply stops_bind, He|]. inversion Hds2 as [|? ? H3 Hds3]; subst.
    destruct (Hd h3 ds ((c ++ [h1]) ++ [h2]) H3) as (d3 & E3). eapply stops_bind_ok; [exact E3|].
    destruct ds; [apply stops_bind, He|]. cbn in Hl. lia.
  - destruct ds as [|h1 ds]; cbn [app]; [apply stops_bind, Hn, Hb|]. inversion Hds as [|? ? H1 Hds1]; subst. destruct (Hd h1 (ds ++ b :: r) c H1) as (d1 & E1).
    eapply stops_bind_ok; [exact E1|]. destruct ds as [|h2 ds]; cbn [app]; [apply stops_bind, Hn, Hb|]. inversion Hds1 as [|? ? H2 Hds2]; subst.
    destruct (Hd h2 (ds ++ b :: r) (c ++ [h1]) H2) as (d2 & E2). eapply stops_bind_ok; [exact E2|].
    destruct ds as [|h3 ds]; cbn [app]; [apply stops_bind, Hn, Hb|]. inversion Hds2 as [|? ? H3 Hds3]; subst.
    destruct (Hd h3 (ds ++ b :: r) ((c ++ [h1]) ++ [h2]) H3) as (d3 & E3). eapply stops_bind_ok; [exact E3|].
    destruct ds; cbn [app]; [apply stops_bind, Hn, Hb|]. cbn in Hl. lia.
Qed.

Lemma rk_spec t rb St : rb_kind t rb St -> (forall s k c, fails (rb k) s (St [] c)) -> rb_spec rb St.
Proof. intros H Hf. constructor; [apply (rk_some _ _ _ H)|auto]. Qed.

Lemma end_aborting t k e : reports t (FEnd k) e -> aborting e = true.
Proof. destruct e as [| | | | |[]]; cbn; tauto. Qed.

Lemma rb_of_kind t rb St : rb_kind t rb St -> rb_spec rb St.
Proof.
  intros H. constructor; [apply (rk_some _ _ _ H)|]. intros k s c. destruct (rk_none _ _ _ H k s c) as (e & a' & He & Hr & _).
  exists e, s, a'. split; [exact He|]. exact (end_aborting _ _ _ Hr).
Qed.

Lemma hex4_exec t rb St : rb_kind t rb St -> forall hs v r c s, hex4 hs v ->
  exec (read_unicode_escape rb) s (St (hs ++ r) c) = Some ((Ok v, s), St r (c ++ hs)).
Proof.
  intros H hs v r c s Hh. pose proof (read_unicode_escape_ex rb St (rb_of_kind _ _ _ H) (hs ++ r) c s) as He.
  rewrite (take_hex4_complete _ _ _ Hh) in He. exact He.
Qed.

Lemma low_range v : 0xDC00 <= v <= 0xDFFF -> (0xDC00 <=? v) && (v <=? 0xDFFF) = true.
Proof. intros H. apply andb_true_iff. split; apply N.leb_le; lia. Qed.
Lemma not_low_range v : ~ (0xDC00 <= v <= 0xDFFF) -> (0xDC00 <=? v) && (v <=? 0xDFFF) = false.
Proof. intros H. apply andb_false_iff. destruct (N.leb_spec 0xDC00 v); [right; apply N.leb_gt; lia|left; reflexivity]. Qed.
Lemma high_range v : 0xD800 <= v <= 0xDBFF -> (0xD800 <=? v) && (v <=? 0xDBFF) = true.
Proof. intros H. apply andb_true_iff. split; apply N.leb_le; lia. Qed.

(** The failures of the part behind [\u] *)
Inductive escape_error : bytes -> failure -> Prop :=
| EE_hex r F : hex_error r F -> escape_error r F
| EE_low hs v r : hex4 hs v -> 0xDC00 <= v <= 0xDFFF -> escape_error (hs ++ r) (FSyntax UnpairedSurrogatePairEscapeSequence)
| EE_high hs v r F : hex4 hs v -> 0xD800 <= v <= 0xDBFF -> low_error r F -> escape_error (hs ++ r) F.

Lemma escape_stops t rb St : rb_kind t rb St -> forall r c s F, escape_error r F ->
  stops t F (read_unicode_escape_char rb) s s (St r c).
Proof.
  intros H r c s F Hr. unfold read_unicode_escape_char. destruct Hr as [r F Hr|hs v r Hh Hv|hs v r F Hh Hv Hr].
  - apply stops_bind. exact (hex_stops t rb St H r c s F Hr).
  - eapply stops_bind_ok; [exact (hex4_exec t rb St H hs v r c s Hh)|]. rewrite (low_range v Hv). apply stops_syntax.
  - eapply stops_bind_ok; [exact (hex4_exec t rb St H hs v r c s Hh)|]. rewrite not_low_range by lia. rewrite (high_range v Hv).
    destruct Hr as [|b r Hb| |b r Hb|r F Hr|hs2 v2 r Hh2 Hv2].
    + rk_step H.
    + rk_step H. destruct (N.eqb_spec b B_BACKSLASH); [contradiction|]. apply stops_syntax.
    + rk_step H. cbn [negb]. change (0x5C =? B_BACKSLASH) with true. cbn [negb]. rk_step H.
    + rk_step H. change (0x5C =? B_BACKSLASH) with true. cbn [negb]. rk_step H. destruct (N.eqb_spec b B_u); [contradiction|]. apply stops_syntax.
    + cbn [app]. rk_step H. change (0x5C =? B_BACKSLASH) with true. cbn [negb]. rk_step H. change (0x75 =? B_u) with true. cbn [negb].
      apply stops_bind. exact (hex_stops t rb St H r _ s F Hr).
    + cbn [app]. rk_step H. change (0x5C =? B_BACKSLASH) with true. cbn [negb]. rk_step H. change (0x75 =? B_u) with true. cbn [negb].
      eapply stops_bind_ok; [exact (hex4_exec t rb St H hs2 v2 r _ s Hh2)|]. rewrite not_low_range by exact Hv2. cbn [negb]. apply stops_syntax.
Qed.

(** ** Elements of strings *)
Lemma take_multi_none b r : 0x80 <= b -> Forall is_byte (b :: r) -> (forall c r', is_char c -> b :: r <> encode_char c ++ r') ->
  take_multi b r = None.
Proof.
  intros Hb Hf Hn. destruct (take_multi b r) as [[bs r']|] eqn:E; [|reflexivity].
  destruct (take_multi_sound b r bs r' Hf Hb E) as (He & c & Hc & _ & Hx). exfalso. apply (Hn c r' Hc). rewrite He, Hx. reflexivity.
Qed.

Lemma truncated_none b r : 0x80 <= b -> Forall is_byte (b :: r) -> truncated (b :: r) -> take_multi b r = None.
Proof.
  intros Hb Hf (b0 & l & [= <- <-] & Hl & Hc). inversion Hf as [|? ? Hb0 Hr]; subst. rewrite (announced_spec b Hb0) in Hl. unfold take_multi.
  destruct r as [|b1 r]; [reflexivity|]. destruct (negb (is_continuation b1)); [reflexivity|].
  destruct (is_2byte_start b); [cbn in Hl; lia|]. destruct r as [|b2 r]; [reflexivity|]. destruct (negb (is_continuation b2)); [reflexivity|].
  destruct (is_3byte_start b) eqn:E3. { rewrite (starts_exclude _ Hb0 E3) in Hl. cbn in Hl. lia. }
  destruct (is_4byte_start b); [|reflexivity]. destruct r as [|b3 r]; [reflexivity|]. cbn in Hl. lia.
Qed.

Lemma simple_none e : (forall c, ~ simple_escape e c) -> escape_literal e = false /\ escape_replacement e = None.
Proof.
  intros H. split.
  - destruct (escape_literal e) eqn:E; [|reflexivity]. apply escape_literal_simple in E. exfalso. exact (H _ E).
  - destruct (escape_replacement e) as [x|] eqn:E; [|reflexivity]. apply escape_replacement_simple in E as [E _]. exfalso. exact (H _ E).
Qed.

Lemma high_bools b : 0x80 <= b -> (b =? B_BACKSLASH) = false /\ (b =? B_QUOTE) = false /\ (b <=? 0x1F) = false /\ (b <=? 0x7F) = false.
Proof. intros H. splits; (apply N.eqb_neq; lia) || (apply N.leb_gt; lia). Qed.
Lemma control_bools b : b < 0x20 -> (b =? B_BACKSLASH) = false /\ (b =? B_QUOTE) = false /\ (b <=? 0x1F) = true.
Proof. intros H. splits; (apply N.eqb_neq; lia) || (apply N.leb_le; lia). Qed.

Lemma utf8_case b r : Forall is_byte (b :: r) -> forall F, utf8_error (b :: r) F ->
  0x80 <= b /\ take_multi b r = None /\ multi_failure b r = F.
Proof.
  intros Hf F H. inversion H; subst; (split; [assumption|]).
  - split; [apply truncated_none; auto|]. destruct (multi_failure_spec b r Hf) as [[_ ->]|[? _]]; [reflexivity|contradiction].
  - split; [apply take_multi_none; auto|]. destruct (multi_failure_spec b r Hf) as [[? _]|[_ ->]]; [contradiction|reflexivity].
Qed.

Lemma multi_case b r : 0x80 <= b -> Forall is_byte (b :: r) -> forall F, string_error (b :: r) F ->
  take_multi b r = None /\ multi_failure b r = F.
Proof.
  intros Hb Hf F H. assert (Hbs : b <> 0x5C) by lia.
  inversion H; subst; try lia; try contradiction. apply utf8_case; assumption.
Qed.

Lemma utf8_none b r : 0x80 <= b -> Forall is_byte (b :: r) -> take_multi b r = None -> utf8_error (b :: r) (multi_failure b r).
Proof.
  intros Hb Hf Em. destruct (multi_failure_spec b r Hf) as [[Ht ->]|[Ht ->]]; [apply UE_truncated; assumption|].
  apply UE_malformed; [assumption|assumption|]. intros c r' Hc He. assert (0x80 <= c).
  { destruct (N.ltb_spec c 0x80) as [Hl|Hl]; [|exact Hl]. rewrite encode_char_1 in He by exact Hl. injection He as -> _. lia. }
  destruct (take_multi_complete c r' Hc ltac:(assumption)) as (b' & w & Hw & _ & Ht'). rewrite Hw in He. cbn [app] in He. injection He as -> ->. congruence.
Qed.

(** An error behind the backslash *)
Lemma backslash_case r F : string_error (0x5C :: r) F ->
  (r = [] /\ F = FEnd MalformedEscapeSequence) \/
  (exists e r', r = e :: r' /\ e <> 0x75 /\ escape_literal e = false /\ escape_replacement e = None /\ F = FSyntax UnknownEscapeSequence) \/
  (exists r', r = 0x75 :: r' /\ escape_error r' F).
Proof.
  intros H. inversion H; subst; try lia.
  - left. auto.
  - right. left. destruct (simple_none e) as [H4 H5]; [assumption|]. exists e, r0. auto.
  - right. right. exists r0. split; [reflexivity|]. apply EE_hex. assumption.
  - right. right. eexists. split; [reflexivity|]. eapply EE_low; eassumption.
  - right. right. eexists. split; [reflexivity|]. eapply EE_high; eassumption.
  - match goal with H : utf8_error _ _ |- _ => inversion H; subst; lia end.
Qed.

Lemma other_case b r F : b <> 0x5C -> string_error (b :: r) F ->
  (b < 0x20 /\ F = FSyntax NotEscapedControlCharacter) \/ 0x80 <= b.
Proof.
  intros Hb H. inversion H; subst; auto; try contradiction. right.
  match goal with H : utf8_error _ _ |- _ => inversion H; subst; assumption end.
Qed.

(** [read_string_bytes] *)
Lemma read_string_bytes_stops t s r kn F : Forall is_byte r -> string_error r F ->
  stops t F read_string_bytes s s (At r t kn).
Proof.
  intros Hf H. unfold read_string_bytes. destruct r as [|b r].
  { inversion H; subst; [apply stops_bind, read_end|]. match goal with H : utf8_error _ _ |- _ => inversion H end. }
  eapply stops_bind_ok; [apply read_some|]. destruct (N.eqb_spec b B_BACKSLASH) as [->|Hb].
  - destruct (backslash_case r F H) as [(-> & ->)|[(e & r' & -> & He & E1 & E2 & ->)|(r' & -> & He)]].
    + apply stops_bind, read_end.
    + eapply stops_bind_ok; [apply read_some|]. rewrite E1, E2. destruct (N.eqb_spec e B_u); [contradiction|]. apply stops_syntax.
    + eapply stops_bind_ok; [apply read_some|]. cbn -[read_unicode_escape_char].
      apply stops_bind. exact (escape_stops t _ _ (rk_read_byte t) r' [] s F He).
  - destruct (other_case b r F Hb H) as [[Hc ->]|Hc].
    + destruct (control_bools b Hc) as (_ & E2 & E3). rewrite E2, E3. apply stops_syntax.
    + destruct (high_bools b Hc) as (_ & E2 & E3 & E4). rewrite E2, E3, E4. destruct (multi_case b r Hc Hf F H) as [E5 <-].
      apply stops_bind. inversion Hf; subst. exact (multibyte_stops t _ _ (rk_read_byte t) b r [] s ltac:(assumption) E5).
Qed.

(** Skipping a string *)
Lemma skip_string_stops t body v bad F : str_text body v -> string_error bad F -> Forall is_byte bad -> forall f s kn, (length (body ++ bad) < f)%nat ->
  stops t F (skip_all_string_bytes_loop f) s (move body s) (At (body ++ bad) t kn).
Proof.
  intros Hb He Hf. induction Hb as [|w c body v Hu Hb IH] using str_text_ind'; intros f s kn Hl; (destruct f as [|f]; [lia|]); cbn [skip_all_string_bytes_loop].
  - rewrite move_nil. apply stops_bind, read_string_bytes_stops; assumption.
  - rewrite <- app_assoc in *. pose proof (read_string_bytes_ex s (w ++ body ++ bad) t kn) as Hx. pose proof (scan_unit_complete w c (body ++ bad) Hu) as Hsc. rewrite Hsc in Hx.
    apply scan_unit_text in Hsc as (_ & Hw & Hlf). eapply stops_bind_ok; [exact Hx|]. cbn [fst].
    rewrite move_app by (apply last_cr_breaks; exact Hlf). apply IH. rewrite app_length in Hl. destruct w; [contradiction|]. cbn in Hl. lia.
Qed.

(** Collecting a string *)
Lemma read_string_escape_stops t s r acc F : string_error (B_BACKSLASH :: r) F ->
  stops t F read_string_escape s s (Av r t false (acc ++ [B_BACKSLASH]) true).
Proof.
  intros H. unfold read_string_escape. eapply stops_bind_ok; [apply vskip_previous|].
  destruct (backslash_case r F H) as [(-> & ->)|[(e & r' & -> & He & E1 & E2 & ->)|(r' & -> & He)]].
  - apply stops_bind, vread_end.
  - eapply stops_bind_ok; [apply vread_some|]. apply stops_bind. rewrite E1, E2. destruct (N.eqb_spec e B_u); [contradiction|]. apply stops_syntax.
  - eapply stops_bind_ok; [apply vread_some|]. apply stops_bind. change (escape_literal 0x75) with false. change (escape_replacement 0x75) with (@None byte).
    change (0x75 =? B_u) with true. cbn iota. eapply stops_bind_ok; [apply vskip_previous|]. apply stops_bind.
    exact (escape_stops t _ _ (rk_value_skipped t acc) r' [] s F He).
Qed.

Lemma read_string_loop_stops t body v bad F : str_text body v -> string_error bad F -> Forall is_byte bad -> forall bo f s kn acc jr,
  (body ++ bad = [] -> kn = false) -> (length (body ++ bad) < f)%nat ->
  stops t F (read_string_loop f bo) s (move body s) (Av (body ++ bad) t kn acc jr).
Proof.
  intros Hb He Hf. induction Hb as [|w c body v Hu Hb IH] using str_text_ind'; intros bo f s kn acc jr Hk Hl; (destruct f as [|f]; [lia|]); cbn [read_string_loop].
  - rewrite move_nil. cbn [app] in *. destruct bad as [|b r].
    { inversion He; subst; [|match goal with H : utf8_error _ _ |- _ => inversion H end].
      rewrite Hk by reflexivity. apply stops_bind, vread_end. }
    eapply stops_bind_ok; [apply vread_some|]. destruct (N.eqb_spec b B_BACKSLASH) as [->|Hbs].
    { apply stops_bind. apply read_string_escape_stops. exact He. }
    destruct (other_case b r F Hbs He) as [[Hc ->]|Hc].
    + destruct (control_bools b Hc) as (_ & E2 & E3). rewrite E2, E3. apply stops_syntax.
    + destruct (high_bools b Hc) as (_ & E2 & E3 & E4). rewrite E2, E3, E4. destruct (multi_case b r Hc Hf F He) as [E5 <-].
      apply stops_bind. inversion Hf; subst. pose proof (multibyte_stops t _ _ (rk_value_read_byte t (acc ++ [b])) b r [] s ltac:(assumption) E5) as Hm.
      cbn beta in Hm. rewrite app_nil_r in Hm. exact Hm.
  - rewrite <- app_assoc in *. set (rest := body ++ bad) in *. pose proof (scan_unit_complete w c rest Hu) as Hsc. pose proof Hsc as Hsc0.
    apply scan_unit_text in Hsc0 as (_ & Hw & Hlf). rewrite move_app by (apply last_cr_breaks; exact Hlf).
    destruct w as [|b w']; [contradiction|]. cbn [app] in *.
    assert (Hlen : (length rest < f)%nat) by (cbn [length] in Hl; rewrite app_length in Hl; lia).
    assert (HIH : forall kn acc jr, (rest = [] -> kn = false) -> stops t F (read_string_loop f bo) (move (b :: w') s) (move body (move (b :: w') s)) (Av rest t kn acc jr)) by (intros; apply IH; auto).
    eapply stops_bind_ok; [apply vread_some|]. destruct (N.eqb_spec b B_BACKSLASH) as [->|Hbs].
    { pose proof (read_string_escape_ex s (w' ++ rest) t acc) as Hx. rewrite Hsc in Hx. destruct Hx as (jr' & Hx).
      eapply stops_bind_ok; [exact Hx|]. apply HIH. reflexivity. }
    cbn [scan_unit] in Hsc. destruct (N.eqb_spec b B_BACKSLASH) as [->|_]; [contradiction|].
    destruct (b =? B_QUOTE); [discriminate|]. destruct (b <=? 0x1F) eqn:E3; [discriminate|]. destruct (b <=? 0x7F) eqn:E4.
    { injection Hsc as _ Hw1 Hw2. eapply stops_bind_ok; [apply update_ok|]. subst w'. rewrite <- Hw2. rewrite <- (move_plain b s) by (apply raw_plain; assumption).
      rewrite Hw2. apply HIH. reflexivity. }
    destruct (take_multi b (w' ++ rest)) as [[bs r1]|] eqn:Em; [|discriminate]. injection Hsc as H1 H2 H3. subst r1.
    pose proof (read_utf8_multibyte_ex _ _ (rb_value_read_byte t (acc ++ [b])) b (w' ++ rest) [] s) as Hm. cbn beta in Hm.
    rewrite app_nil_r, Em in Hm. eapply stops_bind_ok; [exact Hm|]. eapply stops_bind_ok; [apply update_ok|].
    rewrite <- (move_multi _ _ _ _ s Em). rewrite H2. apply HIH. reflexivity.
Qed.

Lemma read_string_stops t body v bad F E bo s kn : str_text body v -> string_error bad F -> Forall is_byte bad -> (length (body ++ bad) < fuel E)%nat ->
  stops t F (read_string E bo) s (move body s) (At (body ++ bad) t kn).
Proof.
  intros Hb He Hf Hl. unfold read_string.
  assert (Hnew : exec value_reader_new s (At (body ++ bad) t kn) =
    Some ((Ok tt, s), Av (body ++ bad) t (match body ++ bad with [] => false | _ => kn end) [] false)) by reflexivity.
  eapply stops_bind_ok; [exact Hnew|]. apply (read_string_loop_stops t body v bad F); auto. intros ->. reflexivity.
Qed.

(** Text which is not a string has one of the errors *)
Lemma scan_fail_error r : Forall is_byte r -> scan_unit r = UFail -> exists F, string_error r F.
Proof.
  intros Hf. unfold scan_unit. destruct r as [|b r]; [intros _; eexists; apply SE_end|].
  destruct (N.eqb_spec b B_BACKSLASH) as [->|Hb].
  - destruct r as [|e r]; [intros _; eexists; apply SE_escape_end|]. destruct (escape_literal e) eqn:E1; [discriminate|].
    destruct (escape_replacement e) as [x|] eqn:E2; [discriminate|]. destruct (N.eqb_spec e B_u) as [->|He].
    2:{ intros _. eexists. apply SE_unknown; [exact He|]. intros c Hc. destruct Hc; discriminate. }
    assert (Hhex : forall l, take_hex4 l = None -> exists F, hex_error l F).
    { clear. intros l. assert (Hdec : forall b, is_hex b \/ ~ is_hex b).
      { intros b. destruct (hex_digit b) as [d|] eqn:E; [left; exists d; apply hex_digit_iff; exact E|].
        right. intros (v & Hv). apply hex_digit_iff in Hv. congruence. }
      assert (Hsome : forall b, is_hex b -> hex_digit b <> None) by (intros b Hb; destruct (hex_some b Hb) as (d & ->); discriminate).
      destruct l as [|h1 l]; [intros _; eexists; apply HE_end; [cbn; lia|constructor]|].
      destruct (Hdec h1) as [H1|H1]; [|intros _; eexists; apply (HE_digit [] h1); [cbn; lia|constructor|exact H1]].
      destruct l as [|h2 l]; [intros _; eexists; apply HE_end; [cbn; lia|repeat constructor; assumption]|].
      destruct (Hdec h2) as [H2|H2]; [|intros _; eexists; apply (HE_digit [h1] h2); [cbn; lia|repeat constructor; assumption|exact H2]].
      destruct l as [|h3 l]; [intros _; eexists; apply HE_end; [cbn; lia|repeat constructor; assumption]|].
      destruct (Hdec h3) as [H3|H3]; [|intros _; eexists; apply (HE_digit [h1; h2] h3); [cbn; lia|repeat constructor; assumption|exact H3]].
      destruct l as [|h4 l]; [intros _; eexists; apply HE_end; [cbn; lia|repeat constructor; assumption]|].
      destruct (Hdec h4) as [H4|H4]; [|intros _; eexists; apply (HE_digit [h1; h2; h3] h4); [cbn; lia|repeat constructor; assumption|exact H4]].
      cbn [take_hex4]. apply Hsome in H1, H2, H3, H4. destruct (hex_digit h1); [|contradiction]. destruct (hex_digit h2); [|contradiction].
      destruct (hex_digit h3); [|contradiction]. destruct (hex_digit h4); [|contradiction]. discriminate. }
    unfold take_escape. destruct (take_hex4 r) as [[[v hs] r1]|] eqn:E4.
    2:{ intros _. destruct (Hhex r E4) as (F & HF). exists F. apply (SE_hex r F HF). }
    apply take_hex4_sound in E4 as [-> Hh].
    destruct (N.leb_spec 0xDC00 v); destruct (N.leb_spec v 0xDFFF); cbn [andb];
      try (intros _; eexists; apply (SE_low hs v r1 Hh); lia);
      destruct (N.leb_spec 0xD800 v); destruct (N.leb_spec v 0xDBFF); cbn [andb]; try discriminate; try lia.
    assert (Hlow : forall F, low_error r1 F -> exists F', string_error (B_BACKSLASH :: B_u :: hs ++ r1) F').
    { intros F HF. exists F. apply (SE_high hs v r1 F Hh); [lia|exact HF]. }
    destruct r1 as [|b1 r1]; [intros _; eapply Hlow; first [apply LE_end|apply LE_backslash_end]|].
    destruct (N.eqb_spec b1 B_BACKSLASH) as [->|Hb1]; cbn [negb]; [|intros _; eapply Hlow; apply LE_backslash; exact Hb1].
    destruct r1 as [|b2 r2]; [intros _; eapply Hlow; apply LE_backslash_end|].
    destruct (N.eqb_spec b2 B_u) as [->|Hb2]; cbn [negb]; [|intros _; eapply Hlow; apply LE_u; exact Hb2].
    destruct (take_hex4 r2) as [[[v2 hs2] r3]|] eqn:E5.
    2:{ intros _. destruct (Hhex r2 E5) as (F & HF). apply (Hlow F). apply (LE_hex r2 F HF). }
    apply take_hex4_sound in E5 as [-> Hh2].
    destruct (N.leb_spec 0xDC00 v2); destruct (N.leb_spec v2 0xDFFF); cbn [andb negb]; try discriminate;
      (intros _; eapply Hlow; apply (LE_not_low hs2 v2 r3 Hh2); lia).
  - destruct (N.eqb_spec b B_QUOTE) as [->|Hq]; [discriminate|]. destruct (N.leb_spec b 0x1F); [intros _; eexists; apply SE_control; lia|].
    destruct (N.leb_spec b 0x7F); [discriminate|]. destruct (take_multi b r) as [[bs r']|] eqn:Em; [discriminate|]. intros _.
    eexists. apply SE_char, utf8_none; [lia|exact Hf|exact Em].
Qed.

Lemma string_decided f : forall r, Forall is_byte r -> (length r < f)%nat ->
  (exists body v rest, r = body ++ 0x22 :: rest /\ str_text body v) \/
  (exists body v bad F, r = body ++ bad /\ str_text body v /\ string_error bad F).
Proof.
  induction f as [|f IH]; intros r Hf Hl; [lia|]. pose proof (scan_unit_sound r Hf) as Hs. pose proof (scan_unit_length r) as Hlen.
  destruct (scan_unit r) as [r'|bs w r'|] eqn:E.
  - left. exists [], [], r'. split; [exact Hs|constructor].
  - destruct Hs as (-> & c & _ & Hc). rewrite Forall_app in Hf. destruct (IH r' (proj2 Hf) ltac:(lia)) as [(body & v & rest & -> & Hb)|(body & v & bad & F & -> & Hb & Hbad)].
    + left. exists (w ++ body), (c :: v), rest. rewrite app_assoc. split; [reflexivity|]. apply str_text_cons; assumption.
    + right. exists (w ++ body), (c :: v), bad, F. rewrite app_assoc. splits; auto. apply str_text_cons; assumption.
  - right. destruct (scan_fail_error r Hf E) as (F & HF). exists [], [], r, F. splits; auto. constructor.
Qed.
