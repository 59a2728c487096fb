(** * Invariant of the reader: for every input and every client program

    Auxiliary: the functions of [ReaderMid] never reach an internal panic, always
    terminate within the fuel, and keep the position, the path and the nesting
    depth consistent. *)

From Verif Require Import Base Utf8Model Utf8Proofs NumberModel SpecNumber NumberProofs SpecJson SourceModel ReaderModel
  ReaderScan ReaderLex ReaderLexStr ReaderMid ReaderAgree ReaderSess ReaderGrammar.

(** ** Positions *)

Definition pos3 (s : rstate) : N * N * N := (line s, column s, byte_pos s).
Definition start_state : rstate := rstate_new default_settings.

(** The position behind the bytes [c] *)
Definition pos_of (c : bytes) : N * N * N := pos3 (move c start_state).

Lemma pos3_movecr cr w s s' : pos3 s = pos3 s' -> pos3 (movecr cr w s) = pos3 (movecr cr w s').
Proof.
  unfold pos3, movecr. intros [= -> -> ->]. destruct (fold_left _ _ _) as [[[l c] b] cr']. reflexivity.
Qed.
Lemma pos3_move w s s' : pos3 s = pos3 s' -> pos3 (move w s) = pos3 (move w s').
Proof. apply pos3_movecr. Qed.

Definition no_lf (r : bytes) : Prop := match r with [] => True | b :: _ => b <> B_LF end.

Lemma no_lf_app a b : no_lf (a ++ b) -> a <> [] -> no_lf a.
Proof. destruct a; [congruence|]. auto. Qed.

Lemma move_after_cr c w s : (last_cr false c = true -> no_lf w) -> move (c ++ w) s = move w (move c s).
Proof.
  intros H. destruct (last_cr false c) eqn:Ec.
  - destruct w as [|b w]; [rewrite app_nil_r, move_nil; reflexivity|]. apply move_app_irrel. exact (H eq_refl).
  - apply move_app. exact Ec.
Qed.

(** [c] is consumed and [rest] follows *)
Definition located (inp c : bytes) (s : rstate) (rest : bytes) : Prop :=
  inp = c ++ rest /\ (exists cs, c = encode_utf8 cs /\ Forall is_char cs) /\ pos3 s = pos_of c /\
  (last_cr false c = true -> no_lf rest).

(** Text which can be consumed: characters, and no LF follows a CR at the end *)
Definition valid_text (w : bytes) : Prop := exists cs, w = encode_utf8 cs /\ Forall is_char cs.

Lemma valid_text_app a b : valid_text a -> valid_text b -> valid_text (a ++ b).
Proof.
  intros (x & -> & Hx) (y & -> & Hy). exists (x ++ y). rewrite encode_utf8_app. split; [reflexivity|]. apply Forall_app. auto.
Qed.
Lemma valid_text_ascii w : Forall (fun b => b < 0x80) w -> valid_text w.
Proof.
  induction 1 as [|b w Hb Hw (cs & -> & Hcs)]; [exists []; split; [reflexivity|constructor]|].
  exists (b :: cs). rewrite encode_utf8_cons, encode_char_1 by exact Hb. split; [reflexivity|]. constructor; [|exact Hcs].
  unfold is_char. lia.
Qed.

Lemma located_move inp c s w rest : located inp c s (w ++ rest) -> valid_text w ->
  (last_cr false w = true -> no_lf rest) -> (w = [] -> last_cr false c = true -> no_lf rest) ->
  located inp (c ++ w) (move w s) rest.
Proof.
  intros (He & Hc & Hp & Hcr) Hw Hlast Hnil. split; [rewrite <- app_assoc; exact He|]. split; [exact (valid_text_app _ _ Hc Hw)|].
  split.
  - rewrite (pos3_move w s (move c start_state) Hp). unfold pos_of. rewrite move_after_cr; [reflexivity|].
    intros Hl. destruct w as [|b w]; [exact I|]. exact (Hcr Hl).
  - intros Hl. destruct w as [|b w]; [rewrite app_nil_r in Hl; auto|].
    apply Hlast. rewrite last_cr_app, last_cr_cons in Hl. rewrite last_cr_cons. exact Hl.
Qed.

(** *** Consumed pieces *)

Lemma ws_stop_no_lf r : ws_stop r -> no_lf r.
Proof. destruct r as [|b r]; [trivial|]. intros [H _] ->. apply H. unfold ws_byte. auto. Qed.

Lemma comment_chars_valid cs : Forall comment_char cs -> valid_text (encode_utf8 cs).
Proof. intros H. exists cs. split; [reflexivity|]. eapply Forall_impl; [|exact H]. intros c [Hc _]. exact Hc. Qed.

Lemma line_body_valid t : line_comment_body t -> valid_text t.
Proof.
  intros (cs & -> & Hcs). apply comment_chars_valid. eapply Forall_impl; [|exact Hcs]. intros c [Hc _]. exact Hc.
Qed.

Lemma ws_text_valid sx t : ws_text sx t -> valid_text t.
Proof.
  induction 1 as [|b t Hb Ht IH|body b t Hc Hbody Hb Ht IH|body t Hc ((cs & -> & Hcs) & _) Ht IH].
  - apply valid_text_ascii. constructor.
  - apply (valid_text_app [b]); [|exact IH]. apply valid_text_ascii. constructor; [|constructor]. unfold ws_byte in Hb. lia.
  - apply valid_text_app; [apply valid_text_ascii; repeat constructor; lia|].
    apply valid_text_app; [apply line_body_valid; exact Hbody|]. apply (valid_text_app [b]); [|exact IH].
    apply valid_text_ascii. constructor; [|constructor]. unfold line_break in Hb. lia.
  - apply valid_text_app; [apply valid_text_ascii; repeat constructor; lia|].
    apply valid_text_app; [apply comment_chars_valid; exact Hcs|].
    apply valid_text_app; [apply valid_text_ascii; repeat constructor; lia|exact IH].
Qed.

Lemma final_ws_valid sx t : final_ws_text sx t -> valid_text t.
Proof.
  intros [H|(t1 & body & -> & H & _ & Hb)]; [exact (ws_text_valid _ _ H)|].
  apply valid_text_app; [exact (ws_text_valid _ _ H)|].
  apply valid_text_app; [apply valid_text_ascii; repeat constructor; lia|apply line_body_valid; exact Hb].
Qed.

Definition reader_syntax (c : settings) : syntax := Syntax (allow_comments c) (allow_trailing_comma c).

Lemma ws_scan_ok E t k r : Forall is_byte r -> (length r < fuel E)%nat ->
  match ws_scan E t k r with
  | SOk (w, r') => r = w ++ r' /\ ws_stop r' /\ valid_text w /\
      (ws_text (reader_syntax (cfg E)) w \/ (r' = [] /\ final_ws_text (reader_syntax (cfg E)) w)) /\
      (r' = [] -> is_eof t = true /\ eof_ok k = true)
  | SFail => True
  | SFuel => False
  end.
Proof.
  intros Hr Hf. destruct (ws_scan E t k r) as [[w r']| |] eqn:Ew; [|exact I|].
  - unfold ws_scan in Ew. change (allow_comments (cfg E)) with (comments (reader_syntax (cfg E))) in Ew.
    apply scan_ws_sound in Ew as (-> & Hst & Hw & Heof); [|exact Hr]. splits; auto.
    + destruct Hw as [Hw|(_ & _ & Hw)]; [exact (ws_text_valid _ _ Hw)|exact (final_ws_valid _ _ Hw)].
    + tauto.
  - revert Ew. apply scan_ws_fuel; exact Hf.
Qed.

Lemma hex4_low hs v : hex4 hs v -> Forall (fun b => 0x20 <= b < 0x80) hs.
Proof.
  intros (h1 & h2 & h3 & h4 & v1 & v2 & v3 & v4 & -> & H1 & H2 & H3 & H4 & _). unfold hex_value in *.
  repeat constructor; lia.
Qed.

Lemma unit_text_valid w c : unit_text w c -> valid_text w /\ Forall (fun b => 0x20 <= b) w.
Proof.
  assert (Hx : forall w, Forall (fun b => 0x20 <= b < 0x80) w -> valid_text w /\ Forall (fun b => 0x20 <= b) w).
  { intros x H. split; [apply valid_text_ascii|]; (eapply Forall_impl; [|exact H]); cbn; lia. }
  destruct 1 as [c (Hc & H1 & H2 & H3)|b c H|hs v H Hv|hs1 hi hs2 lo H1 H2 _ _].
  - split.
    + exists [c]. cbn. rewrite app_nil_r. auto.
    + destruct (N.lt_ge_cases c 0x80) as [Hl|Hl]; [rewrite encode_char_1 by exact Hl; constructor; auto|].
      eapply Forall_impl; [|exact (encode_char_high c Hc Hl)]. cbn. lia.
  - apply Hx. constructor; [lia|]. constructor; [|constructor]. destruct H; lia.
  - apply Hx. apply Forall_app. split; [repeat constructor; lia|exact (hex4_low _ _ H)].
  - apply Hx. rewrite !Forall_app. splits; [repeat constructor; lia|exact (hex4_low _ _ H1)|repeat constructor; lia|exact (hex4_low _ _ H2)].
Qed.

Lemma str_text_valid t s : str_text t s -> valid_text t /\ Forall (fun b => 0x20 <= b) t.
Proof.
  intros H. induction H as [|w c t s Hu Ht [IH1 IH2]] using str_text_ind'.
  - split; [apply valid_text_ascii|]; constructor.
  - destruct (unit_text_valid _ _ Hu) as [Hv Hg]. split; [exact (valid_text_app _ _ Hv IH1)|]. apply Forall_app. auto.
Qed.

Lemma no_cr_last w : Forall (fun b => 0x20 <= b) w -> last_cr false w = false.
Proof. intros H. apply last_cr_no. eapply Forall_impl; [|exact H]. cbn. lia. Qed.

Lemma scan_string_ok E r : Forall is_byte r -> (length r < fuel E)%nat ->
  match scan_string (fuel E) r with
  | SOk (d, w, r') => r = w ++ r' /\ valid_text w /\ Forall (fun b => 0x20 <= b) w /\ (length r' < length r)%nat /\
      exists body v, w = body ++ [B_QUOTE] /\ str_text body v /\ from_utf8 d = Some v
  | SFail => True
  | SFuel => False
  end.
Proof.
  intros Hr Hf. destruct (scan_string (fuel E) r) as [[[d w] r']| |] eqn:Es; [|exact I|].
  - apply scan_string_sound in Es as (-> & body & v & -> & Hs & ->); [|exact Hr].
    destruct (str_text_valid _ _ Hs) as [Hv Hg]. splits; auto.
    + apply valid_text_app; [exact Hv|]. apply valid_text_ascii. repeat constructor; lia.
    + apply Forall_app. split; [exact Hg|]. repeat constructor; lia.
    + rewrite !app_length. cbn. lia.
    + exists body, v. splits; auto. apply from_utf8_encode. exact (str_text_chars _ _ Hs).
  - revert Es. apply scan_string_fuel. exact Hf.
Qed.

(** ** The invariant *)

(** The consumed bytes of the peeked token *)
Definition tok (p : peeked_value) : bytes :=
  match p with
  | PkNull => lit_null
  | PkTrue => lit_true
  | PkFalse => lit_false
  | PkNumberStart => []
  | PkStringStart | PkNameStart => [B_QUOTE]
  | PkArrayStart => [B_LBRACKET]
  | PkArrayEnd => [B_RBRACKET]
  | PkObjectStart => [B_LBRACE]
  | PkObjectEnd => [B_RBRACE]
  end.
Definition held (s : rstate) : bytes := match peeked s with Some p => tok p | None => [] end.

(** What has not been consumed *)
Definition ahead (s : rstate) (r : bytes) : bytes := held s ++ r.

Definition piece_kind (v : stack_value) (p : piece) : Prop :=
  match v, p with SArray, PIndex _ | SObject, PName _ => True | _, _ => False end.

Definition path_ok (E : env) (s : rstate) : Prop :=
  match json_path s with
  | None => track_path (cfg E) = false
  | Some l => track_path (cfg E) = true /\ Forall2 piece_kind (stack s) l
  end.

Definition number_start (r : bytes) : Prop :=
  match r with b :: _ => (b =? B_MINUS) || is_digit b = true | [] => False end.

Definition is_literal (p : peeked_value) : bool := match p with PkNull | PkTrue | PkFalse => true | _ => false end.
Definition sep_text (t : bytes) : Prop := match t with [] => True | b :: _ => is_value_separator b = true end.

Definition peek_ok (E : env) (s : rstate) (r : bytes) : Prop :=
  match peeked s with
  | None => True
  | Some p =>
    string_reader_active s = false /\
    (if expects_member_name s then p = PkNameStart \/ p = PkObjectEnd else p <> PkNameStart /\ p <> PkObjectEnd) /\
    (p = PkArrayEnd -> is_in_array s = true) /\
    (p = PkNumberStart -> number_start r) /\
    (is_literal p = true -> sep_text r) /\
    (is_behind_top_level s = true -> allow_multiple_top_level (cfg E) = true)
  end.

Definition depth_ok (E : env) (s : rstate) : Prop :=
  match max_nesting_depth (cfg E) with Some m => N.of_nat (length (stack s)) <= m | None => True end.

Record inv (E : env) (inp : bytes) (s : rstate) (r : bytes) : Prop := Inv {
  i_bytes : Forall is_byte r;
  i_path : path_ok E s;
  i_name : expects_member_name s = true -> is_in_object s = true;
  i_peek : peek_ok E s r;
  i_active : string_reader_active s = true -> expects_member_name s = false;
  i_depth : depth_ok E s;
  i_pos : exists c, located inp c s (ahead s r)
}.

(** Results which are not internal panics *)
Definition good {A : Type} (E : env) (inp : bytes) (m : mres A) (Q : A -> rstate -> bytes -> Prop) : Prop :=
  match m with
  | MOk x s r => inv E inp s r /\ Q x s r
  | MErr _ s r => inv E inp s r
  | MBug => False
  | _ => True
  end.

Lemma good_bind {A B : Type} E inp (d : D A) (f : A -> D B) s r Q Q2 : good E inp (d s r) Q ->
  (forall x s' r', inv E inp s' r' -> Q x s' r' -> good E inp (f x s' r') Q2) -> good E inp (dbind d f s r) Q2.
Proof.
  intros H Hf. unfold dbind. destruct (d s r) as [x s' r'|e s' r'|n| |]; cbn in *; auto. apply Hf; apply H.
Qed.
Lemma good_misuse_if {B : Type} E inp b (f : unit -> D B) s r Q :
  (b = false -> good E inp (f tt s r) Q) -> good E inp (dbind (dmisuse_if b) f s r) Q.
Proof. intros H. destruct b; [exact I|]. exact (H eq_refl). Qed.
Lemma good_get {B : Type} E inp (f : rstate -> D B) s r Q :
  good E inp (f s s r) Q -> good E inp (dbind dget f s r) Q.
Proof. intros H. exact H. Qed.
Lemma good_impl {A : Type} E inp (m : mres A) (Q Q2 : A -> rstate -> bytes -> Prop) :
  good E inp m Q -> (forall x s r, inv E inp s r -> Q x s r -> Q2 x s r) -> good E inp m Q2.
Proof. destruct m as [x s r|e s r|n| |]; cbn; auto. intros [H1 H2] H. auto. Qed.

Lemma good_assoc {A B C : Type} E inp (m : D A) (f : A -> D B) (g : B -> D C) s r Q :
  good E inp (dbind m (fun x => dbind (f x) g) s r) Q -> good E inp (dbind (dbind m f) g s r) Q.
Proof.
  unfold dbind. destruct (m s r); auto.
Qed.

(** Everything but the peeked value and the position is unchanged *)
Definition same (s s' : rstate) : Prop :=
  is_empty s' = is_empty s /\ expects_member_name s' = expects_member_name s /\ stack s' = stack s /\
  string_reader_active s' = string_reader_active s /\ json_path s' = json_path s.

Lemma same_refl s : same s s. Proof. unfold same. auto. Qed.
Lemma same_trans a b c : same a b -> same b c -> same a c.
Proof. unfold same. intros (-> & -> & -> & -> & ->) (-> & -> & -> & -> & ->). auto. Qed.
Lemma same_move w s : same s (move w s).
Proof. unfold same. autorewrite with mv. auto. Qed.
Lemma same_advance a b s : same s (advance a b s).
Proof. unfold same, advance. auto. Qed.
Lemma same_peeked p s : same s (set_peeked p s).
Proof. unfold same. auto. Qed.

Lemma path_ok_same E s s' : same s s' -> path_ok E s -> path_ok E s'.
Proof. unfold same, path_ok. intros (_ & _ & -> & _ & ->). auto. Qed.
Lemma in_array_same s s' : same s s' -> is_in_array s' = is_in_array s.
Proof. unfold same, is_in_array. intros (_ & _ & -> & _). reflexivity. Qed.
Lemma in_object_same s s' : same s s' -> is_in_object s' = is_in_object s.
Proof. unfold same, is_in_object. intros (_ & _ & -> & _). reflexivity. Qed.
Lemma depth_ok_same E s s' : same s s' -> depth_ok E s -> depth_ok E s'.
Proof. unfold same, depth_ok. intros (_ & _ & -> & _). auto. Qed.

Lemma inv_same E inp s r s' r' : inv E inp s r -> same s s' -> Forall is_byte r' -> peek_ok E s' r' ->
  (exists c, located inp c s' (ahead s' r')) -> inv E inp s' r'.
Proof.
  intros [] Hs Hb Hp Hl. split; auto.
  - exact (path_ok_same _ _ _ Hs i_path0).
  - rewrite (in_object_same _ _ Hs). destruct Hs as (_ & -> & _). exact i_name0.
  - destruct Hs as (_ & -> & _ & -> & _). exact i_active0.
  - exact (depth_ok_same _ _ _ Hs i_depth0).
Qed.

(** Length of what is still to be consumed *)
Definition mu (s : rstate) (r : bytes) : nat := length (ahead s r).

Lemma mu_bound E inp s r : inv E inp s r -> (mu s r <= length inp)%nat.
Proof. intros []. destruct i_pos0 as (c & He & _). unfold mu. rewrite He, app_length. lia. Qed.

Lemma tok_plain p : Forall plain (tok p).
Proof. destruct p; cbn; repeat constructor; vm_compute; intuition discriminate. Qed.
Lemma tok_length p : len64 (tok p) = peeked_length p.
Proof. destruct p; reflexivity. Qed.
Lemma tok_move p s : advance (peeked_length p) (peeked_length p) s = move (tok p) s.
Proof. rewrite move_all_plain by apply tok_plain. rewrite tok_length. reflexivity. Qed.
Lemma tok_valid p : valid_text (tok p).
Proof. apply valid_text_ascii. destruct p; cbn; repeat constructor; lia. Qed.
Lemma tok_no_cr p : last_cr false (tok p) = false.
Proof. apply no_cr_last. destruct p; cbn; repeat constructor; lia. Qed.
Lemma tok_no_lf p r : p <> PkNumberStart -> no_lf (tok p ++ r).
Proof. destruct p; cbn; try lia. intros []. reflexivity. Qed.

(** ** Peeking *)

Lemma strip_spec lit : forall r r', strip lit r = Some r' -> r = lit ++ r'.
Proof.
  induction lit as [|e lit IH]; intros r r'; cbn [strip]; [intros [= ->]; reflexivity|].
  destruct r as [|b r]; [discriminate|]. destruct (N.eqb_spec b e) as [->|]; [|discriminate].
  intros H. apply IH in H as ->. reflexivity.
Qed.

Lemma lit_token_spec lit p eof r p' r' : lit_token lit p eof r = Some (p', r') -> p' = p /\ r = lit ++ r' /\ sep_ok eof r' = true.
Proof.
  unfold lit_token. destruct (strip lit r) as [r1|] eqn:Es; [|discriminate]. apply strip_spec in Es.
  destruct (sep_ok eof r1) eqn:Eo; [|discriminate]. intros [= <- <-]. auto.
Qed.

(** [token] returns a token of the right kind, which is at the start *)
Lemma token_spec names arr eof r p r' : token names arr eof r = Some (p, r') ->
  r = tok p ++ r' /\
  (if names then p = PkNameStart \/ p = PkObjectEnd else p <> PkNameStart /\ p <> PkObjectEnd) /\
  (p = PkArrayEnd -> arr = true) /\ (p = PkNumberStart -> number_start r') /\ (is_literal p = true -> sep_text r').
Proof.
  assert (Hsep : forall r, sep_ok eof r = true -> sep_text r) by (intros [|b l]; cbn; auto).
  unfold token. destruct r as [|b r1]; [discriminate|]. destruct names.
  - destruct (N.eqb_spec b B_RBRACE) as [->|]; [intros [= <- <-]; splits; auto; discriminate|].
    destruct (N.eqb_spec b B_QUOTE) as [->|]; [intros [= <- <-]; splits; auto; discriminate|discriminate].
  - destruct (N.eqb_spec b B_LBRACKET) as [->|]; [intros [= <- <-]; splits; auto; discriminate|].
    destruct (N.eqb_spec b B_RBRACKET) as [->|]; [destruct arr; [|discriminate]; intros [= <- <-]; splits; auto; discriminate|].
    destruct (N.eqb_spec b B_LBRACE) as [->|]; [intros [= <- <-]; splits; auto; discriminate|].
    destruct (N.eqb_spec b B_RBRACE); [discriminate|].
    destruct (N.eqb_spec b B_QUOTE) as [->|]; [intros [= <- <-]; splits; auto; discriminate|].
    destruct ((b =? B_MINUS) || is_digit b) eqn:En.
    { intros [= <- <-]. splits; auto; try discriminate. }
    destruct (N.eqb_spec b B_n) as [->|].
    { intros H. apply lit_token_spec in H as (-> & He & Ho). splits; auto; discriminate. }
    destruct (N.eqb_spec b B_t) as [->|].
    { intros H. apply lit_token_spec in H as (-> & He & Ho). splits; auto; discriminate. }
    destruct (N.eqb_spec b B_f) as [->|]; [|discriminate].
    intros H. apply lit_token_spec in H as (-> & He & Ho). splits; auto; discriminate.
Qed.

Lemma located_ahead inp c s r rest : located inp c s rest -> rest = ahead s r -> located inp c s (ahead s r).
Proof. intros H <-. exact H. Qed.

Lemma located_pos inp c s s' rest : located inp c s rest -> pos3 s' = pos3 s -> located inp c s' rest.
Proof. intros (H1 & H2 & H3 & H4) Hp. split; [exact H1|]. split; [exact H2|]. split; [congruence|exact H4]. Qed.

Lemma located_ws inp c s w rest : located inp c s (w ++ rest) -> valid_text w -> ws_stop rest ->
  located inp (c ++ w) (move w s) rest.
Proof.
  intros H Hw Hst. apply located_move; auto; intros; apply ws_stop_no_lf; exact Hst.
Qed.

Lemma fresh_good E inp t s r : (length inp < fuel E)%nat -> inv E inp s r -> peeked s = None -> string_reader_active s = false ->
  (is_behind_top_level s = true -> allow_multiple_top_level (cfg E) = true) ->
  good E inp (d_fresh E t s r) (fun op s' r' => same s s' /\ (mu s' r' <= mu s r)%nat /\ peeked s' = op).
Proof.
  intros Hf Hinv Hpk Hact Htop. pose proof (mu_bound _ _ _ _ Hinv) as Hmu. unfold mu, ahead, held in Hmu. rewrite Hpk in Hmu.
  cbn [app] in Hmu. pose proof (i_bytes _ _ _ _ Hinv) as Hr. destruct (i_pos _ _ _ _ Hinv) as (c & Hloc).
  unfold ahead, held in Hloc. rewrite Hpk in Hloc. cbn [app] in Hloc.
  unfold d_fresh. pose proof (ws_scan_ok E t None r Hr ltac:(lia)) as Hw.
  destruct (ws_scan E t None r) as [[w r1]| |]; [|exact I|contradiction].
  destruct Hw as (-> & Hst & Hv & Htext & Heof). apply Forall_app in Hr as [_ Hr].
  pose proof (located_ws _ _ _ _ _ Hloc Hv Hst) as Hloc1.
  assert (Hmu0 : mu s (w ++ r1) = length (w ++ r1)) by (unfold mu, ahead, held; rewrite Hpk; reflexivity).
  assert (Hgoal : forall p s1 r3 c3, same s s1 -> located inp c3 s1 (tok p ++ r3) ->
     (if expects_member_name s then p = PkNameStart \/ p = PkObjectEnd else p <> PkNameStart /\ p <> PkObjectEnd) ->
     (p = PkArrayEnd -> is_in_array s = true) -> (p = PkNumberStart -> number_start r3) -> (is_literal p = true -> sep_text r3) -> Forall is_byte r3 ->
     (length (tok p ++ r3) <= length (w ++ r1))%nat ->
     good E inp (MOk (Some p) (set_peeked (Some p) s1) r3)
       (fun op s' r' => same s s' /\ (mu s' r' <= mu s (w ++ r1))%nat /\ peeked s' = op)).
  { intros p s1 r3 c3 Hs Hl Hk Ha Hn Hsp Hb Hlen. cbn [good]. split.
    - apply (inv_same E inp s (w ++ r1)); [exact Hinv|exact (same_trans _ _ _ Hs (same_peeked _ _))|exact Hb| |].
      + unfold peek_ok. cbn [peeked set_peeked expects_member_name string_reader_active is_in_array].
        change (is_in_array (set_peeked (Some p) s1)) with (is_in_array s1). rewrite (in_array_same _ _ Hs).
        unfold is_behind_top_level in *. cbn [stack is_empty set_peeked].
        destruct Hs as (-> & -> & -> & -> & _). splits; auto.
      + exists c3. exact (located_pos _ _ _ _ _ Hl eq_refl).
    - splits; [exact (same_trans _ _ _ Hs (same_peeked _ _))| |reflexivity].
      rewrite Hmu0. exact Hlen. }
  destruct r1 as [|b r1].
  { cbn [good]. assert (Hpm : peeked (move w s) = None) by (rewrite peeked_move; exact Hpk). split.
    - apply (inv_same E inp s (w ++ [])); auto; [apply same_move|unfold peek_ok; rewrite Hpm; exact I|].
      exists (c ++ w). unfold ahead, held. rewrite Hpm. exact Hloc1.
    - splits; [apply same_move| |exact Hpm]. rewrite Hmu0. unfold mu, ahead, held. rewrite Hpm. cbn. lia. }
  destruct (N.eqb_spec b B_COMMA) as [->|Hb].
  - destruct (negb (can_have_comma s)); [exact I|]. inversion Hr as [|? ? _ Hr1]; subst.
    rewrite app_length in Hmu. cbn [length] in Hmu.
    pose proof (ws_scan_ok E t (Some IncompleteDocument) r1 Hr1 ltac:(lia)) as Hw2.
    destruct (ws_scan E t (Some IncompleteDocument) r1) as [[w2 r2]| |]; [|exact I|contradiction].
    destruct Hw2 as (-> & Hst2 & Hv2 & _ & _). apply Forall_app in Hr1 as [_ Hr2].
    destruct (token _ _ _ r2) as [[p r3]|] eqn:Et; [|exact I].
    destruct (is_end_token p && negb _); [exact I|].
    apply token_spec in Et as (-> & Hk & Ha & Hn & Hsp). apply Forall_app in Hr2 as [_ Hr3].
    assert (Hp11 : advance 1 1 (move w s) = move [B_COMMA] (move w s)).
    { symmetry. apply move_plain. vm_compute. intuition discriminate. }
    rewrite Hp11.
    assert (Hloc2 : located inp ((c ++ w) ++ [B_COMMA]) (move [B_COMMA] (move w s)) (w2 ++ tok p ++ r3)).
    { apply located_move; [exact Hloc1|apply valid_text_ascii; repeat constructor; lia| |]; discriminate. }
    pose proof (located_ws _ _ _ _ _ Hloc2 Hv2 Hst2) as Hloc3.
    eapply Hgoal; [|exact Hloc3|exact Hk|exact Ha|exact Hn|exact Hsp|exact Hr3|].
    + exact (same_trans _ _ _ (same_move w s) (same_trans _ _ _ (same_move [B_COMMA] _) (same_move w2 _))).
    + rewrite (app_length w). cbn [length]. rewrite (app_length w2). lia.
  - destruct (token _ _ _ (b :: r1)) as [[p r3]|] eqn:Et; [|exact I].
    destruct (negb _ && _); [exact I|].
    apply token_spec in Et as (He & Hk & Ha & Hn & Hsp). rewrite He in Hr, Hloc1. apply Forall_app in Hr as [_ Hr3].
    eapply Hgoal; [|exact Hloc1|exact Hk|exact Ha|exact Hn|exact Hsp|exact Hr3|].
    + apply same_move.
    + rewrite <- He, (app_length w). lia.
Qed.

Lemma after_name_good E inp t s r : (length inp < fuel E)%nat -> inv E inp s r -> peeked s = None ->
  good E inp (d_after_name E t s r) (fun _ s' r' => same s s' /\ (mu s' r' < mu s r)%nat /\ peeked s' = None).
Proof.
  intros Hf Hinv Hpk. pose proof (mu_bound _ _ _ _ Hinv) as Hmu. unfold mu, ahead, held in Hmu. rewrite Hpk in Hmu.
  cbn [app] in Hmu. pose proof (i_bytes _ _ _ _ Hinv) as Hr. destruct (i_pos _ _ _ _ Hinv) as (c & Hloc).
  unfold ahead, held in Hloc. rewrite Hpk in Hloc. cbn [app] in Hloc.
  unfold d_after_name. pose proof (ws_scan_ok E t (Some MissingColon) r Hr ltac:(lia)) as Hw.
  destruct (ws_scan E t (Some MissingColon) r) as [[w r1]| |]; [|exact I|contradiction].
  destruct Hw as (-> & Hst & Hv & Htext & Heof). apply Forall_app in Hr as [_ Hr].
  pose proof (located_ws _ _ _ _ _ Hloc Hv Hst) as Hloc1.
  destruct r1 as [|b r1]; [destruct (Heof eq_refl); discriminate|].
  destruct (N.eqb_spec b B_COLON) as [->|Hb]; [|exact I].
  assert (Hp11 : advance 1 1 (move w s) = move [B_COLON] (move w s)).
  { symmetry. apply move_plain. vm_compute. intuition discriminate. }
  rewrite Hp11. inversion Hr as [|? ? _ Hr1]; subst.
  assert (Hloc2 : located inp ((c ++ w) ++ [B_COLON]) (move [B_COLON] (move w s)) r1).
  { apply located_move; [exact Hloc1|apply valid_text_ascii; repeat constructor; lia| |]; discriminate. }
  assert (Hpm : peeked (move [B_COLON] (move w s)) = None) by (rewrite !peeked_move; exact Hpk).
  assert (Hsm : same s (move [B_COLON] (move w s))) by exact (same_trans _ _ _ (same_move w s) (same_move [B_COLON] _)).
  cbn [good]. split.
  - apply (inv_same E inp s (w ++ B_COLON :: r1)); auto; [unfold peek_ok; rewrite Hpm; exact I|].
    exists ((c ++ w) ++ [B_COLON]). unfold ahead, held. rewrite Hpm. exact Hloc2.
  - splits; auto. unfold mu, ahead, held. rewrite Hpm, Hpk. cbn [app]. rewrite app_length. cbn. lia.
Qed.

Lemma peek_optional_good E inp t s r : (length inp < fuel E)%nat -> inv E inp s r ->
  good E inp (d_peek_optional E t s r) (fun op s' r' =>
    same s s' /\ string_reader_active s = false /\ (mu s' r' <= mu s r)%nat /\ peeked s' = op).
Proof.
  intros Hf Hinv. unfold d_peek_optional. apply good_get, good_misuse_if. intros Hact.
  destruct (peeked s) as [p|] eqn:Hpk.
  - cbn [good dret]. split; [exact Hinv|]. splits; auto using same_refl.
  - apply good_misuse_if. intros Htop.
    apply (good_bind E inp _ _ s r (fun _ s' r' => same s s' /\ (mu s' r' <= mu s r)%nat /\ peeked s' = None)).
    + destruct (expects_member_value s).
      * eapply good_impl; [apply (after_name_good E inp t s r Hf Hinv Hpk)|]. cbn. intros x s' r' _ (H1 & H2 & H3). splits; auto. lia.
      * cbn [good dret]. split; [exact Hinv|]. splits; auto using same_refl.
    + intros x s' r' Hinv' (H1 & H2 & H3).
      eapply good_impl; [apply (fresh_good E inp t s' r' Hf Hinv' H3)|].
      * destruct H1 as (_ & _ & _ & -> & _). exact Hact.
      * unfold is_behind_top_level in *. destruct H1 as (-> & _ & -> & _). intros Hx. rewrite Hx in Htop.
        apply negb_false_iff in Htop. exact Htop.
      * cbn. intros op s2 r2 _ (H4 & H5 & H6). splits; auto; [exact (same_trans _ _ _ H1 H4)|lia].
Qed.

Lemma peek_internal_good E inp t s r : (length inp < fuel E)%nat -> inv E inp s r ->
  good E inp (d_peek_internal E t s r) (fun p s' r' =>
    same s s' /\ string_reader_active s = false /\ (mu s' r' <= mu s r)%nat /\ peeked s' = Some p).
Proof.
  intros Hf Hinv. unfold d_peek_internal. eapply good_bind; [apply (peek_optional_good E inp t s r Hf Hinv)|].
  intros [p|] s' r' Hinv' (H1 & H2 & H3 & H4).
  - cbn [good dret]. splits; auto.
  - apply good_get. destruct (_ && _); [exact Hinv'|exact I].
Qed.

Lemma consume_peeked_good E inp s r p : inv E inp s r -> peeked s = Some p ->
  let s' := move (tok p) (set_peeked None s) in
  d_consume_peeked s r = MOk tt s' r /\ inv E inp s' r /\ same s s' /\ peeked s' = None /\
  (length (tok p) + mu s' r = mu s r)%nat.
Proof.
  intros Hinv Hpk s'. unfold d_consume_peeked, dbind, dget. rewrite Hpk. unfold dupdate. rewrite tok_move.
  assert (Hs : same s s') by exact (same_trans _ _ _ (same_peeked None s) (same_move (tok p) _)).
  assert (Hpk' : peeked s' = None) by (unfold s'; rewrite peeked_move; reflexivity).
  splits; auto.
  - apply (inv_same E inp s r); auto; [apply (i_bytes _ _ _ _ Hinv)|unfold peek_ok; rewrite Hpk'; exact I|].
    destruct (i_pos _ _ _ _ Hinv) as (c & Hloc). unfold ahead, held in Hloc. rewrite Hpk in Hloc.
    exists (c ++ tok p). unfold ahead, held. rewrite Hpk'. cbn [app].
    apply located_move; [exact Hloc|apply tok_valid|rewrite tok_no_cr; discriminate|].
    intros Ht Hl. destruct Hloc as (_ & _ & _ & Hcr). rewrite Ht in Hcr. exact (Hcr Hl).
  - unfold mu, ahead, held. rewrite Hpk, Hpk', (app_length (tok p)). reflexivity.
Qed.

(** ** Values and containers *)

Definition type_of (p : peeked_value) : option value_type :=
  match p with
  | PkObjectStart => Some TObject
  | PkArrayStart => Some TArray
  | PkStringStart => Some TString
  | PkNumberStart => Some TNumber
  | PkNull => Some TNull
  | PkTrue | PkFalse => Some TBoolean
  | PkObjectEnd | PkNameStart | PkArrayEnd => None
  end.

Lemma map_peeked_good E inp s r p : inv E inp s r -> peeked s = Some p -> expects_member_name s = false ->
  good E inp (d_map_peeked p s r) (fun ty s' r' => s' = s /\ r' = r /\ type_of p = Some ty).
Proof.
  intros Hinv Hpk Hn. pose proof (i_peek _ _ _ _ Hinv) as Hp. unfold peek_ok in Hp. rewrite Hpk, Hn in Hp.
  destruct Hp as (_ & (Hp1 & Hp2) & _). destruct p; try congruence; cbn; auto.
Qed.

Lemma peek_good E inp t s r : (length inp < fuel E)%nat -> inv E inp s r ->
  good E inp (d_peek E t s r) (fun ty s' r' =>
    same s s' /\ expects_member_name s = false /\ string_reader_active s = false /\ (mu s' r' <= mu s r)%nat /\
    exists p, peeked s' = Some p /\ type_of p = Some ty).
Proof.
  intros Hf Hinv. unfold d_peek. apply good_get, good_misuse_if. intros Hn.
  eapply good_bind; [apply (peek_internal_good E inp t s r Hf Hinv)|].
  intros p s' r' Hinv' (H1 & H2 & H3 & H4).
  assert (Hn' : expects_member_name s' = false) by (destruct H1 as (_ & -> & _); exact Hn).
  eapply good_impl; [apply (map_peeked_good E inp s' r' p Hinv' H4 Hn')|]. intros ty s2 r2 _ (-> & -> & Hty).
  splits; auto. exists p. auto.
Qed.

Lemma value_type_eqb_eq a b : value_type_eqb a b = true -> a = b.
Proof. destruct a, b; cbn; congruence. Qed.

Lemma start_good E inp t ty chk s r : (length inp < fuel E)%nat -> inv E inp s r ->
  good E inp (d_start E t ty chk s r) (fun p s' r' =>
    same s s' /\ expects_member_name s = false /\ string_reader_active s = false /\ peeked s' = None /\
    type_of p = Some ty /\ (length (tok p) + mu s' r' <= mu s r)%nat /\ (ty = TNumber -> number_start r') /\
    (chk = true -> depth_exceeded E s = None)).
Proof.
  intros Hf Hinv. unfold d_start. apply good_get, good_misuse_if. intros Hn.
  eapply good_bind; [apply (peek_internal_good E inp t s r Hf Hinv)|].
  intros p s' r' Hinv' (H1 & H2 & H3 & H4).
  assert (Hn' : expects_member_name s' = false) by (destruct H1 as (_ & -> & _); exact Hn).
  eapply good_bind; [apply (map_peeked_good E inp s' r' p Hinv' H4 Hn')|]. intros ty' s2 r2 _ (-> & -> & Hty).
  destruct (value_type_eqb ty' ty) eqn:Ety; [|exact Hinv']. apply value_type_eqb_eq in Ety. subst ty'.
  apply good_get. destruct (if chk then _ else _) as [m|] eqn:Ed; [exact Hinv'|].
  destruct (consume_peeked_good E inp s' r' p Hinv' H4) as (Hc & Hinv2 & Hs2 & Hpk2 & Hmu).
  unfold dbind. rewrite Hc. cbn [good dret]. split; [exact Hinv2|]. splits; auto.
  - exact (same_trans _ _ _ H1 Hs2).
  - lia.
  - intros ->. pose proof (i_peek _ _ _ _ Hinv') as Hp. unfold peek_ok in Hp. rewrite H4 in Hp.
    destruct Hp as (_ & _ & _ & Hp). apply Hp. destruct p; cbn in Hty; congruence.
  - intros ->. unfold depth_exceeded in *. destruct H1 as (_ & _ & H1 & _). rewrite H1 in Ed. exact Ed.
Qed.

Lemma value_end_good E inp s r : inv E inp s r -> peeked s = None -> expects_member_name s = false ->
  string_reader_active s = false ->
  good E inp (d_on_value_end s r) (fun _ s' r' =>
    stack s' = stack s /\ peeked s' = None /\ string_reader_active s' = false /\ is_empty s' = false /\
    expects_member_name s' = is_in_object s /\ mu s' r' = mu s r).
Proof.
  intros Hinv Hpk Hn Ha. unfold d_on_value_end. apply good_get.
  assert (Hend : forall p', path_ok E (set_path p' s) ->
    good E inp (dupdate (fun s => set_empty false (if is_in_object s then set_expects_name true s else s)) (set_path p' s) r)
      (fun _ s' r' => stack s' = stack s /\ peeked s' = None /\ string_reader_active s' = false /\ is_empty s' = false /\
       expects_member_name s' = is_in_object s /\ mu s' r' = mu s r)).
  { intros p' Hp'. cbn [good dupdate]. change (is_in_object (set_path p' s)) with (is_in_object s).
    assert (Hr : forall s', peeked s' = None -> stack s' = stack s -> json_path s' = p' -> pos3 s' = pos3 s ->
       expects_member_name s' = is_in_object s -> string_reader_active s' = false -> inv E inp s' r).
    { intros s' H1 H2 H3 H4 H5 H6. destruct Hinv. split; auto.
      - unfold path_ok in *. cbn in Hp'. rewrite H2, H3. exact Hp'.
      - rewrite H5. unfold is_in_object. rewrite H2. auto.
      - unfold peek_ok. rewrite H1. exact I.
      - congruence.
      - unfold depth_ok in *. rewrite H2. exact i_depth0.
      - destruct i_pos0 as (c & Hl). exists c. unfold ahead, held in *. rewrite H1. rewrite Hpk in Hl.
        exact (located_pos _ _ _ _ _ Hl H4). }
    destruct (is_in_object s) eqn:Eo; (split; [apply Hr; auto|splits; auto]);
      unfold mu, ahead, held; cbn [peeked set_empty set_expects_name set_path]; rewrite Hpk; reflexivity. }
  destruct (is_in_array s) eqn:Ea.
  - pose proof (i_path _ _ _ _ Hinv) as Hp. unfold path_ok in Hp. unfold is_in_array in Ea.
    destruct (json_path s) as [l|] eqn:El.
    + destruct Hp as [Ht Hp]. destruct (stack s) as [|[] st] eqn:Est; try discriminate.
      inversion Hp as [|? x ? l' Hx Hl]; subst. destruct x as [i|n]; [|contradiction].
      apply (Hend (Some (PIndex (i + 1) :: l'))). unfold path_ok. cbn. rewrite Est. split; [exact Ht|]. constructor; [exact I|exact Hl].
    + assert (He : s = set_path None s) by (destruct s; cbn in El; rewrite El; reflexivity).
      unfold dbind, dret. rewrite He at 1. apply Hend. unfold path_ok. exact Hp.
  - assert (He : s = set_path (json_path s) s) by (destruct s; reflexivity).
    unfold dbind, dret. rewrite He at 1. apply Hend. exact (i_path _ _ _ _ Hinv).
Qed.

Lemma set_expects_move b w s : set_expects_name b (move w s) = move w (set_expects_name b s).
Proof.
  unfold move, movecr. cbn [line column byte_pos set_expects_name].
  destruct (fold_left _ _ _) as [[[l c] n] cr]. reflexivity.
Qed.
Lemma set_active_move b w s : set_active b (move w s) = move w (set_active b s).
Proof.
  unfold move, movecr. cbn [line column byte_pos set_active].
  destruct (fold_left _ _ _) as [[[l c] n] cr]. reflexivity.
Qed.

Lemma inv_expects_false E inp s r : inv E inp s r -> peeked s = None -> inv E inp (set_expects_name false s) r.
Proof.
  intros [] Hpk. split; auto.
  - discriminate.
  - unfold peek_ok. cbn. rewrite Hpk. exact I.
Qed.

Lemma container_end_good E inp s r v st : inv E inp s r -> peeked s = None -> expects_member_name s = false ->
  string_reader_active s = false -> stack s = v :: st ->
  good E inp (d_on_container_end s r) (fun _ s' r' =>
    stack s' = st /\ peeked s' = None /\ string_reader_active s' = false /\ is_empty s' = false /\
    expects_member_name s' = match st with SObject :: _ => true | _ => false end /\ mu s' r' = mu s r).
Proof.
  intros Hinv Hpk Hn Ha Hst. unfold d_on_container_end, dbind, dupdate.
  set (s1 := set_path _ _).
  assert (Hinv1 : inv E inp s1 r).
  { destruct Hinv. split; auto.
    - unfold path_ok in *. cbn. rewrite Hst in *. destruct (json_path s) as [l|]; cbn; [|exact i_path0].
      destruct i_path0 as [Ht Hp]. split; [exact Ht|]. inversion Hp; subst. cbn. assumption.
    - cbn. congruence.
    - unfold peek_ok. cbn. rewrite Hpk. exact I.
    - unfold depth_ok in *. cbn. rewrite Hst in *. cbn in *. destruct (max_nesting_depth (cfg E)); [lia|exact I]. }
  eapply good_impl; [apply (value_end_good E inp s1 r Hinv1 Hpk Hn Ha)|].
  cbn. intros _ s' r' _ (H1 & H2 & H3 & H4 & H5 & H6). splits; auto.
  - rewrite H1. cbn. rewrite Hst. reflexivity.
  - rewrite H5. unfold is_in_object. cbn. rewrite Hst. reflexivity.
Qed.

Lemma end_array_good E inp t s r : (length inp < fuel E)%nat -> inv E inp s r ->
  good E inp (d_end_array E t s r) (fun _ s' r' => stack s' = tl (stack s) /\ (mu s' r' < mu s r)%nat).
Proof.
  intros Hf Hinv. unfold d_end_array. apply good_get, good_misuse_if. intros Harr. apply negb_false_iff in Harr.
  eapply good_bind; [apply (peek_internal_good E inp t s r Hf Hinv)|].
  intros p s' r' Hinv' (H1 & H2 & H3 & H4).
  destruct p; try exact Hinv'.
  destruct (consume_peeked_good E inp s' r' _ Hinv' H4) as (Hc & Hinv2 & Hs2 & Hpk2 & Hmu).
  unfold dbind at 1. rewrite Hc. set (s2 := move _ _) in *.
  assert (Hst : stack s2 = stack s). { destruct Hs2 as (_ & _ & -> & _). apply H1. }
  unfold is_in_array in Harr. destruct (stack s) as [|[] st] eqn:Est; try discriminate.
  assert (Hn : expects_member_name s2 = false).
  { destruct (expects_member_name s2) eqn:En; [|reflexivity]. apply (i_name _ _ _ _ Hinv2) in En. unfold is_in_object in En.
    rewrite Hst in En. discriminate. }
  assert (Ha : string_reader_active s2 = false).
  { destruct Hs2 as (_ & _ & _ & -> & _). destruct H1 as (_ & _ & _ & -> & _). exact H2. }
  eapply good_impl; [apply (container_end_good E inp s2 r' SArray st Hinv2 Hpk2 Hn Ha Hst)|].
  cbn. intros _ s3 r3 _ (H5 & H6 & H7 & H8 & H9 & H10). split; [exact H5|]. cbn in Hmu. lia.
Qed.

Lemma end_object_good E inp t s r : (length inp < fuel E)%nat -> inv E inp s r ->
  good E inp (d_end_object E t s r) (fun _ s' r' => stack s' = tl (stack s) /\ (mu s' r' < mu s r)%nat).
Proof.
  intros Hf Hinv. unfold d_end_object. apply good_get, good_misuse_if. intros Hobj. apply negb_false_iff in Hobj.
  apply good_misuse_if. intros _.
  eapply good_bind; [apply (peek_internal_good E inp t s r Hf Hinv)|].
  intros p s' r' Hinv' (H1 & H2 & H3 & H4).
  destruct p; try exact Hinv'.
  destruct (consume_peeked_good E inp s' r' _ Hinv' H4) as (Hc & Hinv2 & Hs2 & Hpk2 & Hmu).
  unfold dbind at 1. rewrite Hc. unfold dbind at 1, dupdate at 1. set (s2 := move _ _) in *.
  assert (Hst : stack s2 = stack s). { destruct Hs2 as (_ & _ & -> & _). apply H1. }
  unfold is_in_object in Hobj. destruct (stack s) as [|[] st] eqn:Est; try discriminate.
  assert (Ha : string_reader_active s2 = false).
  { destruct Hs2 as (_ & _ & _ & -> & _). destruct H1 as (_ & _ & _ & -> & _). exact H2. }
  pose proof (inv_expects_false _ _ _ _ Hinv2 Hpk2) as Hinv3.
  eapply good_impl; [apply (container_end_good E inp (set_expects_name false s2) r' SObject st Hinv3 Hpk2 eq_refl Ha Hst)|].
  cbn. intros _ s3 r3 _ (H5 & H6 & H7 & H8 & H9 & H10). split; [exact H5|]. cbn in Hmu.
  unfold mu, ahead, held in *. cbn in H10. rewrite Hpk2 in *. lia.
Qed.

Lemma begin_array_good E inp t s r : (length inp < fuel E)%nat -> inv E inp s r ->
  good E inp (d_begin_array E t s r) (fun _ s' r' => stack s' = SArray :: stack s /\ (mu s' r' < mu s r)%nat).
Proof.
  intros Hf Hinv. unfold d_begin_array, d_on_container_start.
  apply good_assoc. eapply good_bind; [apply (start_good E inp t TArray true s r Hf Hinv)|].
  intros p s' r' Hinv' (H1 & H2 & H3 & H4 & H5 & H6 & H7 & H8). specialize (H8 eq_refl).
  cbn [good dbind dupdate]. destruct Hinv'. splits.
  - split; auto.
    + unfold path_ok in *. cbn. destruct (json_path s') as [l|]; cbn; [|exact i_path0].
      split; [apply i_path0|]. constructor; [exact I|apply i_path0].
    + unfold peek_ok. cbn. rewrite H4. exact I.
    + unfold depth_ok, depth_exceeded in *. cbn. destruct (max_nesting_depth (cfg E)) as [m|]; [|exact I].
      destruct H1 as (_ & _ & -> & _). destruct (N.leb_spec m (N.of_nat (length (stack s)))); [discriminate|]. lia.
  - cbn. destruct H1 as (_ & _ & -> & _). reflexivity.
  - unfold mu, ahead, held in *. cbn. rewrite H4 in *. destruct p; cbn in H5; try discriminate. cbn in H6. cbn. lia.
Qed.

Lemma begin_object_good E inp t s r : (length inp < fuel E)%nat -> inv E inp s r ->
  good E inp (d_begin_object E t s r) (fun _ s' r' => stack s' = SObject :: stack s /\ (mu s' r' < mu s r)%nat).
Proof.
  intros Hf Hinv. unfold d_begin_object, d_on_container_start.
  apply good_assoc. eapply good_bind; [apply (start_good E inp t TObject true s r Hf Hinv)|].
  intros p s' r' Hinv' (H1 & H2 & H3 & H4 & H5 & H6 & H7 & H8). specialize (H8 eq_refl).
  cbn [good dbind dupdate]. destruct Hinv'. splits.
  - split; auto.
    + unfold path_ok in *. cbn. destruct (json_path s') as [l|]; cbn; [|exact i_path0].
      split; [apply i_path0|]. constructor; [exact I|apply i_path0].
    + unfold peek_ok. cbn. rewrite H4. exact I.
    + cbn. destruct H1 as (_ & _ & _ & -> & _). congruence.
    + unfold depth_ok, depth_exceeded in *. cbn. destruct (max_nesting_depth (cfg E)) as [m|]; [|exact I].
      destruct H1 as (_ & _ & -> & _). destruct (N.leb_spec m (N.of_nat (length (stack s)))); [discriminate|]. lia.
  - cbn. destruct H1 as (_ & _ & -> & _). reflexivity.
  - unfold mu, ahead, held in *. cbn. rewrite H4 in *. destruct p; cbn in H5; try discriminate. cbn in H6. cbn. lia.
Qed.

Lemma has_next_good E inp t s r : (length inp < fuel E)%nat -> inv E inp s r ->
  good E inp (d_has_next E t s r) (fun h s' r' =>
    same s s' /\ string_reader_active s = false /\ expects_member_value s = false /\ (mu s' r' <= mu s r)%nat /\
    match peeked s' with Some p => h = negb (is_end_token p) | None => h = false /\ stack s = [] end).
Proof.
  intros Hf Hinv. unfold d_has_next. apply good_get, good_misuse_if. intros Hv.
  apply (good_bind E inp _ _ s r (fun op s' r' => same s s' /\ string_reader_active s = false /\ (mu s' r' <= mu s r)%nat /\
    peeked s' = op /\ (op = None -> stack s = []))).
  - destruct (stack s) as [|v st] eqn:Est.
    + apply good_misuse_if. intros _. apply good_misuse_if. intros _.
      eapply good_impl; [apply (peek_optional_good E inp t s r Hf Hinv)|]. cbn. intros op s' r' _ (H1 & H2 & H3 & H4). splits; auto.
    + eapply good_bind; [apply (peek_internal_good E inp t s r Hf Hinv)|]. intros p s' r' Hinv' (H1 & H2 & H3 & H4).
      cbn [good dret]. split; [exact Hinv'|]. splits; auto. discriminate.
  - intros op s' r' Hinv' (H1 & H2 & H3 & H4 & H5). destruct op as [p|].
    + apply good_get. pose proof (i_peek _ _ _ _ Hinv') as Hp. unfold peek_ok in Hp. rewrite H4 in Hp.
      destruct Hp as (_ & Hp & _).
      destruct (negb (expects_member_name s') || _) eqn:Eb.
      * cbn [good dret]. split; [exact Hinv'|]. rewrite H4. splits; auto.
      * exfalso. destruct (expects_member_name s'); [|discriminate]. destruct Hp as [-> | ->]; discriminate.
    + cbn [good dret]. split; [exact Hinv'|]. rewrite H4. splits; auto.
Qed.

Lemma before_name_good E inp t s r : (length inp < fuel E)%nat -> inv E inp s r ->
  good E inp (d_before_name E t s r) (fun _ s' r' =>
    stack s' = stack s /\ is_in_object s = true /\ peeked s' = None /\ expects_member_name s' = false /\
    string_reader_active s' = false /\ json_path s' = json_path s /\ (mu s' r' < mu s r)%nat).
Proof.
  intros Hf Hinv. unfold d_before_name. apply good_get, good_misuse_if. intros Hn. apply negb_false_iff in Hn.
  apply good_misuse_if. intros Ha. eapply good_bind; [apply (has_next_good E inp t s r Hf Hinv)|].
  intros h s' r' Hinv' (H1 & H2 & H3 & H4 & H5). destruct h; cbn [negb]; [|exact Hinv'].
  destruct (peeked s') as [p|] eqn:Hpk; [|destruct H5; discriminate].
  pose proof (consume_peeked_good E inp s' r' p Hinv' Hpk) as (Hc & Hinv2 & Hs2 & Hpk2 & Hmu).
  unfold d_consume_peeked, dbind, dupdate, dget. cbn [peeked set_expects_name]. rewrite Hpk, tok_move.
  change (set_peeked None (set_expects_name false s')) with (set_expects_name false (set_peeked None s')).
  rewrite <- set_expects_move. set (s2 := move _ _) in *.
  pose proof (i_peek _ _ _ _ Hinv') as Hp. unfold peek_ok in Hp. rewrite Hpk in Hp. destruct Hp as (_ & Hp & _).
  destruct H1 as (H11 & H12 & H13 & H14 & H15). rewrite H12, Hn in Hp.
  cbn [good]. split; [apply (inv_expects_false _ _ _ _ Hinv2 Hpk2)|].
  destruct Hs2 as (_ & _ & H23 & H24 & H25).
  cbn [stack peeked expects_member_name string_reader_active json_path set_expects_name].
  splits; auto; try congruence.
  - exact (i_name _ _ _ _ Hinv Hn).
  - destruct Hp as [-> | ->]; [|discriminate]. cbn in Hmu. unfold mu, ahead, held in *. cbn. rewrite Hpk2 in *. lia.
Qed.

Lemma inv_moved E inp s r w r' : inv E inp s r -> peeked s = None -> r = w ++ r' -> valid_text w ->
  Forall (fun b => 0x20 <= b) w -> inv E inp (move w s) r'.
Proof.
  intros Hinv Hpk -> Hv Hg. pose proof (i_bytes _ _ _ _ Hinv) as Hb. apply Forall_app in Hb as [_ Hb].
  destruct (i_pos _ _ _ _ Hinv) as (c & Hl). unfold ahead, held in Hl. rewrite Hpk in Hl.
  apply (inv_same E inp s (w ++ r')); auto; [apply same_move|unfold peek_ok; rewrite peeked_move, Hpk; exact I|].
  exists (c ++ w). unfold ahead, held. rewrite peeked_move, Hpk. cbn [app] in *.
  apply located_move; [exact Hl|exact Hv|rewrite (no_cr_last _ Hg); discriminate|].
  intros -> Hlc. destruct Hl as (_ & _ & _ & Hl). exact (Hl Hlc).
Qed.

Lemma string_good E inp s r : (length inp < fuel E)%nat -> inv E inp s r -> peeked s = None ->
  good E inp (d_string E s r) (fun v s' r' => same s s' /\ peeked s' = None /\ (mu s' r' < mu s r)%nat).
Proof.
  intros Hf Hinv Hpk. pose proof (mu_bound _ _ _ _ Hinv) as Hmu. unfold mu, ahead, held in Hmu. rewrite Hpk in Hmu. cbn in Hmu.
  unfold d_string. pose proof (scan_string_ok E r (i_bytes _ _ _ _ Hinv) ltac:(lia)) as Hs.
  destruct (scan_string (fuel E) r) as [[[d w] r']| |]; [|exact I|contradiction].
  destruct Hs as (He & Hv & Hg & Hl & body & v & -> & Hb & ->). cbn [good].
  split; [exact (inv_moved _ _ _ _ _ _ Hinv Hpk He Hv Hg)|]. splits; [apply same_move|rewrite peeked_move; exact Hpk|].
  unfold mu, ahead, held. rewrite peeked_move, Hpk. exact Hl.
Qed.

Lemma skip_string_good E inp s r : (length inp < fuel E)%nat -> inv E inp s r -> peeked s = None ->
  good E inp (d_skip_string E s r) (fun v s' r' => same s s' /\ peeked s' = None /\ (mu s' r' < mu s r)%nat).
Proof.
  intros Hf Hinv Hpk. pose proof (mu_bound _ _ _ _ Hinv) as Hmu. unfold mu, ahead, held in Hmu. rewrite Hpk in Hmu. cbn in Hmu.
  unfold d_skip_string. pose proof (scan_string_ok E r (i_bytes _ _ _ _ Hinv) ltac:(lia)) as Hs.
  destruct (scan_string (fuel E) r) as [[[d w] r']| |]; [|exact I|contradiction].
  destruct Hs as (He & Hv & Hg & Hl & body & v & -> & Hb & _). cbn [good].
  split; [exact (inv_moved _ _ _ _ _ _ Hinv Hpk He Hv Hg)|]. splits; [apply same_move|rewrite peeked_move; exact Hpk|].
  unfold mu, ahead, held. rewrite peeked_move, Hpk. exact Hl.
Qed.

Lemma set_path_name_good E inp name s r : inv E inp s r -> is_in_object s = true -> peeked s = None ->
  good E inp (d_set_path_name name s r) (fun _ s' r' =>
    stack s' = stack s /\ peeked s' = None /\ expects_member_name s' = expects_member_name s /\
    string_reader_active s' = string_reader_active s /\ mu s' r' = mu s r).
Proof.
  intros Hinv Hobj Hpk. unfold d_set_path_name. apply good_get. pose proof (i_path _ _ _ _ Hinv) as Hp. unfold path_ok in Hp.
  unfold is_in_object in Hobj. destruct (stack s) as [|[] st] eqn:Est; try discriminate.
  destruct (json_path s) as [l|] eqn:El.
  - destruct Hp as [Ht Hp]. inversion Hp as [|? x ? l' Hx Hl]; subst. destruct x as [i|n]; [contradiction|].
    cbn [good dupdate]. destruct Hinv. split.
    + split; auto.
      * unfold path_ok. cbn. rewrite Est. split; [exact Ht|]. constructor; [exact I|exact Hl].
    + cbn. rewrite Est. splits; auto.
  - cbn [good dret]. split; [exact Hinv|]. splits; auto.
Qed.

Definition name_read (s : rstate) (r : bytes) (s' : rstate) (r' : bytes) : Prop :=
  stack s' = stack s /\ is_in_object s = true /\ peeked s' = None /\ expects_member_name s' = false /\
  string_reader_active s' = false /\ (mu s' r' < mu s r)%nat.

Lemma next_name_good E inp t s r : (length inp < fuel E)%nat -> inv E inp s r ->
  good E inp (d_next_name E t s r) (fun _ s' r' => name_read s r s' r').
Proof.
  intros Hf Hinv. unfold d_next_name. eapply good_bind; [apply (before_name_good E inp t s r Hf Hinv)|].
  intros _ s1 r1 Hinv1 (H1 & H2 & H3 & H4 & H5 & H6 & H7).
  eapply good_bind; [apply (string_good E inp s1 r1 Hf Hinv1 H3)|]. intros v s2 r2 Hinv2 (G1 & G2 & G3).
  destruct G1 as (_ & G12 & G13 & G14 & _).
  eapply good_bind; [apply (set_path_name_good E inp v s2 r2 Hinv2)|]; [|exact G2|].
  { unfold is_in_object in *. rewrite G13, H1. exact H2. }
  intros _ s3 r3 Hinv3 (K1 & K2 & K3 & K4 & K5). cbn [good dret]. split; [exact Hinv3|].
  unfold name_read. splits; auto; try congruence. lia.
Qed.

Lemma skip_name_good E inp t s r : (length inp < fuel E)%nat -> inv E inp s r ->
  good E inp (d_skip_name E t s r) (fun _ s' r' => name_read s r s' r').
Proof.
  intros Hf Hinv. unfold d_skip_name. eapply good_bind; [apply (before_name_good E inp t s r Hf Hinv)|].
  intros _ s1 r1 Hinv1 (H1 & H2 & H3 & H4 & H5 & H6 & H7). apply good_get.
  destruct (json_path s1).
  - eapply good_bind; [apply (string_good E inp s1 r1 Hf Hinv1 H3)|]. intros v s2 r2 Hinv2 (G1 & G2 & G3).
    destruct G1 as (_ & G12 & G13 & G14 & _).
    eapply good_impl; [apply (set_path_name_good E inp v s2 r2 Hinv2)|]; [|exact G2|].
    { unfold is_in_object in *. rewrite G13, H1. exact H2. }
    cbn. intros _ s3 r3 Hinv3 (K1 & K2 & K3 & K4 & K5). unfold name_read. splits; auto; try congruence. lia.
  - eapply good_impl; [apply (skip_string_good E inp s1 r1 Hf Hinv1 H3)|]. cbn. intros v s2 r2 Hinv2 (G1 & G2 & G3).
    destruct G1 as (_ & G12 & G13 & G14 & _). unfold name_read. splits; auto; try congruence. lia.
Qed.

(** A value has been read *)
Definition value_read (s : rstate) (r : bytes) (s' : rstate) (r' : bytes) : Prop :=
  stack s' = stack s /\ (mu s' r' < mu s r)%nat.

Lemma next_bool_good E inp t s r : (length inp < fuel E)%nat -> inv E inp s r ->
  good E inp (d_next_bool E t s r) (fun _ s' r' => value_read s r s' r').
Proof.
  intros Hf Hinv. unfold d_next_bool. eapply good_bind; [apply (start_good E inp t TBoolean false s r Hf Hinv)|].
  intros p s1 r1 Hinv1 (H1 & H2 & H3 & H4 & H5 & H6 & _). destruct H1 as (_ & H12 & H13 & H14 & _).
  destruct p; try discriminate; cbn [dbind dret];
  (eapply good_bind; [apply (value_end_good E inp s1 r1 Hinv1 H4)|]; [congruence|congruence|];
   intros _ s2 r2 Hinv2 (G1 & G2 & G3 & G4 & G5 & G6); cbn [good dret]; split; [exact Hinv2|];
   unfold value_read; cbn in H6; split; [congruence|lia]).
Qed.

Lemma next_null_good E inp t s r : (length inp < fuel E)%nat -> inv E inp s r ->
  good E inp (d_next_null E t s r) (fun _ s' r' => value_read s r s' r').
Proof.
  intros Hf Hinv. unfold d_next_null. eapply good_bind; [apply (start_good E inp t TNull false s r Hf Hinv)|].
  intros p s1 r1 Hinv1 (H1 & H2 & H3 & H4 & H5 & H6 & _). destruct H1 as (_ & H12 & H13 & H14 & _).
  destruct p; try discriminate.
  eapply good_impl; [apply (value_end_good E inp s1 r1 Hinv1 H4)|]; [congruence|congruence|].
  intros _ s2 r2 Hinv2 (G1 & G2 & G3 & G4 & G5 & G6).
  unfold value_read; cbn in H6; split; [congruence|lia].
Qed.

Lemma next_string_good E inp t s r : (length inp < fuel E)%nat -> inv E inp s r ->
  good E inp (d_next_string E t s r) (fun _ s' r' => value_read s r s' r').
Proof.
  intros Hf Hinv. unfold d_next_string. eapply good_bind; [apply (start_good E inp t TString false s r Hf Hinv)|].
  intros p s1 r1 Hinv1 (H1 & H2 & H3 & H4 & H5 & H6 & _). destruct H1 as (_ & H12 & H13 & H14 & _).
  eapply good_bind; [apply (string_good E inp s1 r1 Hf Hinv1 H4)|]. intros v s2 r2 Hinv2 (G1 & G2 & G3).
  destruct G1 as (_ & G12 & G13 & G14 & _).
  eapply good_bind; [apply (value_end_good E inp s2 r2 Hinv2 G2)|]; [congruence|congruence|].
  intros _ s3 r3 Hinv3 (K1 & K2 & K3 & K4 & K5 & K6). cbn [good dret]. split; [exact Hinv3|].
  unfold value_read; split; [congruence|lia].
Qed.

Lemma skip_string_value_good E inp t s r : (length inp < fuel E)%nat -> inv E inp s r ->
  good E inp ((d_start E t TString false ;; d_skip_string E ;; d_on_value_end ;; dret false)%dm s r)
    (fun b s' r' => b = false /\ value_read s r s' r').
Proof.
  intros Hf Hinv. eapply good_bind; [apply (start_good E inp t TString false s r Hf Hinv)|].
  intros p s1 r1 Hinv1 (H1 & H2 & H3 & H4 & H5 & H6 & _). destruct H1 as (_ & H12 & H13 & H14 & _).
  eapply good_bind; [apply (skip_string_good E inp s1 r1 Hf Hinv1 H4)|]. intros v s2 r2 Hinv2 (G1 & G2 & G3).
  destruct G1 as (_ & G12 & G13 & G14 & _).
  eapply good_bind; [apply (value_end_good E inp s2 r2 Hinv2 G2)|]; [congruence|congruence|].
  intros _ s3 r3 Hinv3 (K1 & K2 & K3 & K4 & K5 & K6). cbn [good dret]. split; [exact Hinv3|].
  unfold value_read; splits; [reflexivity|congruence|lia].
Qed.

Lemma number_char_plain b : number_char b -> plain b.
Proof.
  unfold number_char, digit, plain. intros H. splits; [apply is_1byte_iff; lia|lia|lia].
Qed.

Lemma number_body_good E inp t restrict s r : (length inp < fuel E)%nat -> inv E inp s r -> peeked s = None -> number_start r ->
  good E inp (d_number_body E t restrict s r) (fun v s' r' => same s s' /\ peeked s' = None /\ (mu s' r' < mu s r)%nat).
Proof.
  intros Hf Hinv Hpk Hn. pose proof (mu_bound _ _ _ _ Hinv) as Hmu. unfold mu, ahead, held in Hmu. rewrite Hpk in Hmu. cbn in Hmu.
  unfold d_number_body. destruct r as [|b l]; [contradiction|]. cbn [length] in Hmu.
  pose proof (number_scan_fuel E b l ltac:(lia)) as Hs.
  destruct (number_scan E (b :: l)) as [[[res w] rest]| |] eqn:Es; try contradiction.
  destruct (hits_error t rest); [exact I|]. destruct res as [n|]; [|exact I].
  apply number_scan_sound in Es as (_ & Hr & m & Hm & ->).
  rewrite (number_utf8 _ _ Hm). destruct (_ && _); [exact I|]. destruct (sep_ok _ _); [|exact I].
  pose proof (number_chars _ _ Hm) as Hc.
  rewrite <- move_all_plain by (eapply Forall_impl; [|exact Hc]; exact number_char_plain).
  cbn [good]. split.
  - apply (inv_moved _ _ _ _ _ _ Hinv Hpk Hs).
    + apply valid_text_ascii. eapply Forall_impl; [|exact Hc]. exact number_char_low.
    + eapply Forall_impl; [|exact Hc]. unfold number_char, digit. cbn. lia.
  - splits; [apply same_move|rewrite peeked_move; exact Hpk|]. unfold mu, ahead, held. rewrite peeked_move, Hpk. cbn [app].
    rewrite Hs, app_length. destruct (number_first _ _ Hm) as (b' & l' & -> & _). cbn. lia.
Qed.

Lemma number_good E inp t restrict s r : (length inp < fuel E)%nat -> inv E inp s r ->
  good E inp (d_number E t restrict s r) (fun _ s' r' => value_read s r s' r').
Proof.
  intros Hf Hinv. unfold d_number. eapply good_bind; [apply (start_good E inp t TNumber false s r Hf Hinv)|].
  intros p s1 r1 Hinv1 (H1 & H2 & H3 & H4 & H5 & H6 & H7 & _). destruct H1 as (_ & H12 & H13 & H14 & _).
  eapply good_bind; [apply (number_body_good E inp t restrict s1 r1 Hf Hinv1 H4 (H7 eq_refl))|]. intros v s2 r2 Hinv2 (G1 & G2 & G3).
  destruct G1 as (_ & G12 & G13 & G14 & _).
  eapply good_bind; [apply (value_end_good E inp s2 r2 Hinv2 G2)|]; [congruence|congruence|].
  intros u3 s3 r3 Hinv3 (K1 & K2 & K3 & K4 & K5 & K6). cbn [good dret]. split; [exact Hinv3|].
  unfold value_read; split; [congruence|lia].
Qed.

(** ** Skipping and seeking *)

Lemma skip_value_start_good E inp t s r : (length inp < fuel E)%nat -> inv E inp s r ->
  good E inp (d_skip_value_start E t s r) (fun _ s' r' => (mu s' r' < mu s r)%nat).
Proof.
  intros Hf Hinv. unfold d_skip_value_start. eapply good_bind; [apply (peek_good E inp t s r Hf Hinv)|].
  intros ty s1 r1 Hinv1 (H1 & H2 & H3 & H4 & _).
  destruct ty.
  - eapply good_bind; [apply (begin_array_good E inp t s1 r1 Hf Hinv1)|]. intros u2 s2 r2 Hinv2 (G1 & G2). cbn. split; [exact Hinv2|lia].
  - eapply good_bind; [apply (begin_object_good E inp t s1 r1 Hf Hinv1)|]. intros u2 s2 r2 Hinv2 (G1 & G2). cbn. split; [exact Hinv2|lia].
  - eapply good_impl; [apply (skip_string_value_good E inp t s1 r1 Hf Hinv1)|]. intros u2 s2 r2 Hinv2 (_ & _ & G2). lia.
  - eapply good_bind; [apply (number_good E inp t false s1 r1 Hf Hinv1)|]. intros u2 s2 r2 Hinv2 (G1 & G2). cbn. split; [exact Hinv2|lia].
  - eapply good_bind; [apply (next_bool_good E inp t s1 r1 Hf Hinv1)|]. intros u2 s2 r2 Hinv2 (G1 & G2). cbn. split; [exact Hinv2|lia].
  - eapply good_bind; [apply (next_null_good E inp t s1 r1 Hf Hinv1)|]. intros u2 s2 r2 Hinv2 (G1 & G2). cbn. split; [exact Hinv2|lia].
Qed.

Lemma end_container_good E inp t s r : (length inp < fuel E)%nat -> inv E inp s r ->
  good E inp (d_end_container E t s r) (fun _ s' r' => (mu s' r' < mu s r)%nat).
Proof.
  intros Hf Hinv. unfold d_end_container. apply good_get. destruct (is_in_array s).
  - eapply good_impl; [apply (end_array_good E inp t s r Hf Hinv)|]. cbn. tauto.
  - eapply good_impl; [apply (end_object_good E inp t s r Hf Hinv)|]. cbn. tauto.
Qed.

Ltac blia := cbv beta in *; lia.

Lemma skip_step_good E inp t depth s r : (length inp < fuel E)%nat -> inv E inp s r ->
  good E inp (d_skip_step E t depth s r) (fun _ s' r' => (mu s' r' < mu s r)%nat).
Proof.
  intros Hf Hinv. unfold d_skip_step.
  apply (good_bind E inp _ _ s r (fun _ s' r' => (mu s' r' <= mu s r)%nat)).
  { destruct depth; [cbn; split; [exact Hinv|blia]|].
    eapply good_impl; [apply (has_next_good E inp t s r Hf Hinv)|]. cbn. intros h s' r' _ (_ & _ & _ & H & _). exact H. }
  intros h s1 r1 Hinv1 H1. destruct (negb h).
  - eapply good_bind; [apply (end_container_good E inp t s1 r1 Hf Hinv1)|]. intros u2 s2 r2 Hinv2 H2. cbn. split; [exact Hinv2|blia].
  - apply good_get.
    apply (good_bind E inp _ _ s1 r1 (fun _ s' r' => (mu s' r' <= mu s1 r1)%nat)).
    { destruct (expects_member_name s1); [|cbn; split; [exact Hinv1|blia]].
      eapply good_impl; [apply (skip_name_good E inp t s1 r1 Hf Hinv1)|]. cbn. intros _ s' r' _ (_ & _ & _ & _ & _ & H). blia. }
    intros u2 s2 r2 Hinv2 H2. eapply good_bind; [apply (skip_value_start_good E inp t s2 r2 Hf Hinv2)|].
    intros st s3 r3 Hinv3 H3. cbn. split; [exact Hinv3|blia].
Qed.

Lemma skip_value_loop_good E inp t f : forall depth s r, (length inp < fuel E)%nat -> inv E inp s r -> (mu s r < f)%nat ->
  good E inp (d_skip_value_loop E t f depth s r) (fun _ s' r' => (mu s' r' < mu s r)%nat).
Proof.
  induction f as [|f IH]; intros depth s r Hf Hinv Hmu; [blia|]. cbn [d_skip_value_loop].
  eapply good_bind; [apply (skip_step_good E inp t depth s r Hf Hinv)|]. intros depth' s1 r1 Hinv1 H1.
  destruct depth'; [cbn; auto|]. eapply good_impl; [apply IH; auto; blia|]. cbn. blia.
Qed.

Lemma skip_value_good E inp t s r : (length inp < fuel E)%nat -> inv E inp s r ->
  good E inp (d_skip_value E t s r) (fun _ s' r' => (mu s' r' < mu s r)%nat).
Proof.
  intros Hf Hinv. unfold d_skip_value. apply good_get, good_misuse_if. intros _.
  apply skip_value_loop_good; auto. pose proof (mu_bound _ _ _ _ Hinv). blia.
Qed.

Lemma skip_items_good E inp t f : forall s r, (length inp < fuel E)%nat -> inv E inp s r -> (mu s r < f)%nat ->
  good E inp (d_skip_items E t f s r) (fun _ s' r' => (mu s' r' <= mu s r)%nat).
Proof.
  induction f as [|f IH]; intros s r Hf Hinv Hmu; [blia|]. cbn [d_skip_items].
  eapply good_bind; [apply (has_next_good E inp t s r Hf Hinv)|]. intros h s1 r1 Hinv1 (_ & _ & _ & H1 & _).
  destruct h; [|cbn; auto].
  eapply good_bind; [apply (skip_value_good E inp t s1 r1 Hf Hinv1)|]. intros u2 s2 r2 Hinv2 H2.
  eapply good_impl; [apply IH; auto; blia|]. cbn. blia.
Qed.

Lemma skip_members_good E inp t f : forall s r, (length inp < fuel E)%nat -> inv E inp s r -> (mu s r < f)%nat ->
  good E inp (d_skip_members E t f s r) (fun _ s' r' => (mu s' r' <= mu s r)%nat).
Proof.
  induction f as [|f IH]; intros s r Hf Hinv Hmu; [blia|]. cbn [d_skip_members].
  eapply good_bind; [apply (has_next_good E inp t s r Hf Hinv)|]. intros h s1 r1 Hinv1 (_ & _ & _ & H1 & _).
  destruct h; [|cbn; auto].
  eapply good_bind; [apply (skip_name_good E inp t s1 r1 Hf Hinv1)|]. intros u2 s2 r2 Hinv2 (_ & _ & _ & _ & _ & H2).
  eapply good_bind; [apply (skip_value_good E inp t s2 r2 Hf Hinv2)|]. intros u3 s3 r3 Hinv3 H3.
  eapply good_impl; [apply IH; auto; blia|]. cbn. blia.
Qed.

Lemma skip_to_top_level_loop_good E inp t f : forall s r, (length inp < fuel E)%nat -> inv E inp s r -> (mu s r < f)%nat ->
  good E inp (d_skip_to_top_level_loop E t f s r) (fun _ s' r' => (mu s' r' <= mu s r)%nat /\ stack s' = []).
Proof.
  induction f as [|f IH]; intros s r Hf Hinv Hmu; [blia|]. cbn [d_skip_to_top_level_loop]. apply good_get.
  pose proof (mu_bound _ _ _ _ Hinv) as Hb.
  destruct (stack s) as [|[] st] eqn:Est; [cbn; auto| |].
  - eapply good_bind; [apply (skip_items_good E inp t (fuel E) s r Hf Hinv); blia|]. intros u2 s2 r2 Hinv2 H2.
    eapply good_bind; [apply (end_array_good E inp t s2 r2 Hf Hinv2)|]. intros u3 s3 r3 Hinv3 (_ & H3).
    eapply good_impl; [apply IH; auto; blia|]. cbn. intros _ s' r' _ (H4 & H5). split; [blia|exact H5].
  - eapply good_bind; [apply (skip_members_good E inp t (fuel E) s r Hf Hinv); blia|]. intros u2 s2 r2 Hinv2 H2.
    eapply good_bind; [apply (end_object_good E inp t s2 r2 Hf Hinv2)|]. intros u3 s3 r3 Hinv3 (_ & H3).
    eapply good_impl; [apply IH; auto; blia|]. cbn. intros _ s' r' _ (H4 & H5). split; [blia|exact H5].
Qed.

Lemma skip_to_top_level_good E inp t s r : (length inp < fuel E)%nat -> inv E inp s r ->
  good E inp (d_skip_to_top_level E t s r) (fun _ s' r' => stack s' = []).
Proof.
  intros Hf Hinv. unfold d_skip_to_top_level. apply good_get, good_misuse_if. intros _.
  apply (good_bind E inp _ _ s r (fun _ _ _ => True)).
  { destruct (expects_member_value s); [|cbn; auto].
    eapply good_impl; [apply (skip_value_good E inp t s r Hf Hinv)|]. auto. }
  intros u1 s1 r1 Hinv1 _. pose proof (mu_bound _ _ _ _ Hinv1) as Hb.
  eapply good_impl; [apply skip_to_top_level_loop_good; auto; blia|]. cbn. tauto.
Qed.

Lemma seek_item_good E inp t f : forall i n s r, (length inp < fuel E)%nat -> inv E inp s r -> (mu s r < f)%nat ->
  good E inp (d_seek_item E t f i n s r) (fun _ _ _ => True).
Proof.
  induction f as [|f IH]; intros i n s r Hf Hinv Hmu; [blia|]. cbn [d_seek_item].
  eapply good_bind; [apply (has_next_good E inp t s r Hf Hinv)|]. intros h s1 r1 Hinv1 (_ & _ & _ & H1 & _).
  destruct (negb h); [exact Hinv1|]. destruct (n =? 0); [cbn; auto|].
  eapply good_bind; [apply (skip_value_good E inp t s1 r1 Hf Hinv1)|]. intros u2 s2 r2 Hinv2 H2. apply IH; auto. blia.
Qed.

Lemma seek_member_good E inp t f : forall n s r, (length inp < fuel E)%nat -> inv E inp s r -> (mu s r < f)%nat ->
  good E inp (d_seek_member E t f n s r) (fun _ _ _ => True).
Proof.
  induction f as [|f IH]; intros n s r Hf Hinv Hmu; [blia|]. cbn [d_seek_member].
  eapply good_bind; [apply (has_next_good E inp t s r Hf Hinv)|]. intros h s1 r1 Hinv1 (_ & _ & _ & H1 & _).
  destruct (negb h); [exact Hinv1|].
  eapply good_bind; [apply (next_name_good E inp t s1 r1 Hf Hinv1)|]. intros m s2 r2 Hinv2 (_ & _ & _ & _ & _ & H2).
  destruct (str_eqb m n); [cbn; auto|].
  eapply good_bind; [apply (skip_value_good E inp t s2 r2 Hf Hinv2)|]. intros u3 s3 r3 Hinv3 H3. apply IH; auto. blia.
Qed.

Lemma seek_pieces_good E inp t p : forall s r, (length inp < fuel E)%nat -> inv E inp s r ->
  good E inp (d_seek_pieces E t p s r) (fun _ _ _ => True).
Proof.
  induction p as [|[i|n] p IH]; intros s r Hf Hinv; cbn [d_seek_pieces]; [cbn; auto| |].
  - eapply good_bind; [apply (begin_array_good E inp t s r Hf Hinv)|]. intros u1 s1 r1 Hinv1 _.
    pose proof (mu_bound _ _ _ _ Hinv1) as Hb.
    eapply good_bind; [apply (seek_item_good E inp t (fuel E) i i s1 r1 Hf Hinv1); blia|]. intros u2 s2 r2 Hinv2 _. apply IH; auto.
  - eapply good_bind; [apply (begin_object_good E inp t s r Hf Hinv)|]. intros u1 s1 r1 Hinv1 _.
    pose proof (mu_bound _ _ _ _ Hinv1) as Hb.
    eapply good_bind; [apply (seek_member_good E inp t (fuel E) n s1 r1 Hf Hinv1); blia|]. intros u2 s2 r2 Hinv2 _. apply IH; auto.
Qed.

Lemma seek_to_good E inp t p s r : (length inp < fuel E)%nat -> inv E inp s r ->
  good E inp (d_seek_to E t p s r) (fun _ _ _ => True).
Proof.
  intros Hf Hinv. unfold d_seek_to. eapply good_bind; [apply (peek_good E inp t s r Hf Hinv)|].
  intros u1 s1 r1 Hinv1 _. apply seek_pieces_good; auto.
Qed.

Lemma seek_back_pieces_good E inp t p : forall s r, (length inp < fuel E)%nat -> inv E inp s r ->
  good E inp (d_seek_back_pieces E t p s r) (fun _ _ _ => True).
Proof.
  induction p as [|[i|n] p IH]; intros s r Hf Hinv; cbn [d_seek_back_pieces]; [cbn; auto| |].
  - pose proof (mu_bound _ _ _ _ Hinv) as Hb.
    eapply good_bind; [apply (skip_items_good E inp t (fuel E) s r Hf Hinv); blia|]. intros u1 s1 r1 Hinv1 _.
    eapply good_bind; [apply (end_array_good E inp t s1 r1 Hf Hinv1)|]. intros u2 s2 r2 Hinv2 _. apply IH; auto.
  - pose proof (mu_bound _ _ _ _ Hinv) as Hb.
    eapply good_bind; [apply (skip_members_good E inp t (fuel E) s r Hf Hinv); blia|]. intros u1 s1 r1 Hinv1 _.
    eapply good_bind; [apply (end_object_good E inp t s1 r1 Hf Hinv1)|]. intros u2 s2 r2 Hinv2 _. apply IH; auto.
Qed.

Lemma consume_trailing_nobug E inp t s r : (length inp < fuel E)%nat -> inv E inp s r ->
  d_consume_trailing E t s r <> MBug.
Proof.
  intros Hf Hinv. pose proof (mu_bound _ _ _ _ Hinv) as Hmu. unfold mu, ahead in Hmu. rewrite app_length in Hmu.
  unfold d_consume_trailing, dbind, dget, dmisuse_if, dmisuse, dret, dfail.
  destruct (string_reader_active s); [discriminate|]. destruct (stack s); [|discriminate]. destruct (is_empty s); [discriminate|].
  unfold d_ws. pose proof (ws_scan_ok E t None r (i_bytes _ _ _ _ Hinv) ltac:(lia)) as Hw.
  destruct (ws_scan E t None r) as [[w r1]| |]; [|discriminate|contradiction]. destruct (hd_error r1); discriminate.
Qed.

(** ** String readers *)

Lemma encode_char_max c : (length (encode_char c) <= 4)%nat.
Proof.
  unfold encode_char. destruct (c <? 0x80); [cbn; lia|]. destruct (c <? 0x800); [cbn; lia|].
  destruct (c <? 0x10000); cbn; lia.
Qed.

Lemma sv_loop_good E inp f : forall len out sv s r, (length inp < fuel E)%nat -> inv E inp s r -> (length r < f)%nat ->
  string_reader_active s = true -> ((length out < len)%nat -> sv_buf sv = [] /\ sv_start sv = O) ->
  match d_sv_loop f len out sv s r with
  | MOk _ s' r' => inv E inp s' r'
  | MFail _ => True
  | _ => False
  end.
Proof.
  induction f as [|f IH]; intros len out sv s r Hf Hinv Hlen Ha Hbuf; [lia|]. cbn [d_sv_loop].
  destruct (Nat.ltb_spec (length out) len) as [Hlt|Hge]; [|exact Hinv].
  destruct (Hbuf Hlt) as [Hb1 Hb2]. rewrite Hb1, Hb2. cbn [length Nat.eqb andb negb].
  assert (Hpk : peeked s = None).
  { pose proof (i_peek _ _ _ _ Hinv) as Hp. unfold peek_ok in Hp. destruct (peeked s); [|reflexivity]. destruct Hp. congruence. }
  pose proof (scan_unit_sound r (i_bytes _ _ _ _ Hinv)) as Hu. pose proof (scan_unit_length r) as Hl.
  destruct (scan_unit r) as [r'|bs w r'|]; [| |exact I].
  - unfold dbind, dupdate.
    assert (Hinv1 : inv E inp (set_active false (move [B_QUOTE] s)) r').
    { pose proof (inv_moved E inp s r [B_QUOTE] r' Hinv Hpk Hu (tok_valid PkStringStart) ltac:(repeat constructor; lia)) as [].
      split; auto.
      unfold peek_ok in *. cbn. rewrite peeked_move, Hpk. exact I.
    }
    pose proof (value_end_good E inp _ r' Hinv1) as Hv. rewrite set_active_move in *. cbn [peeked set_active] in Hv.
    rewrite peeked_move, expects_name_move in Hv. cbn [peeked expects_member_name set_active] in Hv.
    specialize (Hv Hpk (i_active _ _ _ _ Hinv Ha)). rewrite active_move in Hv. specialize (Hv eq_refl).
    destruct (d_on_value_end _ r') as [x s2 r2|e s2 r2|n| |] eqn:Ev; cbn in Hv; try contradiction.
    + cbn. apply Hv.
    + pose proof (value_end_pure (move [B_QUOTE] (set_active false s)) r') as Hp. rewrite Ev in Hp. contradiction.
    + exact I.
    + pose proof (value_end_pure (move [B_QUOTE] (set_active false s)) r') as Hp. rewrite Ev in Hp. contradiction.
  - destruct Hu as (He & c & -> & Hu). destruct (unit_text_valid _ _ Hu) as [Hv Hg].
    cbv zeta. pose proof (encode_char_max c) as Hmax.
    destruct (Nat.ltb_spec STRING_VALUE_READER_BUF_SIZE (length (skipn (len - length out) (encode_char c)))) as [Hx|_].
    { rewrite skipn_length in Hx. unfold STRING_VALUE_READER_BUF_SIZE in Hx. lia. }
    apply IH; auto.
    + exact (inv_moved E inp s r w r' Hinv Hpk He Hv Hg).
    + lia.
    + rewrite active_move. exact Ha.
    + cbn [sv_buf sv_start]. rewrite app_length, firstn_length. intros Hlt2. split; [|reflexivity].
      apply length_zero_iff_nil. rewrite skipn_length. lia.
Qed.

Lemma sv_read_good E inp len sv s r : (length inp < fuel E)%nat -> inv E inp s r -> reader_ok s (Some sv) ->
  match d_sv_read E len sv s r with
  | MOk _ s' r' => inv E inp s' r'
  | MFail None => True
  | _ => False
  end.
Proof.
  intros Hf Hinv (He & Ha). unfold d_sv_read. destruct (sv_reached_end sv) eqn:Er; [exact Hinv|]. specialize (Ha eq_refl).
  destruct (Nat.eqb len 0) eqn:E0; [exact Hinv|]. cbn [orb].
  pose proof (mu_bound _ _ _ _ Hinv) as Hmu. unfold mu, ahead in Hmu. rewrite app_length in Hmu.
  cbv zeta. set (out := firstn _ _). set (sv1 := if Nat.eqb _ _ then _ else _).
  pose proof (sv_loop_good E inp (fuel E) len out sv1 s r Hf Hinv ltac:(lia) Ha) as H.
  assert (Hb : (length out < len)%nat -> sv_buf sv1 = [] /\ sv_start sv1 = O).
  { unfold out. rewrite firstn_length. intros Hlt. unfold sv1.
    destruct (Nat.eqb_spec (Nat.min (length (sv_buf sv)) len) (length (sv_buf sv))); [auto|]. lia. }
  specialize (H Hb). pose proof (sv_loop_ex (fuel E) len out sv1 s r TEof false) as Hx.
  destruct (d_sv_loop (fuel E) len out sv1 s r) as [[o sv'] s' r'|e s' r'|[n|]| |]; auto.
Qed.

(** ** Client programs *)

Definition dinv (E : env) (inp : bytes) (d : dstate) : Prop :=
  match d with
  | DRun s rd r => inv E inp s r /\ reader_ok s rd
  | DBug => False
  | _ => True
  end.

Lemma run_good {A : Type} E inp (m : D A) val s r Q : good E inp (m s r) Q -> dinv E inp (snd (d_run m val s r)).
Proof.
  unfold d_run. intros H. destruct (m s r) as [x s' r'|e s' r'|n| |]; cbn in *; tauto.
Qed.

Lemma call_good E inp t c d : (length inp < fuel E)%nat -> dinv E inp d -> dinv E inp (snd (d_call E t c d)).
Proof.
  intros Hf Hd. destruct d as [s rd r|held| | |]; cbn [d_call]; try exact Hd.
  - destruct Hd as [Hinv Hrd].
    destruct c; cbn [d_call_run]; try (eapply run_good;
      first [ apply (peek_good E inp t s r Hf Hinv) | apply (has_next_good E inp t s r Hf Hinv)
            | apply (begin_array_good E inp t s r Hf Hinv) | apply (end_array_good E inp t s r Hf Hinv)
            | apply (begin_object_good E inp t s r Hf Hinv) | apply (end_object_good E inp t s r Hf Hinv)
            | apply (next_name_good E inp t s r Hf Hinv) | apply (skip_name_good E inp t s r Hf Hinv)
            | apply (next_string_good E inp t s r Hf Hinv) | apply (number_good E inp t _ s r Hf Hinv)
            | apply (next_bool_good E inp t s r Hf Hinv) | apply (next_null_good E inp t s r Hf Hinv)
            | apply (skip_value_good E inp t s r Hf Hinv) | apply (seek_to_good E inp t _ s r Hf Hinv)
            | apply (seek_back_pieces_good E inp t _ s r Hf Hinv) | apply (skip_to_top_level_good E inp t s r Hf Hinv) ]; fail).
    + unfold d_run_reader, d_next_string_reader.
      pose proof (start_good E inp t TString false s r Hf Hinv) as H. unfold dbind, dupdate, dret.
      destruct (d_start E t TString false s r) as [p s1 r1|e s1 r1|n| |]; cbn in *; auto.
      destruct H as (Hinv1 & H1 & H2 & H3 & H4 & _). split; [|split; reflexivity].
      destruct Hinv1. split; auto.
      * unfold peek_ok in *. cbn. rewrite H4. exact I.
      * intros _. cbn. destruct H1 as (_ & -> & _). exact H2.
    + unfold d_run_read. destruct rd as [sv|]; [|cbn; auto].
      pose proof (sv_read_good E inp len sv s r Hf Hinv Hrd) as H.
      destruct (d_sv_read E len sv s r) as [[o sv'] s' r'|e s' r'|[n|]| |] eqn:Es; cbn in *; try contradiction; auto.
      split; [exact H|]. exact (sv_read_ok _ _ _ _ _ _ _ _ _ Hrd Es).
    + cbn. auto.
    + unfold d_run_consume. pose proof (consume_trailing_nobug E inp t s r Hf Hinv) as H.
      destruct (d_consume_trailing E t s r); cbn; auto.
  - destruct c; cbn; auto; destruct held; cbn; auto; destruct path; cbn; auto.
Qed.

Lemma calls_good E inp t cs : (length inp < fuel E)%nat -> forall d, dinv E inp d -> dinv E inp (snd (d_calls E t cs d)).
Proof.
  intros Hf. induction cs as [|c cs IH]; intros d Hd; cbn [d_calls]; [exact Hd|].
  pose proof (call_good E inp t c d Hf Hd) as Hc. destruct (d_call E t c d) as [o d1]. cbn [snd] in Hc.
  specialize (IH d1 Hc). destruct (d_calls E t cs d1) as [os d2]. exact IH.
Qed.

Lemma inv_start s inp f : Forall is_byte inp -> inv (Env s f) inp (rstate_new s) inp.
Proof.
  intros H. split; auto.
  - unfold path_ok. cbn. destruct (track_path s); auto.
  - exact I.
  - unfold depth_ok. cbn. destruct (max_nesting_depth s); [lia|exact I].
  - exists []. unfold ahead, held. cbn. split; [reflexivity|]. split; [exists []; auto|]. split; [reflexivity|discriminate].
Qed.

Lemma session_good s evs cs : Forall is_byte (fst (supplied evs)) ->
  dinv (Env s (enough_fuel (fst (supplied evs)))) (fst (supplied evs)) (snd (d_session s evs cs)).
Proof.
  intros H. unfold d_session. apply calls_good; [cbn; unfold enough_fuel; lia|]. cbn. split; [|exact I].
  apply inv_start. exact H.
Qed.

Lemma session_no_bug s evs cs : Forall is_byte (fst (supplied evs)) -> snd (d_session s evs cs) <> DBug.
Proof. intros H Hb. pose proof (session_good s evs cs H) as Hg. rewrite Hb in Hg. exact Hg. Qed.
