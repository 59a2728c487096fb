(** * Which calls leave the byte behind the consumed ones unread

    Auxiliary. *)

From Verif Require Import Base Utf8Model NumberModel SourceModel SourceProofs ReaderModel LookReader LookFuns.

(** the first step is a function which does not concern the peeked token *)
Lemma lk_any {A B : Type} (m : M A) (f : A -> M B) s K Q : any m ->
  (forall a s' K', peeked s' = peeked s -> lk (f a) s' K' Q) -> lk (bind m f) s K Q.
Proof. intros Hm Hf. eapply lk_bind; [apply Hm|]. cbv beta. intros a s' K' H. apply Hf. exact H. Qed.
Lemma lk_fresh {A B : Type} (m : M A) (f : A -> M B) s K Q : fresh m ->
  (forall a s', peeked s' = peeked s -> lk (f a) s' false Q) -> lk (bind m f) s K Q.
Proof. intros Hm Hf. eapply lk_bind; [apply Hm|]. cbv beta. intros a s' K' [H ->]. apply Hf. exact H. Qed.
Lemma lk_quiet {A B : Type} (m : M A) (f : A -> M B) s K Q : quiet m ->
  (forall a s', peeked s' = peeked s -> lk (f a) s' K Q) -> lk (bind m f) s K Q.
Proof. intros Hm Hf. eapply lk_bind; [apply Hm|]. cbv beta. intros a s' K' [H ->]. apply Hf. exact H. Qed.

Lemma linv_none s K : peeked s = None -> linv s K.
Proof. intros H p Hp. congruence. Qed.
Lemma linv_false s : linv s false.
Proof. intros p _ _. reflexivity. Qed.
Lemma linv_same s s' K : peeked s' = peeked s -> linv s K -> linv s' K.
Proof. intros H Hi p Hp. apply Hi. congruence. Qed.

(** ** Peeking *)

Lemma l_peek_token st b s K : lk (peek_token st b) s K (fun pa s' _ => peeked s' = peeked s /\ (one_byte (fst pa) = true -> snd pa = true)).
Proof.
  unfold peek_token.
  repeat match goal with
  | |- lk (if ?b then _ else _) _ _ _ => destruct b
  | |- lk (ret _) _ _ _ => apply lk_ret; split; [reflexivity|auto; discriminate]
  | |- lk (syntax_err _) _ _ _ => apply lk_syntax
  | |- lk (bind (consume_literal _) _) _ _ _ => apply lk_any; [apply l_literal|intros ? ? ? ?; apply lk_ret; split; [assumption|discriminate]]
  end.
Qed.

Definition peeks (op : option peeked_value) (s' : rstate) (K' : bool) : Prop := peeked s' = op /\ linv s' K'.

Lemma l_finish_peek E c comma p adv s K : (one_byte p = true -> adv = true) ->
  lk (finish_peek E c comma p adv) s K peeks.
Proof.
  intros Hp. unfold finish_peek. apply lk_any.
  { destruct (is_end_token p).
    - destruct comma as [[[l cc] b]|]; [|apply quiet_any, quiet_ret]. destruct (negb _); [|apply quiet_any, quiet_ret].
      apply any_bind; [apply quiet_any, quiet_update; reflexivity|intros ?; apply any_syntax].
    - destruct comma; [apply quiet_any, quiet_ret|]. destruct c; [apply any_syntax|apply quiet_any, quiet_ret]. }
  intros ? s1 K1 H1. destruct adv.
  - apply lk_fresh; [apply l_skip_byte|]. intros ? s2 H2. eapply lk_bind; [apply (lk_update _ _ _ (fun _ s' K' => peeked s' = Some p /\ K' = false)); split; reflexivity|].
    cbv beta. intros ? s3 K3 [H3 ->]. apply lk_ret. split; [exact H3|apply linv_false].
  - apply lk_quiet; [apply quiet_ret|]. intros ? s2 H2. eapply lk_bind; [apply (lk_update _ _ _ (fun _ s' K' => peeked s' = Some p)); reflexivity|].
    cbv beta. intros ? s3 K3 H3. apply lk_ret. split; [exact H3|]. intros q Hq Ho. exfalso. assert (q = p) by congruence. subst q. discriminate (Hp Ho).
Qed.

Lemma l_peek_after_ws E b s K : lk (peek_after_ws E b) s K peeks.
Proof.
  unfold peek_after_ws. apply lk_get_bind. destruct (b =? B_COMMA).
  - destruct (negb _); [apply lk_syntax|]. apply lk_fresh; [apply l_skip_byte|]. intros ? s1 H1.
    apply lk_quiet; [apply quiet_update; reflexivity|]. intros ? s2 H2. apply lk_any; [apply l_ws_no_eof|]. intros b' s3 K3 H3.
    eapply lk_bind; [apply l_peek_token|]. cbv beta. intros [p adv] s4 K4 [H4 Ha]. apply l_finish_peek. exact Ha.
  - eapply lk_bind; [apply l_peek_token|]. cbv beta. intros [p adv] s4 K4 [H4 Ha]. apply l_finish_peek. exact Ha.
Qed.

Lemma l_peek_optional E s K : linv s K -> lk (peek_internal_optional E) s K
  (fun op s' K' => peeks op s' K' /\ forall p, peeked s = Some p -> op = Some p /\ s' = s).
Proof.
  intros Hi. unfold peek_internal_optional. apply lk_get_bind, lk_misuse_bind. intros _. destruct (peeked s) as [p|] eqn:Hp.
  - apply lk_ret. split; [split; [exact Hp|exact Hi]|]. intros p' [= <-]. auto.
  - apply lk_misuse_bind. intros _. apply lk_any; [destruct (expects_member_value s); [apply l_after_name|apply quiet_any, quiet_ret]|].
    intros ? s1 K1 H1. apply lk_any; [apply l_ws|]. intros [b|] s2 K2 H2.
    + eapply lk_weak; [apply l_peek_after_ws|]. cbv beta. intros op s' K' H. split; [exact H|discriminate].
    + apply lk_ret. split; [|discriminate]. split; [congruence|apply linv_none; congruence].
Qed.

Lemma l_peek_internal E s K : linv s K -> lk (peek_internal E) s K
  (fun p s' K' => peeks (Some p) s' K' /\ forall q, peeked s = Some q -> p = q /\ s' = s).
Proof.
  intros Hi. unfold peek_internal. eapply lk_bind; [apply l_peek_optional; exact Hi|]. cbv beta. intros [p|] s1 K1 [[H1 H2] H3].
  - apply lk_ret. split; [split; assumption|]. intros q Hq. destruct (H3 q Hq) as [[= ->] ->]. auto.
  - apply lk_get_bind. destruct (_ && _)%bool; [|apply lk_syntax]. apply lk_fail, linv_none. exact H1.
Qed.

Definition type_of (p : peeked_value) : option value_type :=
  match p with
  | PkObjectStart => Some TObject
  | PkArrayStart => Some TArray
  | PkStringStart => Some TString
  | PkNumberStart => Some TNumber
  | PkNull => Some TNull
  | PkTrue | PkFalse => Some TBoolean
  | _ => None
  end.

Lemma l_map_peeked p s K : linv s K -> lk (map_peeked p) s K (fun t s' K' => s' = s /\ K' = K /\ type_of p = Some t).
Proof. intros Hi. destruct p; first [exact I|apply lk_ret; auto|apply lk_fail; exact Hi]. Qed.

Definition delimited (t : value_type) : bool := match t with TArray | TObject | TString => true | _ => false end.
Lemma delimited_one_byte p t : type_of p = Some t -> delimited t = true -> one_byte p = true.
Proof. destruct p; cbn; intros [= <-]; auto. Qed.

Lemma value_type_eqb_eq a b : value_type_eqb a b = true -> a = b.
Proof. destruct a, b; cbn; congruence. Qed.

Lemma l_start E t d s K : linv s K -> lk (start_expected_value_type E t d) s K
  (fun p s' K' => peeked s' = None /\ type_of p = Some t /\ (delimited t = true -> K' = false)).
Proof.
  intros Hi. unfold start_expected_value_type. apply lk_get_bind, lk_misuse_bind. intros _.
  eapply lk_bind; [apply l_peek_internal; exact Hi|]. cbv beta. intros p s1 K1 [[H1 H2] _].
  eapply lk_bind; [apply l_map_peeked; exact H2|]. cbv beta. intros t' s2 K2 (-> & -> & Ht).
  destruct (value_type_eqb t' t) eqn:He; [|apply lk_fail; exact H2]. apply value_type_eqb_eq in He. subst t'.
  apply lk_get_bind. destruct (if d then depth_exceeded E s1 else None); [apply lk_fail; exact H2|].
  eapply (lk_bind _ _ _ _ (fun _ s' K' => peeked s' = None /\ K' = K1)).
  { unfold consume_peeked. apply lk_get_bind. rewrite H1. apply lk_update. split; reflexivity. }
  cbv beta. intros ? s3 K3 [H3 ->]. apply lk_ret. split; [exact H3|]. split; [exact Ht|]. intros Hd.
  apply (H2 p H1). exact (delimited_one_byte p t Ht Hd).
Qed.

(** ** The methods *)

Definition keeps {A : Type} (m : M A) : Prop := forall s K, linv s K -> lk m s K (fun _ s' K' => linv s' K').
(** the token is not peeked any more *)
Definition takes {A : Type} (m : M A) : Prop := forall s K, linv s K -> lk m s K (fun _ s' _ => peeked s' = None).
(** and nothing behind it has been looked at *)
Definition closes {A : Type} (m : M A) : Prop := forall s K, linv s K -> lk m s K (fun _ s' K' => peeked s' = None /\ K' = false).

Lemma closes_takes {A : Type} (m : M A) : closes m -> takes m.
Proof. intros H s K Hi. eapply lk_weak; [apply H; exact Hi|]. cbv beta. intros a s' K' [H1 _]. exact H1. Qed.
Lemma takes_keeps {A : Type} (m : M A) : takes m -> keeps m.
Proof. intros H s K Hi. eapply lk_weak; [apply H; exact Hi|]. cbv beta. intros a s' K' H1. apply linv_none. exact H1. Qed.
Lemma closes_keeps {A : Type} (m : M A) : closes m -> keeps m.
Proof. intros H. apply takes_keeps, closes_takes, H. Qed.

Lemma keeps_ret {A : Type} (a : A) : keeps (ret a).
Proof. intros s K Hi. apply lk_ret. exact Hi. Qed.
Lemma keeps_bind {A B : Type} (m : M A) (f : A -> M B) : keeps m -> (forall a, keeps (f a)) -> keeps (bind m f).
Proof. intros Hm Hf s K Hi. eapply lk_bind; [apply Hm; exact Hi|]. cbv beta. intros a s' K' H. apply Hf. exact H. Qed.
Lemma closes_bind {A B : Type} (m : M A) (f : A -> M B) : keeps m -> (forall a, closes (f a)) -> closes (bind m f).
Proof. intros Hm Hf s K Hi. eapply lk_bind; [apply Hm; exact Hi|]. cbv beta. intros a s' K' H. apply Hf. exact H. Qed.
Lemma takes_bind {A B : Type} (m : M A) (f : A -> M B) : keeps m -> (forall a, takes (f a)) -> takes (bind m f).
Proof. intros Hm Hf s K Hi. eapply lk_bind; [apply Hm; exact Hi|]. cbv beta. intros a s' K' H. apply Hf. exact H. Qed.
Lemma keeps_get_bind {B : Type} (f : rstate -> M B) : (forall s, keeps (f s)) -> keeps (bind get_state f).
Proof. intros H s K Hi. apply lk_get_bind, H, Hi. Qed.
Lemma takes_quiet {A B : Type} (m : M A) (f : A -> M B) : takes m -> (forall a, any (f a)) -> takes (bind m f).
Proof.
  intros Hm Hf s K Hi. eapply lk_bind; [apply Hm; exact Hi|]. cbv beta. intros a s' K' H. eapply lk_weak; [apply Hf|]. cbv beta. congruence.
Qed.
Lemma closes_quiet {A B : Type} (m : M A) (f : A -> M B) : closes m -> (forall a, quiet (f a)) -> closes (bind m f).
Proof.
  intros Hm Hf s K Hi. eapply lk_bind; [apply Hm; exact Hi|]. cbv beta. intros a s' K' [H ->]. eapply lk_weak; [apply Hf|].
  cbv beta. intros b s2 K2 [H2 H3]. split; congruence.
Qed.
Lemma closes_fresh {A B : Type} (m : M A) (f : A -> M B) : takes m -> (forall a, fresh (f a)) -> closes (bind m f).
Proof.
  intros Hm Hf s K Hi. eapply lk_bind; [apply Hm; exact Hi|]. cbv beta. intros a s' K' H. eapply lk_weak; [apply Hf|].
  cbv beta. intros b s2 K2 [H2 H3]. split; congruence.
Qed.

Lemma l_start_takes E t d : takes (start_expected_value_type E t d).
Proof. intros s K Hi. eapply lk_weak; [apply l_start; exact Hi|]. cbv beta. intros p s' K' [H _]. exact H. Qed.
Lemma l_start_closes E t d : delimited t = true -> closes (start_expected_value_type E t d).
Proof. intros Ht s K Hi. eapply lk_weak; [apply l_start; exact Hi|]. cbv beta. intros p s' K' (H1 & _ & H3). auto. Qed.

Lemma l_container_start E t v : delimited t = true -> closes (on_container_start E t v).
Proof. intros Ht. unfold on_container_start. apply closes_quiet; [apply l_start_closes, Ht|intros ?; apply quiet_update; reflexivity]. Qed.
Lemma l_begin_array E : closes (begin_array E).
Proof. unfold begin_array. apply closes_quiet; [apply l_container_start; reflexivity|intros ?; apply quiet_update; reflexivity]. Qed.
Lemma l_begin_object E : closes (begin_object E).
Proof. unfold begin_object. apply closes_quiet; [apply l_container_start; reflexivity|intros ?; apply quiet_update; reflexivity]. Qed.

Lemma l_consume p s K : peeked s = Some p -> one_byte p = true -> linv s K -> lk consume_peeked s K (fun _ s' K' => peeked s' = None /\ K' = false).
Proof. intros Hp Ho Hi. unfold consume_peeked. apply lk_get_bind. rewrite Hp. apply lk_update. split; [reflexivity|]. exact (Hi p Hp Ho). Qed.

Lemma lk_misuse_keeps {B : Type} b (f : unit -> M B) : closes (f tt) -> closes (bind (misuse_if b) f).
Proof. intros H s K Hi. apply lk_misuse_bind. intros _. apply H. exact Hi. Qed.

Lemma l_end_array E : closes (end_array E).
Proof.
  intros s K Hi. unfold end_array. apply lk_get_bind, lk_misuse_bind. intros _.
  eapply lk_bind; [apply l_peek_internal; exact Hi|]. cbv beta. intros p s1 K1 [[H1 H2] _].
  destruct p; try (apply lk_fail; exact H2).
  eapply lk_bind; [apply (l_consume _ _ _ H1 eq_refl H2)|]. cbv beta. intros ? s2 K2 [H3 ->].
  eapply lk_weak; [apply l_container_end|]. cbv beta. intros ? s3 K3 [H4 ->]. split; congruence.
Qed.
Lemma l_end_object E : closes (end_object E).
Proof.
  intros s K Hi. unfold end_object. apply lk_get_bind, lk_misuse_bind. intros _. apply lk_misuse_bind. intros _.
  eapply lk_bind; [apply l_peek_internal; exact Hi|]. cbv beta. intros p s1 K1 [[H1 H2] _].
  destruct p; try (apply lk_fail; exact H2).
  eapply lk_bind; [apply (l_consume _ _ _ H1 eq_refl H2)|]. cbv beta. intros ? s2 K2 [H3 ->].
  apply lk_quiet; [apply quiet_update; reflexivity|]. intros ? s3 H4.
  eapply lk_weak; [apply l_container_end|]. cbv beta. intros ? s4 K4 [H5 ->]. split; congruence.
Qed.

Lemma l_peek E s K : linv s K -> lk (peek E) s K (fun t s' K' => linv s' K' /\ exists p, peeked s' = Some p /\ type_of p = Some t /\
  forall q, peeked s = Some q -> p = q).
Proof.
  intros Hi. unfold peek. apply lk_get_bind, lk_misuse_bind. intros _.
  eapply lk_bind; [apply l_peek_internal; exact Hi|]. cbv beta. intros p s1 K1 [[H1 H2] H3].
  eapply lk_weak; [apply l_map_peeked; exact H2|]. cbv beta. intros t s2 K2 (-> & -> & Ht). split; [exact H2|].
  exists p. split; [exact H1|]. split; [exact Ht|]. intros q Hq. apply H3. exact Hq.
Qed.
Lemma l_peek_keeps E : keeps (peek E).
Proof. intros s K Hi. eapply lk_weak; [apply l_peek; exact Hi|]. cbv beta. intros t s' K' [H _]. exact H. Qed.

Lemma l_has_next E s K : linv s K -> lk (has_next E) s K (fun h s' K' => linv s' K' /\
  (h = true -> expects_member_name s' = true -> peeked s' = Some PkNameStart)).
Proof.
  intros Hi. unfold has_next. apply lk_get_bind, lk_misuse_bind. intros _.
  eapply (lk_bind _ _ _ _ (fun op s' K' => peeked s' = op /\ linv s' K')).
  { destruct (stack s).
    - apply lk_misuse_bind. intros _. apply lk_misuse_bind. intros _. eapply lk_weak; [apply l_peek_optional; exact Hi|].
      cbv beta. intros op s' K' [H _]. exact H.
    - eapply lk_bind; [apply l_peek_internal; exact Hi|]. cbv beta. intros p s' K' [H _]. apply lk_ret. exact H. }
  cbv beta. intros [p|] s1 K1 [H1 H2]; [|apply lk_ret; split; [exact H2|discriminate]].
  apply lk_get_bind. destruct (expects_member_name s1) eqn:He; cbn [negb orb].
  - destruct p; try exact I; apply lk_ret; (split; [exact H2|]); [discriminate|auto].
  - apply lk_ret. split; [exact H2|congruence].
Qed.
Lemma l_has_next_keeps E : keeps (has_next E).
Proof. intros s K Hi. eapply lk_weak; [apply l_has_next; exact Hi|]. cbv beta. intros h s' K' [H _]. exact H. Qed.

(** [before_name] keeps [expects_member_name] until it has peeked *)
Lemma l_before_name E : takes (before_name E).
Proof.
  intros s K Hi. unfold before_name. apply lk_get_bind, lk_misuse_bind. intros _. apply lk_misuse_bind. intros _.
  eapply lk_bind; [apply l_has_next_keeps; exact Hi|]. cbv beta. intros h s1 K1 H1. destruct h; cbn [negb]; [|apply lk_fail; exact H1].
  apply lk_quiet; [apply quiet_update; reflexivity|]. intros ? s2 H2. unfold consume_peeked. apply lk_get_bind.
  destruct (peeked s2) as [p|]; [|exact I]. apply lk_update. reflexivity.
Qed.
Lemma l_path_name n : quiet (set_path_name n).
Proof.
  unfold set_path_name. apply quiet_bind; [apply quiet_get|intros s0]. destruct (json_path s0) as [[|[] ?]|];
    first [apply quiet_panics|apply quiet_ret|apply quiet_update; reflexivity].
Qed.
Lemma l_next_name_owned E : closes (next_name_owned E).
Proof.
  unfold next_name_owned. apply closes_fresh; [apply l_before_name|intros ?]. apply fresh_then; [apply l_read_string|intros ?].
  apply quiet_bind; [apply l_string|intros n]. apply quiet_bind; [apply l_path_name|intros ?]. apply quiet_ret.
Qed.
Lemma l_next_name E : closes (next_name E).
Proof.
  unfold next_name. apply closes_fresh; [apply l_before_name|intros ?]. apply fresh_then; [apply l_read_string|intros ?].
  apply quiet_bind; [apply quiet_get|intros s0]. apply quiet_bind; [|intros ?; apply l_str].
  destruct (json_path s0); [apply quiet_bind; [apply l_str_peek|intros n; apply l_path_name]|apply quiet_ret].
Qed.
Lemma l_skip_name E : closes (skip_name E).
Proof.
  unfold skip_name. apply closes_fresh; [apply l_before_name|intros ?]. apply fresh_bind; [apply quiet_any, quiet_get|intros s0].
  destruct (json_path s0); [|apply l_skip_string]. apply fresh_then; [apply l_read_string|intros ?].
  apply quiet_bind; [apply l_string|intros n; apply l_path_name].
Qed.

Lemma l_next_bool E : takes (next_bool E).
Proof.
  unfold next_bool. apply takes_quiet; [apply l_start_takes|intros p]. apply any_bind; [destruct p; first [apply any_panics|apply quiet_any, quiet_ret]|].
  intros ?. apply any_bind; [apply quiet_any, l_on_value_end|intros ?; apply quiet_any, quiet_ret].
Qed.
Lemma l_next_null E : takes (next_null E).
Proof. unfold next_null. apply takes_quiet; [apply l_start_takes|intros p; apply quiet_any, l_on_value_end]. Qed.
Lemma l_next_string E : closes (next_string E).
Proof.
  unfold next_string. apply closes_fresh; [apply l_start_takes|intros ?]. apply fresh_then; [apply l_read_string|intros ?].
  apply quiet_bind; [apply l_string|intros n]. apply quiet_bind; [apply l_on_value_end|intros ?]. apply quiet_ret.
Qed.
Lemma l_next_str E : closes (next_str E).
Proof.
  unfold next_str. apply closes_fresh; [apply l_start_takes|intros ?]. apply fresh_then; [apply l_read_string|intros ?].
  apply quiet_bind; [apply l_on_value_end|intros ?]. apply l_str.
Qed.

Lemma l_number_start E : takes (number_start E).
Proof.
  unfold number_start. apply takes_quiet; [apply l_start_takes|intros ?]. apply any_bind; [apply l_peek_byte|intros [b|]];
    [apply quiet_any, quiet_ret|apply any_panics].
Qed.
Lemma any_number_err {A : Type} n : any (fail (EUnsupportedNumber n) : M A).
Proof. intros s K. apply lk_number_err. Qed.
Lemma l_number_bytes E b : takes (read_number_bytes E b).
Proof.
  unfold read_number_bytes. apply takes_quiet; [apply l_number_start|intros fb]. apply any_bind; [apply quiet_any, l_value_new|intros ?].
  apply any_bind; [apply l_run_number, l_number_next|intros rc]. destruct (fst rc); [|apply any_syntax]. destruct (_ && _)%bool.
  - apply any_bind; [apply quiet_any, l_get|intros ?]. apply any_bind; [apply quiet_any, l_string|intros ?; apply any_number_err].
  - apply any_bind; [apply quiet_any, l_get|intros ?]. apply l_number_end.
Qed.
Lemma l_skip_number E : takes (skip_number E).
Proof.
  unfold skip_number. apply takes_quiet; [apply l_number_start|intros fb].
  apply any_bind; [apply l_run_number, l_number_skip_next|intros rc]. destruct (fst rc); [apply l_number_end|apply any_syntax].
Qed.
Lemma l_number_str E : takes (next_number_as_str E).
Proof. unfold next_number_as_str. apply takes_quiet; [apply l_number_bytes|intros ?; apply quiet_any, l_str]. Qed.
Lemma l_number_string E : takes (next_number_as_string E).
Proof. unfold next_number_as_string. apply takes_quiet; [apply l_number_bytes|intros ?; apply quiet_any, l_string]. Qed.

(** ** Skipping *)

Lemma takes_ret {A B : Type} (m : M A) (x : B) : takes m -> takes (m ;; ret x)%rm.
Proof. intros H. apply takes_quiet; [exact H|intros ?; apply quiet_any, quiet_ret]. Qed.

(** a container has been started, or a delimited scalar has been skipped, or another scalar *)
Lemma l_skip_value_start E s K : linv s K -> lk (skip_value_start E) s K (fun started s' K' => peeked s' = None /\
  (started = true -> K' = false) /\
  forall p t, peeked s = Some p -> type_of p = Some t -> delimited t = true -> K' = false).
Proof.
  intros Hi. unfold skip_value_start. eapply lk_bind; [apply l_peek; exact Hi|]. cbv beta. intros t s1 K1 (H1 & p & Hp & Ht & Hq).
  assert (Hc : forall (B : Type) (m : M B) x, closes m -> lk (m ;; ret x)%rm s1 K1 (fun started s' K' => peeked s' = None /\
    (started = true -> K' = false) /\ forall p t, peeked s = Some p -> type_of p = Some t -> delimited t = true -> K' = false)).
  { intros B m x Hm. eapply lk_bind; [apply Hm; exact H1|]. cbv beta. intros ? s2 K2 [H2 ->]. apply lk_ret. auto. }
  assert (Hc2 : forall (B : Type) (m : M B), delimited t = false -> takes m -> lk (m ;; ret false)%rm s1 K1 (fun started s' K' => peeked s' = None /\
    (started = true -> K' = false) /\ forall p t, peeked s = Some p -> type_of p = Some t -> delimited t = true -> K' = false)).
  { intros B m Hd Hm. eapply lk_bind; [apply Hm; exact H1|]. cbv beta. intros ? s2 K2 H2. apply lk_ret. split; [exact H2|]. split; [discriminate|].
    intros q t' Hpq Htq Hdq. rewrite <- (Hq q Hpq) in Htq. congruence. }
  destruct t.
  - apply Hc, l_begin_array.
  - apply Hc, l_begin_object.
  - eapply lk_bind; [apply (l_start_takes E TString false); exact H1|]. cbv beta. intros ? s2 K2 H2.
    apply lk_fresh; [apply l_skip_string|]. intros ? s3 H3. apply lk_quiet; [apply l_on_value_end|]. intros ? s4 H4. apply lk_ret.
    split; [congruence|]. auto.
  - apply Hc2; [reflexivity|apply l_skip_number].
  - apply Hc2; [reflexivity|apply l_next_bool].
  - apply Hc2; [reflexivity|apply l_next_null].
Qed.

Lemma l_end_container E : closes (end_container E).
Proof. intros s K Hi. unfold end_container. apply lk_get_bind. destruct (is_in_array s); [apply l_end_array|apply l_end_object]; exact Hi. Qed.

Lemma l_skip_loop E : forall f d, (d = O -> takes (skip_value_loop E f d)) /\ (d <> O -> closes (skip_value_loop E f d)).
Proof.
  induction f as [|f IH]; intros d; [split; intros _ s K _; exact I|].
  assert (H : forall s K, linv s K -> lk (skip_value_loop E (S f) d) s K (fun _ s' K' => peeked s' = None /\ (d <> O -> K' = false))).
  { intros s K Hi. cbn [skip_value_loop].
    eapply (lk_bind _ _ _ _ (fun h s' K' => linv s' K' /\ (d = O -> h = true))).
    { destruct d; [apply lk_ret; auto|]. eapply lk_weak; [apply l_has_next_keeps; exact Hi|]. cbv beta. intros h s' K' H. split; [exact H|discriminate]. }
    cbv beta. intros h s1 K1 [H1 Hd].
    assert (Hrec : forall d' s' K', peeked s' = None -> (d <> O -> d' <> O) -> d' <> O ->
      lk (skip_value_loop E f d') s' K' (fun _ s' K' => peeked s' = None /\ (d <> O -> K' = false))).
    { intros d' s' K' Hn _ Hd'. eapply lk_weak; [apply (proj2 (IH d') Hd'), linv_none, Hn|]. cbv beta. intros ? s2 K2 [H2 H3]. auto. }
    destruct h; cbn [negb].
    - eapply (lk_bind _ _ _ _ (fun d' s' K' => peeked s' = None /\ (d' = d \/ d' = S d))).
      + apply lk_get_bind. eapply (lk_bind _ _ _ _ (fun _ s' K' => linv s' K')).
        { destruct (expects_member_name s1); [apply closes_keeps; [apply l_skip_name|exact H1]|apply lk_ret; exact H1]. }
        cbv beta. intros ? s2 K2 H2. eapply lk_bind; [apply l_skip_value_start; exact H2|]. cbv beta. intros started s3 K3 (H3 & _).
        apply lk_ret. split; [exact H3|]. destruct started; auto.
      + cbv beta. intros d' s2 K2 [H2 H3]. destruct d' as [|d'].
        * apply lk_ret. split; [exact H2|]. intros Hn. exfalso. destruct H3; congruence.
        * apply Hrec; [exact H2|discriminate..].
    - eapply (lk_bind _ _ _ _ (fun d' s' K' => peeked s' = None /\ K' = false)).
      + eapply lk_bind; [apply l_end_container; exact H1|]. cbv beta. intros ? s2 K2 H2. apply lk_ret. exact H2.
      + cbv beta. intros d' s2 K2 [H2 ->]. destruct d' as [|d']; [apply lk_ret; auto|]. apply Hrec; [exact H2|discriminate..]. }
  split; intros Hd s K Hi; (eapply lk_weak; [apply H; exact Hi|]); cbv beta; intros ? s' K' [H1 H2]; auto.
Qed.

Lemma l_skip_value E : takes (skip_value E).
Proof. intros s K Hi. unfold skip_value. apply lk_get_bind, lk_misuse_bind. intros _. apply (proj1 (l_skip_loop E (fuel E) O) eq_refl). exact Hi. Qed.

(** a value which starts with a delimiter is skipped without looking behind it *)
Lemma l_skip_delimited E s K p t : linv s K -> peeked s = Some p -> type_of p = Some t -> delimited t = true ->
  lk (skip_value E) s K (fun _ s' K' => peeked s' = None /\ K' = false).
Proof.
  intros Hi Hp Ht Hd. unfold skip_value. apply lk_get_bind, lk_misuse_bind. intros Hm.
  destruct (fuel E) as [|f]; cbn [skip_value_loop]; [exact I|].
  eapply (lk_bind _ _ _ _ (fun h s' K' => h = true /\ s' = s /\ K' = K)); [apply lk_ret; auto|]. cbv beta. intros h s1 K1 (-> & -> & ->). cbn [negb].
  eapply (lk_bind _ _ _ _ (fun d' s' K' => peeked s' = None /\ K' = false)).
  - apply lk_get_bind. rewrite Hm. eapply (lk_bind _ _ _ _ (fun _ s' K' => s' = s /\ K' = K)); [apply lk_ret; auto|].
    cbv beta. intros ? s1 K1 (-> & ->). eapply lk_bind; [apply l_skip_value_start; exact Hi|]. cbv beta. intros st s2 K2 (H2 & _ & H3).
    apply lk_ret. split; [exact H2|]. exact (H3 p t Hp Ht Hd).
  - cbv beta. intros d' s2 K2 [H2 ->]. destruct d' as [|d']; [apply lk_ret; auto|].
    apply (proj2 (l_skip_loop E f (S d')) ltac:(discriminate)), linv_none, H2.
Qed.

Lemma l_skip_items E : forall f, keeps (skip_items E f).
Proof.
  induction f as [|f IH]; cbn [skip_items]; [intros s K _; exact I|]. apply keeps_bind; [apply l_has_next_keeps|intros h].
  destruct h; [|apply keeps_ret]. apply keeps_bind; [apply takes_keeps, l_skip_value|intros ?; apply IH].
Qed.
Lemma l_skip_members E : forall f, keeps (skip_members E f).
Proof.
  induction f as [|f IH]; cbn [skip_members]; [intros s K _; exact I|]. apply keeps_bind; [apply l_has_next_keeps|intros h].
  destruct h; [|apply keeps_ret]. apply keeps_bind; [apply closes_keeps, l_skip_name|intros ?].
  apply keeps_bind; [apply takes_keeps, l_skip_value|intros ?; apply IH].
Qed.
Lemma l_top_level_loop E : forall f, keeps (skip_to_top_level_loop E f).
Proof.
  induction f as [|f IH]; cbn [skip_to_top_level_loop]; [intros s K _; exact I|]. apply keeps_get_bind. intros s0.
  destruct (stack s0) as [|[] ?]; [apply keeps_ret|..].
  - apply keeps_bind; [apply l_skip_items|intros ?]. apply keeps_bind; [apply closes_keeps, l_end_array|intros ?; apply IH].
  - apply keeps_bind; [apply l_skip_members|intros ?]. apply keeps_bind; [apply closes_keeps, l_end_object|intros ?; apply IH].
Qed.
Lemma l_top_level E : keeps (skip_to_top_level E).
Proof.
  intros s K Hi. unfold skip_to_top_level. apply lk_get_bind, lk_misuse_bind. intros _. revert s K Hi.
  intros s K Hi. eapply lk_bind; [|cbv beta; intros ? s' K' H; apply l_top_level_loop; exact H].
  destruct (expects_member_value s); [apply takes_keeps; [apply l_skip_value|exact Hi]|apply lk_ret; exact Hi].
Qed.

Lemma l_seek_item E i : forall f n, keeps (seek_item E f i n).
Proof.
  induction f as [|f IH]; intros n; cbn [seek_item]; [intros s K _; exact I|]. apply keeps_bind; [apply l_has_next_keeps|intros h].
  destruct h; cbn [negb]; [|intros s K Hi; apply lk_fail; exact Hi]. destruct (n =? 0); [apply keeps_ret|].
  apply keeps_bind; [apply takes_keeps, l_skip_value|intros ?; apply IH].
Qed.
Lemma l_seek_member E n : forall f, closes (seek_member E f n).
Proof.
  induction f as [|f IH]; cbn [seek_member]; [intros s K _; exact I|]. apply closes_bind; [apply l_has_next_keeps|intros h].
  destruct h; cbn [negb]; [|intros s K Hi; apply lk_fail; exact Hi]. intros s K Hi.
  eapply lk_bind; [apply l_next_name; exact Hi|]. cbv beta. intros n' s1 K1 [H1 ->]. destruct (str_eqb n' n); [apply lk_ret; auto|].
  eapply lk_bind; [apply l_skip_value, linv_false|]. cbv beta. intros ? s2 K2 H2. apply IH, linv_none, H2.
Qed.
Lemma l_seek_pieces E : forall path, keeps (seek_pieces E path).
Proof.
  induction path as [|[i|n] path IH]; cbn [seek_pieces]; [apply keeps_ret|..].
  - apply keeps_bind; [apply closes_keeps, l_begin_array|intros ?]. apply keeps_bind; [apply l_seek_item|intros ?; apply IH].
  - apply keeps_bind; [apply closes_keeps, l_begin_object|intros ?]. apply keeps_bind; [apply closes_keeps, l_seek_member|intros ?; apply IH].
Qed.
Lemma l_seek_name E n : forall path, closes (seek_pieces E (path ++ [PName n])).
Proof.
  induction path as [|[i|n'] path IH]; cbn [seek_pieces app].
  - apply closes_bind; [apply closes_keeps, l_begin_object|intros ?]. apply closes_quiet; [apply l_seek_member|intros ?; apply quiet_ret].
  - apply closes_bind; [apply closes_keeps, l_begin_array|intros ?]. apply closes_bind; [apply l_seek_item|intros ?; apply IH].
  - apply closes_bind; [apply closes_keeps, l_begin_object|intros ?]. apply closes_bind; [apply closes_keeps, l_seek_member|intros ?; apply IH].
Qed.
Lemma l_seek_to E path : keeps (seek_to E path).
Proof. unfold seek_to. apply keeps_bind; [apply l_peek_keeps|intros ?; apply l_seek_pieces]. Qed.
Lemma l_seek_to_name E path n : closes (seek_to E (path ++ [PName n])).
Proof. unfold seek_to. apply closes_bind; [apply l_peek_keeps|intros ?; apply l_seek_name]. Qed.
Lemma l_seek_back_pieces E : forall path, path <> [] -> closes (seek_back_pieces E path).
Proof.
  assert (Hb : forall (m : M unit) path, closes m -> (path <> [] -> closes (seek_back_pieces E path)) ->
    closes (m ;; seek_back_pieces E path)%rm).
  { intros m path Hm IH. destruct path as [|x path]; [apply closes_quiet; [exact Hm|intros ?; apply quiet_ret]|].
    apply closes_bind; [apply closes_keeps, Hm|intros ?; apply IH; discriminate]. }
  induction path as [|[i|n] path IH]; intros Hn; [congruence|..]; cbn [seek_back_pieces].
  - apply closes_bind; [apply l_skip_items|intros ?]. apply Hb; [apply l_end_array|exact IH].
  - apply closes_bind; [apply l_skip_members|intros ?]. apply Hb; [apply l_end_object|exact IH].
Qed.
Lemma l_seek_back E path : path <> [] -> closes (seek_back E path).
Proof.
  intros Hn. apply l_seek_back_pieces. intros H. apply Hn. apply (f_equal (@rev _)) in H. rewrite rev_involutive in H. exact H.
Qed.
Lemma l_seek_back_keeps E path : keeps (seek_back E path).
Proof.
  destruct path as [|x path]; [apply keeps_ret|]. apply closes_keeps, l_seek_back. discriminate.
Qed.

(** ** String readers *)

Lemma l_next_string_reader E s K : linv s K -> lk (next_string_reader E) s K (fun sv s' K' => peeked s' = None /\ K' = false /\ sv_reached_end sv = false).
Proof.
  intros Hi. unfold next_string_reader. eapply lk_bind; [apply (l_start_closes E TString false eq_refl); exact Hi|]. cbv beta. intros ? s1 K1 [H1 ->].
  apply lk_quiet; [apply quiet_update; reflexivity|]. intros ? s2 H2. apply lk_ret. split; [congruence|auto].
Qed.

Lemma l_catch {A : Type} (m : M A) s K : fresh m -> lk (catch m) s K (fun r s' K' =>
  match r with inl _ => peeked s' = peeked s /\ K' = false | inr _ => True end).
Proof.
  intros H. unfold lk, catch. apply look_pbind. eapply look_impl; [apply H|]. intros [[a|e|k|] s'] K' Hs; cbn [look]; auto.
Qed.

(** the peeked token is left alone also if reading fails *)
Definition still {A : Type} (m : M A) : Prop := forall s K, look (m s) K (fun rs _ => peeked (snd rs) = peeked s).
Lemma still_bind {A B : Type} (m : M A) (f : A -> M B) : still m -> (forall a, still (f a)) -> still (bind m f).
Proof.
  intros Hm Hf s K. unfold bind. apply look_pbind. eapply look_impl; [apply Hm|]. intros [[a|e|k|] s'] K' H; cbn [snd] in H; try exact H.
  eapply look_impl; [apply Hf|]. cbv beta. intros rs K2 H2. congruence.
Qed.
Lemma still_ret {A : Type} (a : A) : still (ret a). Proof. intros s K. reflexivity. Qed.
Lemma still_fail {A : Type} e : still (fail e : M A). Proof. intros s K. reflexivity. Qed.
Lemma still_panics {A : Type} k : still (panics k : M A). Proof. intros s K. reflexivity. Qed.
Lemma still_no_fuel {A : Type} : still (no_fuel : M A). Proof. intros s K. reflexivity. Qed.
Lemma still_update f : (forall s, peeked (f s) = peeked s) -> still (update f). Proof. intros H s K. apply H. Qed.
Lemma still_read k : still (read_byte k).
Proof.
  unfold read_byte. apply still_bind; [intros s K [e| |b]; reflexivity|]. intros [b|]; [|apply still_fail].
  apply still_bind; [intros s K; reflexivity|intros ?; apply still_ret].
Qed.
Ltac stl := repeat match goal with
  | |- still (bind _ _) => apply still_bind; [|intros ?]
  | |- still (read_byte _) => apply still_read
  | |- still (if ?b then _ else _) => destruct b
  | |- still (match ?x with _ => _ end) => destruct x
  | |- still (ret _) => apply still_ret
  | |- still (fail _) => apply still_fail
  | |- still (syntax_err _) => apply still_fail
  | |- still (panics _) => apply still_panics
  | |- still (update _) => apply still_update; reflexivity
  | |- still (read_hex_byte _) => unfold read_hex_byte
  | |- still (char_from_u32 _) => unfold char_from_u32
  | |- still (read_unicode_escape _) => unfold read_unicode_escape
  end.
Lemma still_string_bytes : still read_string_bytes.
Proof. unfold read_string_bytes, read_unicode_escape_char, read_utf8_multibyte. stl. Qed.

Lemma l_catch_still {A : Type} (m : M A) s K : fresh m -> still m -> lk (catch m) s K (fun r s' K' =>
  peeked s' = peeked s /\ match r with inl _ => K' = false | inr _ => True end).
Proof.
  intros H Hs. assert (H2 : look (m s) K (fun rs K' => peeked (snd rs) = peeked s /\ match fst rs with Ok _ => K' = false | _ => True end)).
  { generalize (H s K) (Hs s K). unfold lk. generalize (m s). clear. intros p. revert K.
    induction p; cbn [look]; intros K0 Ha Hb; auto. destruct a as [[x|e|k|] s']; cbn [fst snd] in *; tauto. }
  unfold lk, catch. apply look_pbind. eapply look_impl; [exact H2|]. intros [[a|e|k|] s'] K' [H3 H4]; cbn [look fst snd] in *; auto.
Qed.

Definition sv_linv (s : rstate) (sv : sv_state) (K : bool) : Prop := peeked s = None /\ (sv_reached_end sv = true -> K = false).

Lemma l_sv_loop : forall f len out sv s K, peeked s = None -> sv_reached_end sv = false ->
  lk (sv_read_loop f len out sv) s K (fun r s' K' => sv_linv s' (snd r) K' /\
    (forall bs, fst r = inl bs -> (length bs < len)%nat -> sv_reached_end (snd r) = true)).
Proof.
  assert (Hret : forall len out sv s K, peeked s = None -> sv_reached_end sv = false -> Nat.ltb (length out) len = false ->
    lk (ret (inl out, sv) : M ((bytes + reader_error) * sv_state)) s K (fun r s' K' => sv_linv s' (snd r) K' /\
    (forall bs, fst r = inl bs -> (length bs < len)%nat -> sv_reached_end (snd r) = true))).
  { intros len out sv s K Hp He Hl. apply lk_ret. split; [split; [exact Hp|cbn; congruence]|]. intros bs [= <-] Hlt. apply Nat.ltb_ge in Hl. lia. }
  induction f as [|f IH]; intros len out sv s K Hp He; cbn [sv_read_loop]; (destruct (Nat.ltb (length out) len) eqn:Hl; [|apply Hret; assumption]); [exact I|].
  destruct (negb _); [exact I|]. eapply lk_bind; [apply l_catch_still; [apply l_string_bytes|apply still_string_bytes]|]. cbv beta. intros [[re bs]|e] s1 K1 [H1 H2].
  - destruct (Nat.ltb _ (length _)); [exact I|]. subst K1. destruct re.
    + apply lk_quiet; [apply quiet_update; reflexivity|]. intros ? s2 H3. apply lk_quiet; [apply l_on_value_end|]. intros ? s3 H4.
      apply lk_ret. split; [split; [congruence|auto]|]. auto.
    + apply IH; [congruence|reflexivity].
  - apply lk_ret. split; [split; [congruence|cbn; congruence]|]. cbn. discriminate.
Qed.

Lemma l_sv_read E len sv s K : sv_linv s sv K -> lk (sv_read E len sv) s K (fun r s' K' => sv_linv s' (snd r) K' /\
  (forall bs, fst r = inl bs -> (length bs < len)%nat -> K' = false)).
Proof.
  intros Hi. unfold sv_read. destruct (sv_error sv); [apply lk_ret; split; [exact Hi|discriminate]|].
  eapply (lk_bind _ _ _ _ (fun r s' K' => sv_linv s' (snd r) K' /\ (forall bs, fst r = inl bs -> (length bs < len)%nat -> sv_reached_end (snd r) = true))).
  { unfold sv_read_impl. destruct (sv_reached_end sv) eqn:He; cbn [orb].
    - apply lk_ret. split; [exact Hi|auto].
    - destruct (Nat.eqb len 0) eqn:Hz; [apply Nat.eqb_eq in Hz; apply lk_ret; split; [exact Hi|intros; lia]|].
      destruct Hi as [Hp _]. apply l_sv_loop; [exact Hp|]. match goal with |- context [if ?b then _ else _] => destruct b end; reflexivity. }
  cbv beta. intros [[bs|e] sv'] s1 K1 [H1 H2]; apply lk_ret; (split; [exact H1|]); cbn [fst snd] in *; [|discriminate].
  intros bs' [= <-] Hl. apply H1. exact (H2 bs eq_refl Hl).
Qed.
