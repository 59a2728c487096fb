(** * The model of the reader agrees with the functions of [ReaderMid] *)

From Verif Require Import Base Utf8Model Utf8Proofs NumberModel SourceModel ReaderModel ReaderScan ReaderLex
  ReaderLexStr ReaderMid.

(** ** Positions do not affect the other fields *)

Lemma move_shape w s : exists l c b, move w s = set_position l c b s.
Proof.
  unfold move, movecr, at_pos. destruct (fold_left _ _ _) as [[[l c] b] cr]. eauto.
Qed.

Ltac by_move_shape w s := let l := fresh in let c := fresh in let b := fresh in let H := fresh in
  destruct (move_shape w s) as (l & c & b & H); rewrite H; reflexivity.

Lemma peeked_move w s : peeked (move w s) = peeked s. Proof. by_move_shape w s. Qed.
Lemma is_empty_move w s : is_empty (move w s) = is_empty s. Proof. by_move_shape w s. Qed.
Lemma expects_name_move w s : expects_member_name (move w s) = expects_member_name s. Proof. by_move_shape w s. Qed.
Lemma stack_move w s : stack (move w s) = stack s. Proof. by_move_shape w s. Qed.
Lemma active_move w s : string_reader_active (move w s) = string_reader_active s. Proof. by_move_shape w s. Qed.
Lemma path_move w s : json_path (move w s) = json_path s. Proof. by_move_shape w s. Qed.
Lemma in_array_move w s : is_in_array (move w s) = is_in_array s. Proof. by_move_shape w s. Qed.
Lemma in_object_move w s : is_in_object (move w s) = is_in_object s. Proof. by_move_shape w s. Qed.
Lemma expects_value_move w s : expects_member_value (move w s) = expects_member_value s. Proof. by_move_shape w s. Qed.
Lemma behind_move w s : is_behind_top_level (move w s) = is_behind_top_level s. Proof. by_move_shape w s. Qed.

#[export] Hint Rewrite peeked_move is_empty_move expects_name_move stack_move active_move path_move
  in_array_move in_object_move expects_value_move behind_move : mv.

(** ** Agreement *)

Definition does {A : Type} (m : M A) (s : rstate) (r : bytes) (t : tail_end) (o : mres A) : Prop :=
  forall kn,
  match o with
  | MOk x s' r' => exists kn', exec m s (At r t kn) = Some ((Ok x, s'), At r' t kn')
  | MErr e s' r' =>
    recoverable e = true /\ exists kn', exec m s (At r t kn) = Some ((Err e, s'), At r' t kn')
  | MFail None => fails m s (At r t kn)
  | MFail (Some n) => exists l s' a', exec m s (At r t kn) = Some ((Err (EUnsupportedNumber n l), s'), a')
  | MMisuse => exists s' a', exec m s (At r t kn) = Some ((Panic Misuse, s'), a')
  | MBug => True
  end.

Definition agree {A : Type} (t : tail_end) (m : M A) (d : D A) : Prop := forall s r, does m s r t (d s r).

Lemma agree_ret {A : Type} t (x : A) : agree t (ret x) (dret x).
Proof. intros s r kn. exists kn. reflexivity. Qed.

Lemma agree_bind {A B : Type} t (m : M A) (d : D A) (f : A -> M B) (g : A -> D B) :
  agree t m d -> (forall x, agree t (f x) (g x)) -> agree t (bind m f) (dbind d g).
Proof.
  intros Hm Hf s r kn. specialize (Hm s r kn). unfold dbind. destruct (d s r) as [x s' r'|e s' r'|[n|]| |].
  - destruct Hm as (kn' & Hm). specialize (Hf x s' r' kn').
    destruct (g x s' r') as [y s2 r2|e s2 r2|[n|]| |]; try exact I.
    + destruct Hf as (kn2 & Hf). exists kn2. rewrite (exec_bind_ok _ _ _ _ _ _ _ Hm). exact Hf.
    + destruct Hf as (Hr & kn2 & Hf). split; [exact Hr|]. exists kn2.
      rewrite (exec_bind_ok _ _ _ _ _ _ _ Hm). exact Hf.
    + destruct Hf as (l & s3 & a3 & Hf). exists l, s3, a3. rewrite (exec_bind_ok _ _ _ _ _ _ _ Hm). exact Hf.
    + exact (fails_bind_ok _ _ _ _ _ _ _ Hm Hf).
    + destruct Hf as (s3 & a3 & Hf). exists s3, a3. rewrite (exec_bind_ok _ _ _ _ _ _ _ Hm). exact Hf.
  - destruct Hm as (Hr & kn' & Hm). split; [exact Hr|]. exists kn'. rewrite exec_bind, Hm. reflexivity.
  - destruct Hm as (l & s3 & a3 & Hm). exists l, s3, a3. rewrite exec_bind, Hm. reflexivity.
  - apply fails_bind. exact Hm.
  - destruct Hm as (s3 & a3 & Hm). exists s3, a3. rewrite exec_bind, Hm. reflexivity.
  - exact I.
Qed.

Lemma agree_get t : agree t get_state dget.
Proof. intros s r kn. exists kn. reflexivity. Qed.
Lemma agree_update t f : agree t (update f) (dupdate f).
Proof. intros s r kn. exists kn. reflexivity. Qed.
Lemma agree_structure {A : Type} t k : agree t (@structure_err A k) (dstructure k).
Proof. intros s r kn. split; [reflexivity|]. exists kn. reflexivity. Qed.
Lemma agree_type {A : Type} t a b : agree t (@fail A (EUnexpectedType a b)) (derr (EUnexpectedType a b)).
Proof. intros s r kn. split; [reflexivity|]. exists kn. reflexivity. Qed.
Lemma agree_depth {A : Type} t m : agree t (@fail A (EMaxNestingDepth m)) (derr (EMaxNestingDepth m)).
Proof. intros s r kn. split; [reflexivity|]. exists kn. reflexivity. Qed.
Lemma agree_syntax {A : Type} t k : agree t (@syntax_err A k) dfail.
Proof. intros s r kn. apply fails_syntax. Qed.
Lemma agree_misuse_if t b : agree t (misuse_if b) (dmisuse_if b).
Proof. destruct b; intros s r kn; [eexists _, _; reflexivity|exists kn; reflexivity]. Qed.
Lemma agree_misuse {A : Type} t : agree t (@panics A Misuse) dmisuse.
Proof. intros s r kn. eexists _, _. reflexivity. Qed.
Lemma agree_bug {A : Type} t (m : M A) : agree t m dbug.
Proof. intros s r kn. exact I. Qed.

#[export] Hint Resolve agree_ret agree_get agree_update agree_structure agree_type agree_depth agree_syntax
  agree_misuse_if agree_misuse agree_bug : agree.

Ltac ag :=
  repeat first
    [ progress intros
    | solve [auto with agree]
    | apply agree_bind
    | match goal with
      | |- agree _ (match ?x with _ => _ end) _ => destruct x
      end ].

(** ** Lexical functions *)

Lemma agree_ws E t : agree t (skip_whitespace E None) (d_ws E t).
Proof.
  intros s r kn. pose proof (skip_whitespace_ex E None s r t kn) as H. unfold d_ws.
  destruct (ws_scan E t None r) as [[w r']| |]; [|exact H|exact I]. exists true. exact H.
Qed.

Lemma agree_after_name E t : agree t (after_name E) (d_after_name E t).
Proof.
  intros s r kn. pose proof (skip_whitespace_no_eof_ex E MissingColon s r t kn) as H.
  unfold d_after_name, after_name.
  destruct (ws_scan E t (Some MissingColon) r) as [[w [|b r']]| |]; [contradiction| |apply fails_bind; exact H|exact I].
  destruct (b =? B_COLON) eqn:Eb.
  - exists false. step H. rewrite Eb. step skip_some. reflexivity.
  - step H. rewrite Eb. apply fails_syntax.
Qed.

Lemma literal_ex lit p t s r1 b :
  match lit_token lit p (is_eof t) (b :: r1) with
  | Some (p', r3) => p' = p /\
    exec (consume_literal lit ;; ret (p, false))%rm s (At (b :: r1) t true) = Some ((Ok (p, false), s), At r3 t true)
  | None => fails (consume_literal lit ;; ret (p, false))%rm s (At (b :: r1) t true)
  end.
Proof.
  pose proof (consume_literal_ex lit s (b :: r1) t true) as H. unfold lit_token.
  destruct (strip lit (b :: r1)) as [r'|]; [|apply fails_bind; exact H].
  destruct (sep_ok (is_eof t) r'); [|apply fails_bind; exact H].
  split; [reflexivity|]. step H. reflexivity.
Qed.

Lemma peek_token_ex s t b r1 s1 :
  match token (expects_member_name s) (is_in_array s) (is_eof t) (b :: r1) with
  | Some (p, r3) => exists adv : bool,
    exec (peek_token s b) s1 (At (b :: r1) t true) =
    Some ((Ok (p, adv), s1), At (if adv then b :: r1 else r3) t true) /\ (adv = true -> r1 = r3)
  | None => fails (peek_token s b) s1 (At (b :: r1) t true)
  end.
Proof.
  unfold token, peek_token.
  repeat match goal with
  | |- context [lit_token ?l ?p _ _] =>
    pose proof (literal_ex l p t s1 r1 b) as H; destruct (lit_token l p (is_eof t) (b :: r1)) as [[p' r']|];
    [destruct H as (-> & H); exists false; split; [exact H|discriminate]|exact H]
  | |- context [if ?c then _ else _] => destruct c; cbn [negb]
  end; try apply fails_syntax; try (exists true; split; [reflexivity|auto; fail]).
  exists false. split; [reflexivity|discriminate].
Qed.

Lemma agree_fresh E t : agree t
  (ob <- skip_whitespace E None ;; match ob with None => ret None | Some b => peek_after_ws E b end)%rm
  (d_fresh E t).
Proof.
  intros s r kn. pose proof (skip_whitespace_ex E None s r t kn) as H. unfold d_fresh.
  destruct (ws_scan E t None r) as [[w [|b r1]]| |]; [| |apply fails_bind; exact H|exact I].
  { exists true. step H. reflexivity. }
  cbn [hd_error] in H. unfold peek_after_ws.
  set (s1 := move w s) in *.
  assert (Hc : negb (is_empty s1) && (is_in_array s1 || expects_member_name s1) = can_have_comma s).
  { unfold s1, can_have_comma. autorewrite with mv. reflexivity. }
  assert (Ha : is_in_array s1 = is_in_array s) by (unfold s1; autorewrite with mv; reflexivity).
  assert (Hn : expects_member_name s1 = expects_member_name s) by (unfold s1; autorewrite with mv; reflexivity).
  destruct (b =? B_COMMA) eqn:Eb.
  - destruct (can_have_comma s) eqn:Ec; cbn [negb].
    2:{ step H. step get_ok. rewrite Eb, Hc. apply fails_syntax. }
    pose proof (skip_whitespace_no_eof_ex E IncompleteDocument (advance 1 1 s1) r1 t false) as H2.
    destruct (ws_scan E t (Some IncompleteDocument) r1) as [[w2 [|b2 r2]]| |]; [contradiction| | |exact I].
    2:{ step H. step get_ok. rewrite Eb, Hc. cbn [negb]. step skip_some. step update_ok.
        apply fails_bind. exact H2. }
    pose proof (peek_token_ex s1 t b2 r2 (move w2 (advance 1 1 s1))) as H3. rewrite Hn, Ha in H3.
    destruct (token _ _ _ (b2 :: r2)) as [[p r3]|].
    2:{ step H. step get_ok. rewrite Eb, Hc. cbn [negb]. step skip_some. step update_ok. step H2.
        apply fails_bind. exact H3. }
    destruct H3 as (adv & H3 & Hadv).
    destruct (is_end_token p) eqn:Ep; cbn [andb].
    + destruct (allow_trailing_comma (cfg E)) eqn:Etc; cbn [negb].
      * exists (negb adv). step H. step get_ok. rewrite Eb, Hc. cbn [negb]. step skip_some. step update_ok. step H2.
        step H3. unfold finish_peek. cbn [fst snd]. rewrite Ep, Etc. cbn [negb fst snd]. step ret_ok.
        destruct adv; [rewrite <- Hadv by reflexivity; step skip_some|step ret_ok]; step update_ok; reflexivity.
      * step H. step get_ok. rewrite Eb, Hc. cbn [negb]. step skip_some. step update_ok. step H2.
        step H3. unfold finish_peek. cbn [fst snd]. rewrite Ep, Etc. cbn [negb fst snd]. apply fails_bind. step update_ok.
        apply fails_syntax.
    + exists (negb adv). step H. step get_ok. rewrite Eb, Hc. cbn [negb]. step skip_some. step update_ok. step H2.
      step H3. unfold finish_peek. cbn [fst snd]. rewrite Ep. cbn [negb fst snd]. step ret_ok.
      destruct adv; [rewrite <- Hadv by reflexivity; step skip_some|step ret_ok]; step update_ok; reflexivity.
  - pose proof (peek_token_ex s1 t b r1 s1) as H3. rewrite Hn, Ha in H3.
    destruct (token _ _ _ (b :: r1)) as [[p r3]|].
    2:{ step H. step get_ok. rewrite Eb. apply fails_bind. exact H3. }
    destruct H3 as (adv & H3 & Hadv).
    destruct (is_end_token p) eqn:Ep; cbn [negb andb].
    + exists (negb adv). step H. step get_ok. rewrite Eb. step H3. unfold finish_peek. cbn [fst snd]. rewrite Ep. cbn [fst snd]. step ret_ok.
      destruct adv; [rewrite <- Hadv by reflexivity; step skip_some|step ret_ok]; step update_ok; reflexivity.
    + destruct (can_have_comma s) eqn:Ec.
      * step H. step get_ok. rewrite Eb. step H3. unfold finish_peek. cbn [fst snd]. rewrite Ep, Hc. apply fails_bind. apply fails_syntax.
      * exists (negb adv). step H. step get_ok. rewrite Eb. step H3. unfold finish_peek. cbn [fst snd]. rewrite Ep, Hc. cbn [fst snd]. step ret_ok.
        destruct adv; [rewrite <- Hadv by reflexivity; step skip_some|step ret_ok]; step update_ok; reflexivity.
Qed.
#[export] Hint Resolve agree_ws agree_after_name agree_fresh : agree.

Lemma agree_peek_optional E t : agree t (peek_internal_optional E) (d_peek_optional E t).
Proof. unfold peek_internal_optional, d_peek_optional. ag. Qed.
#[export] Hint Resolve agree_peek_optional : agree.

Lemma agree_peek_internal E t : agree t (peek_internal E) (d_peek_internal E t).
Proof. unfold peek_internal, d_peek_internal. ag. Qed.
#[export] Hint Resolve agree_peek_internal : agree.

Lemma agree_map_peeked t p : agree t (map_peeked p) (d_map_peeked p).
Proof. destruct p; cbn [map_peeked d_map_peeked]; ag. Qed.
Lemma agree_consume_peeked t : agree t consume_peeked d_consume_peeked.
Proof. unfold consume_peeked, d_consume_peeked. ag. Qed.
#[export] Hint Resolve agree_map_peeked agree_consume_peeked : agree.

Lemma agree_start E t e c : agree t (start_expected_value_type E e c) (d_start E t e c).
Proof. unfold start_expected_value_type, d_start. ag. Qed.
#[export] Hint Resolve agree_start : agree.
Lemma agree_container_start E t e v : agree t (on_container_start E e v) (d_on_container_start E t e v).
Proof. unfold on_container_start, d_on_container_start. ag. Qed.
Lemma agree_value_end t : agree t on_value_end d_on_value_end.
Proof. unfold on_value_end, d_on_value_end. ag. Qed.
#[export] Hint Resolve agree_container_start agree_value_end : agree.
Lemma agree_container_end t : agree t on_container_end d_on_container_end.
Proof. unfold on_container_end, d_on_container_end. ag. Qed.
#[export] Hint Resolve agree_container_end : agree.

(** ** Strings and numbers *)

Lemma got_string r t kn d v bo s : from_utf8 d = Some v ->
  exec value_string s (Got r t kn d bo) = Some ((Ok v, s), At r t kn).
Proof.
  intros H. unfold exec, value_string, Got. cbn [arun a_vstring a_mode a_failed a_rest a_tail a_known]. rewrite H. reflexivity.
Qed.
Lemma got_str r t kn d v s : from_utf8 d = Some v ->
  exec value_str s (Got r t kn d true) = Some ((Ok v, s), At r t kn).
Proof.
  intros H. unfold exec, value_str, Got. cbn [arun a_vstr a_mode a_failed a_rest a_tail a_known]. rewrite H. reflexivity.
Qed.
Lemma got_str_peek r t kn d v s : from_utf8 d = Some v ->
  exec value_str_peek s (Got r t kn d true) = Some ((Ok v, s), Got r t kn d true).
Proof.
  intros H. unfold exec, value_str_peek, Got. cbn [arun a_vstr_peek a_mode a_failed]. rewrite H. reflexivity.
Qed.

Lemma exec_assoc {A B C : Type} (m : M A) (f : A -> M B) (g : B -> M C) s a :
  exec (bind (bind m f) g) s a = exec (bind m (fun x => bind (f x) g)) s a.
Proof.
  rewrite exec_bind, !(exec_bind m). destruct (exec m s a) as [[[[x|e|k|] s'] a']|]; try reflexivity.
  rewrite exec_bind. reflexivity.
Qed.

Lemma agree_ext {A : Type} t (m m' : M A) d : (forall s a, exec m s a = exec m' s a) -> agree t m' d -> agree t m d.
Proof.
  intros He H s r kn. specialize (H s r kn). destruct (d s r) as [x s' r'|e s' r'|[n|]| |]; try rewrite He; auto.
  destruct H as (e & s' & a' & H & Ha). exists e, s', a'. rewrite He. auto.
Qed.

Lemma agree_assoc {A B C : Type} t (m : M A) (f : A -> M B) (g : B -> M C) d :
  agree t (bind m (fun x => bind (f x) g)) d -> agree t (bind (bind m f) g) d.
Proof. apply agree_ext. intros. apply exec_assoc. Qed.

(** Functions which only use the state *)
Definition pure_agree {A : Type} (m : M A) (d : D A) : Prop := forall s r,
  match d s r with
  | MOk x s' r' => r' = r /\ forall a, exec m s a = Some ((Ok x, s'), a)
  | MBug => True
  | _ => False
  end.

Lemma value_end_pure : pure_agree on_value_end d_on_value_end.
Proof.
  intros s r. unfold d_on_value_end, dbind, dget, dupdate, dret, dbug.
  destruct (is_in_array s) eqn:Ea.
  - destruct (json_path s) as [[|[i|n] l]|] eqn:Ep; try exact I; split; try reflexivity; intros a;
      unfold on_value_end; step get_ok; rewrite Ea, Ep; step update_ok || step ret_ok; reflexivity.
  - split; [reflexivity|]. intros a. unfold on_value_end. step get_ok. rewrite Ea. step ret_ok. reflexivity.
Qed.

Lemma set_path_name_pure name : pure_agree (set_path_name name) (d_set_path_name name).
Proof.
  intros s r. unfold d_set_path_name, dbind, dget, dupdate, dret, dbug, set_path_name.
  destruct (json_path s) as [[|[i|n] l]|] eqn:Ep; try exact I; split; try reflexivity; intros a;
    step get_ok; rewrite Ep; reflexivity.
Qed.

Lemma agree_set_path_name t name : agree t (set_path_name name) (d_set_path_name name).
Proof. unfold set_path_name, d_set_path_name. ag. Qed.
#[export] Hint Resolve agree_set_path_name : agree.

Lemma agree_string E t bo : agree t (read_string E bo ;; value_string)%rm (d_string E).
Proof.
  intros s r kn. pose proof (read_string_ex E bo s r t kn) as H. unfold d_string.
  destruct (scan_string (fuel E) r) as [[[d w] r']| |]; [|apply fails_bind; exact H|exact I].
  destruct (from_utf8 d) as [v|] eqn:Ed; [|exact I]. exists false. step H. apply got_string. exact Ed.
Qed.

Lemma agree_string_bind {A : Type} E t (f : str -> M A) g : (forall v, agree t (f v) (g v)) ->
  agree t (read_string E false ;; v <- value_string ;; f v)%rm (dbind (d_string E) g).
Proof.
  intros H. apply (agree_ext t _ (bind (read_string E false ;; value_string) f)%rm).
  - intros s a. rewrite exec_assoc. reflexivity.
  - apply agree_bind; [apply agree_string|exact H].
Qed.

Lemma agree_skip_string E t : agree t (skip_all_string_bytes E) (d_skip_string E).
Proof.
  intros s r kn. pose proof (skip_all_string_ex (fuel E) s r t kn) as H. unfold d_skip_string, skip_all_string_bytes.
  destruct (scan_string (fuel E) r) as [[[d w] r']| |]; [|exact H|exact I]. exists false. exact H.
Qed.
#[export] Hint Resolve agree_skip_string : agree.

(** The result of the pure part [d] on [Got] states, then [value_str] *)
Lemma agree_next_str_tail E t : agree t (read_string E true ;; on_value_end ;; value_str)%rm
  (dbind (d_string E) (fun v => dbind d_on_value_end (fun _ => dret v))).
Proof.
  intros s r kn. pose proof (read_string_ex E true s r t kn) as H. unfold d_string, dbind.
  destruct (scan_string (fuel E) r) as [[[d w] r']| |]; [|apply fails_bind; exact H|exact I].
  destruct (from_utf8 d) as [v|] eqn:Ed; [|exact I].
  pose proof (value_end_pure (move w s) r') as Hp.
  destruct (d_on_value_end (move w s) r') as [x s2 r2|e s2 r2|n| |]; try contradiction; [|exact I].
  destruct Hp as (-> & Hp). exists false. step H. step Hp. apply got_str. exact Ed.
Qed.

Lemma agree_next_name_tail E t : agree t
  (read_string E true ;; s <- get_state ;;
   match json_path s with Some _ => name <- value_str_peek ;; set_path_name name | None => ret tt end ;; value_str)%rm
  (dbind (d_string E) (fun v => dbind (d_set_path_name v) (fun _ => dret v))).
Proof.
  intros s r kn. pose proof (read_string_ex E true s r t kn) as H. unfold d_string, dbind.
  destruct (scan_string (fuel E) r) as [[[d w] r']| |]; [|apply fails_bind; exact H|exact I].
  destruct (from_utf8 d) as [v|] eqn:Ed; [|exact I].
  pose proof (set_path_name_pure v (move w s) r') as Hp.
  destruct (d_set_path_name v (move w s) r') as [x s2 r2|e s2 r2|n| |] eqn:Es; try contradiction; [|exact I].
  destruct Hp as (-> & Hp). exists false. step H. step get_ok.
  destruct (json_path (move w s)) as [pp|] eqn:Ep.
  - rewrite exec_assoc. step (got_str_peek _ _ _ _ _ _ Ed). step Hp. apply got_str. exact Ed.
  - unfold d_set_path_name, dbind, dget, dret in Es. rewrite Ep in Es. injection Es as <- <-.
    step ret_ok. apply got_str. exact Ed.
Qed.

Lemma agree_next_name_owned E t : forall b d, agree t b d ->
  agree t (b ;; read_string E false ;; name <- value_string ;; set_path_name name ;; ret name)%rm
    (dbind d (fun _ : unit => dbind (d_string E) (fun v => dbind (d_set_path_name v) (fun _ => dret v)))).
Proof. intros b d H. apply agree_bind; [exact H|]. intros _. apply agree_string_bind. ag. Qed.

(** *** Numbers *)

Definition byte_text (w : bytes) : Prop := Forall (fun b => is_1byte b = true) w.

Lemma vget_ok bo r t kn acc s :
  exec (value_get bo) s (Av r t kn acc false) = Some ((Ok tt, s), Got r t kn acc bo).
Proof. reflexivity. Qed.

Definition number_tail (E : env) (bo : bool) : M unit :=
  (first_byte <- (ob <- peek_byte ;; match ob with Some b => ret b | None => panics Bug end) ;;
   value_reader_new ;;
   rc <- run_number number_next (consume_json_number (fuel E) first_byte) 0 ;;
   match fst rc with
   | None => syntax_err MalformedNumber
   | Some exponent_digits_count =>
     if restrict_number_values (cfg E) && ((2 <? exponent_digits_count) || (100 <? snd rc)) then
       value_get false ;;
       number <- value_string ;;
       fail (EUnsupportedNumber number)
     else
       value_get bo ;;
       number_end_checks (snd rc)
   end)%rm.

Definition get_str (bo : bool) : M str := if bo then value_str else value_string.
Lemma got_get bo r t kn d v s : from_utf8 d = Some v ->
  exec (get_str bo) s (Got r t kn d bo) = Some ((Ok v, s), At r t kn).
Proof. destruct bo; [apply got_str|apply got_string]. Qed.

Lemma agree_number_tail E t bo : agree t (number_tail E bo ;; get_str bo)%rm
  (dbind (d_number_body E t (restrict_number_values (cfg E)))
     (fun v => dbind d_on_value_end (fun _ => dret v))).
Proof.
  intros s r kn. unfold d_number_body, dbind. destruct r as [|b l]; [exact I|].
  assert (H0 : forall B (f : byte -> M B),
     exec (bind (ob <- peek_byte ;; match ob with Some b => ret b | None => panics Bug end)%rm f) s (At (b :: l) t kn)
     = exec (f b) s (At (b :: l) t true)).
  { intros B f. rewrite exec_assoc. step peek_some. step ret_ok. reflexivity. }
  assert (Hnew : exec value_reader_new s (At (b :: l) t true) = Some ((Ok tt, s), Av (b :: l) t true [] false))
    by reflexivity.
  pose proof (run_number_value_ex E s b l t 0) as H.
  destruct (number_scan E (b :: l)) as [[[res w] rest]| |]; [|contradiction|exact I].
  assert (Hf : forall B (f : unit -> M B), fails (bind (number_tail E bo) f) s (At (b :: l) t kn) <->
     fails (bind (value_reader_new ;;
   rc <- run_number number_next (consume_json_number (fuel E) b) 0 ;;
   match fst rc with
   | None => syntax_err MalformedNumber
   | Some exponent_digits_count =>
     if restrict_number_values (cfg E) && ((2 <? exponent_digits_count) || (100 <? snd rc)) then
       value_get false ;;
       number <- value_string ;;
       fail (EUnsupportedNumber number)
     else
       value_get bo ;;
       number_end_checks (snd rc)
   end)%rm f) s (At (b :: l) t true)).
  { intros B f. unfold fails, number_tail. rewrite exec_assoc, H0. reflexivity. }
  destruct (hits_error t rest) eqn:Eh.
  { apply Hf. apply fails_bind. step Hnew. apply fails_bind. exact H. }
  destruct res as [n|].
  2:{ apply Hf. apply fails_bind. step Hnew. step H. cbn [fst]. apply fails_syntax. }
  destruct (from_utf8 w) as [v|] eqn:Ev; [|exact I].
  destruct (restrict_number_values (cfg E) && ((2 <? n) || (100 <? len64 w))) eqn:Er.
  { eexists _, _, _. unfold number_tail. rewrite exec_assoc, H0, exec_assoc. step Hnew. rewrite exec_assoc. step H.
    cbn [fst snd]. rewrite N.add_0_l, Er. rewrite exec_assoc. step vget_ok. rewrite exec_assoc.
    step (got_string _ _ _ _ _ _ _ Ev). reflexivity. }
  pose proof (fun bo s => got_verify_separator_ex TrailingDataAfterNumber s rest t w bo) as Hs.
  assert (Hr : match rest with [] => is_eof t = true | _ => True end).
  { destruct rest; [|exact I]. cbn [hits_error] in Eh. apply negb_false_iff in Eh. exact Eh. }
  destruct (sep_ok (is_eof t) rest).
  - pose proof (value_end_pure (advance (len64 w) (len64 w) s) rest) as Hp.
    destruct (d_on_value_end (advance (len64 w) (len64 w) s) rest) as [x s2 r2|e s2 r2|m| |]; try contradiction; [|exact I].
    destruct Hp as (-> & Hp). exists true.
    unfold number_tail. rewrite exec_assoc, H0, exec_assoc. step Hnew. rewrite exec_assoc. step H.
    cbn [fst snd]. rewrite N.add_0_l, Er. rewrite exec_assoc. step vget_ok.
    unfold number_end_checks. rewrite exec_assoc. step update_ok. rewrite exec_assoc.
    step (Hs bo _ Hr). rewrite (exec_bind_ok _ _ _ _ _ _ _ (Hp _)). apply got_get. exact Ev.
  - apply Hf. apply fails_bind. step Hnew. step H. cbn [fst snd]. rewrite N.add_0_l, Er. step vget_ok.
    unfold number_end_checks. step update_ok. apply fails_bind. apply Hs. exact Hr.
Qed.

Definition skip_number_tail (E : env) : M unit :=
  (first_byte <- (ob <- peek_byte ;; match ob with Some b => ret b | None => panics Bug end) ;;
   rc <- run_number number_skip_next (consume_json_number (fuel E) first_byte) 0 ;;
   match fst rc with
   | None => syntax_err MalformedNumber
   | Some _ => number_end_checks (snd rc)
   end)%rm.

Lemma agree_skip_number_tail E t : agree t (skip_number_tail E)
  (dbind (d_number_body E t false) (fun v => d_on_value_end)).
Proof.
  intros s r kn. unfold d_number_body, dbind. destruct r as [|b l]; [exact I|].
  assert (H0 : forall B (f : byte -> M B),
     exec (bind (ob <- peek_byte ;; match ob with Some b => ret b | None => panics Bug end)%rm f) s (At (b :: l) t kn)
     = exec (f b) s (At (b :: l) t true)).
  { intros B f. rewrite exec_assoc. step peek_some. step ret_ok. reflexivity. }
  Ltac refails := unfold fails, skip_number_tail;
    match goal with H : forall B f, exec _ _ _ = _ |- _ => rewrite H end;
    match goal with |- exists e s' a', exec ?m ?s ?a = _ /\ _ => change (fails m s a) end.
  pose proof (run_number_skip_ex E s b l t 0) as H.
  destruct (number_scan E (b :: l)) as [[[res w] rest]| |]; [|contradiction|exact I].
  destruct (hits_error t rest) eqn:Eh.
  { refails. apply fails_bind. exact H. }
  destruct res as [n|].
  2:{ refails. step H. apply fails_syntax. }
  destruct (from_utf8 w) as [v|] eqn:Ev; [|exact I]. cbn [andb].
  pose proof (verify_separator_ex TrailingDataAfterNumber (advance (len64 w) (len64 w) s) rest t true) as Hs.
  destruct (sep_ok (is_eof t) rest).
  - pose proof (value_end_pure (advance (len64 w) (len64 w) s) rest) as Hp.
    destruct (d_on_value_end (advance (len64 w) (len64 w) s) rest) as [x s2 r2|e s2 r2|m| |]; try contradiction; [|exact I].
    destruct Hp as (-> & Hp). exists true. unfold skip_number_tail. rewrite H0. step H. cbn [fst snd].
    unfold number_end_checks. rewrite N.add_0_l. step update_ok. step Hs. apply Hp.
  - refails. step H. cbn [fst snd].
    unfold number_end_checks. rewrite N.add_0_l. step update_ok. apply fails_bind. exact Hs.
Qed.

(** ** The methods *)

Lemma agree_peek E t : agree t (peek E) (d_peek E t).
Proof. unfold peek, d_peek. ag. Qed.
Lemma agree_begin_array E t : agree t (begin_array E) (d_begin_array E t).
Proof. unfold begin_array, d_begin_array. ag. Qed.
Lemma agree_end_array E t : agree t (end_array E) (d_end_array E t).
Proof. unfold end_array, d_end_array. ag. Qed.
Lemma agree_begin_object E t : agree t (begin_object E) (d_begin_object E t).
Proof. unfold begin_object, d_begin_object. ag. Qed.
Lemma agree_end_object E t : agree t (end_object E) (d_end_object E t).
Proof. unfold end_object, d_end_object. ag. Qed.
Lemma agree_has_next E t : agree t (has_next E) (d_has_next E t).
Proof. unfold has_next, d_has_next. ag. Qed.
#[export] Hint Resolve agree_peek agree_begin_array agree_end_array agree_begin_object agree_end_object agree_has_next : agree.
Lemma agree_before_name E t : agree t (before_name E) (d_before_name E t).
Proof. unfold before_name, d_before_name. ag. Qed.
#[export] Hint Resolve agree_before_name : agree.
Lemma agree_next_name E t : agree t (next_name E) (d_next_name E t).
Proof. unfold next_name, d_next_name. ag. apply agree_next_name_tail. Qed.
Lemma agree_next_name_o E t : agree t (next_name_owned E) (d_next_name E t).
Proof. apply agree_next_name_owned. apply agree_before_name. Qed.
Lemma agree_skip_name E t : agree t (skip_name E) (d_skip_name E t).
Proof. unfold skip_name, d_skip_name. ag. apply agree_string_bind. ag. Qed.
#[export] Hint Resolve agree_next_name agree_next_name_o agree_skip_name : agree.
Lemma agree_next_bool E t : agree t (next_bool E) (d_next_bool E t).
Proof. unfold next_bool, d_next_bool. ag. Qed.
Lemma agree_next_null E t : agree t (next_null E) (d_next_null E t).
Proof. unfold next_null, d_next_null. ag. Qed.
Lemma agree_next_string E t : agree t (next_string E) (d_next_string E t).
Proof. unfold next_string, d_next_string. ag. apply agree_string_bind. ag. Qed.
Lemma agree_next_str E t : agree t (next_str E) (d_next_string E t).
Proof. unfold next_str, d_next_string. ag. apply agree_next_str_tail. Qed.
Lemma agree_next_string_reader E t : agree t (next_string_reader E) (d_next_string_reader E t).
Proof. unfold next_string_reader, d_next_string_reader. ag. Qed.
Lemma agree_next_number E t bo : agree t (read_number_bytes E bo ;; get_str bo)%rm (d_next_number E t).
Proof.
  apply (agree_ext t _ (start_expected_value_type E TNumber false ;; (number_tail E bo ;; get_str bo))%rm).
  - intros s a. unfold read_number_bytes, number_start, number_tail. rewrite exec_assoc, exec_assoc.
    rewrite !(exec_bind (start_expected_value_type E TNumber false)).
    destruct (exec (start_expected_value_type E TNumber false) s a) as [[[[x|e|k|] s'] a']|]; try reflexivity.
    rewrite !exec_assoc. reflexivity.
  - unfold d_next_number, d_number. ag. apply agree_number_tail.
Qed.
Lemma agree_next_number_string E t : agree t (next_number_as_string E) (d_next_number E t).
Proof. apply (agree_next_number E t false). Qed.
Lemma agree_next_number_str E t : agree t (next_number_as_str E) (d_next_number E t).
Proof. apply (agree_next_number E t true). Qed.
Lemma dbind_assoc {A B C : Type} (m : D A) (f : A -> D B) (g : B -> D C) s r :
  dbind (dbind m f) g s r = dbind m (fun x => dbind (f x) g) s r.
Proof. unfold dbind. destruct (m s r); reflexivity. Qed.
Lemma agree_dext {A : Type} t (m : M A) d d' : (forall s r, d s r = d' s r) -> agree t m d' -> agree t m d.
Proof. intros He H s r. rewrite He. apply H. Qed.
Lemma dbind_ext {A B : Type} (m : D A) (f g : A -> D B) s r : (forall x s r, f x s r = g x s r) ->
  dbind m f s r = dbind m g s r.
Proof. intros H. unfold dbind. destruct (m s r); auto. Qed.
Lemma agree_skip_number E t {A : Type} (x : A) :
  agree t (skip_number E ;; ret x)%rm (dbind (d_number E t false) (fun _ => dret x)).
Proof.
  apply (agree_ext t _ (start_expected_value_type E TNumber false ;; (skip_number_tail E ;; ret x))%rm).
  - intros s a. unfold skip_number, number_start, skip_number_tail. rewrite exec_assoc, exec_assoc.
    rewrite !(exec_bind (start_expected_value_type E TNumber false)).
    destruct (exec (start_expected_value_type E TNumber false) s a) as [[[[y|e|k|] s'] a']|]; try reflexivity.
    rewrite !exec_assoc. reflexivity.
  - unfold d_number.
    apply (agree_dext t _ _ (dbind (d_start E t TNumber false)
      (fun _ => dbind (dbind (d_number_body E t false) (fun _ => d_on_value_end)) (fun _ => dret x)))).
    + intros s r. rewrite dbind_assoc. apply dbind_ext. intros y s' r'. rewrite !dbind_assoc.
      apply dbind_ext. intros z s2 r2. rewrite dbind_assoc. reflexivity.
    + ag. apply agree_skip_number_tail.
Qed.
#[export] Hint Resolve agree_next_bool agree_next_null agree_next_string agree_next_str agree_next_string_reader
  agree_next_number_string agree_next_number_str agree_skip_number : agree.

Lemma agree_skip_value_start E t : agree t (skip_value_start E) (d_skip_value_start E t).
Proof. unfold skip_value_start, d_skip_value_start. ag. Qed.
Lemma agree_end_container E t : agree t (end_container E) (d_end_container E t).
Proof. unfold end_container, d_end_container. ag. Qed.
#[export] Hint Resolve agree_skip_value_start agree_end_container : agree.
Lemma agree_skip_value_loop E t f : forall depth, agree t (skip_value_loop E f depth) (d_skip_value_loop E t f depth).
Proof.
  induction f as [|f IH]; intros depth; cbn [skip_value_loop d_skip_value_loop]; [ag|].
  apply (agree_dext t _ _ (dbind (match depth with O => dret true | _ => d_has_next E t end) (fun h =>
    dbind (if negb h then dbind (d_end_container E t) (fun _ => dret (pred depth)) else
       dbind dget (fun s => dbind (if expects_member_name s then d_skip_name E t else dret tt) (fun _ =>
       dbind (d_skip_value_start E t) (fun started => dret (if started : bool then S depth else depth)))))
     (fun depth' => match depth' with O => dret tt | _ => d_skip_value_loop E t f depth' end)))).
  - intros s r. unfold d_skip_step. rewrite dbind_assoc. reflexivity.
  - ag.
Qed.
#[export] Hint Resolve agree_skip_value_loop : agree.
Lemma agree_skip_value E t : agree t (skip_value E) (d_skip_value E t).
Proof. unfold skip_value, d_skip_value. ag. Qed.
#[export] Hint Resolve agree_skip_value : agree.
Lemma agree_skip_items E t f : agree t (skip_items E f) (d_skip_items E t f).
Proof. induction f as [|f IH]; cbn [skip_items d_skip_items]; ag. Qed.
Lemma agree_skip_members E t f : agree t (skip_members E f) (d_skip_members E t f).
Proof. induction f as [|f IH]; cbn [skip_members d_skip_members]; ag. Qed.
#[export] Hint Resolve agree_skip_items agree_skip_members : agree.
Lemma agree_top_loop E t f : agree t (skip_to_top_level_loop E f) (d_skip_to_top_level_loop E t f).
Proof. induction f as [|f IH]; cbn [skip_to_top_level_loop d_skip_to_top_level_loop]; ag. Qed.
#[export] Hint Resolve agree_top_loop : agree.
Lemma agree_skip_to_top_level E t : agree t (skip_to_top_level E) (d_skip_to_top_level E t).
Proof. unfold skip_to_top_level, d_skip_to_top_level. ag. Qed.
Lemma agree_seek_item E t f : forall i rem, agree t (seek_item E f i rem) (d_seek_item E t f i rem).
Proof. induction f as [|f IH]; intros i rem; cbn [seek_item d_seek_item]; ag. Qed.
Lemma agree_seek_member E t f : forall n, agree t (seek_member E f n) (d_seek_member E t f n).
Proof. induction f as [|f IH]; intros n; cbn [seek_member d_seek_member]; ag. Qed.
#[export] Hint Resolve agree_seek_item agree_seek_member : agree.
Lemma agree_seek_pieces E t p : agree t (seek_pieces E p) (d_seek_pieces E t p).
Proof. induction p as [|[i|n] p IH]; cbn [seek_pieces d_seek_pieces]; ag. Qed.
#[export] Hint Resolve agree_seek_pieces : agree.
Lemma agree_seek_to E t p : agree t (seek_to E p) (d_seek_to E t p).
Proof. unfold seek_to, d_seek_to. ag. Qed.
Lemma agree_seek_back_pieces E t p : agree t (seek_back_pieces E p) (d_seek_back_pieces E t p).
Proof. induction p as [|[i|n] p IH]; cbn [seek_back_pieces d_seek_back_pieces]; ag. Qed.
#[export] Hint Resolve agree_seek_back_pieces : agree.
Lemma agree_seek_back E t p : agree t (seek_back E p) (d_seek_back E t p).
Proof. unfold seek_back, d_seek_back. ag. Qed.
Lemma agree_consume_trailing E t : agree t (consume_trailing_whitespace E) (d_consume_trailing E t).
Proof. unfold consume_trailing_whitespace, d_consume_trailing. ag. Qed.
#[export] Hint Resolve agree_skip_to_top_level agree_seek_to agree_seek_back agree_consume_trailing : agree.
