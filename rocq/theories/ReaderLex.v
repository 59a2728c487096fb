(** * The lexical functions of the reader agree with the scanners *)

From Verif Require Import Base Utf8Model Utf8Proofs NumberModel SourceModel ReaderModel ReaderScan.

Ltac splits := repeat match goal with |- _ /\ _ => split end.

(** ** Running functions of the reader on the abstract source *)

Definition exec {A : Type} (m : M A) (s : rstate) (a : asrc) : option (res reader_error A * rstate * asrc) :=
  arun (m s) a.

Lemma arun_bind {A B : Type} (p : prog A) (f : A -> prog B) : forall a,
  arun (pbind p f) a = match arun p a with Some (x, a') => arun (f x) a' | None => None end.
Proof.
  induction p as [x|k IH|k IH|k IH|k IH|k IH|k IH|k IH|bs k IH|b k IH|k IH|k IH|k IH];
    intros a; cbn [pbind arun]; try reflexivity.
  - destruct (a_peek a) as [[r a']|]; [apply IH|reflexivity].
  - destruct (a_skip a) as [a'|]; [apply IH|reflexivity].
  - destruct (a_vnew a) as [a'|]; [apply IH|reflexivity].
  - destruct (a_vpeek a) as [[r a']|]; [apply IH|reflexivity].
  - destruct (a_vconsume a) as [a'|]; [apply IH|reflexivity].
  - destruct (a_vskip_prev a) as [a'|]; [apply IH|reflexivity].
  - destruct (a_vskip_final a) as [a'|]; [apply IH|reflexivity].
  - destruct (a_vpush bs a) as [a'|]; [apply IH|reflexivity].
  - destruct (a_vget b a) as [a'|]; [apply IH|reflexivity].
  - destruct (a_vstr_peek a) as [s|]; [apply IH|reflexivity].
  - destruct (a_vstr a) as [[s a']|]; [apply IH|reflexivity].
  - destruct (a_vstring a) as [[s a']|]; [apply IH|reflexivity].
Qed.

Lemma exec_bind {A B : Type} (m : M A) (f : A -> M B) s a :
  exec (bind m f) s a =
  match exec m s a with
  | Some ((Ok x, s'), a') => exec (f x) s' a'
  | Some ((Err e, s'), a') => Some ((Err e, s'), a')
  | Some ((Panic k, s'), a') => Some ((Panic k, s'), a')
  | Some ((OutOfFuel, s'), a') => Some ((OutOfFuel, s'), a')
  | None => None
  end.
Proof.
  unfold exec, bind. rewrite arun_bind.
  destruct (arun (m s) a) as [[[[x|e|k|] s'] a']|]; reflexivity.
Qed.

Lemma exec_bind_ok {A B : Type} (m : M A) (f : A -> M B) s a x s' a' :
  exec m s a = Some ((Ok x, s'), a') -> exec (bind m f) s a = exec (f x) s' a'.
Proof. intros H. rewrite exec_bind, H. reflexivity. Qed.

(** Errors of the syntax or of the input *)
Definition aborting (e : reader_error) : bool :=
  match e with ESyntax _ _ | EIo _ _ => true | _ => false end.

(** The call ends with a syntax or IO error *)
Definition fails {A : Type} (m : M A) (s : rstate) (a : asrc) : Prop :=
  exists e s' a', exec m s a = Some ((Err e, s'), a') /\ aborting e = true.

Lemma fails_bind {A B : Type} (m : M A) (f : A -> M B) s a : fails m s a -> fails (bind m f) s a.
Proof.
  intros (e & s' & a' & H & He). exists e, s', a'. rewrite exec_bind, H. auto.
Qed.

Lemma fails_bind_ok {A B : Type} (m : M A) (f : A -> M B) s a x s' a' :
  exec m s a = Some ((Ok x, s'), a') -> fails (f x) s' a' -> fails (bind m f) s a.
Proof.
  intros H (e & s2 & a2 & H2 & He). exists e, s2, a2. rewrite (exec_bind_ok _ _ _ _ _ _ _ H). auto.
Qed.

Lemma fails_syntax {A : Type} k s a : @fails A (syntax_err k) s a.
Proof. eexists _, _, _. split; reflexivity. Qed.
Lemma fails_io {A : Type} e s a : @fails A (fail (EIo e)) s a.
Proof. eexists _, _, _. split; reflexivity. Qed.
#[export] Hint Resolve fails_syntax fails_io : lex.

(** ** Source states *)

Definition At (r : bytes) (t : tail_end) (kn : bool) : asrc := ASrc r t kn VNone false.
Definition Av (r : bytes) (t : tail_end) (kn : bool) (acc : bytes) (jr : bool) : asrc :=
  ASrc r t kn (VActive acc jr false) false.
Definition Got (r : bytes) (t : tail_end) (kn : bool) (bs : bytes) (bo : bool) : asrc :=
  ASrc r t kn (VGot bs bo) false.

Lemma peek_some b r t kn s :
  exec peek_byte s (At (b :: r) t kn) = Some ((Ok (Some b), s), At (b :: r) t true).
Proof. reflexivity. Qed.
Lemma peek_eof kn s : exec peek_byte s (At [] TEof kn) = Some ((Ok None, s), At [] TEof true).
Proof. reflexivity. Qed.
Lemma peek_err e kn s : fails peek_byte s (At [] (TErr e) kn).
Proof. eexists _, _, _. split; reflexivity. Qed.
Lemma skip_some b r t s :
  exec skip_peeked_byte s (At (b :: r) t true) = Some ((Ok tt, s), At r t false).
Proof. reflexivity. Qed.
Lemma read_some k b r t kn s :
  exec (read_byte k) s (At (b :: r) t kn) = Some ((Ok b, s), At r t false).
Proof. reflexivity. Qed.
Lemma read_none k t kn s : fails (read_byte k) s (At [] t kn).
Proof. destruct t; eexists _, _, _; (split; reflexivity). Qed.

Lemma got_peek_some b r t bs bo s :
  exec peek_byte s (Got (b :: r) t true bs bo) = Some ((Ok (Some b), s), Got (b :: r) t true bs bo).
Proof. reflexivity. Qed.

Lemma vpeek_some b r t kn acc jr s :
  exec value_peek s (Av (b :: r) t kn acc jr) = Some ((Ok (Some b), s), Av (b :: r) t true acc false).
Proof. destruct kn; reflexivity. Qed.
Lemma vpeek_eof acc jr s :
  exec value_peek s (Av [] TEof false acc jr) = Some ((Ok None, s), Av [] TEof true acc false).
Proof. reflexivity. Qed.
Lemma vpeek_err e acc jr s : fails value_peek s (Av [] (TErr e) false acc jr).
Proof. eexists _, _, _. split; reflexivity. Qed.
Lemma vconsume_some b r t acc jr s :
  exec value_consume s (Av (b :: r) t true acc jr) = Some ((Ok tt, s), Av r t false (acc ++ [b]) true).
Proof. reflexivity. Qed.
Lemma vread_some k b r t kn acc jr s :
  exec (value_read_byte k) s (Av (b :: r) t kn acc jr) =
  Some ((Ok b, s), Av r t false (acc ++ [b]) true).
Proof.
  unfold value_read_byte. rewrite (exec_bind_ok _ _ _ _ _ _ _ (vpeek_some _ _ _ _ _ _ _)).
  reflexivity.
Qed.
Lemma vread_none k t acc jr s : fails (value_read_byte k) s (Av [] t false acc jr).
Proof. destruct t; eexists _, _, _; (split; reflexivity). Qed.
Lemma vskip_previous r t kn acc b s :
  exec value_skip_previous s (Av r t kn (acc ++ [b]) true) = Some ((Ok tt, s), Av r t kn acc false).
Proof.
  unfold exec, value_skip_previous, Av. cbn [arun a_vskip_prev a_failed a_mode a_rest a_tail a_known].
  rewrite removelast_last. reflexivity.
Qed.
Lemma vread_skipped_some k b r t kn acc jr s :
  exec (value_read_skipped_byte k) s (Av (b :: r) t kn acc jr) = Some ((Ok b, s), Av r t false acc false).
Proof.
  unfold value_read_skipped_byte. rewrite (exec_bind_ok _ _ _ _ _ _ _ (vread_some _ _ _ _ _ _ _ _)).
  rewrite (exec_bind_ok _ _ _ _ _ _ _ (vskip_previous _ _ _ _ _ _)). reflexivity.
Qed.
Lemma vread_skipped_none k t acc jr s : fails (value_read_skipped_byte k) s (Av [] t false acc jr).
Proof. apply fails_bind. apply vread_none. Qed.

(** ** Positions *)

Lemma line_at_pos l c b cr s : line (at_pos (l, c, b, cr) s) = l.
Proof. reflexivity. Qed.

Lemma fold_pstep_cr w : forall l c b cr, snd (fold_left pstep w (l, c, b, cr)) = last_cr cr w.
Proof.
  induction w as [|x w IH]; intros; [reflexivity|]. cbn [fold_left last_cr].
  unfold last_cr in *. cbn [fold_left]. unfold pstep at 2.
  destruct (N.eqb_spec x B_LF) as [->|]; [destruct cr; apply IH|].
  destruct (x =? B_CR); [apply IH|]. destruct (is_continuation x); apply IH.
Qed.

Lemma movecr_app cr a b s : movecr cr (a ++ b) s = movecr (last_cr cr a) b (movecr cr a s).
Proof.
  unfold movecr. rewrite fold_left_app.
  pose proof (fold_pstep_cr a (line s) (column s) (byte_pos s) cr) as H.
  destruct (fold_left pstep a (line s, column s, byte_pos s, cr)) as [[[l c] n] cr'].
  cbn [snd] in H. subst cr'. cbn [at_pos line column byte_pos set_position].
  destruct (fold_left pstep b _) as [[[l' c'] n'] cr']. reflexivity.
Qed.

Lemma movecr_irrel cr b w s : b <> B_LF -> movecr cr (b :: w) s = movecr false (b :: w) s.
Proof.
  intros H. unfold movecr. cbn [fold_left]. do 2 f_equal. unfold pstep.
  destruct (N.eqb_spec b B_LF); [contradiction|]. reflexivity.
Qed.

Lemma move_app a b s : last_cr false a = false -> move (a ++ b) s = move b (move a s).
Proof. intros H. unfold move. rewrite movecr_app, H. reflexivity. Qed.

Lemma move_app_irrel a b w s : b <> B_LF -> move (a ++ b :: w) s = move (b :: w) (move a s).
Proof. intros H. unfold move. rewrite movecr_app. apply movecr_irrel. exact H. Qed.

Lemma move_nil s : move [] s = s.
Proof. destruct s. reflexivity. Qed.

(** ASCII characters other than line breaks *)
Definition plain (b : byte) : Prop := is_1byte b = true /\ b <> B_LF /\ b <> B_CR.

Lemma not_continuation_1byte b : is_1byte b = true -> is_continuation b = false.
Proof.
  unfold is_1byte. intros H. apply N.leb_le in H. rewrite is_continuation_range by (unfold is_byte; lia).
  apply in_range_false. left. lia.
Qed.

Lemma pstep_plain b l c n cr : plain b -> pstep (l, c, n, cr) b = (l, c + 1, n + 1, false).
Proof.
  intros (H1 & H2 & H3). unfold pstep.
  destruct (N.eqb_spec b B_LF); [contradiction|]. destruct (N.eqb_spec b B_CR); [contradiction|].
  rewrite not_continuation_1byte by exact H1. reflexivity.
Qed.

Lemma movecr_plain cr b s : plain b -> movecr cr [b] s = advance 1 1 s.
Proof. intros H. unfold movecr. cbn [fold_left]. rewrite pstep_plain by exact H. reflexivity. Qed.
Lemma move_plain b s : plain b -> move [b] s = advance 1 1 s.
Proof. apply movecr_plain. Qed.

Lemma last_cr_app cr a b : last_cr cr (a ++ b) = last_cr (last_cr cr a) b.
Proof. unfold last_cr. apply fold_left_app. Qed.

Lemma last_cr_no a : Forall (fun b => b <> B_CR) a -> last_cr false a = false.
Proof.
  induction 1 as [|x a Hx Ha IH]; [reflexivity|].
  unfold last_cr in *. cbn [fold_left]. destruct (N.eqb_spec x B_CR); [contradiction|]. exact IH.
Qed.

Lemma advance_add a b c d s : advance c d (advance a b s) = advance (a + c) (b + d) s.
Proof. destruct s. unfold advance, set_position. cbn. rewrite !N.add_assoc. reflexivity. Qed.
Lemma advance_0 s : advance 0 0 s = s.
Proof. destruct s. unfold advance, set_position. cbn. rewrite !N.add_0_r. reflexivity. Qed.

Lemma plain_not_cr w : Forall plain w -> Forall (fun b => b <> B_CR) w.
Proof. apply Forall_impl. intros b (_ & _ & H). exact H. Qed.

Lemma move_all_plain w s : Forall plain w -> move w s = advance (len64 w) (len64 w) s.
Proof.
  intros H. revert s. induction H as [|b w Hb Hw IH]; intros s.
  - rewrite move_nil. symmetry. apply advance_0.
  - change (b :: w) with ([b] ++ w) at 1. rewrite move_app.
    2:{ apply last_cr_no. constructor; [apply Hb|constructor]. }
    rewrite move_plain by exact Hb. rewrite IH, advance_add. f_equal; unfold len64; cbn [length]; lia.
Qed.

(** ** UTF-8 *)

(** A way to read bytes: [St r c] is the source with [r] still to be read and
    [c] read by it *)
Record rb_spec (rb : syntax_error -> M byte) (St : bytes -> bytes -> asrc) : Prop := {
  rb_some : forall k s b r c, exec (rb k) s (St (b :: r) c) = Some ((Ok b, s), St r (c ++ [b]));
  rb_none : forall k s c, fails (rb k) s (St [] c)
}.

Lemma rb_read_byte t : rb_spec read_byte (fun r c => At r t false).
Proof. constructor; intros; [apply read_some|apply read_none]. Qed.
Lemma rb_value_read_byte t acc : rb_spec value_read_byte (fun r c => Av r t false (acc ++ c) true).
Proof.
  constructor; intros; [|apply vread_none]. rewrite vread_some. rewrite app_assoc. reflexivity.
Qed.
Lemma rb_value_skipped t acc : rb_spec value_read_skipped_byte (fun r c => Av r t false acc false).
Proof. constructor; intros; [apply vread_skipped_some|apply vread_skipped_none]. Qed.

Lemma ret_ok {A : Type} (x : A) s a : exec (ret x) s a = Some ((Ok x, s), a).
Proof. reflexivity. Qed.

Ltac rb_step H :=
  match goal with
  | |- fails (bind _ _) _ (_ [] _) => apply fails_bind; apply (rb_none _ _ H)
  | |- fails (bind _ _) _ _ => eapply fails_bind_ok; [apply (rb_some _ _ H)|]
  | |- exec (bind _ _) _ _ = _ => erewrite exec_bind_ok; [|apply (rb_some _ _ H)]
  end.

Ltac rw_bools :=
  repeat match goal with
  | E : ?x = true |- context [?x] => rewrite E
  | E : ?x = false |- context [?x] => rewrite E
  end; cbn [negb andb orb].
Ltac rbs H := repeat (rb_step H; rw_bools); auto with lex.

Lemma read_utf8_multibyte_ex rb St : rb_spec rb St -> forall b0 r c s,
  match take_multi b0 r with
  | Some (bs, r') => exec (read_utf8_multibyte rb b0) s (St r c) = Some ((Ok bs, s), St r' (c ++ tl bs))
  | None => fails (read_utf8_multibyte rb b0) s (St r c)
  end.
Proof.
  intros H b0 r c s. unfold take_multi, read_utf8_multibyte.
  destruct r as [|b1 r]; [rbs H|].
  destruct (is_continuation b1) eqn:E1; cbn [negb]; [|rbs H].
  destruct (is_2byte_start b0) eqn:E2.
  { destruct (is_valid_2bytes b0 b1) eqn:E3; cbn [negb]; rbs H. }
  destruct r as [|b2 r]; [rbs H|].
  destruct (is_continuation b2) eqn:E3; cbn [negb]; [|rbs H].
  destruct (is_3byte_start b0) eqn:E4.
  { destruct (is_valid_3bytes b0 b1 b2) eqn:E5; cbn [negb]; rbs H.
    rewrite <- app_assoc. reflexivity. }
  destruct (is_4byte_start b0) eqn:E5; [|rbs H].
  destruct r as [|b3 r]; [rbs H|].
  destruct (is_continuation b3) eqn:E6; cbn [negb]; [|rbs H].
  destruct (is_valid_4bytes b0 b1 b2 b3) eqn:E7; cbn [negb]; rbs H.
  rewrite <- !app_assoc. reflexivity.
Qed.

Lemma start_not_continuation b : is_2byte_start b = true \/ is_3byte_start b = true \/ is_4byte_start b = true ->
  is_continuation b = false.
Proof.
  unfold is_2byte_start, is_3byte_start, is_4byte_start, is_continuation. intros H.
  apply N.eqb_neq. intros E.
  assert (T : N.testbit b 6 = true).
  { destruct H as [H|[H|H]]; apply N.eqb_eq in H; apply (f_equal (fun x => N.testbit x 6)) in H;
      rewrite N.land_spec in H; cbn in H; rewrite andb_true_r in H; exact H. }
  apply (f_equal (fun x => N.testbit x 6)) in E. rewrite N.land_spec, T in E. discriminate.
Qed.

Lemma continuation_not b : is_continuation b = true -> b <> B_LF /\ b <> B_CR.
Proof. intros H. split; intros ->; discriminate. Qed.

Lemma start_not b : is_2byte_start b = true \/ is_3byte_start b = true \/ is_4byte_start b = true ->
  b <> B_LF /\ b <> B_CR.
Proof. intros H. split; intros ->; destruct H as [H|[H|H]]; discriminate. Qed.

(** A multi-byte character: the first byte is a start byte, the others are
    continuation bytes *)
Lemma take_multi_shape b0 r bs r' : take_multi b0 r = Some (bs, r') ->
  exists l, bs = b0 :: l /\ r = l ++ r' /\ Forall (fun b => is_continuation b = true) l /\ l <> [] /\
    (is_2byte_start b0 = true \/ is_3byte_start b0 = true \/ is_4byte_start b0 = true).
Proof.
  unfold take_multi. destruct r as [|b1 r]; [discriminate|].
  destruct (is_continuation b1) eqn:E1; [|discriminate]. cbn [negb].
  destruct (is_2byte_start b0) eqn:E2.
  { destruct (is_valid_2bytes b0 b1); [|discriminate]. intros [= <- <-]. exists [b1].
    splits; auto. discriminate. }
  destruct r as [|b2 r]; [discriminate|].
  destruct (is_continuation b2) eqn:E3; [|discriminate]. cbn [negb].
  destruct (is_3byte_start b0) eqn:E4.
  { destruct (is_valid_3bytes b0 b1 b2); [|discriminate]. intros [= <- <-]. exists [b1; b2].
    splits; auto. discriminate. }
  destruct (is_4byte_start b0) eqn:E5; [|discriminate].
  destruct r as [|b3 r]; [discriminate|].
  destruct (is_continuation b3) eqn:E6; [|discriminate]. cbn [negb].
  destruct (is_valid_4bytes b0 b1 b2 b3); [|discriminate]. intros [= <- <-]. exists [b1; b2; b3].
  splits; auto. discriminate.
Qed.

Lemma fold_continuation l : Forall (fun b => is_continuation b = true) l -> forall ln c n,
  fold_left pstep l (ln, c, n, false) = (ln, c, n + len64 l, false).
Proof.
  induction 1 as [|b l Hb Hl IH]; intros ln c n; cbn [fold_left].
  - unfold len64. cbn [length]. rewrite N.add_0_r. reflexivity.
  - destruct (continuation_not _ Hb) as (H1 & H2).
    unfold pstep at 2. destruct (N.eqb_spec b B_LF); [contradiction|].
    destruct (N.eqb_spec b B_CR); [contradiction|]. rewrite Hb, IH.
    unfold len64. cbn [length]. do 2 f_equal. lia.
Qed.

Lemma movecr_multi cr b0 r bs r' s : take_multi b0 r = Some (bs, r') ->
  movecr cr bs s = advance 1 (len64 bs) s.
Proof.
  intros H. apply take_multi_shape in H. destruct H as (l & -> & _ & Hl & _ & Hs).
  unfold movecr. cbn [fold_left]. unfold pstep at 2.
  destruct (start_not _ Hs) as (H1 & H2).
  destruct (N.eqb_spec b0 B_LF); [contradiction|]. destruct (N.eqb_spec b0 B_CR); [contradiction|].
  rewrite (start_not_continuation _ Hs). rewrite fold_continuation by exact Hl.
  cbn [at_pos]. unfold advance. f_equal. unfold len64. cbn [length]. lia.
Qed.

Lemma take_multi_no_cr b0 r bs r' : take_multi b0 r = Some (bs, r') ->
  Forall (fun b => b <> B_LF /\ b <> B_CR) bs.
Proof.
  intros H. apply take_multi_shape in H. destruct H as (l & -> & _ & Hl & _ & Hs).
  constructor; [exact (start_not _ Hs)|]. revert Hl. apply Forall_impl. apply continuation_not.
Qed.

(** ** Whitespace *)

Lemma last_cr_cons cr x a : last_cr cr (x :: a) = last_cr (x =? B_CR) a.
Proof. reflexivity. Qed.

Lemma last_cr_multi cr bs : Forall (fun b => b <> B_LF /\ b <> B_CR) bs -> bs <> [] ->
  last_cr cr bs = false.
Proof.
  intros H Hne. destruct H as [|x a [_ Hx] Ha]; [contradiction|].
  rewrite last_cr_cons. destruct (N.eqb_spec x B_CR); [contradiction|].
  apply last_cr_no. revert Ha. apply Forall_impl. tauto.
Qed.

Lemma skip_to_loop_ex f : forall stop k cr s r t kn,
  match scan_to f stop (is_eof t && eof_ok k) r with
  | SOk (w, r') =>
    exec (skip_to_loop f stop k cr) s (At r t kn) = Some ((Ok tt, movecr cr w s), At r' t true)
  | SFail => fails (skip_to_loop f stop k cr) s (At r t kn)
  | SFuel => True
  end.
Proof.
  induction f as [|f IH]; intros stop k cr s r t kn; [exact I|].
  cbn [scan_to skip_to_loop]. destruct r as [|b r].
  { destruct t as [|e]; [|apply fails_bind, peek_err].
    destruct k as [k|]; cbn [is_eof eof_ok andb].
    - eapply fails_bind_ok; [apply peek_eof|]. apply fails_syntax.
    - erewrite exec_bind_ok by apply peek_eof. destruct s. reflexivity. }
  destruct (stop b) eqn:Hstop.
  { erewrite exec_bind_ok by apply peek_some. cbn beta iota. rewrite Hstop. destruct s. reflexivity. }
  destruct (rejected_control b) eqn:Hrej.
  { eapply fails_bind_ok; [apply peek_some|]. cbn beta iota. rewrite Hstop, Hrej. apply fails_syntax. }
  destruct (is_1byte b) eqn:H1.
  - assert (Hstep : exec (if b =? B_LF then
             update (fun s => if cr then advance 0 1 s
                              else set_position (line s + 1) 0 (byte_pos s + 1) s)
           else if b =? B_CR then
             update (fun s => set_position (line s + 1) 0 (byte_pos s + 1) s)
           else if is_1byte b then update (advance 1 1)
           else
             bs <- read_utf8_multibyte read_byte b ;;
             update (advance 1 (len64 bs))) s (At r t false) =
           Some ((Ok tt, movecr cr [b] s), At r t false)).
    { unfold movecr. cbn [fold_left]. unfold pstep.
      destruct (b =? B_LF).
      { destruct cr; [|reflexivity]. unfold exec, update. cbn [arun at_pos advance].
        unfold advance. rewrite N.add_0_r. reflexivity. }
      destruct (b =? B_CR); [reflexivity|]. rewrite H1.
      rewrite not_continuation_1byte by exact H1. reflexivity. }
    specialize (IH stop k (b =? B_CR) (movecr cr [b] s) r t false).
    destruct (scan_to f stop _ r) as [[w r']| |]; cbn [prepend]; [| |exact I].
    + erewrite exec_bind_ok by apply peek_some. cbn beta iota. rewrite Hstop, Hrej.
      erewrite exec_bind_ok by apply skip_some. erewrite exec_bind_ok by apply Hstep.
      rewrite IH. rewrite (movecr_app cr [b] w). rewrite last_cr_cons. reflexivity.
    + eapply fails_bind_ok; [apply peek_some|]. cbn beta iota. rewrite Hstop, Hrej.
      eapply fails_bind_ok; [apply skip_some|]. eapply fails_bind_ok; [apply Hstep|]. exact IH.
  - assert (Hb : (b =? B_LF) = false /\ (b =? B_CR) = false).
    { split; destruct (b =? _) eqn:E; try reflexivity; apply N.eqb_eq in E; subst b; discriminate. }
    destruct Hb as (Hlf & Hcr).
    pose proof (read_utf8_multibyte_ex _ _ (rb_read_byte t) b r [] s) as Hm. cbn beta in Hm.
    destruct (take_multi b r) as [[bs r'']|] eqn:Hmulti.
    + specialize (IH stop k (b =? B_CR) (movecr cr bs s) r'' t false).
      rewrite Hcr in IH.
      assert (Hlast : last_cr cr bs = false).
      { apply last_cr_multi; [exact (take_multi_no_cr _ _ _ _ Hmulti)|].
        apply take_multi_shape in Hmulti. destruct Hmulti as (l & -> & _). discriminate. }
      destruct (scan_to f stop _ r'') as [[w r']| |]; cbn [prepend]; [| |exact I].
      * erewrite exec_bind_ok by apply peek_some. cbn beta iota. rewrite Hstop, Hrej.
        erewrite exec_bind_ok by apply skip_some. rewrite Hlf, Hcr, H1.
        erewrite exec_bind_ok.
        2:{ rewrite (exec_bind_ok _ _ _ _ _ _ _ Hm). reflexivity. }
        rewrite <- (movecr_multi cr b r bs r'' s Hmulti). rewrite IH.
        rewrite (movecr_app cr bs w), Hlast. reflexivity.
      * eapply fails_bind_ok; [apply peek_some|]. cbn beta iota. rewrite Hstop, Hrej.
        eapply fails_bind_ok; [apply skip_some|]. rewrite Hlf, Hcr, H1.
        eapply fails_bind_ok.
        { rewrite (exec_bind_ok _ _ _ _ _ _ _ Hm). reflexivity. }
        rewrite <- (movecr_multi cr b r bs r'' s Hmulti). exact IH.
    + eapply fails_bind_ok; [apply peek_some|]. cbn beta iota. rewrite Hstop, Hrej.
      eapply fails_bind_ok; [apply skip_some|]. rewrite Hlf, Hcr, H1.
      apply fails_bind. apply fails_bind. exact Hm.
Qed.

Tactic Notation "step" uconstr(lem) :=
  lazymatch goal with
  | |- fails (bind _ _) _ _ => eapply fails_bind_ok; [apply lem|]
  | |- exec (bind _ _) _ _ = _ => erewrite exec_bind_ok by apply lem
  end; cbn beta iota.

Lemma update_ok f s a : exec (update f) s a = Some ((Ok tt, f s), a).
Proof. reflexivity. Qed.
Lemma get_ok s a : exec get_state s a = Some ((Ok s, s), a).
Proof. reflexivity. Qed.

Lemma skip_to_ex E stop k s r t kn :
  match scan_to (fuel E) stop (is_eof t && eof_ok k) r with
  | SOk (w, r') => exec (skip_to E stop k) s (At r t kn) = Some ((Ok tt, move w s), At r' t true)
  | SFail => fails (skip_to E stop k) s (At r t kn)
  | SFuel => True
  end.
Proof. apply skip_to_loop_ex. Qed.

(** What was skipped does not contain the stop bytes *)
Lemma scan_to_no_stop f : forall stop eof r w r', scan_to f stop eof r = SOk (w, r') ->
  (forall x, stop x = true -> is_1byte x = true) ->
  Forall (fun b => stop b = false) w.
Proof.
  induction f as [|f IH]; intros stop eof r w r' H Hs; [discriminate|].
  cbn [scan_to] in H. destruct r as [|b r].
  { destruct eof; [|discriminate]. injection H as <- <-. constructor. }
  destruct (stop b) eqn:Hb. { injection H as <- <-. constructor. }
  destruct (rejected_control b); [discriminate|].
  destruct (is_1byte b).
  - destruct (scan_to f stop eof r) as [[w1 r1]| |] eqn:E; try discriminate.
    cbn [prepend app] in H. injection H as <- <-. constructor; [exact Hb|]. eapply IH; eassumption.
  - destruct (take_multi b r) as [[bs r2]|] eqn:Em; [|discriminate].
    destruct (scan_to f stop eof r2) as [[w1 r1]| |] eqn:E; try discriminate.
    cbn [prepend] in H. injection H as <- <-. apply Forall_app. split; [|eapply IH; eassumption].
    apply take_multi_shape in Em. destruct Em as (l & -> & _ & Hl & _ & _).
    constructor; [exact Hb|]. revert Hl. apply Forall_impl. intros x Hx.
    destruct (stop x) eqn:E2; [|reflexivity]. apply Hs in E2.
    rewrite not_continuation_1byte in Hx by exact E2. discriminate.
Qed.

(** The byte at which the scan stopped *)
Lemma scan_to_rest f : forall stop eof r w r', scan_to f stop eof r = SOk (w, r') ->
  match r' with [] => eof = true | b :: _ => stop b = true end.
Proof.
  induction f as [|f IH]; intros stop eof r w r' H; [discriminate|].
  cbn [scan_to] in H. destruct r as [|b r].
  { destruct eof; [|discriminate]. injection H as <- <-. reflexivity. }
  destruct (stop b) eqn:Hb. { injection H as <- <-. exact Hb. }
  destruct (rejected_control b); [discriminate|].
  destruct (is_1byte b).
  - destruct (scan_to f stop eof r) as [[w1 r1]| |] eqn:E; try discriminate.
    cbn [prepend app] in H. injection H as <- <-. eapply IH; eassumption.
  - destruct (take_multi b r) as [[bs r2]|] eqn:Em; [|discriminate].
    destruct (scan_to f stop eof r2) as [[w1 r1]| |] eqn:E; try discriminate.
    cbn [prepend] in H. injection H as <- <-. eapply IH; eassumption.
Qed.

Lemma scan_to_split f : forall stop eof r w r', scan_to f stop eof r = SOk (w, r') -> r = w ++ r'.
Proof.
  induction f as [|f IH]; intros stop eof r w r' H; [discriminate|].
  cbn [scan_to] in H. destruct r as [|b r].
  { destruct eof; [|discriminate]. injection H as <- <-. reflexivity. }
  destruct (stop b) eqn:Hb. { injection H as <- <-. reflexivity. }
  destruct (rejected_control b); [discriminate|].
  destruct (is_1byte b).
  - destruct (scan_to f stop eof r) as [[w1 r1]| |] eqn:E; try discriminate.
    cbn [prepend app] in H. injection H as <- <-. apply IH in E. rewrite E. reflexivity.
  - destruct (take_multi b r) as [[bs r2]|] eqn:Em; [|discriminate].
    destruct (scan_to f stop eof r2) as [[w1 r1]| |] eqn:E; try discriminate.
    cbn [prepend] in H. injection H as <- <-. apply IH in E.
    apply take_multi_shape in Em. destruct Em as (l & -> & -> & _). rewrite E, <- app_assoc. reflexivity.
Qed.

Lemma plain_star : plain B_STAR. Proof. unfold plain. splits; discriminate || reflexivity. Qed.
Lemma plain_slash : plain B_SLASH. Proof. unfold plain. splits; discriminate || reflexivity. Qed.

Lemma last_cr_snoc cr w x : x <> B_CR -> last_cr cr (w ++ [x]) = false.
Proof.
  intros H. rewrite last_cr_app, last_cr_cons.
  destruct (N.eqb_spec x B_CR); [contradiction|reflexivity].
Qed.

Lemma move_snoc_plain w x s : plain x -> move (w ++ [x]) s = advance 1 1 (move w s).
Proof. intros H. rewrite move_app_irrel by apply H. apply move_plain. exact H. Qed.

Lemma block_ex E f : forall s r t kn,
  match scan_block (fuel E) f r with
  | SOk (w, r') =>
    exec (skip_to_block_comment_end_loop E f) s (At r t kn) = Some ((Ok tt, move w s), At r' t false)
  | SFail => fails (skip_to_block_comment_end_loop E f) s (At r t kn)
  | SFuel => True
  end.
Proof.
  induction f as [|f IH]; intros s r t kn; [exact I|].
  cbn [scan_block skip_to_block_comment_end_loop].
  pose proof (skip_to_ex E is_star (Some BlockCommentNotClosed) s r t kn) as Hs.
  cbn [eof_ok] in Hs. rewrite andb_false_r in Hs.
  destruct (scan_to (fuel E) is_star false r) as [[w r1]| |] eqn:Escan; [| |exact I].
  2:{ apply fails_bind. exact Hs. }
  pose proof (scan_to_rest _ _ _ _ _ _ Escan) as Hstop.
  destruct r1 as [|star r1]; [discriminate|].
  unfold is_star in Hstop. apply N.eqb_eq in Hstop. subst star.
  destruct r1 as [|b r2].
  { step Hs. step update_ok. step skip_some.
    destruct t as [|e]; [|apply fails_bind, peek_err]. step peek_eof. apply fails_syntax. }
  destruct (N.eqb_spec b B_SLASH) as [->|Hb].
  - step Hs. step update_ok. step skip_some. step peek_some. rewrite N.eqb_refl. step skip_some.
    rewrite update_ok. change (w ++ [B_STAR; B_SLASH]) with (w ++ [B_STAR] ++ [B_SLASH]).
    rewrite app_assoc, !move_snoc_plain by (apply plain_star || apply plain_slash). reflexivity.
  - specialize (IH (move (w ++ [B_STAR]) s) (b :: r2) t true).
    destruct (scan_block (fuel E) f (b :: r2)) as [[w2 r']| |]; cbn [prepend]; [| |exact I].
    + step Hs. step update_ok. step skip_some. step peek_some.
      destruct (N.eqb_spec b B_SLASH); [contradiction|].
      rewrite <- (move_snoc_plain w _ s plain_star). rewrite IH.
      rewrite (move_app (w ++ [B_STAR])) by (apply last_cr_snoc; discriminate). reflexivity.
    + step Hs. step update_ok. step skip_some. step peek_some.
      destruct (N.eqb_spec b B_SLASH); [contradiction|].
      rewrite <- (move_snoc_plain w _ s plain_star). exact IH.
Qed.

Lemma scan_block_last F f : forall r w r', scan_block F f r = SOk (w, r') ->
  exists w0, w = w0 ++ [B_STAR; B_SLASH] /\ r = w ++ r'.
Proof.
  induction f as [|f IH]; intros r w r' H; [discriminate|]. cbn [scan_block] in H.
  destruct (scan_to F is_star false r) as [[w1 r1]| |] eqn:E; try discriminate.
  pose proof (scan_to_split _ _ _ _ _ _ E) as ->. apply scan_to_rest in E.
  destruct r1 as [|star [|b r2]]; try discriminate. unfold is_star in E. apply N.eqb_eq in E. subst star.
  destruct (N.eqb_spec b B_SLASH) as [->|Hb].
  - injection H as <- <-. exists w1. split; [reflexivity|]. rewrite <- app_assoc. reflexivity.
  - destruct (scan_block F f (b :: r2)) as [[w2 r3]| |] eqn:E2; try discriminate.
    cbn [prepend] in H. injection H as <- <-. destruct (IH _ _ _ E2) as (w0 & -> & ->).
    exists (w1 ++ [B_STAR] ++ w0). rewrite <- !app_assoc. split; reflexivity.
Qed.

Lemma move_comment w a b w2 w3 s : plain a -> plain b -> last_cr false w2 = false ->
  move ((w ++ [a; b] ++ w2) ++ w3) s = move w3 (move w2 (advance 1 1 (advance 1 1 (move w s)))).
Proof.
  intros Ha Hb H2.
  replace ((w ++ [a; b] ++ w2) ++ w3) with (((w ++ [a]) ++ [b]) ++ w2 ++ w3)
    by (rewrite <- !app_assoc; reflexivity).
  rewrite move_app by (apply last_cr_snoc; apply Hb).
  rewrite move_app by exact H2. rewrite !move_snoc_plain by assumption. reflexivity.
Qed.

Lemma ws_ex E k f : forall s r t kn,
  match scan_ws (fuel E) f (allow_comments (cfg E)) (is_eof t) (eof_ok k) r with
  | SOk (w, r') =>
    exec (skip_whitespace_loop E f k) s (At r t kn) = Some ((Ok (hd_error r'), move w s), At r' t true)
  | SFail => fails (skip_whitespace_loop E f k) s (At r t kn)
  | SFuel => True
  end.
Proof.
  induction f as [|f IH]; intros s r t kn; [exact I|].
  cbn [scan_ws skip_whitespace_loop].
  pose proof (skip_to_ex E not_ws None s r t kn) as Hs.
  cbn [eof_ok] in Hs. rewrite andb_true_r in Hs.
  destruct (scan_to (fuel E) not_ws (is_eof t) r) as [[w r1]| |] eqn:Escan; [| |exact I].
  2:{ apply fails_bind. exact Hs. }
  pose proof (scan_to_rest _ _ _ _ _ _ Escan) as Hstop.
  destruct r1 as [|b r1].
  { destruct t as [|e]; [|discriminate].
    destruct k as [k|]; cbn [eof_ok].
    - step Hs. step peek_eof. apply fails_bind. apply fails_syntax.
    - step Hs. step peek_eof. reflexivity. }
  destruct (N.eqb_spec b B_SLASH) as [->|Hb].
  2:{ step Hs. step peek_some. destruct (N.eqb_spec b B_SLASH); [contradiction|]. reflexivity. }
  destruct (allow_comments (cfg E)) eqn:Hcom; cbn [negb].
  2:{ step Hs. step peek_some. rewrite N.eqb_refl. apply fails_syntax. }
  destruct r1 as [|b2 r2].
  { step Hs. step peek_some. rewrite N.eqb_refl. cbn [negb]. step skip_some. step update_ok.
    apply fails_bind. apply read_none. }
  destruct (N.eqb_spec b2 B_STAR) as [->|Hstar].
  { pose proof (fun s0 => block_ex E (fuel E) s0 r2 t false) as Hblock.
    destruct (scan_block (fuel E) (fuel E) r2) as [[w2 r3]| |] eqn:Eb; [| |exact I].
    2:{ step Hs. step peek_some. rewrite N.eqb_refl. cbn [negb]. step skip_some. step update_ok.
        step read_some. rewrite N.eqb_refl. step update_ok. apply fails_bind. apply Hblock. }
    destruct (scan_block_last _ _ _ _ _ Eb) as (w0 & Hw2 & _).
    assert (Hmove : forall w3, move ((w ++ [B_SLASH; B_STAR] ++ w2) ++ w3) s =
                          move w3 (move w2 (advance 1 1 (advance 1 1 (move w s))))).
    { intros w3. apply move_comment; [apply plain_slash|apply plain_star|].
      rewrite Hw2. change [B_STAR; B_SLASH] with ([B_STAR] ++ [B_SLASH]).
      rewrite app_assoc. apply last_cr_snoc. discriminate. }
    match type of Hblock with forall s0, exec _ s0 _ = Some (_, _, ?A) => set (A0 := A) in Hblock end.
    specialize (IH (move w2 (advance 1 1 (advance 1 1 (move w s)))) r3 t false).
    destruct (scan_ws (fuel E) f true (is_eof t) (eof_ok k) r3) as [[w3 r']| |]; cbn [prepend]; [| |exact I].
    - step Hs. step peek_some. rewrite N.eqb_refl. cbn [negb]. step skip_some. step update_ok.
      step read_some. rewrite N.eqb_refl. step update_ok. step Hblock. unfold A0. rewrite IH, Hmove. reflexivity.
    - step Hs. step peek_some. rewrite N.eqb_refl. cbn [negb]. step skip_some. step update_ok.
      step read_some. rewrite N.eqb_refl. step update_ok. step Hblock. exact IH. }
  destruct (N.eqb_spec b2 B_SLASH) as [->|Hslash].
  2:{ step Hs. step peek_some. rewrite N.eqb_refl. cbn [negb]. step skip_some. step update_ok.
      step read_some. destruct (N.eqb_spec b2 B_STAR); [contradiction|].
      destruct (N.eqb_spec b2 B_SLASH); [contradiction|]. apply fails_syntax. }
  pose proof (fun s0 => skip_to_ex E is_break k s0 r2 t false) as Hline.
  destruct (scan_to (fuel E) is_break (is_eof t && eof_ok k) r2) as [[w2 r3]| |] eqn:Eb; [| |exact I].
  2:{ step Hs. step peek_some. rewrite N.eqb_refl. cbn [negb]. step skip_some. step update_ok.
      step read_some. change (B_SLASH =? B_STAR) with false. rewrite N.eqb_refl. cbn iota.
      step update_ok. apply fails_bind. apply Hline. }
  assert (Hw2 : Forall (fun b => b <> B_CR) w2).
  { eapply Forall_impl; [|apply (scan_to_no_stop _ _ _ _ _ _ Eb)].
    - intros x Hx ->. discriminate.
    - intros x. unfold is_break, is_1byte. rewrite orb_true_iff, !N.eqb_eq. intros [->| ->]; reflexivity. }
  assert (Hmove : forall w3, move ((w ++ [B_SLASH; B_SLASH] ++ w2) ++ w3) s =
                        move w3 (move w2 (advance 1 1 (advance 1 1 (move w s))))).
  { intros w3. apply move_comment; [apply plain_slash|apply plain_slash|].
    apply last_cr_no. exact Hw2. }
  specialize (IH (move w2 (advance 1 1 (advance 1 1 (move w s)))) r3 t true).
  destruct (scan_ws (fuel E) f true (is_eof t) (eof_ok k) r3) as [[w3 r']| |]; cbn [prepend]; [| |exact I].
  - step Hs. step peek_some. rewrite N.eqb_refl. cbn [negb]. step skip_some. step update_ok.
    step read_some. change (B_SLASH =? B_STAR) with false. rewrite N.eqb_refl. cbn iota.
    step update_ok. unfold skip_to_line_comment_end. step Hline. rewrite IH, Hmove. reflexivity.
  - step Hs. step peek_some. rewrite N.eqb_refl. cbn [negb]. step skip_some. step update_ok.
    step read_some. change (B_SLASH =? B_STAR) with false. rewrite N.eqb_refl. cbn iota.
    step update_ok. unfold skip_to_line_comment_end. step Hline. exact IH.
Qed.

Definition ws_scan (E : env) (t : tail_end) (k : option syntax_error) (r : bytes) : sres (bytes * bytes) :=
  scan_ws (fuel E) (fuel E) (allow_comments (cfg E)) (is_eof t) (eof_ok k) r.

Lemma skip_whitespace_ex E k s r t kn :
  match ws_scan E t k r with
  | SOk (w, r') =>
    exec (skip_whitespace E k) s (At r t kn) = Some ((Ok (hd_error r'), move w s), At r' t true)
  | SFail => fails (skip_whitespace E k) s (At r t kn)
  | SFuel => True
  end.
Proof. apply ws_ex. Qed.

(** The byte behind the whitespace *)
Lemma scan_ws_rest F f : forall com eof ok r w r', scan_ws F f com eof ok r = SOk (w, r') ->
  r = w ++ r' /\ match r' with [] => eof = true /\ ok = true | b :: _ => is_ws b = false /\ b <> B_SLASH end.
Proof.
  induction f as [|f IH]; intros com eof ok r w r' H; [discriminate|]. cbn [scan_ws] in H.
  destruct (scan_to F not_ws eof r) as [[w1 r1]| |] eqn:E; try discriminate.
  pose proof (scan_to_split _ _ _ _ _ _ E) as ->. apply scan_to_rest in E.
  destruct r1 as [|b r1].
  { destruct ok; [|discriminate]. injection H as <- <-. auto. }
  unfold not_ws in E. apply negb_true_iff in E.
  destruct (N.eqb_spec b B_SLASH) as [->|Hb].
  2:{ injection H as <- <-. auto. }
  destruct com; cbn [negb] in H; [|discriminate].
  destruct r1 as [|b2 r2]; [discriminate|].
  destruct (N.eqb_spec b2 B_STAR) as [->|Hstar].
  { destruct (scan_block F F r2) as [[w2 r3]| |] eqn:Eb; try discriminate.
    destruct (scan_ws F f true eof ok r3) as [[w3 r4]| |] eqn:Ew; try discriminate.
    cbn [prepend] in H. injection H as <- <-. destruct (IH _ _ _ _ _ _ Ew) as (-> & H2).
    destruct (scan_block_last _ _ _ _ _ Eb) as (w0 & _ & ->). split; [|exact H2].
    rewrite <- !app_assoc. reflexivity. }
  destruct (N.eqb_spec b2 B_SLASH) as [->|Hslash]; [|discriminate].
  destruct (scan_to F is_break (eof && ok) r2) as [[w2 r3]| |] eqn:Eb; try discriminate.
  destruct (scan_ws F f true eof ok r3) as [[w3 r4]| |] eqn:Ew; try discriminate.
  cbn [prepend] in H. injection H as <- <-. destruct (IH _ _ _ _ _ _ Ew) as (-> & H2).
  rewrite (scan_to_split _ _ _ _ _ _ Eb). split; [|exact H2]. rewrite <- !app_assoc. reflexivity.
Qed.

Lemma skip_whitespace_no_eof_ex E k s r t kn :
  match ws_scan E t (Some k) r with
  | SOk (w, b :: r') =>
    exec (skip_whitespace_no_eof E k) s (At r t kn) = Some ((Ok b, move w s), At (b :: r') t true)
  | SOk (w, []) => False
  | SFail => fails (skip_whitespace_no_eof E k) s (At r t kn)
  | SFuel => True
  end.
Proof.
  pose proof (skip_whitespace_ex E (Some k) s r t kn) as H. unfold skip_whitespace_no_eof.
  destruct (ws_scan E t (Some k) r) as [[w [|b r']]| |] eqn:Ew; auto.
  - apply scan_ws_rest in Ew. destruct Ew as (_ & _ & Ew). discriminate.
  - step H. reflexivity.
  - apply fails_bind. exact H.
Qed.

(** ** Literals *)

Lemma verify_separator_ex kind s r t kn :
  if sep_ok (is_eof t) r
  then exec (verify_next_separator kind) s (At r t kn) = Some ((Ok tt, s), At r t true)
  else fails (verify_next_separator kind) s (At r t kn).
Proof.
  unfold verify_next_separator, verify_value_separator. destruct r as [|b r]; cbn [sep_ok].
  - destruct t; cbn [is_eof]; [step peek_eof; reflexivity|apply fails_bind, peek_err].
  - destruct (is_value_separator b) eqn:Eb; step peek_some; rewrite Eb; [reflexivity|apply fails_syntax].
Qed.

Lemma got_verify_separator_ex kind s r t bs bo :
  match r with [] => is_eof t = true | _ => True end ->
  if sep_ok (is_eof t) r
  then exec (verify_next_separator kind) s (Got r t true bs bo) = Some ((Ok tt, s), Got r t true bs bo)
  else fails (verify_next_separator kind) s (Got r t true bs bo).
Proof.
  intros Hr. unfold verify_next_separator, verify_value_separator. destruct r as [|b r]; cbn [sep_ok].
  - destruct t; cbn [is_eof]; [reflexivity|discriminate].
  - destruct (is_value_separator b) eqn:Eb; step got_peek_some; rewrite Eb; [reflexivity|apply fails_syntax].
Qed.

Lemma consume_literal_ex lit : forall s r t kn,
  match strip lit r with
  | Some r' =>
    if sep_ok (is_eof t) r'
    then exec (consume_literal lit) s (At r t kn) = Some ((Ok tt, s), At r' t true)
    else fails (consume_literal lit) s (At r t kn)
  | None => fails (consume_literal lit) s (At r t kn)
  end.
Proof.
  induction lit as [|e lit IH]; intros s r t kn; cbn [strip consume_literal].
  - apply verify_separator_ex.
  - destruct r as [|b r]; [apply fails_bind, read_none|].
    destruct (b =? e) eqn:Eb.
    + specialize (IH s r t false). destruct (strip lit r) as [r'|].
      * destruct (sep_ok (is_eof t) r'); step read_some; rewrite Eb; exact IH.
      * step read_some. rewrite Eb. exact IH.
    + step read_some. rewrite Eb. apply fails_syntax.
Qed.

Lemma strip_spec lit : forall r r', strip lit r = Some r' <-> r = lit ++ r'.
Proof.
  induction lit as [|e lit IH]; intros r r'; cbn [strip app].
  - split; congruence.
  - destruct r as [|b r]; [split; discriminate|].
    destruct (N.eqb_spec b e) as [->|Hb].
    + rewrite IH. split; [intros ->; reflexivity|intros [= ->]; reflexivity].
    + split; [discriminate|]. intros [= -> _]. contradiction.
Qed.
