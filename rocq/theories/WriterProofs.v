(** * Writer: bytes, escapes, containers *)

From Verif Require Import Base Utf8Model Utf8Proofs NumberModel SpecNumber NumberProofs SpecJson
  WriterModel SpecWriter.

Ltac splits := repeat match goal with |- _ /\ _ => split end.

(** ** Emitted bytes *)

(** Everything written so far: what the sink received and what is buffered *)
Definition emitted (st : wst) : bytes := received (w_sink st) ++ w_buf st.

(** The other fields *)
Record core : Type := Core {
  k_empty : bool; k_expects : bool; k_stack : list stack_value; k_active : bool; k_indent : nat }.
Definition core_of (st : wst) : core :=
  Core (w_is_empty st) (w_expects_member_name st) (w_stack st) (w_string_active st) (w_indentation st).

(** The sink will never fail *)
Definition good_resp (r : wresp) : Prop :=
  match r with SAccept n => n <> 0 | SInterrupted => True | SErr _ => False end.
Definition good_sink (s : sink) : Prop :=
  Forall good_resp (write_resps s) /\ Forall (fun o => o = None) (flush_resps s).

Definition sink_error (e : werr) : Prop :=
  match e with WSink _ | WWriteZero => True | _ => False end.

(** No assumption on the buffer is needed: it may even be full after an error. *)
Definition buf_ok (st : wst) : Prop := True.
Lemma buf_ok_any st : buf_ok st.
Proof. exact I. Qed.
Global Hint Resolve buf_ok_any : core.

Lemma buf_size_pos : (0 < WRITER_BUF_SIZE)%nat.
Proof. unfold WRITER_BUF_SIZE. lia. Qed.
Global Opaque WRITER_BUF_SIZE.

Lemma write_all_loop_spec resps : forall recv buf r recv' resps',
  write_all_loop resps recv buf = (r, recv', resps') ->
  (Forall good_resp resps -> Forall good_resp resps') /\
  ((r = Ok tt /\ recv' = recv ++ buf) \/
   (exists e p q, r = Err e /\ sink_error e /\ recv' = recv ++ p /\ buf = p ++ q /\ ~ Forall good_resp resps)).
Proof.
  induction resps as [|resp resps IH]; intros recv buf r recv' resps' H; cbn in H.
  - destruct buf as [|b buf]; injection H as <- <- <-.
    + split; auto. left. rewrite app_nil_r. auto.
    + split; auto.
  - destruct buf as [|b buf].
    { injection H as <- <- <-. split; auto. left. rewrite app_nil_r. auto. }
    remember (b :: buf) as bf eqn:Ebf.
    destruct resp as [n| |e].
    + remember (N.to_nat (N.min n (N.of_nat (length bf)))) as k eqn:Ek.
      destruct k as [|k'].
      * injection H as <- <- <-. split.
        { intros Hg. inversion Hg; auto. }
        right. exists WWriteZero, [], bf. rewrite app_nil_r. splits; auto; try exact I.
        intros Hg. inversion Hg as [|? ? Hn _]; subst. cbn in Hn. cbn [length] in Ek. lia.
      * apply IH in H as [Hg H]. split.
        { intros Hg'. inversion Hg'; auto. }
        destruct H as [[-> ->]|(e & p & q & -> & He & -> & Hpq & Hbad)].
        -- left. split; auto. rewrite <- app_assoc, firstn_skipn. reflexivity.
        -- right. exists e, (firstn (S k') bf ++ p), q. splits; auto.
           ++ rewrite app_assoc. reflexivity.
           ++ rewrite <- app_assoc, <- Hpq, firstn_skipn. reflexivity.
           ++ intros Hg'. inversion Hg'; auto.
    + apply IH in H as [Hg H]. split.
      { intros Hg'. inversion Hg'; auto. }
      destruct H as [H|(e & p & q & ? & ? & ? & ? & Hbad)]; [left; auto|].
      right. exists e, p, q. splits; auto. intros Hg'. inversion Hg'; auto.
    + injection H as <- <- <-. split.
      { intros Hg. inversion Hg; auto. }
      right. exists (WSink e), [], bf. rewrite app_nil_r. splits; auto; try exact I.
      intros Hg. inversion Hg as [|? ? Hn _]; subst. exact Hn.
Qed.

Lemma write_all_spec s buf r s' : write_all s buf = (r, s') ->
  (good_sink s -> good_sink s') /\ flush_resps s' = flush_resps s /\ flushes s' = flushes s /\
  ((r = Ok tt /\ received s' = received s ++ buf) \/
   (exists e p q, r = Err e /\ sink_error e /\ received s' = received s ++ p /\ buf = p ++ q /\ ~ good_sink s)).
Proof.
  unfold write_all. destruct (write_all_loop _ _ _) as [[r0 recv] resps] eqn:E.
  intros [= <- <-]. apply write_all_loop_spec in E as [Hg E]. cbn.
  splits; auto.
  - intros [H1 H2]. split; cbn; auto.
  - destruct E as [E|(e & p & q & ? & ? & ? & ? & Hbad)]; [left; exact E|].
    right. exists e, p, q. splits; auto. intros [? _]. auto.
Qed.

(** ** The triple for writing operations

    [writes m st text a k]: started in [st], [m] either succeeds with [a],
    having emitted exactly [text] and leaving the other fields as in [k], or
    fails with an error of the sink, which then has received a prefix of the
    text; the latter only if the sink is not good. *)
Definition writes {A} (m : W A) (st : wst) (text : bytes) (a : A) (k : core) : Prop :=
  buf_ok st ->
  let (r, st') := m st in
  (r = Ok a /\ emitted st' = emitted st ++ text /\ core_of st' = k /\ buf_ok st' /\
   (good_sink (w_sink st) -> good_sink (w_sink st'))) \/
  (exists e, r = Err e /\ sink_error e /\ ~ good_sink (w_sink st) /\
   exists rest, received (w_sink st') ++ rest = emitted st ++ text).

Lemma writes_ret {A} (a : A) st : writes (wret a) st [] a (core_of st).
Proof. intros Hb. cbn. left. rewrite app_nil_r. auto. Qed.

Lemma writes_get {A} (f : wst -> A) st : writes (wget f) st [] (f st) (core_of st).
Proof. intros Hb. cbn. left. rewrite app_nil_r. auto. Qed.

Lemma writes_bind {A B} (m : W A) (f : A -> W B) st t1 a k1 t2 b k2 :
  writes m st t1 a k1 ->
  (forall st1, core_of st1 = k1 -> writes (f a) st1 t2 b k2) ->
  writes (wbind m f) st (t1 ++ t2) b k2.
Proof.
  intros Hm Hf Hb. specialize (Hm Hb). unfold wbind. destruct (m st) as [r st1].
  destruct Hm as [(-> & Hem & Hk & Hb1 & Hg)|(e & -> & He & Hbad & rest & Hr)].
  - specialize (Hf st1 Hk Hb1). destruct (f a st1) as [r2 st2].
    destruct Hf as [(-> & Hem2 & Hk2 & Hb2 & Hg2)|(e & -> & He & Hbad & rest & Hr)].
    + left. splits; auto. rewrite Hem2, Hem, app_assoc. reflexivity.
    + right. exists e. splits; auto. exists rest. rewrite Hr, Hem, app_assoc. reflexivity.
  - right. exists e. splits; auto. exists (rest ++ t2). rewrite app_assoc, Hr, <- app_assoc. reflexivity.
Qed.

(** Same, when the first part emits nothing or the text is given otherwise *)
Lemma writes_bind_eq {A B} (m : W A) (f : A -> W B) st t1 a k1 t2 b k2 t :
  writes m st t1 a k1 -> t = t1 ++ t2 ->
  (forall st1, core_of st1 = k1 -> writes (f a) st1 t2 b k2) ->
  writes (wbind m f) st t b k2.
Proof. intros Hm -> Hf. eapply writes_bind; eassumption. Qed.

Lemma writes_bind0 {A B} (m : W A) (f : A -> W B) st a k1 t b k2 :
  writes m st [] a k1 ->
  (forall st1, core_of st1 = k1 -> writes (f a) st1 t b k2) ->
  writes (wbind m f) st t b k2.
Proof. intros Hm Hf. exact (writes_bind m f st [] a k1 t b k2 Hm Hf). Qed.

Lemma writes_modify f st k :
  (forall st0, w_sink (f st0) = w_sink st0 /\ w_buf (f st0) = w_buf st0) -> core_of (f st) = k ->
  writes (wmodify f) st [] tt k.
Proof.
  intros Hf Hk Hb. cbn. left. destruct (Hf st) as [Hs Hbf].
  unfold emitted, buf_ok in *. rewrite Hs, Hbf, app_nil_r. auto.
Qed.

Lemma write_bytes_loop_spec fuel : forall bs st,
  (length bs + (if Nat.leb WRITER_BUF_SIZE (length (w_buf st)) then 1 else 0) <= fuel)%nat ->
  let (r, st') := write_bytes_loop fuel bs st in
  (r = Ok tt /\ emitted st' = emitted st ++ bs /\ core_of st' = core_of st /\ buf_ok st' /\
   (good_sink (w_sink st) -> good_sink (w_sink st'))) \/
  (exists e, r = Err e /\ sink_error e /\ ~ good_sink (w_sink st) /\
   exists rest, received (w_sink st') ++ rest = emitted st ++ bs).
Proof.
  induction fuel as [|fuel IH]; intros bs st Hl.
  { destruct bs; [|cbn in Hl; lia]. cbn. left. rewrite app_nil_r. splits; auto. }
  destruct bs as [|b bs0]; [cbn; left; rewrite app_nil_r; splits; auto|].
  remember (b :: bs0) as bs eqn:Ebs.
  assert (Hne : (0 < length bs)%nat) by (subst; cbn; lia).
  cbn [write_bytes_loop]. rewrite Ebs. rewrite <- Ebs.
  set (n := Nat.min (WRITER_BUF_SIZE - length (w_buf st)) (length bs)).
  destruct (Nat.leb_spec WRITER_BUF_SIZE (length (w_buf st ++ firstn n bs))) as [Hfull|Hfree].
  - destruct (write_all (w_sink st) (w_buf st ++ firstn n bs)) as [r s'] eqn:Ew.
    apply write_all_spec in Ew as (Hg & _ & _ & [[-> Hr]|(e & p & q & -> & He & Hr & Hpq & Hbad)]).
    + specialize (IH (skipn n bs) (set_sink_buf st s' [])).
      cbn [w_buf set_sink_buf length] in IH.
      destruct (Nat.leb_spec WRITER_BUF_SIZE 0) as [H0|_] in IH; [pose proof buf_size_pos; lia|].
      assert (Hrest : (length (skipn n bs) + 0 <= fuel)%nat).
      { rewrite skipn_length. rewrite app_length, firstn_length in Hfull.
        destruct (Nat.leb_spec WRITER_BUF_SIZE (length (w_buf st))); unfold n in *; lia. }
      specialize (IH Hrest).
      destruct (write_bytes_loop fuel (skipn n bs) _) as [r2 st2].
      assert (Hem : emitted (set_sink_buf st s' []) ++ skipn n bs = emitted st ++ bs).
      { unfold emitted. cbn. rewrite app_nil_r, Hr, <- !app_assoc, firstn_skipn. reflexivity. }
      destruct IH as [(-> & He2 & Hk & Hb2 & Hg2)|(e & -> & He & Hbad & rest & Hr2)].
      * left. splits; auto. rewrite He2, Hem. reflexivity.
      * right. exists e. splits; auto. exists rest. rewrite Hr2, Hem. reflexivity.
    + right. exists e. splits; auto. exists (q ++ skipn n bs). cbn.
      rewrite Hr. unfold emitted. rewrite <- !app_assoc. f_equal.
      rewrite app_assoc, <- Hpq, <- app_assoc, firstn_skipn. reflexivity.
  - specialize (IH (skipn n bs) (set_sink_buf st (w_sink st) (w_buf st ++ firstn n bs))).
    cbn [w_buf set_sink_buf] in IH.
    assert (Hrest : (length (skipn n bs) + (if Nat.leb WRITER_BUF_SIZE (length (w_buf st ++ firstn n bs)) then 1 else 0) <= fuel)%nat).
    { rewrite skipn_length. destruct (Nat.leb_spec WRITER_BUF_SIZE (length (w_buf st ++ firstn n bs))); [lia|].
      rewrite app_length, firstn_length in Hfree. unfold n in *.
      destruct (Nat.leb_spec WRITER_BUF_SIZE (length (w_buf st))); lia. }
    specialize (IH Hrest).
    destruct (write_bytes_loop fuel (skipn n bs) _) as [r2 st2].
    assert (Hem : emitted (set_sink_buf st (w_sink st) (w_buf st ++ firstn n bs)) ++ skipn n bs = emitted st ++ bs).
    { unfold emitted. cbn. rewrite <- !app_assoc, firstn_skipn. reflexivity. }
    destruct IH as [(-> & He2 & Hk & Hb2 & Hg2)|(e & -> & He & Hbad & rest & Hr2)].
    + left. splits; auto. rewrite He2, Hem. reflexivity.
    + right. exists e. splits; auto. exists rest. rewrite Hr2, Hem. reflexivity.
Qed.

Lemma writes_bytes bs st : writes (write_bytes bs) st bs tt (core_of st).
Proof. intros Hb. apply write_bytes_loop_spec. destruct (Nat.leb _ _); lia. Qed.

(** Without any assumption on the state (also after errors): no panic, no lack
    of fuel, and only the buffer and the sink change. *)
Lemma write_bytes_loop_any fuel : forall bs st, (length bs + (if Nat.leb WRITER_BUF_SIZE (length (w_buf st)) then 1 else 0) <= fuel)%nat ->
  let (r, st') := write_bytes_loop fuel bs st in
  (r = Ok tt \/ exists e, r = Err e) /\ core_of st' = core_of st.
Proof.
  induction fuel as [|fuel IH]; intros bs st Hl.
  { destruct bs; [|cbn in Hl; lia]. cbn. auto. }
  destruct bs as [|b bs0]; [cbn; auto|].
  remember (b :: bs0) as bs eqn:Ebs.
  assert (Hne : (0 < length bs)%nat) by (subst; cbn; lia).
  cbn [write_bytes_loop]. rewrite Ebs. rewrite <- Ebs.
  set (n := Nat.min (WRITER_BUF_SIZE - length (w_buf st)) (length bs)).
  destruct (Nat.leb_spec WRITER_BUF_SIZE (length (w_buf st ++ firstn n bs))) as [Hfull|Hfree].
  - destruct (write_all (w_sink st) (w_buf st ++ firstn n bs)) as [r s'] eqn:Ew.
    apply write_all_spec in Ew as (Hg & _ & _ & [[-> Hr]|(e & p & q & -> & He & Hr & Hpq & Hbad)]).
    + specialize (IH (skipn n bs) (set_sink_buf st s' [])).
      cbn [w_buf set_sink_buf length] in IH.
      destruct (Nat.leb_spec WRITER_BUF_SIZE 0) as [H0|_] in IH; [pose proof buf_size_pos; lia|].
      assert (Hrest : (length (skipn n bs) + 0 <= fuel)%nat).
      { rewrite skipn_length. rewrite app_length, firstn_length in Hfull.
        destruct (Nat.leb_spec WRITER_BUF_SIZE (length (w_buf st))); unfold n in *; lia. }
      specialize (IH Hrest). destruct (write_bytes_loop fuel (skipn n bs) _) as [r2 st2]. exact IH.
    + split; [right; eauto|reflexivity].
  - specialize (IH (skipn n bs) (set_sink_buf st (w_sink st) (w_buf st ++ firstn n bs))).
    cbn [w_buf set_sink_buf] in IH.
    assert (Hrest : (length (skipn n bs) + (if Nat.leb WRITER_BUF_SIZE (length (w_buf st ++ firstn n bs)) then 1 else 0) <= fuel)%nat).
    { rewrite skipn_length. destruct (Nat.leb_spec WRITER_BUF_SIZE (length (w_buf st ++ firstn n bs))); [lia|].
      rewrite app_length, firstn_length in Hfree. unfold n in *.
      destruct (Nat.leb_spec WRITER_BUF_SIZE (length (w_buf st))); lia. }
    specialize (IH Hrest). destruct (write_bytes_loop fuel (skipn n bs) _) as [r2 st2]. exact IH.
Qed.

Lemma write_bytes_any bs st :
  let (r, st') := write_bytes bs st in (r = Ok tt \/ exists e, r = Err e) /\ core_of st' = core_of st.
Proof.
  apply write_bytes_loop_any. destruct (Nat.leb _ _); lia.
Qed.

(** ** Escapes *)

Lemma should_escape_must cfg c : should_escape cfg c = must_escape cfg c.
Proof.
  unfold should_escape, must_escape, is_ascii.
  replace (c <=? 0x1F) with (c <? 0x20) by (apply eq_true_iff_eq; rewrite N.leb_le, N.ltb_lt; lia).
  replace (negb (c <=? 0x7F)) with (0x80 <=? c)
    by (apply eq_true_iff_eq; rewrite negb_true_iff, N.leb_gt, N.leb_le; lia).
  reflexivity.
Qed.

Lemma to_hex_digit i : i < 16 -> to_hex i = Some (hex_digit i).
Proof.
  intros H. unfold to_hex, hex_digit.
  destruct (N.leb_spec i 9); destruct (N.ltb_spec i 10); try lia; [reflexivity|].
  destruct (N.leb_spec i 15); [reflexivity|lia].
Qed.

Lemma land_15 n : N.land n 15 = n mod 16.
Proof. change 15 with (N.ones 4). rewrite N.land_ones. reflexivity. Qed.

Lemma get_unicode_escape_spec v : v < 0x10000 ->
  get_unicode_escape v = Some [hex_digit (v / 0x1000); hex_digit ((v / 0x100) mod 16);
   hex_digit ((v / 0x10) mod 16); hex_digit (v mod 16)].
Proof.
  intros H. unfold get_unicode_escape.
  destruct (N.ltb_spec 0xFFFF v); [lia|].
  rewrite !land_15, !N.shiftr_div_pow2.
  change (2 ^ 12) with 0x1000. change (2 ^ 8) with 0x100. change (2 ^ 4) with 0x10.
  rewrite !to_hex_digit by (apply N.mod_lt; discriminate).
  rewrite (N.mod_small (v / 0x1000) 16) by (apply N.div_lt_upper_bound; [discriminate|exact H]).
  reflexivity.
Qed.

Lemma writes_u_escape v st : v < 0x10000 -> writes (write_unicode_escape v) st (u_escape v) tt (core_of st).
Proof.
  intros H. unfold write_unicode_escape.
  eapply writes_bind_eq; [apply writes_bytes|reflexivity|]. intros st1 Hk.
  rewrite get_unicode_escape_spec by exact H. rewrite <- Hk. apply writes_bytes.
Qed.

Lemma writes_escaped_char c st : is_char c -> c <> B_SLASH ->
  writes (write_escaped_char c) st (escape_seq c) tt (core_of st).
Proof.
  intros Hc Hs. unfold write_escaped_char, escape_seq.
  repeat (match goal with |- context[?a =? ?b] => destruct (N.eqb_spec a b) end; try (apply writes_bytes); try contradiction).
  destruct (N.leb_spec c 0xFFFF) as [Hle|Hgt]; destruct (N.ltb_spec c 0x10000); try lia.
  - apply writes_u_escape. lia.
  - assert (Hlt : c < 0x110000) by (unfold is_char in Hc; lia).
    replace (N.shiftr (c - 0x10000) 10 + 0xD800) with (0xD800 + (c - 0x10000) / 0x400)
      by (rewrite N.shiftr_div_pow2; change (2 ^ 10) with 0x400; lia).
    replace (N.land (c - 0x10000) (N.shiftl 1 10 - 1) + 0xDC00) with (0xDC00 + (c - 0x10000) mod 0x400).
    2:{ change (N.shiftl 1 10 - 1) with (N.ones 10). rewrite N.land_ones. change (2 ^ 10) with 0x400. lia. }
    eapply writes_bind.
    + apply writes_u_escape. 
      assert ((c - 0x10000) / 0x400 < 0x400) by (apply N.div_lt_upper_bound; lia). lia.
    + intros st1 Hk. rewrite <- Hk. apply writes_u_escape.
      assert ((c - 0x10000) mod 0x400 < 0x400) by (apply N.mod_lt; discriminate). lia.
Qed.

Lemma must_escape_slash cfg : must_escape cfg B_SLASH = false.
Proof. unfold must_escape, is_control. destruct (escape_all_non_ascii cfg), (escape_all_control_chars cfg); reflexivity. Qed.

Lemma string_content_app cfg s1 s2 : string_content cfg (s1 ++ s2) = string_content cfg s1 ++ string_content cfg s2.
Proof. apply flat_map_app. Qed.

Lemma slice_app_mid {A} (l1 l2 l3 : list A) : slice (l1 ++ l2 ++ l3) (length l1) (length l1 + length l2) = l2.
Proof.
  unfold slice. rewrite skipn_app, skipn_all, Nat.sub_diag. cbn [skipn app].
  replace (length l1 + length l2 - length l1)%nat with (length l2 + 0)%nat by lia.
  rewrite firstn_app_2. cbn. apply app_nil_r.
Qed.

Lemma writes_ext {A} (m m' : W A) st t a k : m st = m' st -> writes m' st t a k -> writes m st t a k.
Proof. unfold writes. intros ->. auto. Qed.

Lemma wbind_assoc {A B C} (m : W A) (f : A -> W B) (g : B -> W C) st :
  wbind (wbind m f) g st = wbind m (fun x => wbind (f x) g) st.
Proof. unfold wbind. destruct (m st) as [[]]; reflexivity. Qed.

Lemma string_content_plain cfg s : Forall (fun c => must_escape cfg c = false) s ->
  string_content cfg s = encode_utf8 s.
Proof.
  induction 1 as [|x l Hx Hl IH]; [reflexivity|].
  unfold string_content in *. cbn [flat_map]. unfold char_text at 1. rewrite Hx, IH. reflexivity.
Qed.

Definition piece_rest (bs : bytes) (n : nat) : W unit :=
  if Nat.ltb n (length bs) then write_bytes (skipn n bs) else wret tt.

(** Characters [done] are completely written, [pend] are the following ones
    which need no escape. *)
Lemma string_piece_loop_spec cfg bs chars : forall done pend st,
  Forall is_char chars -> Forall (fun c => must_escape cfg c = false) pend ->
  bs = encode_utf8 (done ++ pend ++ chars) ->
  writes (wbind (string_piece_loop cfg bs chars (length (encode_utf8 (done ++ pend))) (length (encode_utf8 done)))
            (piece_rest bs)) st (string_content cfg (pend ++ chars)) tt (core_of st).
Proof.
  induction chars as [|c chars IH]; intros done pend st Hc Hp Hbs.
  - cbn [string_piece_loop]. eapply writes_bind0; [apply writes_ret|]. intros st1 Hk.
    rewrite <- Hk, app_nil_r, string_content_plain by exact Hp. unfold piece_rest.
    rewrite app_nil_r, encode_utf8_app in Hbs. subst bs.
    rewrite app_length. destruct (Nat.ltb_spec (length (encode_utf8 done)) (length (encode_utf8 done) + length (encode_utf8 pend))).
    + rewrite skipn_app, skipn_all, Nat.sub_diag. apply writes_bytes.
    + destruct (encode_utf8 pend); [apply writes_ret|cbn in *; lia].
  - apply Forall_cons_iff in Hc as [Hcc Hcs]. cbn [string_piece_loop]. rewrite should_escape_must.
    assert (Hidx : (length (encode_utf8 (done ++ pend)) + len_utf8 c)%nat = length (encode_utf8 (done ++ pend ++ [c]))).
    { rewrite app_assoc, (encode_utf8_app (done ++ pend)), app_length, encode_utf8_cons, app_length,
        encode_char_length. cbn. lia. }
    rewrite Hidx.
    destruct (must_escape cfg c) eqn:Em.
    + assert (Hmid : forall st0, writes
        (if Nat.ltb (length (encode_utf8 done)) (length (encode_utf8 (done ++ pend)))
         then write_bytes (slice bs (length (encode_utf8 done)) (length (encode_utf8 (done ++ pend))))
         else wret tt) st0 (string_content cfg pend) tt (core_of st0)).
      { intros st0. rewrite string_content_plain by exact Hp. subst bs.
        destruct (Nat.ltb_spec (length (encode_utf8 done)) (length (encode_utf8 (done ++ pend)))) as [Hlt|Hge].
        - rewrite !encode_utf8_app, app_length, slice_app_mid. apply writes_bytes.
        - rewrite encode_utf8_app, app_length in Hge.
          destruct (encode_utf8 pend); [|cbn in Hge; lia]. apply writes_ret. }
      eapply writes_ext; [apply wbind_assoc|].
      eapply writes_bind_eq; [apply Hmid|apply string_content_app|]. intros st1 Hk1. rewrite <- Hk1.
      eapply writes_ext; [apply wbind_assoc|].
      assert (Hesc : string_content cfg (c :: chars) = escape_seq c ++ string_content cfg chars).
      { unfold string_content. cbn [flat_map]. unfold char_text at 1. rewrite Em. reflexivity. }
      eapply writes_bind_eq; [apply writes_escaped_char; [exact Hcc|]|exact Hesc|].
      { intros ->. rewrite must_escape_slash in Em. discriminate. }
      intros st2 Hk2. rewrite <- Hk2.
      specialize (IH (done ++ pend ++ [c]) [] st2 Hcs ltac:(constructor)).
      rewrite app_nil_r in IH. apply IH.
      subst bs. cbn [app]. rewrite <- !app_assoc. reflexivity.
    + specialize (IH done (pend ++ [c]) st Hcs). rewrite <- app_assoc in IH. apply IH.
      * apply Forall_app. split; auto.
      * exact Hbs.
Qed.

Lemma writes_piece cfg s st : Forall is_char s ->
  writes (write_string_value_piece cfg s) st (string_content cfg s) tt (core_of st).
Proof.
  intros Hs. apply (string_piece_loop_spec cfg (encode_utf8 s) s [] [] st Hs ltac:(constructor) eq_refl).
Qed.

Lemma writes_string cfg s st : Forall is_char s ->
  writes (write_string_value cfg s) st (string_text cfg s) tt (core_of st).
Proof.
  intros Hs. unfold write_string_value, string_text.
  eapply writes_bind; [apply writes_bytes|]. intros st1 H1. rewrite <- H1.
  eapply writes_bind; [apply writes_piece, Hs|]. intros st2 H2. rewrite <- H2.
  apply writes_bytes.
Qed.

(** ** Indentation *)

Lemma writes_indentation_loop n : forall st,
  writes (write_indentation_loop n) st (concat (repeat [0x20; 0x20] n)) tt (core_of st).
Proof.
  induction n as [|n IH]; intros st; cbn [write_indentation_loop repeat concat].
  - apply writes_ret.
  - eapply writes_bind; [apply writes_bytes|]. intros st1 H1. rewrite <- H1. apply IH.
Qed.

Lemma writes_indentation st :
  writes write_indentation st (concat (repeat [0x20; 0x20] (w_indentation st))) tt (core_of st).
Proof. eapply writes_ext; [|apply writes_indentation_loop]. reflexivity. Qed.

Definition indent_add (cfg : wsettings) (n : nat) : nat := if pretty_print cfg then S n else n.

Lemma writes_before_element cfg st : pretty_print cfg = true \/ w_indentation st = O ->
  let n := if w_is_empty st then indent_add cfg (w_indentation st) else w_indentation st in
  writes (before_container_element cfg) st (before_element cfg (w_is_empty st) n) tt
    (Core (w_is_empty st) (w_expects_member_name st) (w_stack st) (w_string_active st) n).
Proof.
  intros Hi n. unfold before_container_element.
  eapply writes_bind0; [apply writes_get|]. intros st1 H1.
  assert (En : w_indentation st1 = w_indentation st) by (apply (f_equal k_indent) in H1; exact H1).
  unfold before_element, n, indent_add. clear n.
  destruct (w_is_empty st) eqn:Ee; destruct (pretty_print cfg) eqn:Ep.
  - eapply writes_bind_eq; [apply writes_bytes|reflexivity|]. intros st2 H2.
    eapply writes_bind0; [apply writes_modify; [auto|reflexivity]|]. intros st3 H3.
    assert (En3 : w_indentation st3 = S (w_indentation st2)) by (apply (f_equal k_indent) in H3; exact H3).
    assert (En2 : w_indentation st2 = w_indentation st) by (apply (f_equal k_indent) in H2; cbn in H2; congruence).
    replace (Core _ _ _ _ _) with (core_of st3).
    2:{ rewrite H3, <- Ee. rewrite <- H2 in H1. unfold core_of in *. cbn. injection H1 as -> -> -> -> ->. reflexivity. }
    replace (S (w_indentation st)) with (w_indentation st3) by congruence. apply writes_indentation.
  - replace (Core _ _ _ _ _) with (core_of st1) by (rewrite H1, <- Ee; reflexivity). apply writes_ret.
  - unfold new_line.
    change ([0x2C] ++ 0x0A :: concat (repeat [0x20; 0x20] (w_indentation st))) with
      ([0x2C; 0x0A] ++ concat (repeat [0x20; 0x20] (w_indentation st))).
    eapply writes_bind_eq; [apply writes_bytes|reflexivity|]. intros st2 H2.
    assert (En2 : w_indentation st2 = w_indentation st) by (apply (f_equal k_indent) in H2; cbn in H2; congruence).
    replace (Core _ _ _ _ _) with (core_of st2) by (rewrite H2, H1, <- Ee; reflexivity).
    rewrite <- En2. apply writes_indentation.
  - rewrite app_nil_r. replace (Core _ _ _ _ _) with (core_of st1) by (rewrite H1, <- Ee; reflexivity). apply writes_bytes.
Qed.
