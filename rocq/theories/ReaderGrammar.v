(** * The scanners recognise exactly the grammar of [SpecJson] *)

From Verif Require Import Base Utf8Model Utf8Proofs NumberModel SpecNumber NumberProofs SpecJson SourceModel ReaderModel
  ReaderScan ReaderLex ReaderLexStr ReaderMid.

(** ** UTF-8 *)

Lemma encode_char_1 c : c < 0x80 -> encode_char c = [c].
Proof. intros H. unfold encode_char. destruct (N.ltb_spec c 0x80); [reflexivity|lia]. Qed.

Lemma is_1byte_iff b : is_1byte b = true <-> b < 0x80.
Proof. unfold is_1byte. rewrite N.leb_le. lia. Qed.

Lemma encode_char_high c : is_char c -> 0x80 <= c -> Forall (fun b => 0x80 <= b /\ is_byte b) (encode_char c).
Proof.
  intros Hc H. pose proof (encode_char_bytes c Hc) as Hb.
  assert (Hg : Forall (fun b => 0x80 <= b) (encode_char c)).
  { unfold encode_char. destruct (N.ltb_spec c 0x80); [lia|].
    destruct (N.ltb_spec c 0x800); [|destruct (N.ltb_spec c 0x10000)]; repeat constructor; lia. }
  rewrite Forall_forall in *. intros b Hin. auto.
Qed.

Lemma take_multi_sound b r bs r' : Forall is_byte (b :: r) -> 0x80 <= b -> take_multi b r = Some (bs, r') ->
  b :: r = bs ++ r' /\ exists c, is_char c /\ 0x80 <= c /\ bs = encode_char c.
Proof.
  intros Hb Hge H. inversion Hb as [|? ? Hb0 Hr]; subst. unfold take_multi in H.
  destruct r as [|b1 r1]; [discriminate|]. inversion Hr as [|? ? Hb1 Hr1]; subst.
  rewrite (is_continuation_range b1 Hb1) in H.
  destruct (in_range 0x80 0xBF b1) eqn:E1; [|discriminate]. cbn [negb] in H.
  rewrite (is_2byte_start_range b Hb0) in H.
  destruct (in_range 0xC0 0xDF b) eqn:E0.
  { destruct (is_valid_2bytes b b1) eqn:Ev; [|discriminate]. injection H as <- <-. split; [reflexivity|].
    unfold is_valid_2bytes in Ev. rewrite code_point2 in Ev by assumption. apply N.leb_le in Ev.
    apply in_range_iff in E0, E1.
    destruct (dec_enc2 b b1) as (H1 & H2 & H3); [lia|lia|].
    exists ((b - 0xC0) * 0x40 + (b1 - 0x80)). splits; auto. unfold is_char. lia. }
  destruct r1 as [|b2 r2]; [discriminate|]. inversion Hr1 as [|? ? Hb2 Hr2]; subst.
  rewrite (is_continuation_range b2 Hb2) in H.
  destruct (in_range 0x80 0xBF b2) eqn:E2; [|discriminate]. cbn [negb] in H.
  rewrite (is_3byte_start_range b Hb0) in H.
  destruct (in_range 0xE0 0xEF b) eqn:E3.
  { destruct (is_valid_3bytes b b1 b2) eqn:Ev; [|discriminate]. injection H as <- <-. split; [reflexivity|].
    unfold is_valid_3bytes in Ev. rewrite code_point3 in Ev by assumption. cbv zeta in Ev.
    apply andb_true_iff in Ev as [Ev1 Ev2]. apply N.leb_le in Ev1. apply negb_true_iff in Ev2.
    apply andb_false_iff in Ev2. rewrite !N.leb_gt in Ev2.
    apply in_range_iff in E3, E1, E2.
    destruct (dec_enc3 b b1 b2) as (H1 & H2); [lia..|].
    exists ((b - 0xE0) * 0x1000 + (b1 - 0x80) * 0x40 + (b2 - 0x80)). splits; auto; [unfold is_char|]; lia. }
  rewrite (is_4byte_start_range b Hb0) in H.
  destruct (in_range 0xF0 0xF7 b) eqn:E4; [|discriminate].
  destruct r2 as [|b3 r3]; [discriminate|]. inversion Hr2 as [|? ? Hb3 Hr3]; subst.
  rewrite (is_continuation_range b3 Hb3) in H.
  destruct (in_range 0x80 0xBF b3) eqn:E5; [|discriminate]. cbn [negb] in H.
  destruct (is_valid_4bytes b b1 b2 b3) eqn:Ev; [|discriminate]. injection H as <- <-. split; [reflexivity|].
  unfold is_valid_4bytes in Ev. rewrite code_point4 in Ev by assumption. cbv zeta in Ev.
  apply andb_true_iff in Ev as [Ev1 Ev2]. apply N.leb_le in Ev1, Ev2.
  apply in_range_iff in E4, E1, E2, E5.
  pose proof (dec_enc4 b b1 b2 b3) as H2. cbv zeta in H2.
  exists ((b - 0xF0) * 0x40000 + (b1 - 0x80) * 0x1000 + (b2 - 0x80) * 0x40 + (b3 - 0x80)).
  splits; [unfold is_char; lia|lia|]. rewrite H2; [reflexivity|lia..].
Qed.

Lemma take_multi_complete c r : is_char c -> 0x80 <= c ->
  exists b t, encode_char c = b :: t /\ 0x80 <= b /\ take_multi b (t ++ r) = Some (encode_char c, r).
Proof.
  intros Hc Hge. pose proof (encode_char_high c Hc Hge) as Hh. unfold take_multi.
  destruct (N.lt_ge_cases c 0x800) as [H1|H1];
    [rewrite (encode_char_2 c) in * by assumption
    |destruct (N.lt_ge_cases c 0x10000) as [H2|H2];
      [rewrite (encode_char_3 c) in * by assumption|rewrite (encode_char_4 c) in * by assumption]];
    eexists _, _; (split; [reflexivity|]).
  - inversion Hh as [|? ? [Hb0 Hb0'] Hh1]; subst. inversion Hh1 as [|? ? [Hb1 Hb1'] _]; subst.
    split; [exact Hb0|]. cbn [app].
    assert (E1 : in_range 0x80 0xBF (0x80 + c mod 0x40) = true) by (apply in_range_iff; lia).
    assert (E0 : in_range 0xC0 0xDF (0xC0 + c / 0x40) = true) by (apply in_range_iff; lia).
    rewrite is_continuation_range, E1, is_2byte_start_range, E0 by assumption. cbn [negb].
    unfold is_valid_2bytes. rewrite code_point2 by assumption. cbv zeta.
    destruct (N.leb_spec 0x80 ((0xC0 + c / 0x40 - 0xC0) * 0x40 + (0x80 + c mod 0x40 - 0x80))); [reflexivity|lia].
  - inversion Hh as [|? ? [Hb0 Hb0'] Hh1]; subst. inversion Hh1 as [|? ? [Hb1 Hb1'] Hh2]; subst.
    inversion Hh2 as [|? ? [Hb2 Hb2'] _]; subst.
    split; [exact Hb0|]. cbn [app].
    assert (E1 : in_range 0x80 0xBF (0x80 + (c / 0x40) mod 0x40) = true) by (apply in_range_iff; lia).
    assert (E2 : in_range 0x80 0xBF (0x80 + c mod 0x40) = true) by (apply in_range_iff; lia).
    assert (E0 : in_range 0xC0 0xDF (0xE0 + c / 0x1000) = false) by (apply in_range_false; lia).
    assert (E3 : in_range 0xE0 0xEF (0xE0 + c / 0x1000) = true) by (apply in_range_iff; lia).
    rewrite !is_continuation_range, E1, E2, is_2byte_start_range, E0, is_3byte_start_range, E3 by assumption. cbn [negb].
    unfold is_valid_3bytes. rewrite code_point3 by assumption. cbv zeta.
    replace ((0xE0 + c / 0x1000 - 0xE0) * 0x1000 + (0x80 + (c / 0x40) mod 0x40 - 0x80) * 0x40 + (0x80 + c mod 0x40 - 0x80))
      with c by lia.
    unfold is_char in Hc.
    destruct (N.leb_spec 0x800 c); [|lia]. destruct (N.leb_spec 0xD800 c); destruct (N.leb_spec c 0xDFFF); try reflexivity; lia.
  - inversion Hh as [|? ? [Hb0 Hb0'] Hh1]; subst. inversion Hh1 as [|? ? [Hb1 Hb1'] Hh2]; subst.
    inversion Hh2 as [|? ? [Hb2 Hb2'] Hh3]; subst. inversion Hh3 as [|? ? [Hb3 Hb3'] _]; subst.
    split; [exact Hb0|]. cbn [app]. unfold is_char in Hc.
    assert (E1 : in_range 0x80 0xBF (0x80 + (c / 0x1000) mod 0x40) = true) by (apply in_range_iff; lia).
    assert (E2 : in_range 0x80 0xBF (0x80 + (c / 0x40) mod 0x40) = true) by (apply in_range_iff; lia).
    assert (E4 : in_range 0x80 0xBF (0x80 + c mod 0x40) = true) by (apply in_range_iff; lia).
    assert (E0 : in_range 0xC0 0xDF (0xF0 + c / 0x40000) = false) by (apply in_range_false; lia).
    assert (E3 : in_range 0xE0 0xEF (0xF0 + c / 0x40000) = false) by (apply in_range_false; lia).
    assert (E5 : in_range 0xF0 0xF7 (0xF0 + c / 0x40000) = true) by (apply in_range_iff; lia).
    rewrite !is_continuation_range, E1, E2, E4, is_2byte_start_range, E0, is_3byte_start_range, E3, is_4byte_start_range, E5
      by assumption. cbn [negb].
    unfold is_valid_4bytes. rewrite code_point4 by assumption. cbv zeta.
    replace ((0xF0 + c / 0x40000 - 0xF0) * 0x40000 + (0x80 + (c / 0x1000) mod 0x40 - 0x80) * 0x1000 +
             (0x80 + (c / 0x40) mod 0x40 - 0x80) * 0x40 + (0x80 + c mod 0x40 - 0x80)) with c by lia.
    destruct (N.leb_spec 0x10000 c); [|lia]. destruct (N.leb_spec c 0x10FFFF); [reflexivity|lia].
Qed.

(** ** Comments and whitespace *)

Lemma rejected_control_false b : rejected_control b = false <-> (0x20 <= b \/ b = 0x09 \/ b = 0x0A \/ b = 0x0D).
Proof.
  unfold rejected_control. destruct (N.leb_spec b 0x1F); cbn [andb]; [|split; [lia|reflexivity]].
  rewrite negb_false_iff, !orb_true_iff, !N.eqb_eq. lia.
Qed.

(** Characters which [scan_to] skips *)
Definition skipped (stop : byte -> bool) (c : char) : Prop :=
  comment_char c /\ stop (hd 0 (encode_char c)) = false.

Definition prefix_ok (w r : bytes) (o : bytes) : Prop := w ++ r = o.

Lemma prepend_ok w o w' r : prepend w o = SOk (w', r) -> exists w2, o = SOk (w2, r) /\ w' = w ++ w2.
Proof. destruct o as [[w2 r2]| |]; try discriminate. intros [= <- <-]. eauto. Qed.
Lemma prepend_fuel w o : prepend w o = SFuel -> o = SFuel.
Proof. destruct o as [[w2 r2]| |]; try discriminate; auto. Qed.

Lemma scan_to_sound stop eof f : forall r w r', Forall is_byte r -> scan_to f stop eof r = SOk (w, r') ->
  r = w ++ r' /\ (exists cs, w = encode_utf8 cs /\ Forall (skipped stop) cs) /\
  match r' with [] => eof = true | b :: _ => stop b = true end.
Proof.
  induction f as [|f IH]; intros r w r' Hr H; [discriminate|]. cbn [scan_to] in H.
  destruct r as [|b r].
  { destruct eof; [|discriminate]. injection H as <- <-. splits; auto. exists []. split; [reflexivity|constructor]. }
  destruct (stop b) eqn:Es.
  { injection H as <- <-. splits; auto. exists []. split; [reflexivity|constructor]. }
  destruct (rejected_control b) eqn:Ec; [discriminate|]. apply rejected_control_false in Ec.
  destruct (is_1byte b) eqn:E1.
  - apply is_1byte_iff in E1. apply prepend_ok in H as (w2 & H & ->). inversion Hr; subst.
    apply IH in H as (-> & (cs & -> & Hcs) & Hstop); [|assumption]. splits; auto.
    exists (b :: cs). rewrite encode_utf8_cons, encode_char_1 by exact E1. split; [reflexivity|].
    constructor; [|exact Hcs]. split; [split; [unfold is_char; lia|exact Ec]|]. rewrite encode_char_1 by exact E1. exact Es.
  - destruct (take_multi b r) as [[bs r2]|] eqn:Em; [|discriminate].
    assert (Hge : 0x80 <= b). { destruct (N.lt_ge_cases b 0x80) as [Hl|Hl]; [|exact Hl]. apply is_1byte_iff in Hl. congruence. }
    pose proof (take_multi_sound _ _ _ _ Hr Hge Em) as (He & c & Hc & Hc2 & ->).
    apply prepend_ok in H as (w2 & H & ->). rewrite He in Hr |- *. apply Forall_app in Hr as [_ Hr].
    apply IH in H as (-> & (cs & -> & Hcs) & Hstop); [|assumption]. splits; auto.
    { rewrite app_assoc. reflexivity. }
    exists (c :: cs). rewrite encode_utf8_cons. split; [reflexivity|].
    constructor; [|exact Hcs]. split; [split; [exact Hc|left; lia]|].
    destruct (encode_char_nonempty c) as (b' & t' & Ht). rewrite Ht in He |- *. cbn in He |- *. injection He as <- _. exact Es.
Qed.

Lemma length_app_lt {A} (x y : list A) n : (length (x ++ y) < n)%nat -> x <> [] -> (length y < pred n)%nat.
Proof. rewrite app_length. destruct x; [congruence|]. cbn. lia. Qed.

Lemma take_multi_length b r bs r' : take_multi b r = Some (bs, r') -> (length r' < length r)%nat.
Proof.
  unfold take_multi. intros H.
  repeat match type of H with
         | match ?x with _ => _ end = _ => destruct x; try discriminate
         end; injection H as <- <-; cbn; lia.
Qed.

Lemma scan_to_fuel stop eof f : forall r, (length r < f)%nat -> scan_to f stop eof r <> SFuel.
Proof.
  induction f as [|f IH]; intros r Hf; [lia|]. cbn [scan_to].
  destruct r as [|b r]; [destruct eof; discriminate|]. cbn [length] in Hf.
  destruct (stop b); [discriminate|]. destruct (rejected_control b); [discriminate|].
  destruct (is_1byte b).
  - intros H. apply prepend_fuel in H. revert H. apply IH. lia.
  - destruct (take_multi b r) as [[bs r2]|] eqn:Em; [|discriminate]. apply take_multi_length in Em.
    intros H. apply prepend_fuel in H. revert H. apply IH. lia.
Qed.

Lemma scan_to_complete stop eof cs : forall f r, Forall (skipped stop) cs -> (length (encode_utf8 cs ++ r) < f)%nat ->
  match r with [] => eof = true | b :: _ => stop b = true end ->
  scan_to f stop eof (encode_utf8 cs ++ r) = SOk (encode_utf8 cs, r).
Proof.
  induction cs as [|c cs IH]; intros f r Hcs Hf Hr; destruct f as [|f]; try lia.
  - cbn [encode_utf8 flat_map app scan_to] in *. destruct r as [|b r]; rewrite Hr; reflexivity.
  - inversion Hcs as [|? ? [[Hc Hc2] Hs] Hcs']; subst. rewrite encode_utf8_cons in *.
    rewrite <- app_assoc in *.
    destruct (N.lt_ge_cases c 0x80) as [Hl|Hl].
    + rewrite encode_char_1 in * by exact Hl. cbn [hd app length] in *. cbn [scan_to].
      rewrite Hs. rewrite (proj2 (rejected_control_false c)) by exact Hc2. rewrite (proj2 (is_1byte_iff c) Hl).
      rewrite IH; [reflexivity|exact Hcs'|lia|exact Hr].
    + destruct (take_multi_complete c (encode_utf8 cs ++ r) Hc Hl) as (b & t & He & Hb & Ht).
      rewrite He in *. cbn [hd app length] in *. cbn [scan_to].
      rewrite Hs. rewrite (proj2 (rejected_control_false b)) by lia.
      destruct (is_1byte b) eqn:E1; [apply is_1byte_iff in E1; lia|]. rewrite Ht.
      rewrite app_length in Hf.
      rewrite IH; [reflexivity|exact Hcs'|lia|exact Hr].
Qed.

(** *** Block comments *)

Definition no_end (t : bytes) : Prop := ~ exists t1 t2, t = t1 ++ [0x2A; 0x2F] ++ t2.

Lemma no_end_cons b t : no_end t -> (b = 0x2A -> match t with 0x2F :: _ => False | _ => True end) -> no_end (b :: t).
Proof.
  intros Ht Hb (t1 & t2 & He). destruct t1 as [|b1 t1].
  - injection He as -> ->. exact (Hb eq_refl).
  - injection He as -> He. apply Ht. exists t1, t2. exact He.
Qed.
Lemma no_end_nil : no_end [].
Proof. intros (t1 & t2 & He). destruct t1; discriminate. Qed.
Lemma no_end_app t1 t2 : Forall (fun b => b <> 0x2A) t1 -> no_end t2 -> no_end (t1 ++ t2).
Proof.
  induction 1 as [|b t1 Hb Ht IH]; intros H; [exact H|]. cbn. apply no_end_cons; [auto|]. intros; contradiction.
Qed.
Lemma no_end_tail t1 t2 : no_end (t1 ++ t2) -> no_end t2.
Proof. intros H (x & y & ->). apply H. exists (t1 ++ x), y. rewrite <- app_assoc. reflexivity. Qed.

Lemma skipped_star_bytes cs : Forall (skipped is_star) cs -> Forall (fun b => b <> 0x2A) (encode_utf8 cs).
Proof.
  induction 1 as [|c cs [[Hc Hc2] Hs] Hcs IH]; [constructor|]. rewrite encode_utf8_cons. apply Forall_app. split; [|exact IH].
  destruct (N.lt_ge_cases c 0x80) as [Hl|Hl].
  - rewrite encode_char_1 in * by exact Hl. cbn in Hs. constructor; [|constructor]. apply N.eqb_neq. exact Hs.
  - eapply Forall_impl; [|exact (encode_char_high c Hc Hl)]. cbn. lia.
Qed.

Lemma encode_head_low c t b r : is_char c -> encode_char c ++ t = b :: r -> b < 0x80 -> c = b.
Proof.
  intros Hc He Hb. destruct (N.lt_ge_cases c 0x80) as [Hl|Hl].
  - rewrite encode_char_1 in He by exact Hl. injection He as -> _. reflexivity.
  - pose proof (encode_char_high c Hc Hl) as Hh. destruct (encode_char_nonempty c) as (b' & t' & Ht).
    rewrite Ht in *. injection He as -> _. inversion Hh; lia.
Qed.

Lemma scan_block_sound F f : forall r w r', Forall is_byte r -> scan_block F f r = SOk (w, r') ->
  r = w ++ r' /\ exists cs, w = encode_utf8 cs ++ [0x2A; 0x2F] /\ Forall comment_char cs /\ no_end (encode_utf8 cs).
Proof.
  induction f as [|f IH]; intros r w r' Hr H; [discriminate|]. cbn [scan_block] in H.
  destruct (scan_to F is_star false r) as [[w1 r1]| |] eqn:Es; try discriminate.
  destruct r1 as [|star [|b r2]]; try discriminate.
  apply scan_to_sound in Es as (-> & (cs & -> & Hcs) & Hstar); [|exact Hr].
  apply N.eqb_eq in Hstar. subst star.
  assert (Hcc : Forall comment_char cs) by (eapply Forall_impl; [|exact Hcs]; intros c [Hc _]; exact Hc).
  destruct (N.eqb_spec b B_SLASH) as [->|Hb].
  - injection H as <- <-. rewrite <- app_assoc. split; [reflexivity|]. exists cs. splits; auto.
    rewrite <- (app_nil_r (encode_utf8 cs)). apply no_end_app; [|apply no_end_nil]. apply skipped_star_bytes. exact Hcs.
  - apply prepend_ok in H as (w2 & H & ->). apply Forall_app in Hr as [_ Hr]. inversion Hr; subst.
    apply IH in H as (He & cs2 & -> & Hc2 & Hn); [|assumption]. rewrite He.
    split; [rewrite <- !app_assoc; reflexivity|].
    exists (cs ++ 0x2A :: cs2). rewrite encode_utf8_app, encode_utf8_cons, encode_char_1 by lia.
    split; [rewrite <- !app_assoc; reflexivity|]. split.
    { apply Forall_app. split; [exact Hcc|]. constructor; [|exact Hc2]. split; [unfold is_char; lia|left; lia]. }
    apply no_end_app; [apply skipped_star_bytes; exact Hcs|]. cbn [app]. apply no_end_cons; [exact Hn|].
    intros _. destruct (encode_utf8 cs2) as [|x xs]; [trivial|]. cbn in He. injection He as <- _.
    destruct b as [|p]; [trivial|]. repeat (destruct p as [p|p|]; try trivial). exfalso. apply Hb. reflexivity.
Qed.

Lemma scan_to_length stop eof f : forall r w r', scan_to f stop eof r = SOk (w, r') -> (length r' <= length r)%nat.
Proof.
  induction f as [|f IH]; intros r w r' H; [discriminate|]. cbn [scan_to] in H.
  destruct r as [|b r]; [destruct eof; [|discriminate]; injection H as <- <-; lia|].
  destruct (stop b); [injection H as <- <-; lia|]. destruct (rejected_control b); [discriminate|].
  destruct (is_1byte b).
  - apply prepend_ok in H as (w2 & H & _). apply IH in H. cbn. lia.
  - destruct (take_multi b r) as [[bs r2]|] eqn:Em; [|discriminate]. apply take_multi_length in Em.
    apply prepend_ok in H as (w2 & H & _). apply IH in H. cbn. lia.
Qed.

Lemma scan_block_length F f : forall r w r', scan_block F f r = SOk (w, r') -> (length r' < length r)%nat.
Proof.
  induction f as [|f IH]; intros r w r' H; [discriminate|]. cbn [scan_block] in H.
  destruct (scan_to F is_star false r) as [[w1 r1]| |] eqn:Es; try discriminate.
  destruct r1 as [|star [|b r2]]; try discriminate. apply scan_to_length in Es. cbn in Es.
  destruct (b =? B_SLASH); [injection H as <- <-; lia|]. apply prepend_ok in H as (w2 & H & _). apply IH in H. cbn in H. lia.
Qed.

Lemma scan_block_fuel F f : forall r, (length r < f)%nat -> (length r < F)%nat -> scan_block F f r <> SFuel.
Proof.
  induction f as [|f IH]; intros r Hf HF; [lia|]. cbn [scan_block].
  destruct (scan_to F is_star false r) as [[w1 r1]| |] eqn:Es; [|discriminate|].
  - destruct r1 as [|star [|b r2]]; try discriminate. apply scan_to_length in Es. cbn in Es.
    destruct (b =? B_SLASH); [discriminate|]. intros H. apply prepend_fuel in H. revert H. apply IH; cbn; lia.
  - exfalso. revert Es. apply scan_to_fuel. exact HF.
Qed.

Lemma split_star cs : Forall comment_char cs ->
  Forall (skipped is_star) cs \/
  exists cs1 cs2, cs = cs1 ++ 0x2A :: cs2 /\ Forall (skipped is_star) cs1 /\ Forall comment_char cs2.
Proof.
  induction 1 as [|c cs Hc Hcs IH]; [left; constructor|].
  destruct (N.eq_dec c 0x2A) as [->|Hn].
  { right. exists [], cs. splits; auto. }
  assert (Hsk : skipped is_star c).
  { split; [exact Hc|]. destruct (N.lt_ge_cases c 0x80) as [Hl|Hl].
    - rewrite encode_char_1 by exact Hl. apply N.eqb_neq. exact Hn.
    - destruct Hc as [Hc _]. pose proof (encode_char_high c Hc Hl) as Hh. destruct (encode_char_nonempty c) as (b & t & Ht).
      rewrite Ht in *. cbn. inversion Hh as [|? ? [Hb _] _]; subst. apply N.eqb_neq. lia. }
  destruct IH as [IH|(cs1 & cs2 & -> & H1 & H2)]; [left; constructor; assumption|].
  right. exists (c :: cs1), cs2. splits; auto.
Qed.

Lemma scan_block_complete F f : forall cs r, Forall comment_char cs -> no_end (encode_utf8 cs) ->
  (length (encode_utf8 cs ++ [B_STAR; B_SLASH] ++ r) < f)%nat -> (length (encode_utf8 cs ++ [B_STAR; B_SLASH] ++ r) < F)%nat ->
  scan_block F f (encode_utf8 cs ++ [0x2A; 0x2F] ++ r) = SOk (encode_utf8 cs ++ [0x2A; 0x2F], r).
Proof.
  induction f as [|f IH]; intros cs r Hcs Hn Hf HF; [lia|]. cbn [scan_block].
  destruct (split_star cs Hcs) as [Hs|(cs1 & cs2 & -> & H1 & H2)].
  - rewrite scan_to_complete; [reflexivity|exact Hs|exact HF|reflexivity].
  - rewrite encode_utf8_app, encode_utf8_cons, encode_char_1 in * by lia.
    rewrite <- !app_assoc in *. cbn [app] in *.
    rewrite scan_to_complete; [|exact H1|exact HF|reflexivity].
    pose proof (no_end_tail (encode_utf8 cs1 ++ [0x2A]) (encode_utf8 cs2)) as Hn2.
    rewrite <- app_assoc in Hn2. specialize (Hn2 Hn).
    assert (Hlen : (length (encode_utf8 cs2 ++ [B_STAR; B_SLASH] ++ r) < f)%nat) by (rewrite app_length in Hf; cbn in Hf; cbn; lia).
    assert (HlenF : (length (encode_utf8 cs2 ++ [B_STAR; B_SLASH] ++ r) < F)%nat) by (rewrite app_length in HF; cbn in HF; cbn; lia).
    specialize (IH cs2 r H2 Hn2 Hlen HlenF). cbn [app] in IH.
    destruct (encode_utf8 cs2 ++ 0x2A :: 0x2F :: r) as [|b r2] eqn:Er; [destruct (encode_utf8 cs2); discriminate|].
    destruct (N.eqb_spec b B_SLASH) as [->|Hb].
    { exfalso. destruct (encode_utf8 cs2) as [|x xs] eqn:Ex; [discriminate|]. injection Er as -> _.
      apply Hn. exists (encode_utf8 cs1), xs. reflexivity. }
    rewrite IH. cbn [prepend]. rewrite <- !app_assoc. reflexivity.
Qed.

(** *** Whitespace *)

Lemma is_ws_iff b : is_ws b = true <-> ws_byte b.
Proof. unfold is_ws, ws_byte. rewrite !orb_true_iff, !N.eqb_eq. tauto. Qed.

Lemma is_break_iff b : is_break b = true <-> line_break b.
Proof. unfold is_break, line_break. rewrite !orb_true_iff, !N.eqb_eq. tauto. Qed.

Lemma skipped_ws_bytes cs : Forall (skipped not_ws) cs -> encode_utf8 cs = cs /\ Forall ws_byte cs.
Proof.
  induction 1 as [|c cs [[Hc Hc2] Hs] Hcs [IH1 IH2]]; [split; [reflexivity|constructor]|].
  destruct (N.lt_ge_cases c 0x80) as [Hl|Hl].
  - rewrite encode_utf8_cons. rewrite encode_char_1 in * by exact Hl. unfold not_ws in Hs. cbn in Hs.
    apply negb_false_iff, is_ws_iff in Hs. rewrite IH1. split; [reflexivity|constructor; assumption].
  - exfalso. pose proof (encode_char_high c Hc Hl) as Hh. destruct (encode_char_nonempty c) as (b & t & Ht).
    rewrite Ht in *. cbn in Hs. inversion Hh as [|? ? [Hb _] _]; subst. unfold not_ws in Hs.
    apply negb_false_iff, is_ws_iff in Hs. unfold ws_byte in Hs. lia.
Qed.

Lemma ws_text_app_ws sx ws t : Forall ws_byte ws -> ws_text sx t -> ws_text sx (ws ++ t).
Proof. induction 1; intros H'; [exact H'|]. cbn. constructor; auto. Qed.
Lemma ws_text_app sx t1 t2 : ws_text sx t1 -> ws_text sx t2 -> ws_text sx (t1 ++ t2).
Proof.
  induction 1; intros H'; cbn; [exact H'|constructor; auto| |].
  - rewrite <- app_assoc. cbn. apply (WS_line sx body b (t ++ t2)); auto.
  - rewrite <- !app_assoc. cbn. apply (WS_block sx body (t ++ t2)); auto.
Qed.
Lemma final_ws_app sx t1 t2 : ws_text sx t1 -> final_ws_text sx t2 -> final_ws_text sx (t1 ++ t2).
Proof.
  intros H1 [H2|(t & body & -> & H2 & H3 & H4)]; [left; apply ws_text_app; assumption|].
  right. exists (t1 ++ t), body. rewrite <- app_assoc. splits; auto. apply ws_text_app; assumption.
Qed.

(** A byte which is not the start of whitespace or of a comment *)
Definition ws_stop (r : bytes) : Prop :=
  match r with [] => True | b :: _ => ~ ws_byte b /\ b <> 0x2F end.

Lemma line_comment_body_iff cs : Forall (skipped is_break) cs -> line_comment_body (encode_utf8 cs).
Proof.
  intros H. exists cs. split; [reflexivity|]. eapply Forall_impl; [|exact H]. intros c [Hc Hs]. split; [exact Hc|].
  intros Hl. unfold line_break in Hl. destruct Hl as [-> | ->]; discriminate.
Qed.
Lemma line_comment_body_skipped cs : Forall (fun c => comment_char c /\ ~ line_break c) cs -> Forall (skipped is_break) cs.
Proof.
  intros H. eapply Forall_impl; [|exact H]. intros c [Hc Hn]. split; [exact Hc|].
  destruct (is_break (hd 0 (encode_char c))) eqn:E; [|reflexivity]. exfalso. apply Hn.
  apply is_break_iff in E. destruct (encode_char_nonempty c) as (b & t & Ht). rewrite Ht in E. cbn in E.
  assert (c = b) as ->; [|exact E]. destruct Hc as [Hc _]. apply (encode_head_low c [] b t Hc).
  - rewrite app_nil_r. exact Ht.
  - unfold line_break in E. lia.
Qed.

Lemma ws_text_break sx b t : line_break b -> ws_text sx (b :: t) -> ws_text sx t.
Proof.
  intros Hb H. inversion H; subst; auto; destruct Hb as [Hb|Hb]; discriminate.
Qed.

Lemma scan_ws_sound F f sx eof ok : forall r w r', Forall is_byte r -> scan_ws F f (comments sx) eof ok r = SOk (w, r') ->
  r = w ++ r' /\ ws_stop r' /\
  (ws_text sx w \/ (r' = [] /\ ok = true /\ final_ws_text sx w)) /\ (r' = [] -> eof = true /\ ok = true).
Proof.
  induction f as [|f IH]; intros r w r' Hr H; [discriminate|]. cbn [scan_ws] in H.
  destruct (scan_to F not_ws eof r) as [[w1 r1]| |] eqn:Es; try discriminate.
  apply scan_to_sound in Es as (-> & (cs & -> & Hcs) & Hstop); [|exact Hr].
  apply skipped_ws_bytes in Hcs as [Hecs Hcs]. rewrite Hecs in *. clear Hecs.
  assert (Hw1 : ws_text sx cs) by (rewrite <- (app_nil_r cs); apply ws_text_app_ws; [exact Hcs|constructor]).
  destruct r1 as [|b r1].
  { destruct ok; [|discriminate]. injection H as <- <-. cbn. splits; auto. }
  unfold not_ws in Hstop. apply negb_true_iff in Hstop.
  destruct (N.eqb_spec b B_SLASH) as [->|Hb].
  2: { injection H as <- <-. splits; auto; [|discriminate]. cbn. split; [|exact Hb]. intros Hw. apply is_ws_iff in Hw. congruence. }
  destruct (comments sx) eqn:Ec; [|discriminate]. cbn [negb] in H.
  destruct r1 as [|b2 r2]; [discriminate|].
  apply Forall_app in Hr as [_ Hr]. inversion Hr as [|? ? _ Hr2]; subst. inversion Hr2 as [|? ? _ Hr3]; subst.
  destruct (N.eqb_spec b2 B_STAR) as [->|Hb2].
  - destruct (scan_block F F r2) as [[w2 r3]| |] eqn:Eb; try discriminate.
    apply scan_block_sound in Eb as (-> & cs2 & -> & Hc2 & Hn); [|exact Hr3].
    apply prepend_ok in H as (w3 & H & ->). apply Forall_app in Hr3 as [_ Hr3].
    apply IH in H as (-> & Hst & Hw & Heof); [|exact Hr3]. splits; auto.
    + rewrite <- !app_assoc. reflexivity.
    + assert (Hblk : ws_text sx ([B_SLASH; B_STAR] ++ (encode_utf8 cs2 ++ [0x2A; 0x2F]))).
      { rewrite <- (app_nil_r (encode_utf8 cs2 ++ _)), <- app_assoc. apply WS_block; [exact Ec| |constructor].
        split; [exists cs2; auto|exact Hn]. }
      rewrite <- !app_assoc. destruct Hw as [Hw|(H1 & H2 & Hw)]; [left|right; splits; auto].
      * apply ws_text_app; [exact Hw1|]. apply (ws_text_app sx ([B_SLASH; B_STAR] ++ (encode_utf8 cs2 ++ [0x2A; 0x2F])) w3 Hblk) in Hw.
        rewrite <- !app_assoc in Hw. exact Hw.
      * apply final_ws_app; [exact Hw1|]. apply (final_ws_app sx ([B_SLASH; B_STAR] ++ (encode_utf8 cs2 ++ [0x2A; 0x2F])) w3 Hblk) in Hw.
        rewrite <- !app_assoc in Hw. exact Hw.
  - destruct (N.eqb_spec b2 B_SLASH) as [->|Hb3]; [|discriminate].
    destruct (scan_to F is_break (eof && ok) r2) as [[w2 r3]| |] eqn:Eb; try discriminate.
    apply scan_to_sound in Eb as (-> & (cs2 & -> & Hc2) & Hbr); [|exact Hr3].
    apply prepend_ok in H as (w3 & H & ->). apply Forall_app in Hr3 as [_ Hr3].
    apply IH in H as (-> & Hst & Hw & Heof); [|exact Hr3].
    apply line_comment_body_iff in Hc2. splits; auto.
    { rewrite <- !app_assoc. reflexivity. }
    rewrite <- !app_assoc.
    destruct w3 as [|b3 w3].
    + rewrite app_nil_r. cbn [app] in Hbr. destruct r' as [|b' r'].
      * right. apply andb_true_iff in Hbr as [_ ->]. splits; auto. right. exists cs, (encode_utf8 cs2). splits; auto.
      * exfalso. cbn in Hst. destruct Hst as [Hst _]. apply Hst. apply is_break_iff in Hbr.
        unfold line_break in Hbr. unfold ws_byte. tauto.
    + cbn [app] in Hbr. apply is_break_iff in Hbr.
      destruct Hw as [Hw|(H1 & H2 & Hw)]; [left|right; splits; auto].
      * apply ws_text_app; [exact Hw1|]. apply WS_line; auto. exact (ws_text_break _ _ _ Hbr Hw).
      * apply final_ws_app; [exact Hw1|].
        destruct Hw as [Hw|(t1 & body & He & H3 & H4 & H5)].
        { left. apply WS_line; auto. exact (ws_text_break _ _ _ Hbr Hw). }
        destruct t1 as [|b4 t1]; [injection He as -> _; destruct Hbr; discriminate|].
        injection He as <- ->. right. exists ([B_SLASH; B_SLASH] ++ encode_utf8 cs2 ++ b3 :: t1), body. splits; auto.
        { cbn [app]. rewrite <- app_assoc. reflexivity. }
        apply WS_line; auto. exact (ws_text_break _ _ _ Hbr H3).
Qed.

Lemma scan_ws_fuel F f com eof ok : forall r, (length r < f)%nat -> (length r < F)%nat -> scan_ws F f com eof ok r <> SFuel.
Proof.
  induction f as [|f IH]; intros r Hf HF; [lia|]. cbn [scan_ws].
  destruct (scan_to F not_ws eof r) as [[w1 r1]| |] eqn:Es; [|discriminate|exfalso; revert Es; apply scan_to_fuel; exact HF].
  apply scan_to_length in Es. destruct r1 as [|b r1]; [destruct ok; discriminate|].
  destruct (b =? B_SLASH); [|discriminate]. destruct com; [|discriminate]. cbn [negb].
  destruct r1 as [|b2 r2]; [discriminate|]. cbn in Es.
  destruct (b2 =? B_STAR).
  - destruct (scan_block F F r2) as [[w2 r3]| |] eqn:Eb; [|discriminate|exfalso; revert Eb; apply scan_block_fuel; lia].
    apply scan_block_length in Eb. intros H. apply prepend_fuel in H. revert H. apply IH; lia.
  - destruct (b2 =? B_SLASH); [|discriminate].
    destruct (scan_to F is_break (eof && ok) r2) as [[w2 r3]| |] eqn:Eb; [|discriminate|exfalso; revert Eb; apply scan_to_fuel; lia].
    apply scan_to_length in Eb. intros H. apply prepend_fuel in H. revert H. apply IH; lia.
Qed.

(** Splitting off the whitespace bytes in front *)
Lemma ws_text_split sx t : ws_text sx t -> exists ws t', t = ws ++ t' /\ Forall ws_byte ws /\
  (t' = [] \/
   (exists body b t2, comments sx = true /\ line_comment_body body /\ line_break b /\ ws_text sx t2 /\
      t' = [0x2F; 0x2F] ++ body ++ b :: t2) \/
   (exists body t2, comments sx = true /\ block_comment_body body /\ ws_text sx t2 /\
      t' = [0x2F; 0x2A] ++ body ++ [0x2A; 0x2F] ++ t2)).
Proof.
  induction 1 as [|b t Hb Ht (ws & t' & -> & Hws & IH)|body b t Hc Hbody Hb Ht _|body t Hc Hbody Ht _].
  - exists [], []. splits; auto.
  - exists (b :: ws), t'. splits; auto.
  - exists [], ([0x2F; 0x2F] ++ body ++ b :: t). splits; auto. right. left. exists body, b, t. splits; auto.
  - exists [], ([0x2F; 0x2A] ++ body ++ [0x2A; 0x2F] ++ t). splits; auto. right. right. exists body, t. splits; auto.
Qed.

Lemma ws_skipped ws : Forall ws_byte ws -> encode_utf8 ws = ws /\ Forall (skipped not_ws) ws.
Proof.
  induction 1 as [|b ws Hb Hws [IH1 IH2]]; [split; [reflexivity|constructor]|].
  assert (Hl : b < 0x80) by (unfold ws_byte in Hb; lia).
  rewrite encode_utf8_cons, encode_char_1, IH1 by exact Hl. split; [reflexivity|]. constructor; [|exact IH2].
  split; [split; [unfold is_char; lia|unfold ws_byte in Hb; lia]|]. rewrite encode_char_1 by exact Hl. cbn.
  unfold not_ws. rewrite (proj2 (is_ws_iff b) Hb). reflexivity.
Qed.

Lemma scan_ws_complete F f sx eof ok : forall w r, ws_text sx w \/ (r = [] /\ eof = true /\ ok = true /\ final_ws_text sx w) ->
  ws_stop r -> (r = [] -> eof = true /\ ok = true) ->
  (length (w ++ r) < f)%nat -> (length (w ++ r) < F)%nat ->
  scan_ws F f (comments sx) eof ok (w ++ r) = SOk (w, r).
Proof.
  induction f as [|f IH]; intros w r Hw Hst Heof Hf HF; [lia|]. cbn [scan_ws].
  assert (Hsplit : exists ws t', w = ws ++ t' /\ Forall ws_byte ws /\
    (t' = [] \/
     (exists body t2, comments sx = true /\ line_comment_body body /\ t' = [0x2F; 0x2F] ++ body ++ t2 /\
        ((exists b t3, t2 = b :: t3 /\ line_break b /\ (ws_text sx t2 \/ (r = [] /\ eof = true /\ ok = true /\ final_ws_text sx t2)))
         \/ (t2 = [] /\ r = [] /\ eof = true /\ ok = true))) \/
     (exists body t2, comments sx = true /\ block_comment_body body /\
        (ws_text sx t2 \/ (r = [] /\ eof = true /\ ok = true /\ final_ws_text sx t2)) /\
        t' = [0x2F; 0x2A] ++ body ++ [0x2A; 0x2F] ++ t2))).
  { destruct Hw as [Hw|(Hr & He & Ho & [Hw|(t1 & body0 & -> & Hw & Hc0 & Hb0)])].
    1,2: apply ws_text_split in Hw as (ws & t' & -> & Hws & Hw); exists ws, t'; splits; auto;
      destruct Hw as [->|[(body & b & t2 & Hc & Hb & Hbr & Ht2 & ->)|(body & t2 & Hc & Hb & Ht2 & ->)]]; [auto| |];
      right; [left|right]; [exists body, (b :: t2)|exists body, t2]; splits; auto;
      left; exists b, t2; splits; auto; left; constructor; [|exact Ht2]; unfold line_break in Hbr; unfold ws_byte; tauto.
    apply ws_text_split in Hw as (ws & t' & -> & Hws & Hw).
    destruct Hw as [->|[(body & b & t2 & Hc & Hb & Hbr & Ht2 & ->)|(body & t2 & Hc & Hb & Ht2 & ->)]].
    - exists ws, ([0x2F; 0x2F] ++ body0). rewrite app_nil_r. splits; auto. right. left. exists body0, []. rewrite app_nil_r. splits; auto.
    - exists ws, ([0x2F; 0x2F] ++ body ++ b :: (t2 ++ [0x2F; 0x2F] ++ body0)).
      split; [rewrite <- !app_assoc; reflexivity|]. split; [exact Hws|]. right. left.
      exists body, (b :: (t2 ++ [0x2F; 0x2F] ++ body0)). splits; auto. left. exists b, (t2 ++ [0x2F; 0x2F] ++ body0).
      splits; auto. right. splits; auto. right. exists (b :: t2), body0. splits; auto. constructor; [|exact Ht2].
      unfold line_break in Hbr; unfold ws_byte; tauto.
    - exists ws, ([0x2F; 0x2A] ++ body ++ [0x2A; 0x2F] ++ (t2 ++ [0x2F; 0x2F] ++ body0)).
      split; [rewrite <- !app_assoc; reflexivity|]. split; [exact Hws|]. right. right.
      exists body, (t2 ++ [0x2F; 0x2F] ++ body0). splits; auto. right. splits; auto. right. exists t2, body0. splits; auto. }
  destruct Hsplit as (ws & t' & -> & Hws & Hcase).
  destruct (ws_skipped ws Hws) as [He Hsk].
  rewrite <- app_assoc in *.
  assert (Hscan : forall x, (length (ws ++ x) < F)%nat -> match x with [] => eof = true | b :: _ => not_ws b = true end ->
                  scan_to F not_ws eof (ws ++ x) = SOk (ws, x)).
  { intros x Hx Hx2. rewrite <- He. apply scan_to_complete; [exact Hsk|rewrite He; exact Hx|exact Hx2]. }
  destruct Hcase as [->|[(body & t2 & Hc & Hb & -> & Ht)|(body & t2 & Hc & Hb & Ht & ->)]].
  - cbn [app] in *. rewrite Hscan; [|exact HF|].
    + rewrite app_nil_r. destruct r as [|b r].
      * destruct (Heof eq_refl) as [_ ->]. reflexivity.
      * cbn in Hst. destruct (N.eqb_spec b B_SLASH) as [->|Hb]; [tauto|]. reflexivity.
    + destruct r as [|b r]; [apply Heof; reflexivity|]. cbn in Hst. unfold not_ws. apply negb_true_iff.
      destruct (is_ws b) eqn:Ew; [|reflexivity]. apply is_ws_iff in Ew. tauto.
  - rewrite Hscan; [|exact HF|reflexivity]. rewrite Hc. cbn [app negb]. change (B_SLASH =? B_SLASH) with true. cbn [negb].
    change (B_SLASH =? B_STAR) with false. cbn iota.
    destruct Hb as (cs & -> & Hcs). apply line_comment_body_skipped in Hcs. rewrite <- !app_assoc.
    rewrite ?app_length in *. cbn [app length] in *. rewrite ?app_length in *.
    rewrite scan_to_complete; [|exact Hcs|rewrite !app_length; lia|].
    2: { destruct Ht as [(b & t3 & -> & Hbr & _)|(-> & -> & -> & ->)]; [|reflexivity]. cbn. apply is_break_iff. exact Hbr. }
    rewrite <- Hc. rewrite IH; [cbn [prepend app]; rewrite <- !app_assoc; reflexivity| |exact Hst|exact Heof|rewrite app_length; lia|rewrite app_length; lia].
    destruct Ht as [(b & t3 & -> & Hbr & Ht)|(-> & -> & -> & ->)]; [exact Ht|]. left. constructor.
  - rewrite Hscan; [|exact HF|reflexivity]. rewrite Hc. cbn [app negb]. change (B_SLASH =? B_SLASH) with true. cbn [negb].
    change (B_STAR =? B_STAR) with true. cbn iota.
    destruct Hb as ((cs & -> & Hcs) & Hn). rewrite <- !app_assoc.
    rewrite ?app_length in *. cbn [app length] in *. rewrite ?app_length in *. cbn [length] in *. rewrite ?app_length in *.
    pose proof (scan_block_complete F F cs (t2 ++ r) Hcs Hn) as Hblk. cbn [app] in Hblk. cbn [app]. rewrite Hblk;
      [|rewrite !app_length; cbn [length]; rewrite app_length; lia..].
    rewrite <- Hc. rewrite IH; [cbn [prepend]; rewrite <- app_assoc; cbn [app]; rewrite <- app_assoc; reflexivity|exact Ht|exact Hst|exact Heof|rewrite app_length; lia|rewrite app_length; lia].
Qed.

(** ** Strings *)

Lemma hex_digit_iff b v : hex_digit b = Some v <-> hex_value b v.
Proof.
  unfold hex_digit, hex_value.
  destruct (N.leb_spec 0x30 b); destruct (N.leb_spec b 0x39); cbn [andb];
    try (split; [intros [= <-]; lia|intros Hv; f_equal; lia]);
  destruct (N.leb_spec 0x61 b); destruct (N.leb_spec b 0x66); cbn [andb];
    try (split; [intros [= <-]; lia|intros Hv; f_equal; lia]);
  destruct (N.leb_spec 0x41 b); destruct (N.leb_spec b 0x46); cbn [andb];
    try (split; [intros [= <-]; lia|intros Hv; f_equal; lia]);
  (split; [discriminate|lia]).
Qed.

Lemma hex_value_bound b v : hex_value b v -> v < 16.
Proof. unfold hex_value. lia. Qed.

Lemma hex4_value_sum v1 v2 v3 v4 : v1 < 16 -> v2 < 16 -> v3 < 16 -> v4 < 16 ->
  hex4_value v1 v2 v3 v4 = v1 * 0x1000 + v2 * 0x100 + v3 * 0x10 + v4.
Proof.
  intros H1 H2 H3 H4. unfold hex4_value.
  rewrite (N.lor_comm (N.shiftl v2 8)), (N.lor_comm (N.shiftl v3 4)), (N.lor_comm v4).
  assert (E1 : N.lor (N.shiftl v1 12) (N.shiftl v2 8) = v1 * 0x1000 + v2 * 0x100).
  { rewrite lor_shiftl_add; rewrite N.shiftl_mul_pow2; change (2 ^ 12) with 0x1000; change (2 ^ 8) with 0x100; lia. }
  rewrite E1.
  replace (v1 * 0x1000 + v2 * 0x100) with (N.shiftl (v1 * 16 + v2) 8)
    by (rewrite N.shiftl_mul_pow2; change (2 ^ 8) with 0x100; lia).
  assert (E2 : N.lor (N.shiftl (v1 * 16 + v2) 8) (N.shiftl v3 4) = (v1 * 16 + v2) * 0x100 + v3 * 0x10).
  { rewrite lor_shiftl_add; rewrite N.shiftl_mul_pow2; change (2 ^ 8) with 0x100; change (2 ^ 4) with 0x10; lia. }
  rewrite E2.
  replace ((v1 * 16 + v2) * 0x100 + v3 * 0x10) with (N.shiftl ((v1 * 16 + v2) * 16 + v3) 4)
    by (rewrite N.shiftl_mul_pow2; change (2 ^ 4) with 0x10; lia).
  rewrite lor_shiftl_add by (change (2 ^ 4) with 0x10; lia). rewrite N.shiftl_mul_pow2. change (2 ^ 4) with 0x10. lia.
Qed.

Lemma take_hex4_sound r v hs r' : take_hex4 r = Some (v, hs, r') -> r = hs ++ r' /\ hex4 hs v.
Proof.
  unfold take_hex4. destruct r as [|h1 [|h2 [|h3 [|h4 r1]]]]; try discriminate.
  destruct (hex_digit h1) as [d1|] eqn:E1; [|discriminate]. destruct (hex_digit h2) as [d2|] eqn:E2; [|discriminate].
  destruct (hex_digit h3) as [d3|] eqn:E3; [|discriminate]. destruct (hex_digit h4) as [d4|] eqn:E4; [|discriminate].
  intros [= <- <- <-]. apply hex_digit_iff in E1, E2, E3, E4. split; [reflexivity|].
  exists h1, h2, h3, h4, d1, d2, d3, d4. splits; auto. apply hex4_value_sum; eapply hex_value_bound; eassumption.
Qed.

Lemma take_hex4_complete hs v r : hex4 hs v -> take_hex4 (hs ++ r) = Some (v, hs, r).
Proof.
  intros (h1 & h2 & h3 & h4 & v1 & v2 & v3 & v4 & -> & H1 & H2 & H3 & H4 & ->). cbn [app take_hex4].
  rewrite (proj2 (hex_digit_iff _ _) H1), (proj2 (hex_digit_iff _ _) H2), (proj2 (hex_digit_iff _ _) H3),
    (proj2 (hex_digit_iff _ _) H4). rewrite hex4_value_sum by (eapply hex_value_bound; eassumption). reflexivity.
Qed.

Lemma hex4_bound hs v : hex4 hs v -> v < 0x10000.
Proof.
  intros (h1 & h2 & h3 & h4 & v1 & v2 & v3 & v4 & -> & H1 & H2 & H3 & H4 & ->).
  apply hex_value_bound in H1, H2, H3, H4. lia.
Qed.

(** One element of the content of a string *)
Inductive unit_text : bytes -> char -> Prop :=
| UT_raw c : unescaped c -> unit_text (encode_char c) c
| UT_esc b c : simple_escape b c -> unit_text [0x5C; b] c
| UT_u hs v : hex4 hs v -> is_char v -> unit_text ([0x5C; 0x75] ++ hs) v
| UT_pair hs1 hi hs2 lo : hex4 hs1 hi -> hex4 hs2 lo ->
    0xD800 <= hi <= 0xDBFF -> 0xDC00 <= lo <= 0xDFFF ->
    unit_text ([0x5C; 0x75] ++ hs1 ++ [0x5C; 0x75] ++ hs2) (0x10000 + (hi - 0xD800) * 0x400 + (lo - 0xDC00)).

Lemma str_text_cons w c t s : unit_text w c -> str_text t s -> str_text (w ++ t) (c :: s).
Proof.
  intros H Ht. destruct H.
  - apply ST_raw; assumption.
  - apply ST_esc; assumption.
  - rewrite <- app_assoc. apply ST_u; assumption.
  - rewrite <- !app_assoc. apply ST_pair; assumption.
Qed.

Lemma str_text_ind' (P : bytes -> str -> Prop) :
  P [] [] -> (forall w c t s, unit_text w c -> str_text t s -> P t s -> P (w ++ t) (c :: s)) ->
  forall t s, str_text t s -> P t s.
Proof.
  intros H0 H1 t s H. induction H.
  - exact H0.
  - apply H1; auto. constructor; assumption.
  - apply (H1 [0x5C; b] c); auto. constructor; assumption.
  - rewrite app_assoc. apply (H1 ([0x5C; 0x75] ++ hs) v); auto. constructor; assumption.
  - replace ([0x5C; 0x75] ++ hs1 ++ [0x5C; 0x75] ++ hs2 ++ t) with (([0x5C; 0x75] ++ hs1 ++ [0x5C; 0x75] ++ hs2) ++ t)
      by (rewrite <- !app_assoc; reflexivity).
    apply H1; auto. constructor; assumption.
Qed.

Lemma unit_text_char w c : unit_text w c -> is_char c.
Proof.
  destruct 1 as [c [H _]|b c H|hs v _ H|hs1 hi hs2 lo _ _ H1 H2]; auto.
  - destruct H; unfold is_char; lia.
  - unfold is_char. lia.
Qed.

Lemma str_text_chars t s : str_text t s -> Forall is_char s.
Proof.
  intros H. induction H using str_text_ind'; [constructor|]. constructor; [|assumption]. eapply unit_text_char; eassumption.
Qed.

Lemma surrogate_pair hi lo : 0xD800 <= hi <= 0xDBFF -> 0xDC00 <= lo <= 0xDFFF ->
  N.lor (N.shiftl (hi - 0xD800) 10) (lo - 0xDC00) + 0x10000 = 0x10000 + (hi - 0xD800) * 0x400 + (lo - 0xDC00).
Proof.
  intros H1 H2. rewrite lor_shiftl_add by (change (2 ^ 10) with 0x400; lia). change (2 ^ 10) with 0x400. lia.
Qed.

Lemma escape_literal_simple e : escape_literal e = true -> simple_escape e e.
Proof.
  unfold escape_literal. rewrite !orb_true_iff, !N.eqb_eq. intros [[-> | ->]| ->]; constructor.
Qed.
Lemma escape_replacement_simple e x : escape_replacement e = Some x -> simple_escape e x /\ x < 0x80.
Proof.
  unfold escape_replacement.
  destruct (N.eqb_spec e B_b) as [->|]; [intros [= <-]; split; [constructor|lia]|].
  destruct (N.eqb_spec e B_f) as [->|]; [intros [= <-]; split; [constructor|lia]|].
  destruct (N.eqb_spec e B_n) as [->|]; [intros [= <-]; split; [constructor|lia]|].
  destruct (N.eqb_spec e B_r) as [->|]; [intros [= <-]; split; [constructor|lia]|].
  destruct (N.eqb_spec e B_t) as [->|]; [intros [= <-]; split; [constructor|lia]|discriminate].
Qed.

Lemma take_escape_sound r c hs r' : take_escape r = Some (c, hs, r') -> r = hs ++ r' /\ unit_text ([0x5C; 0x75] ++ hs) c.
Proof.
  unfold take_escape. destruct (take_hex4 r) as [[[v hs1] r1]|] eqn:E1; [|discriminate].
  apply take_hex4_sound in E1 as [-> H1].
  destruct (N.leb_spec 0xDC00 v); destruct (N.leb_spec v 0xDFFF); cbn [andb]; try discriminate;
  destruct (N.leb_spec 0xD800 v); destruct (N.leb_spec v 0xDBFF); cbn [andb]; try lia;
  try (intros [= <- <- <-]; split; [reflexivity|]; constructor; [exact H1|]; pose proof (hex4_bound _ _ H1); unfold is_char; lia).
  destruct r1 as [|b1 [|b2 r2]]; try discriminate.
  destruct (N.eqb_spec b1 B_BACKSLASH) as [->|]; [|discriminate]. destruct (N.eqb_spec b2 B_u) as [->|]; [|discriminate].
  cbn [negb]. destruct (take_hex4 r2) as [[[v2 hs2] r3]|] eqn:E2; [|discriminate].
  apply take_hex4_sound in E2 as [-> H2'].
  destruct (N.leb_spec 0xDC00 v2); destruct (N.leb_spec v2 0xDFFF); cbn [andb negb]; try discriminate.
  intros [= <- <- <-]. split; [rewrite <- !app_assoc; reflexivity|]. rewrite surrogate_pair by lia. constructor; auto; lia.
Qed.

Lemma scan_unit_sound r : Forall is_byte r ->
  match scan_unit r with
  | UEnd r' => r = B_QUOTE :: r'
  | UChar bs w r' => r = w ++ r' /\ exists c, bs = encode_char c /\ unit_text w c
  | UFail => True
  end.
Proof.
  intros Hr. unfold scan_unit. destruct r as [|b r1]; [exact I|].
  destruct (N.eqb_spec b B_BACKSLASH) as [->|Hbs].
  - destruct r1 as [|e r2]; [exact I|]. destruct (escape_literal e) eqn:El.
    + apply escape_literal_simple in El. split; [reflexivity|]. exists e. split; [|constructor; exact El].
      rewrite encode_char_1; [reflexivity|]. inversion El; lia.
    + destruct (escape_replacement e) as [x|] eqn:Ex.
      * apply escape_replacement_simple in Ex as [Ex Hx]. split; [reflexivity|]. exists x. split; [|constructor; exact Ex].
        rewrite encode_char_1; [reflexivity|exact Hx].
      * destruct (N.eqb_spec e B_u) as [->|]; [|exact I].
        destruct (take_escape r2) as [[[c hs] r3]|] eqn:Et; [|exact I].
        apply take_escape_sound in Et as [-> Hu]. split; [reflexivity|]. exists c. split; [reflexivity|exact Hu].
  - destruct (N.eqb_spec b B_QUOTE) as [->|Hq]; [reflexivity|].
    destruct (N.leb_spec b 0x1F); [exact I|]. destruct (N.leb_spec b 0x7F).
    + split; [reflexivity|]. exists b. rewrite encode_char_1 by lia. split; [reflexivity|].
      rewrite <- (encode_char_1 b) by lia. constructor. unfold unescaped, is_char. lia.
    + destruct (take_multi b r1) as [[bs r2]|] eqn:Em; [|exact I].
      apply take_multi_sound in Em as (He & c & Hc & Hc2 & ->); [|exact Hr|lia]. split; [exact He|].
      exists c. split; [reflexivity|]. constructor. unfold unescaped. splits; auto; lia.
Qed.

Lemma simple_escape_model b c : simple_escape b c ->
  (escape_literal b = true /\ b = c) \/ (escape_literal b = false /\ escape_replacement b = Some c).
Proof. destruct 1; cbn; auto. Qed.

Lemma take_escape_u hs v r : hex4 hs v -> is_char v -> take_escape (hs ++ r) = Some (v, hs, r).
Proof.
  intros H Hv. unfold take_escape. rewrite (take_hex4_complete _ _ _ H). unfold is_char in Hv.
  destruct (N.leb_spec 0xDC00 v); destruct (N.leb_spec v 0xDFFF); cbn [andb]; try lia;
  destruct (N.leb_spec 0xD800 v); destruct (N.leb_spec v 0xDBFF); cbn [andb]; try lia; reflexivity.
Qed.
Lemma take_escape_pair hs1 hi hs2 lo r : hex4 hs1 hi -> hex4 hs2 lo ->
  0xD800 <= hi <= 0xDBFF -> 0xDC00 <= lo <= 0xDFFF ->
  take_escape (hs1 ++ [0x5C; 0x75] ++ hs2 ++ r) =
  Some (0x10000 + (hi - 0xD800) * 0x400 + (lo - 0xDC00), hs1 ++ [0x5C; 0x75] ++ hs2, r).
Proof.
  intros H1 H2 Hhi Hlo. unfold take_escape. rewrite (take_hex4_complete _ _ _ H1).
  destruct (N.leb_spec 0xDC00 hi); [lia|]. cbn [andb].
  destruct (N.leb_spec 0xD800 hi); [|lia]. destruct (N.leb_spec hi 0xDBFF); [|lia]. cbn [andb app].
  change (negb (0x5C =? B_BACKSLASH)) with false. change (negb (0x75 =? B_u)) with false. cbn iota.
  rewrite (take_hex4_complete _ _ _ H2).
  destruct (N.leb_spec 0xDC00 lo); [|lia]. destruct (N.leb_spec lo 0xDFFF); [|lia]. cbn [andb negb].
  rewrite surrogate_pair by lia. reflexivity.
Qed.

Lemma scan_unit_complete w c r : unit_text w c -> scan_unit (w ++ r) = UChar (encode_char c) w r.
Proof.
  destruct 1 as [c (Hc & H1 & H2 & H3)|b c H|hs v H Hv|hs1 hi hs2 lo H1 H2 Hhi Hlo].
  - destruct (N.lt_ge_cases c 0x80) as [Hl|Hl].
    + rewrite encode_char_1 by exact Hl. cbn [app scan_unit].
      destruct (N.eqb_spec c B_BACKSLASH); [contradiction|]. destruct (N.eqb_spec c B_QUOTE); [contradiction|].
      destruct (N.leb_spec c 0x1F); [lia|]. destruct (N.leb_spec c 0x7F); [reflexivity|lia].
    + destruct (take_multi_complete c r Hc Hl) as (b & t & He & Hb & Ht). rewrite He in Ht |- *. cbn [app scan_unit].
      destruct (N.eqb_spec b B_BACKSLASH); [lia|]. destruct (N.eqb_spec b B_QUOTE); [lia|].
      destruct (N.leb_spec b 0x1F); [lia|]. destruct (N.leb_spec b 0x7F); [lia|]. rewrite Ht. reflexivity.
  - cbn [app scan_unit]. change (0x5C =? B_BACKSLASH) with true. cbn iota.
    assert (Hl : c < 0x80) by (inversion H; lia). rewrite encode_char_1 by exact Hl.
    apply simple_escape_model in H as [[-> ->]|[-> ->]]; reflexivity.
  - rewrite <- app_assoc. cbn [app scan_unit]. change (0x5C =? B_BACKSLASH) with true. cbn iota.
    change (escape_literal 0x75) with false. change (escape_replacement 0x75) with (@None N).
    change (0x75 =? B_u) with true. cbn iota. rewrite (take_escape_u _ _ _ H Hv). reflexivity.
  - rewrite <- !app_assoc. cbn [app scan_unit]. change (0x5C =? B_BACKSLASH) with true. cbn iota.
    change (escape_literal 0x75) with false. change (escape_replacement 0x75) with (@None N).
    change (0x75 =? B_u) with true. cbn iota.
    pose proof (take_escape_pair _ _ _ _ r H1 H2 Hhi Hlo) as Ht. cbn [app] in Ht. rewrite Ht. reflexivity.
Qed.

Lemma unit_text_nonempty w c : unit_text w c -> w <> [].
Proof.
  destruct 1; try discriminate. destruct (encode_char_nonempty c) as (b & t & ->). discriminate.
Qed.

Lemma scan_string_sound f : forall r d w r', Forall is_byte r -> scan_string f r = SOk (d, w, r') ->
  r = w ++ r' /\ exists body s, w = body ++ [B_QUOTE] /\ str_text body s /\ d = encode_utf8 s.
Proof.
  induction f as [|f IH]; intros r d w r' Hr H; [discriminate|]. cbn [scan_string] in H.
  pose proof (scan_unit_sound r Hr) as Hu. destruct (scan_unit r) as [r1|bs w1 r1|]; [| |discriminate].
  - injection H as <- <- <-. split; [exact Hu|]. exists [], []. splits; auto. constructor.
  - destruct Hu as (-> & c & -> & Hu). apply Forall_app in Hr as [_ Hr].
    destruct (scan_string f r1) as [[[d2 w2] r2]| |] eqn:Es; try discriminate. injection H as <- <- <-.
    apply IH in Es as (-> & body & s & -> & Hs & ->); [|exact Hr].
    split; [rewrite <- !app_assoc; reflexivity|]. exists (w1 ++ body), (c :: s). rewrite <- app_assoc, encode_utf8_cons.
    splits; auto. apply str_text_cons; assumption.
Qed.

Lemma scan_string_complete body s : str_text body s -> forall f r, (length (body ++ B_QUOTE :: r) < f)%nat ->
  scan_string f (body ++ B_QUOTE :: r) = SOk (encode_utf8 s, body ++ [B_QUOTE], r).
Proof.
  intros H. induction H as [|w c t s Hu Ht IH] using str_text_ind'; intros f r Hf; (destruct f as [|f]; [lia|]).
  - reflexivity.
  - rewrite <- app_assoc in *. cbn [scan_string]. rewrite (scan_unit_complete _ _ _ Hu).
    rewrite IH; [rewrite encode_utf8_cons, <- app_assoc; reflexivity|].
    apply length_app_lt in Hf; [exact Hf|]. eapply unit_text_nonempty; exact Hu.
Qed.

Lemma scan_unit_length r : match scan_unit r with UEnd r' | UChar _ _ r' => (length r' < length r)%nat | UFail => True end.
Proof.
  unfold scan_unit. destruct r as [|b r1]; [exact I|]. destruct (b =? B_BACKSLASH).
  - destruct r1 as [|e r2]; [exact I|]. destruct (escape_literal e); [cbn; lia|].
    destruct (escape_replacement e); [cbn; lia|]. destruct (e =? B_u); [|exact I].
    destruct (take_escape r2) as [[[c hs] r3]|] eqn:Et; [|exact I]. apply take_escape_sound in Et as [-> _].
    cbn. rewrite app_length. lia.
  - destruct (b =? B_QUOTE); [cbn; lia|]. destruct (b <=? 0x1F); [exact I|]. destruct (b <=? 0x7F); [cbn; lia|].
    destruct (take_multi b r1) as [[bs r2]|] eqn:Em; [|exact I]. apply take_multi_length in Em. cbn. lia.
Qed.

Lemma scan_string_fuel f : forall r, (length r < f)%nat -> scan_string f r <> SFuel.
Proof.
  induction f as [|f IH]; intros r Hf; [lia|]. cbn [scan_string]. pose proof (scan_unit_length r) as Hl.
  destruct (scan_unit r) as [r1|bs w r1|]; try discriminate.
  specialize (IH r1 ltac:(lia)). destruct (scan_string f r1) as [[[d w'] r'']| |]; congruence.
Qed.

(** ** Numbers *)

Lemma scan_nprog_list p : eof_stops p -> forall l, l <> [] ->
  match scan_nprog p l with
  | SOk (r, w, rest) => nrun_list p l = LDone r rest /\ l = w ++ rest
  | SFail => False
  | SFuel => nrun_list p l = LOutOfFuel
  end.
Proof.
  induction 1 as [r| |k Heof Hk IH]; intros l Hl.
  - cbn. auto.
  - reflexivity.
  - cbn [scan_nprog nrun_list]. destruct l as [|b l]; [contradiction|]. cbn [tl]. destruct l as [|b' l].
    + cbn [hd_error]. destruct Heof as (r & ->). cbn. auto.
    + cbn [hd_error]. specialize (IH b' (b' :: l) ltac:(discriminate)).
      destruct (scan_nprog (k (Some b')) (b' :: l)) as [[[r w] rest]| |]; auto.
      destruct IH as [-> ->]. auto.
Qed.

Lemma number_scan_sound E r n w rest : number_scan E r = SOk (Some n, w, rest) ->
  r = w ++ rest /\ ends_number rest /\ exists m, number_text_exp w m /\ n = N.of_nat m.
Proof.
  unfold number_scan. destruct r as [|b l]; [discriminate|]. intros H.
  pose proof (scan_nprog_list _ (eof_stops_number (fuel E) b) (b :: l) ltac:(discriminate)) as Hl. rewrite H in Hl.
  destruct Hl as [Hl He]. apply consume_sound in Hl as (t & m & He2 & Hm & Hr & ->). rewrite He in He2.
  apply app_inv_tail in He2. subst t. splits; eauto.
Qed.

Lemma number_scan_complete E t m rest : number_text_exp t m -> ends_number rest -> (length t < fuel E)%nat ->
  number_scan E (t ++ rest) = SOk (Some (N.of_nat m), t, rest).
Proof.
  intros Ht Hr Hf. destruct (consume_complete t m rest (fuel E) Ht Hr Hf) as (b & l & -> & Hl).
  unfold number_scan. cbn [app].
  pose proof (scan_nprog_list _ (eof_stops_number (fuel E) b) (b :: l ++ rest) ltac:(discriminate)) as Hs.
  change ((b :: l) ++ rest) with (b :: l ++ rest) in Hl. rewrite Hl in Hs.
  destruct (scan_nprog (consume_json_number (fuel E) b) (b :: l ++ rest)) as [[[r w] rest']| |]; [|contradiction|discriminate].
  destruct Hs as [Hd He]. injection Hd as <- <-. change (b :: l ++ rest) with ((b :: l) ++ rest) in He.
  apply app_inv_tail in He. subst w. reflexivity.
Qed.

Lemma number_scan_fuel E b l : (length l < fuel E)%nat ->
  match number_scan E (b :: l) with SOk (_, w, rest) => b :: l = w ++ rest | _ => False end.
Proof.
  intros Hf. unfold number_scan.
  pose proof (scan_nprog_list _ (eof_stops_number (fuel E) b) (b :: l) ltac:(discriminate)) as Hs.
  destruct (scan_nprog (consume_json_number (fuel E) b) (b :: l)) as [[[r w] rest']| |]; [apply Hs|exact Hs|].
  exact (consume_fuel _ _ _ Hf Hs).
Qed.

Lemma number_chars t m : number_text_exp t m -> Forall number_char t.
Proof.
  intros (minus & int & frac & exp & -> & Hm & Hint & Hfrac & Hexp).
  assert (Hd : forall ds, Forall digit ds -> Forall number_char ds).
  { intros ds. apply Forall_impl. intros b Hb. unfold number_char. tauto. }
  rewrite !Forall_app. splits.
  - destruct Hm as [->| ->]; constructor; [|constructor]. unfold number_char, digit. lia.
  - destruct Hint as [->|(d & ds & -> & H1 & H2)].
    + constructor; [|constructor]. unfold number_char, digit. lia.
    + constructor; [unfold number_char, digit; lia|auto].
  - destruct Hfrac as [->|(ds & -> & H1 & H2)]; [constructor|]. constructor; [unfold number_char, digit; lia|auto].
  - destruct Hexp as [[-> _]|(e & sign & ds & -> & He & Hs & (H1 & H2) & _)]; [constructor|].
    constructor; [unfold number_char, digit; lia|]. apply Forall_app. split; [|auto].
    destruct Hs as [->|[->| ->]]; constructor; try constructor; unfold number_char, digit; lia.
Qed.

Lemma number_char_low b : number_char b -> b < 0x80.
Proof. unfold number_char, digit. lia. Qed.

Lemma from_utf8_ascii l : Forall (fun b => b < 0x80) l -> from_utf8 l = Some l.
Proof.
  induction 1 as [|b l Hb Hl IH]; [reflexivity|]. cbn [from_utf8]. destruct (N.leb_spec b 0x7F); [|lia]. rewrite IH. reflexivity.
Qed.

Lemma number_utf8 t m : number_text_exp t m -> from_utf8 t = Some t.
Proof.
  intros H. apply from_utf8_ascii. eapply Forall_impl; [|exact (number_chars _ _ H)]. exact number_char_low.
Qed.

Lemma number_first t m : number_text_exp t m -> exists b l, t = b :: l /\ (b =? B_MINUS) || is_digit b = true.
Proof.
  intros (minus & int & frac & exp & -> & Hm & Hint & _).
  destruct Hm as [->| ->].
  - destruct Hint as [->|(d & ds & -> & H1 & H2)]; cbn; eexists _, _; (split; [reflexivity|]); rewrite orb_true_iff, is_digit_iff; unfold digit; lia.
  - eexists _, _. split; [reflexivity|]. reflexivity.
Qed.
