(** * The kind and the location of errors in whitespace

    Auxiliary. *)

From Verif Require Import Base Utf8Model Utf8Proofs NumberModel SpecNumber SpecJson SourceModel SourceProofs ReaderModel
  ReaderScan ReaderLex ReaderLexStr ReaderGrammar SpecText SpecErrors ReaderKinds.

Lemma stops_peek_err {A : Type} e k s kn (f : option byte -> M A) :
  stops (TErr e) (FEnd k) (bind peek_byte f) s s (At [] (TErr e) kn).
Proof. eexists _, _. split; [reflexivity|]. repeat split. Qed.
Lemma stops_peek_source {A : Type} e s kn (f : option byte -> M A) :
  stops (TErr e) FSource (bind peek_byte f) s s (At [] (TErr e) kn).
Proof. eexists _, _. split; [reflexivity|]. repeat split. Qed.

Lemma stops_ended t k s a : t = TEof -> @stops unit t (FEnd k) (syntax_err k) s s a.
Proof. intros ->. eexists _, _. split; [reflexivity|]. repeat split. Qed.

Lemma comment_control b r : rejected_control b = true -> comment_error (b :: r) (FSyntax NotEscapedControlCharacter).
Proof.
  intros H. assert (Hn : rejected_control b <> false) by congruence. rewrite rejected_control_false in Hn.
  constructor; lia.
Qed.

Lemma skip_to_loop_stops f : forall stop k cr s r t kn, Forall is_byte r ->
  scan_to f stop (is_eof t && eof_ok k) r = SFail ->
  exists cs bad F, r = encode_utf8 cs ++ bad /\ Forall (skipped stop) cs /\
    (bad = [] /\ F = end_failure k \/ comment_error bad F /\ Forall (fun b => stop b = false) (firstn 1 bad)) /\
    stops t F (skip_to_loop f stop k cr) s (movecr cr (encode_utf8 cs) s) (At r t kn).
Proof.
  induction f as [|f IH]; intros stop k cr s r t kn Hr H; [discriminate|].
  cbn [scan_to] in H. cbn [skip_to_loop]. destruct r as [|b r].
  { exists [], [], (end_failure k). splits; auto. destruct s.
    destruct t as [|e].
    - destruct k as [k|]; [|discriminate]. eapply stops_bind_ok; [apply peek_eof|]. apply stops_ended. reflexivity.
    - destruct k as [k|]; [apply stops_peek_err|apply stops_peek_source]. }
  destruct (stop b) eqn:Hstop; [discriminate|].
  destruct (rejected_control b) eqn:Hrej.
  { exists [], (b :: r), (FSyntax NotEscapedControlCharacter). splits; auto.
    { right. split; [apply comment_control; exact Hrej|repeat constructor; exact Hstop]. }
    eapply stops_bind_ok; [apply peek_some|]. cbn beta iota. rewrite Hstop, Hrej. destruct s. apply stops_syntax. }
  apply rejected_control_false in Hrej as Hok.
  destruct (is_1byte b) eqn:H1.
  - assert (Hstep : exec (if b =? B_LF then
             update (fun s => if cr then advance 0 1 s
                              else set_position (line s + 1) 0 (byte_pos s + 1) s)
           else if b =? B_CR then
             update (fun s => set_position (line s + 1) 0 (byte_pos s + 1) s)
           else if is_1byte b then update (advance 1 1)
           else
             bs <- read_utf8_multibyte read_byte b ;;
             update (advance 1 (len64 bs))) s (At r t false) =
           Some ((Ok tt, movecr cr [b] s), At r t false)).
    { unfold movecr. cbn [fold_left]. unfold pstep.
      destruct (b =? B_LF).
      { destruct cr; [|reflexivity]. unfold exec, update. cbn [arun at_pos advance].
        unfold advance. rewrite N.add_0_r. reflexivity. }
      destruct (b =? B_CR); [reflexivity|]. rewrite H1.
      rewrite not_continuation_1byte by exact H1. reflexivity. }
    inversion Hr as [|? ? Hb Hr']; subst. apply is_1byte_iff in H1 as Hlow.
    destruct (scan_to f stop _ r) as [[w r']| |] eqn:Es; try discriminate. clear H.
    destruct (IH stop k (b =? B_CR) (movecr cr [b] s) r t false Hr' Es) as (cs & bad & F & -> & Hcs & HF & Hst).
    exists (b :: cs), bad, F. rewrite encode_utf8_cons, encode_char_1 by exact Hlow. splits; auto.
    { constructor; [|exact Hcs]. split; [split; [unfold is_char; lia|exact Hok]|]. rewrite encode_char_1 by exact Hlow. exact Hstop. }
    eapply stops_bind_ok; [apply peek_some|]. cbn beta iota. rewrite Hstop, Hrej.
    eapply stops_bind_ok; [apply skip_some|]. eapply stops_bind_ok; [apply Hstep|].
    rewrite (movecr_app cr [b]), last_cr_cons. exact Hst.
  - assert (Hb : (b =? B_LF) = false /\ (b =? B_CR) = false).
    { split; destruct (b =? _) eqn:E; try reflexivity; apply N.eqb_eq in E; subst b; discriminate. }
    destruct Hb as (Hlf & Hcr). inversion Hr as [|? ? Hb Hr']; subst.
    assert (Hge : 0x80 <= b). { destruct (N.lt_ge_cases b 0x80) as [Hl|Hl]; [|exact Hl]. apply is_1byte_iff in Hl. congruence. }
    pose proof (read_utf8_multibyte_ex _ _ (rb_read_byte t) b r [] s) as Hm. cbn beta in Hm.
    destruct (take_multi b r) as [[bs r'']|] eqn:Hmulti.
    + assert (Hlast : last_cr cr bs = false).
      { apply last_cr_multi; [exact (take_multi_no_cr _ _ _ _ Hmulti)|].
        apply take_multi_shape in Hmulti. destruct Hmulti as (l & -> & _). discriminate. }
      pose proof (take_multi_sound _ _ _ _ Hr Hge Hmulti) as (He & c & Hc & Hc2 & Hbs).
      destruct (scan_to f stop _ r'') as [[w r']| |] eqn:Es; try discriminate. clear H.
      assert (Hr2 : Forall is_byte r'') by (rewrite He in Hr; apply Forall_app in Hr; tauto).
      destruct (IH stop k (b =? B_CR) (movecr cr bs s) r'' t false Hr2 Es) as (cs & bad & F & -> & Hcs & HF & Hst).
      rewrite Hcr in Hst.
      exists (c :: cs), bad, F. rewrite encode_utf8_cons, <- Hbs. splits; auto.
      { rewrite <- app_assoc. exact He. }
      { constructor; [|exact Hcs]. split; [split; [exact Hc|left; lia]|].
        rewrite <- Hbs. destruct bs as [|b' bs]; [apply take_multi_shape in Hmulti; destruct Hmulti as (l & Hl & _); discriminate|].
        cbn in He |- *. injection He as <- _. exact Hstop. }
      eapply stops_bind_ok; [apply peek_some|]. cbn beta iota. rewrite Hstop, Hrej.
      eapply stops_bind_ok; [apply skip_some|]. rewrite Hlf, Hcr, H1.
      eapply stops_bind_ok.
      { rewrite (exec_bind_ok _ _ _ _ _ _ _ Hm). reflexivity. }
      rewrite <- (movecr_multi cr b r bs (encode_utf8 cs ++ bad) s Hmulti), (movecr_app cr bs), Hlast. exact Hst.
    + exists [], (b :: r), (multi_failure b r). splits; auto.
      { right. split; [apply CE_char; apply utf8_none; assumption|repeat constructor; exact Hstop]. }
      eapply stops_bind_ok; [apply peek_some|]. cbn beta iota. rewrite Hstop, Hrej.
      eapply stops_bind_ok; [apply skip_some|]. rewrite Hlf, Hcr, H1. apply stops_bind, stops_bind. destruct s.
      apply (multibyte_stops t read_byte _ (rk_read_byte t) b r []); [exact Hb|exact Hmulti].
Qed.

Lemma skip_to_stops E stop k s r t kn : Forall is_byte r -> scan_to (fuel E) stop (is_eof t && eof_ok k) r = SFail ->
  exists cs bad F, r = encode_utf8 cs ++ bad /\ Forall (skipped stop) cs /\
    (bad = [] /\ F = end_failure k \/ comment_error bad F /\ Forall (fun b => stop b = false) (firstn 1 bad)) /\
    stops t F (skip_to E stop k) s (move (encode_utf8 cs) s) (At r t kn).
Proof. apply skip_to_loop_stops. Qed.

Lemma block_stops E f : forall s r t kn, Forall is_byte r -> scan_block (fuel E) f r = SFail ->
  exists body bad F, r = body ++ bad /\ block_comment_body body /\
    (bad = [] /\ F = FEnd BlockCommentNotClosed \/ comment_error bad F) /\
    stops t F (skip_to_block_comment_end_loop E f) s (move body s) (At r t kn).
Proof.
  induction f as [|f IH]; intros s r t kn Hr H; [discriminate|].
  cbn [scan_block] in H. cbn [skip_to_block_comment_end_loop].
  pose proof (skip_to_ex E is_star (Some BlockCommentNotClosed) s r t kn) as Hs.
  pose proof (skip_to_stops E is_star (Some BlockCommentNotClosed) s r t kn Hr) as Hf.
  cbn [eof_ok] in Hs, Hf. rewrite andb_false_r in Hs, Hf.
  destruct (scan_to (fuel E) is_star false r) as [[w r1]| |] eqn:Escan; [| |discriminate].
  2:{ destruct (Hf eq_refl) as (cs & bad & F & -> & Hcs & HF & Hst). exists (encode_utf8 cs), bad, F. splits; auto.
      2:{ destruct HF as [HF|[HF _]]; [left; exact HF|right; exact HF]. }
      - split; [exists cs; split; [reflexivity|]; eapply Forall_impl; [|exact Hcs]; intros c [Hc _]; exact Hc|].
        rewrite <- (app_nil_r (encode_utf8 cs)). apply no_end_app; [apply skipped_star_bytes; exact Hcs|apply no_end_nil].
      - apply stops_bind. exact Hst. }
  clear Hf. apply scan_to_sound in Escan as (-> & (cs & -> & Hcs) & Hstar); [|exact Hr].
  destruct r1 as [|star r1]; [discriminate|]. apply N.eqb_eq in Hstar. subst star.
  assert (Hcc : Forall comment_char cs) by (eapply Forall_impl; [|exact Hcs]; intros c [Hc _]; exact Hc).
  assert (Hsc : comment_char 0x2A) by (split; [unfold is_char; lia|left; lia]).
  destruct r1 as [|b r2].
  { exists (encode_utf8 (cs ++ [0x2A])), [], (FEnd BlockCommentNotClosed).
    rewrite encode_utf8_app, app_nil_r. change (encode_utf8 [0x2A]) with [0x2A]. splits; auto.
    - split.
      + exists (cs ++ [0x2A]). rewrite encode_utf8_app. split; [reflexivity|]. apply Forall_app. split; [exact Hcc|constructor; [exact Hsc|constructor]].
      + apply no_end_app; [apply skipped_star_bytes; exact Hcs|]. apply no_end_cons; [apply no_end_nil|trivial].
    - eapply stops_bind_ok; [apply Hs|]. eapply stops_bind_ok; [apply update_ok|]. eapply stops_bind_ok; [apply skip_some|].
      rewrite move_snoc_plain by apply plain_star.
      destruct t as [|e]; [|apply stops_peek_err]. eapply stops_bind_ok; [apply peek_eof|]. apply stops_ended. reflexivity. }
  destruct (N.eqb_spec b B_SLASH) as [->|Hb]; [discriminate|].
  apply Forall_app in Hr as [_ Hr]. inversion Hr as [|? ? _ Hr2]; subst.
  destruct (scan_block (fuel E) f (b :: r2)) as [[w2 r']| |] eqn:Eb; try discriminate.
  destruct (IH (move (encode_utf8 cs ++ [B_STAR]) s) (b :: r2) t true Hr2 Eb) as (body & bad & F & He & [(cs2 & -> & Hc2) Hn] & HF & Hst).
  exists (encode_utf8 (cs ++ 0x2A :: cs2)), bad, F. rewrite encode_utf8_app, encode_utf8_cons, encode_char_1 by lia.
  rewrite He. splits; auto.
  - rewrite <- app_assoc. reflexivity.
  - split.
    + exists (cs ++ 0x2A :: cs2). rewrite encode_utf8_app, encode_utf8_cons, encode_char_1 by lia. split; [reflexivity|].
      apply Forall_app. split; [exact Hcc|]. constructor; [exact Hsc|exact Hc2].
    + apply no_end_app; [apply skipped_star_bytes; exact Hcs|]. cbn [app]. apply no_end_cons; [exact Hn|].
      intros _. destruct (encode_utf8 cs2) as [|x xs]; [trivial|]. cbn in He. injection He as <- _.
      destruct b as [|p]; [trivial|]. repeat (destruct p as [p|p|]; try trivial). exfalso. apply Hb. reflexivity.
  - rewrite He in Hs, Hst. eapply stops_bind_ok; [apply Hs|]. eapply stops_bind_ok; [apply update_ok|]. eapply stops_bind_ok; [apply skip_some|].
    rewrite <- He. rewrite <- He in Hst. eapply stops_bind_ok; [apply peek_some|]. cbn beta iota.
    destruct (N.eqb_spec b B_SLASH); [contradiction|].
    rewrite <- (move_snoc_plain (encode_utf8 cs) _ s plain_star).
    replace (encode_utf8 cs ++ [0x2A] ++ encode_utf8 cs2) with ((encode_utf8 cs ++ [B_STAR]) ++ encode_utf8 cs2)
      by (rewrite <- app_assoc; reflexivity).
    rewrite (move_app (encode_utf8 cs ++ [B_STAR])) by (apply last_cr_snoc; discriminate). exact Hst.
Qed.

(** ** Composing errors in whitespace *)
Lemma ws_error_app sx k p x t1 F : ws_text sx p -> ws_error sx k x t1 F -> ws_error sx k (p ++ x) (p ++ t1) F.
Proof.
  intros Hp H. destruct H; rewrite ?(app_assoc p).
  - apply WE_end. apply final_ws_app; assumption.
  - apply WE_disabled; [apply ws_text_app; assumption|assumption].
  - apply WE_slash_end; [apply ws_text_app; assumption|assumption].
  - apply WE_slash; [apply ws_text_app; assumption|assumption..].
  - apply WE_block_end; [apply ws_text_app; assumption|assumption..].
  - apply WE_block; [apply ws_text_app; assumption|assumption..].
  - apply WE_line; [apply ws_text_app; assumption|assumption..].
Qed.

Lemma final_ws_break sx b t : line_break b -> final_ws_text sx (b :: t) -> final_ws_text sx t.
Proof.
  intros Hb [H|(t1 & body & He & H1 & H2)]; [left; eapply ws_text_break; eassumption|].
  destruct t1 as [|x t1]; [injection He as -> _; destruct Hb; discriminate|].
  injection He as <- ->. right. exists t1, body. splits; try tauto. eapply ws_text_break; eassumption.
Qed.

Lemma ws_error_break sx k b r t1 F : line_break b -> ws_error sx k (b :: r) t1 F ->
  exists t2, t1 = b :: t2 /\ ws_error sx k r t2 F.
Proof.
  intros Hb H. remember (b :: r) as x eqn:Hx.
  assert (Hnb : b <> 0x2F) by (destruct Hb; lia).
  destruct H as [w Hw|w r' Hw Hc|w Hw Hc|w b' r' Hw Hc H1 H2|w body Hw Hc H1|w body bad F Hw Hc H1 H2|w body bad F Hw Hc H1 H2];
    [subst w; exists r; split; [reflexivity|]; apply WE_end; exact (final_ws_break _ _ _ Hb Hw)|..];
    (destruct w as [|y w]; [exfalso; injection Hx as Hx _; congruence|]);
    injection Hx as -> <-; apply (ws_text_break _ _ _ Hb) in Hw; eexists; (split; [reflexivity|]).
  - apply WE_disabled; assumption.
  - apply WE_slash_end; assumption.
  - apply WE_slash; assumption.
  - apply WE_block_end; assumption.
  - apply WE_block; assumption.
  - apply WE_line; assumption.
Qed.

Lemma stops_source_end {A : Type} t k (m : M A) s s' a : stops t FSource m s s' a -> stops t (end_failure k) m s s' a.
Proof.
  intros (e & a' & H & Hr & Hp). exists e, a'. splits; auto. destruct k as [k|]; [|exact Hr].
  destruct e; try contradiction; match goal with i : io_error |- _ => destruct i; try contradiction; exact Hr end.
Qed.

Ltac ss lem := eapply stops_bind_ok; [apply lem|]; cbn beta iota.

Lemma ws_stops E k f : forall s r t kn, Forall is_byte r ->
  scan_ws (fuel E) f (allow_comments (cfg E)) (is_eof t) (eof_ok k) r = SFail ->
  exists t1 F, ws_error (Syntax (allow_comments (cfg E)) (allow_trailing_comma (cfg E))) k r t1 F /\
    stops t F (skip_whitespace_loop E f k) s (move t1 s) (At r t kn).
Proof.
  set (sx := Syntax (allow_comments (cfg E)) (allow_trailing_comma (cfg E))).
  induction f as [|f IH]; intros s r t kn Hr H; [discriminate|].
  cbn [scan_ws] in H. cbn [skip_whitespace_loop].
  pose proof (skip_to_ex E not_ws None s r t kn) as Hs. pose proof (skip_to_stops E not_ws None s r t kn Hr) as Hf.
  cbn [eof_ok] in Hs, Hf. rewrite andb_true_r in Hs, Hf.
  destruct (scan_to (fuel E) not_ws (is_eof t) r) as [[w r1]| |] eqn:Escan; [| |discriminate].
  2:{ destruct (Hf eq_refl) as (cs & bad & F & -> & Hcs & HF & Hst). clear Hf Hs H.
      apply skipped_ws_bytes in Hcs as [Hecs Hcs]. rewrite Hecs in *. clear Hecs.
      destruct HF as [[-> ->]|[Hbad Hhd]].
      - exists cs, (end_failure k). rewrite app_nil_r in *. split.
        + apply WE_end. left. rewrite <- (app_nil_r cs). apply ws_text_app_ws; [exact Hcs|constructor].
        + apply stops_bind. apply stops_source_end. exact Hst.
      - exfalso. destruct bad as [|b bad]; [inversion Hbad; subst; inversion H|].
        cbn [firstn] in Hhd. inversion Hhd as [|? ? Hb _]; subst. unfold not_ws in Hb. apply negb_false_iff, is_ws_iff in Hb.
        unfold ws_byte in Hb. inversion Hbad; subst; [lia|]. match goal with X : utf8_error _ _ |- _ => inversion X; subst; lia end. }
  clear Hf. apply scan_to_sound in Escan as (-> & (cs & -> & Hcs) & Hstop); [|exact Hr].
  apply skipped_ws_bytes in Hcs as [Hecs Hcs]. rewrite Hecs in *. clear Hecs.
  assert (Hw1 : ws_text sx cs) by (rewrite <- (app_nil_r cs); apply ws_text_app_ws; [exact Hcs|constructor]).
  destruct r1 as [|b r1].
  { destruct k as [k|]; [|discriminate]. rewrite app_nil_r in *. exists cs, (FEnd k). split; [exact (WE_end sx (Some k) cs (or_introl Hw1))|].
    destruct t as [|e]; [|discriminate]. ss Hs. ss peek_eof. apply stops_bind. apply stops_ended. reflexivity. }
  unfold not_ws in Hstop. apply negb_true_iff in Hstop.
  destruct (N.eqb_spec b B_SLASH) as [->|Hb]; [|discriminate].
  apply Forall_app in Hr as [_ Hr]. inversion Hr as [|? ? _ Hr2]; subst.
  destruct (allow_comments (cfg E)) eqn:Hcom; cbn [negb] in H.
  2:{ exists cs, (FSyntax CommentsNotEnabled). split; [apply WE_disabled; [exact Hw1|reflexivity]|].
      ss Hs. ss peek_some. rewrite N.eqb_refl. apply stops_syntax. }
  destruct r1 as [|b2 r2].
  { exists (cs ++ [0x2F]), (FEnd IncompleteComment). split; [apply WE_slash_end; [exact Hw1|reflexivity]|].
    ss Hs. ss peek_some. rewrite N.eqb_refl. cbn [negb]. ss skip_some. ss update_ok.
    rewrite move_snoc_plain by apply plain_slash. apply stops_bind, read_end. }
  inversion Hr2 as [|? ? _ Hr3]; subst.
  assert (Hmv : forall x w2, plain x -> move (cs ++ B_SLASH :: x :: w2) s = move w2 (advance 1 1 (advance 1 1 (move cs s)))).
  { intros x w2 Hx. pose proof (move_comment cs B_SLASH x [] w2 s plain_slash Hx eq_refl) as Hmc.
    rewrite <- app_assoc in Hmc. cbn [app] in Hmc. rewrite Hmc. rewrite move_nil. reflexivity. }
  destruct (N.eqb_spec b2 B_STAR) as [->|Hstar].
  { pose proof (fun s0 => block_ex E (fuel E) s0 r2 t false) as Hblock.
    destruct (scan_block (fuel E) (fuel E) r2) as [[w2 r3]| |] eqn:Eb; [| |discriminate].
    2:{ destruct (block_stops E (fuel E) (advance 1 1 (advance 1 1 (move cs s))) r2 t false Hr3 Eb) as (body & bad & F & -> & Hbody & HF & Hst).
        exists (cs ++ [0x2F; 0x2A] ++ body), F. split.
        { destruct HF as [[-> ->]|HF].
          - rewrite app_nil_r. apply WE_block_end; [exact Hw1|reflexivity|exact Hbody].
          - apply WE_block; [exact Hw1|reflexivity|exact Hbody|exact HF]. }
        cbn [app]. rewrite Hmv by apply plain_star.
        ss Hs. ss peek_some. rewrite N.eqb_refl. cbn [negb]. ss skip_some. ss update_ok. ss read_some. rewrite N.eqb_refl.
        ss update_ok. apply stops_bind. exact Hst. }
    destruct (scan_block_last _ _ _ _ _ Eb) as (w0 & Hw2 & _).
    apply scan_block_sound in Eb as (-> & cs2 & Hcs2 & Hc2 & Hn); [|exact Hr3].
    destruct (scan_ws (fuel E) f true (is_eof t) (eof_ok k) r3) as [[w3 r']| |] eqn:Ew; try discriminate.
    apply Forall_app in Hr3 as [_ Hr3].
    destruct (IH (move w2 (advance 1 1 (advance 1 1 (move cs s)))) r3 t false Hr3 Ew) as (t1 & F & He & Hst).
    exists ((cs ++ [0x2F; 0x2A] ++ w2) ++ t1), F. split.
    { replace (cs ++ B_SLASH :: B_STAR :: w2 ++ r3) with ((cs ++ [0x2F; 0x2A] ++ w2) ++ r3) by (rewrite <- !app_assoc; reflexivity).
      apply ws_error_app; [|exact He]. apply ws_text_app; [exact Hw1|]. rewrite Hcs2.
      apply (WS_block sx (encode_utf8 cs2) []); [reflexivity| |constructor]. split; [exists cs2; split; [reflexivity|exact Hc2]|exact Hn]. }
    rewrite move_comment by (apply plain_slash || apply plain_star ||
      (rewrite Hw2; change [B_STAR; B_SLASH] with ([B_STAR] ++ [B_SLASH]); rewrite app_assoc; apply last_cr_snoc; discriminate)).
    ss Hs. ss peek_some. rewrite N.eqb_refl. cbn [negb]. ss skip_some. ss update_ok. ss read_some. rewrite N.eqb_refl.
    ss update_ok. ss Hblock. exact Hst. }
  destruct (N.eqb_spec b2 B_SLASH) as [->|Hslash].
  2:{ exists (cs ++ [0x2F]), (FSyntax IncompleteComment). split; [apply WE_slash; [exact Hw1|reflexivity|exact Hstar|exact Hslash]|].
      ss Hs. ss peek_some. rewrite N.eqb_refl. cbn [negb]. ss skip_some. ss update_ok. ss read_some.
      destruct (N.eqb_spec b2 B_STAR); [contradiction|]. destruct (N.eqb_spec b2 B_SLASH); [contradiction|].
      rewrite move_snoc_plain by apply plain_slash. apply stops_syntax. }
  pose proof (fun s0 => skip_to_ex E is_break k s0 r2 t false) as Hline.
  destruct (scan_to (fuel E) is_break (is_eof t && eof_ok k) r2) as [[w2 r3]| |] eqn:Eb; [| |discriminate].
  2:{ destruct (skip_to_stops E is_break k (advance 1 1 (advance 1 1 (move cs s))) r2 t false Hr3 Eb) as (cs2 & bad & F & -> & Hcs2 & HF & Hst).
      apply line_comment_body_iff in Hcs2.
      exists (cs ++ [0x2F; 0x2F] ++ encode_utf8 cs2), F. split.
      { destruct HF as [[-> ->]|[HF _]].
        - rewrite app_nil_r. apply WE_end. right. exists cs, (encode_utf8 cs2). splits; auto.
        - apply WE_line; [exact Hw1|reflexivity|exact Hcs2|exact HF]. }
      cbn [app]. rewrite Hmv by apply plain_slash.
      ss Hs. ss peek_some. rewrite N.eqb_refl. cbn [negb]. ss skip_some. ss update_ok. ss read_some.
      change (B_SLASH =? B_STAR) with false. rewrite N.eqb_refl. cbn iota. ss update_ok. apply stops_bind. exact Hst. }
  assert (Hw2 : Forall (fun b => b <> B_CR) w2).
  { eapply Forall_impl; [|apply (scan_to_no_stop _ _ _ _ _ _ Eb)].
    - intros x Hx ->. discriminate.
    - intros x. unfold is_break, is_1byte. rewrite orb_true_iff, !N.eqb_eq. intros [->| ->]; reflexivity. }
  apply scan_to_sound in Eb as (-> & (cs2 & -> & Hc2) & Hbr); [|exact Hr3].
  apply line_comment_body_iff in Hc2.
  destruct (scan_ws (fuel E) f true (is_eof t) (eof_ok k) r3) as [[w3 r']| |] eqn:Ew; try discriminate.
  apply Forall_app in Hr3 as [_ Hr3].
  destruct (IH (move (encode_utf8 cs2) (advance 1 1 (advance 1 1 (move cs s)))) r3 t true Hr3 Ew) as (t1 & F & He & Hst).
  assert (Hstop2 : stops t F (skip_whitespace_loop E (S f) k) s (move ((cs ++ [0x2F; 0x2F] ++ encode_utf8 cs2) ++ t1) s)
    (At (cs ++ B_SLASH :: B_SLASH :: encode_utf8 cs2 ++ r3) t kn)).
  { rewrite move_comment by (apply plain_slash || (apply last_cr_no; exact Hw2)). cbn [skip_whitespace_loop].
    ss Hs. ss peek_some. rewrite N.eqb_refl, Hcom. cbn [negb]. ss skip_some. ss update_ok. ss read_some.
    change (B_SLASH =? B_STAR) with false. rewrite N.eqb_refl. cbn iota. ss update_ok. unfold skip_to_line_comment_end.
    ss Hline. exact Hst. }
  destruct r3 as [|b3 r3].
  { exfalso. destruct f as [|f]; [discriminate|]. apply andb_true_iff in Hbr as [Heof Hok]. rewrite Heof, Hok in Ew.
    cbn [scan_ws] in Ew. destruct (fuel E); [discriminate|]. discriminate. }
  apply is_break_iff in Hbr. destruct (ws_error_break _ _ _ _ _ _ Hbr He) as (t2 & -> & He2).
  exists ((cs ++ [0x2F; 0x2F] ++ encode_utf8 cs2) ++ b3 :: t2), F. split.
  - replace (cs ++ B_SLASH :: B_SLASH :: encode_utf8 cs2 ++ b3 :: r3) with ((cs ++ [0x2F; 0x2F] ++ encode_utf8 cs2 ++ [b3]) ++ r3)
      by (rewrite <- !app_assoc; reflexivity).
    replace ((cs ++ [0x2F; 0x2F] ++ encode_utf8 cs2) ++ b3 :: t2) with ((cs ++ [0x2F; 0x2F] ++ encode_utf8 cs2 ++ [b3]) ++ t2)
      by (rewrite <- !app_assoc; reflexivity).
    apply ws_error_app; [|exact He2]. apply ws_text_app; [exact Hw1|]. apply (WS_line sx (encode_utf8 cs2) b3 []); [reflexivity|exact Hc2|exact Hbr|constructor].
  - cbn [skip_whitespace_loop] in Hstop2. rewrite Hcom in Hstop2. exact Hstop2.
Qed.

Lemma skip_whitespace_stops E k s r t kn : Forall is_byte r -> ws_scan E t k r = SFail ->
  exists t1 F, ws_error (Syntax (allow_comments (cfg E)) (allow_trailing_comma (cfg E))) k r t1 F /\
    stops t F (skip_whitespace E k) s (move t1 s) (At r t kn).
Proof. apply ws_stops. Qed.
Lemma skip_whitespace_no_eof_stops E k s r t kn : Forall is_byte r -> ws_scan E t (Some k) r = SFail ->
  exists t1 F, ws_error (Syntax (allow_comments (cfg E)) (allow_trailing_comma (cfg E))) (Some k) r t1 F /\
    stops t F (skip_whitespace_no_eof E k) s (move t1 s) (At r t kn).
Proof.
  intros Hr H. destruct (skip_whitespace_stops E (Some k) s r t kn Hr H) as (t1 & F & He & Hst).
  exists t1, F. split; [exact He|]. apply stops_bind. exact Hst.
Qed.
