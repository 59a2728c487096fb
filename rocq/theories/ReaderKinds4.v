(** * The kind and the location of errors in numbers

    Auxiliary. *)

From Verif Require Import Base Utf8Model Utf8Proofs NumberModel SpecNumber NumberProofs SpecJson SourceModel SourceProofs
  ReaderModel ReaderScan ReaderLex ReaderLexStr ReaderMid ReaderAgree ReaderGrammar SpecCursor ReaderRepr ReaderForward SpecText SpecErrors
  ReaderKinds ReaderKinds2 ReaderKinds3.

Local Open Scope rmonad_scope.

(** ** Longer texts *)
Lemma scan_nprog_app p : forall l y r w rest, scan_nprog p l = SOk (r, w, rest) -> rest <> [] ->
  scan_nprog p (l ++ y) = SOk (r, w, rest ++ y).
Proof.
  induction p as [r0|k IH|]; intros l y r w rest H Hr; cbn [scan_nprog] in *.
  - injection H as <- <- <-. reflexivity.
  - destruct l as [|b l]; [discriminate|]. cbn [app].
    destruct (scan_nprog (k (hd_error l)) l) as [[[r1 w1] rest1]| |] eqn:Es; try discriminate. injection H as <- <- <-.
    destruct l as [|b' l].
    + exfalso. clear IH. cbn [hd_error] in Es. destruct (k None) as [r0|k0|]; cbn in Es; try discriminate. inversion Es; subst. apply Hr. reflexivity.
    + cbn [hd_error] in *. apply (IH _ _ y) in Es; [|exact Hr]. cbn [app hd_error]. cbn [app] in Es. rewrite Es. reflexivity.
  - discriminate.
Qed.

(** ** More fuel *)
Inductive nle : nprog -> nprog -> Prop :=
| NLE_fuel q : nle NFuel q
| NLE_ret r : nle (NRet r) (NRet r)
| NLE_next k k' : (forall ob, nle (k ob) (k' ob)) -> nle (NNext k) (NNext k').

Lemma nle_scan p q : nle p q -> forall l r, scan_nprog p l = SOk r -> scan_nprog q l = SOk r.
Proof.
  induction 1 as [q|r0|k k' H IH]; intros l r He; [discriminate|exact He|]. cbn [scan_nprog] in *.
  destruct l as [|b l]; [discriminate|]. specialize (IH (hd_error l) l).
  destruct (scan_nprog (k (hd_error l)) l) as [[[r1 w1] rest1]| |]; try discriminate.
  rewrite (IH _ eq_refl). exact He.
Qed.

Ltac nle_opt := let ob := fresh in apply NLE_next; intros ob; destruct ob; [|apply NLE_ret].

Lemma nle_digits k k' : (forall b, nle (k b) (k' b)) -> forall f f', (f <= f')%nat -> nle (digits_loop f k) (digits_loop f' k').
Proof.
  intros Hk. induction f as [|f IH]; intros f' Hf; [apply NLE_fuel|]. destruct f' as [|f']; [lia|].
  cbn [digits_loop]. nle_opt. destruct (is_digit n); [apply IH; lia|apply Hk].
Qed.
Lemma nle_end b n : nle (number_end b n) (number_end b n).
Proof. unfold number_end. destruct (_ || _); apply NLE_ret. Qed.
Lemma nle_exp_loop : forall f f' c, (f <= f')%nat -> nle (exponent_loop f c number_end) (exponent_loop f' c number_end).
Proof.
  induction f as [|f IH]; intros f' c Hf; [apply NLE_fuel|]. destruct f' as [|f']; [lia|].
  cbn [exponent_loop]. nle_opt. destruct (is_digit n); [destruct (_ || _); apply IH; lia|apply nle_end].
Qed.
Lemma nle_exp_digits f f' b : (f <= f')%nat -> nle (NumberModel.exponent_digits f b) (NumberModel.exponent_digits f' b).
Proof.
  intros Hf. unfold NumberModel.exponent_digits. destruct (is_digit19 b); [apply nle_exp_loop, Hf|].
  destruct (negb _); [apply NLE_ret|apply nle_exp_loop, Hf].
Qed.
Lemma nle_exp_part f f' b : (f <= f')%nat -> nle (NumberModel.exponent_part f b) (NumberModel.exponent_part f' b).
Proof.
  intros Hf. unfold NumberModel.exponent_part. destruct (_ || _); [|apply nle_end]. nle_opt. destruct (_ || _); [|apply nle_exp_digits, Hf].
  nle_opt. apply nle_exp_digits, Hf.
Qed.
Lemma nle_fraction f f' b : (f <= f')%nat -> nle (fraction_part f b) (fraction_part f' b).
Proof.
  intros Hf. unfold fraction_part. destruct (b =? B_DOT); [|apply nle_exp_part, Hf]. nle_opt.
  destruct (negb _); [apply NLE_ret|]. apply nle_digits; [|exact Hf]. intros. apply nle_exp_part, Hf.
Qed.
Lemma nle_integer f f' b : (f <= f')%nat -> nle (integer_part f b) (integer_part f' b).
Proof.
  intros Hf. unfold integer_part. destruct (is_digit19 b).
  { apply nle_digits; [|exact Hf]. intros. apply nle_fraction, Hf. }
  destruct (b =? B_0); [|apply NLE_ret]. nle_opt. apply nle_fraction, Hf.
Qed.
Lemma nle_number f f' b : (f <= f')%nat -> nle (consume_json_number f b) (consume_json_number f' b).
Proof. intros Hf. unfold consume_json_number. destruct (b =? B_MINUS); [nle_opt|]; apply nle_integer, Hf. Qed.

Lemma number_scan_more E E' r x : (fuel E <= fuel E')%nat -> number_scan E r = SOk x -> number_scan E' r = SOk x.
Proof.
  intros Hf H. unfold number_scan in *. destruct r as [|b l]; [discriminate|].
  exact (nle_scan _ _ (nle_number _ _ b Hf) _ _ H).
Qed.

(** ** A number which is cut can be continued *)
Definition viable (p : nprog) : Prop := forall l w, scan_nprog p l = SOk (None, w, []) -> l <> [] ->
  exists n, scan_nprog p (l ++ [0x30]) = SOk (Some n, w ++ [0x30], []).

Lemma viable_ret r : viable (NRet r).
Proof. intros l w [= _ _ ->] Hl. contradiction. Qed.
Lemma viable_fuel : viable NFuel.
Proof. intros l w H. discriminate. Qed.
Lemma viable_next k : (k None = NRet None -> exists n, scan_nprog (k (Some 0x30)) [0x30] = SOk (Some n, [0x30], [])) ->
  (exists r, k None = NRet r) -> (forall b, viable (k (Some b))) -> viable (NNext k).
Proof.
  intros H0 (r & Hr) Hk l w H Hl. cbn [scan_nprog] in H |- *. destruct l as [|b l]; [contradiction|]. cbn [app].
  destruct l as [|b' l].
  - cbn [hd_error app] in *. rewrite Hr in H. cbn in H. injection H as -> <-.
    destruct (H0 Hr) as (n & ->). exists n. reflexivity.
  - cbn [hd_error] in *. destruct (scan_nprog (k (Some b')) (b' :: l)) as [[[r1 w1] rest1]| |] eqn:Es; try discriminate.
    injection H as -> <- ->. destruct (Hk b' _ _ Es ltac:(discriminate)) as (n & En). exists n. cbn [app hd_error] in *.
    rewrite En. reflexivity.
Qed.

Lemma viable_end b n : viable (number_end b n).
Proof. unfold number_end. destruct (_ || _); apply viable_ret. Qed.
Lemma viable_digits f k : (forall b, viable (k b)) -> viable (digits_loop f k).
Proof.
  intros Hk. induction f as [|f IH]; [apply viable_fuel|]. cbn [digits_loop].
  apply viable_next; [discriminate|eauto|]. intros b. destruct (is_digit b); auto.
Qed.
Lemma viable_exp_loop f : forall c, viable (exponent_loop f c number_end).
Proof.
  induction f as [|f IH]; intros c; [apply viable_fuel|]. cbn [exponent_loop].
  apply viable_next; [discriminate|eauto|]. intros b. destruct (is_digit b); [destruct (_ || _); apply IH|apply viable_end].
Qed.
Lemma viable_exp_digits f b : viable (NumberModel.exponent_digits f b).
Proof.
  unfold NumberModel.exponent_digits. destruct (is_digit19 b); [apply viable_exp_loop|]. destruct (negb _); [apply viable_ret|apply viable_exp_loop].
Qed.
Lemma exp_digits_0 f : (0 < f)%nat -> exists n, scan_nprog (NumberModel.exponent_digits f 0x30) [0x30] = SOk (Some n, [0x30], []).
Proof. intros Hf. destruct f; [lia|]. eexists. reflexivity. Qed.
Lemma viable_exp_part f b : (0 < f)%nat -> viable (NumberModel.exponent_part f b).
Proof.
  intros Hf. unfold NumberModel.exponent_part. destruct (_ || _); [|apply viable_end].
  apply viable_next; [intros _; apply exp_digits_0, Hf|eauto|]. intros b1. destruct (_ || _); [|apply viable_exp_digits].
  apply viable_next; [intros _; apply exp_digits_0, Hf|eauto|]. intros b2. apply viable_exp_digits.
Qed.
Lemma viable_fraction f b : (0 < f)%nat -> viable (fraction_part f b).
Proof.
  intros Hf. unfold fraction_part. destruct (b =? B_DOT); [|apply viable_exp_part, Hf].
  apply viable_next; [intros _; destruct f; [lia|]; eexists; reflexivity|eauto|].
  intros b1. destruct (negb _); [apply viable_ret|]. apply viable_digits. intros. apply viable_exp_part, Hf.
Qed.
Lemma viable_integer f b : (0 < f)%nat -> viable (integer_part f b).
Proof.
  intros Hf. unfold integer_part. destruct (is_digit19 b).
  { apply viable_digits. intros. apply viable_fraction, Hf. }
  destruct (b =? B_0); [|apply viable_ret]. apply viable_next; [discriminate|eauto|]. intros b1. apply viable_fraction, Hf.
Qed.
Lemma viable_number f b : (0 < f)%nat -> viable (consume_json_number f b).
Proof.
  intros Hf. unfold consume_json_number. destruct (b =? B_MINUS); [|apply viable_integer, Hf].
  apply viable_next; [intros _; destruct f; [lia|]; eexists; reflexivity|eauto|]. intros. apply viable_integer, Hf.
Qed.

Lemma number_cut E x w : (0 < fuel E)%nat -> number_scan E x = SOk (None, w, []) -> number_text (x ++ [0x30]).
Proof.
  intros Hf H. unfold number_scan in H. destruct x as [|b l]; [discriminate|].
  destruct (viable_number (fuel E) b Hf _ _ H ltac:(discriminate)) as (n & Hn).
  assert (Hs : number_scan E ((b :: l) ++ [0x30]) = SOk (Some n, w ++ [0x30], [])) by exact Hn.
  apply number_scan_sound in Hs as (He & _ & m & Hm & _). rewrite app_nil_r in He. rewrite He. exists m. exact Hm.
Qed.

(** ** Which error *)
Lemma number_span r : exists x y, r = x ++ y /\ Forall number_char x /\ ends_number y.
Proof.
  induction r as [|b r (x & y & -> & Hx & Hy)]; [exists [], []; splits; auto; exact I|].
  destruct (is_digit b || (b =? B_MINUS) || (b =? B_PLUS) || (b =? B_DOT) || (b =? B_e) || (b =? B_E)) eqn:Eb.
  - apply number_charb in Eb. exists (b :: x), y. splits; auto.
  - exists [], (b :: x ++ y). splits; auto. cbn. intros Hc. apply number_charb in Hc. congruence.
Qed.

Definition number_result (t : tail_end) (restricted : bool) (res : option N) (w rest : bytes) : option failure :=
  match res with
  | None => Some (match rest with [] => FEnd MalformedNumber | _ => FSyntax MalformedNumber end)
  | Some n =>
    if hits_error t rest then Some FSource
    else if restricted && ((2 <? n) || (100 <? len64 w)) then Some (FUnsupported w)
    else if sep_ok (is_eof t) rest then None
    else Some (FSyntax TrailingDataAfterNumber)
  end.

Lemma number_diagnosis E t restricted b l res w rest F : (length (b :: l) < fuel E)%nat ->
  (b =? B_MINUS) || is_digit b = true ->
  number_scan E (b :: l) = SOk (res, w, rest) -> number_result t restricted res w rest = Some F ->
  number_error t restricted (b :: l) (match F with FSyntax TrailingDataAfterNumber => w | _ => [] end) F.
Proof.
  intros Hf Hb Hs HF. unfold number_result in HF. destruct res as [n|].
  - apply number_scan_sound in Hs as (He & Hends & m & Hm & ->). rewrite He.
    assert (Hu : (2 <? N.of_nat m) || (100 <? len64 w) = unsupported_number w).
    { unfold unsupported_number. rewrite (number_exponent _ _ Hm). unfold len64.
      assert (Hlt : (2 <? N.of_nat m) = Nat.ltb 2 m) by (apply eq_true_iff_eq; rewrite N.ltb_lt, Nat.ltb_lt; lia).
      rewrite Hlt. reflexivity. }
    rewrite Hu in HF. destruct (hits_error t rest) eqn:Eh.
    { injection HF as <-. destruct rest; [|discriminate]. rewrite app_nil_r. apply NE_source; [exists m; exact Hm|].
      cbn in Eh. destruct t; discriminate. }
    destruct (restricted && unsupported_number w) eqn:Er.
    { injection HF as <-. apply andb_true_iff in Er as [Hr Hun]. apply NE_unsupported; [exists m; exact Hm|exact Hends| |exact Hr|exact Hun].
      intros ->. cbn in Eh. destruct t; [reflexivity|discriminate]. }
    destruct (sep_ok (is_eof t) rest) eqn:Esep; [discriminate|]. injection HF as <-.
    destruct rest as [|b' rest]; [cbn in Eh, Esep; destruct t; discriminate|].
    apply NE_trailing; [exists m; exact Hm|exact Hends| |].
    + rewrite <- is_separator_iff. cbn in Esep. congruence.
    + intros Hr. rewrite Hr in Er. exact Er.
  - destruct (number_span (b :: l)) as (x & y & Hx & Hxc & Hy).
    assert (Hnot : ~ number_text x).
    { intros (m & Hm). rewrite Hx in Hs. rewrite (number_scan_complete E x m y Hm Hy) in Hs; [discriminate|].
      rewrite Hx, app_length in Hf. lia. }
    destruct rest as [|b' rest]; injection HF as <-.
    + pose proof (number_cut E _ _ ltac:(lia) Hs) as Hcut.
      destruct Hcut as (m & Hm). pose proof (number_chars _ _ Hm) as Hch. apply Forall_app in Hch as [Hch _].
      assert (y = []). { destruct y as [|b' y]; [reflexivity|]. exfalso. rewrite Hx in Hch. apply Forall_app in Hch as [_ Hch]. inversion Hch. contradiction. }
      subst y. rewrite app_nil_r in Hx. subst x. eapply NE_end; [exact Hch|exact Hnot|exists m; exact Hm].
    + rewrite Hx. apply NE_malformed; [exact Hxc|exact Hy|exact Hnot|].
      destruct y as [|b0 y]; [right|left; discriminate]. intros (z & m & Hm). rewrite app_nil_r in Hx. subst x.
      set (E' := Env (cfg E) (fuel E + S (length (b :: l ++ z)))).
      assert (Hs' : number_scan E' (b :: l) = SOk (None, w, b' :: rest)) by (apply (number_scan_more E); [cbn; lia|exact Hs]).
      unfold number_scan in Hs'. apply (scan_nprog_app _ _ z) in Hs'; [|discriminate].
      assert (Hs2 : number_scan E' ((b :: l) ++ z) = SOk (None, w, (b' :: rest) ++ z)) by exact Hs'.
      rewrite <- (app_nil_r ((b :: l) ++ z)) in Hs2. rewrite (number_scan_complete E' _ m [] Hm I) in Hs2; [discriminate|].
      cbn. lia.
Qed.

Lemma run_number_stops (next : M (option byte)) (St : bytes -> bytes -> asrc) t :
  (forall s b w, is_eof t = false -> stops t FSource next s s (St [b] w)) ->
  (forall s b b' l w, exec next s (St (b :: b' :: l) w) = Some ((Ok (Some b'), s), St (b' :: l) (w ++ [b]))) ->
  is_eof t = false -> forall p, eof_stops p -> forall l w0 c s r w, l <> [] -> scan_nprog p l = SOk (r, w, []) ->
  stops t FSource (run_number next p c) s s (St l w0).
Proof.
  intros Hend Hnext Ht p Hp. induction Hp as [r0| |k Heof Hk IH]; intros l w0 c s r w Hl H.
  - cbn [scan_nprog] in H. injection H as _ _ ->. contradiction.
  - discriminate.
  - cbn [scan_nprog] in H. destruct l as [|b l]; [contradiction|]. cbn [run_number]. destruct l as [|b' l].
    + apply stops_bind. apply Hend. exact Ht.
    + cbn [hd_error] in H. destruct (scan_nprog (k (Some b')) (b' :: l)) as [[[r1 w1] rest1]| |] eqn:Es; try discriminate.
      injection H as _ _ ->. eapply stops_bind_ok; [apply Hnext|]. eapply IH; [discriminate|exact Es].
Qed.

Lemma run_value_stops E s b l t c r w : is_eof t = false -> number_scan E (b :: l) = SOk (r, w, []) ->
  stops t FSource (run_number number_next (consume_json_number (fuel E) b) c) s s (Av (b :: l) t true [] false).
Proof.
  intros Ht H. eapply (run_number_stops number_next (fun l w => Av l t true w false) t).
  - intros s0 b0 w0 _. destruct t; [discriminate|]. unfold number_next. ss vconsume_some. eexists _, _. split; [reflexivity|]. repeat split.
  - intros s0 b0 b' l0 w0. exact (number_next_ex s0 b0 (b' :: l0) t w0).
  - exact Ht.
  - apply eof_stops_number.
  - discriminate.
  - exact H.
Qed.
Lemma run_skip_stops E s b l t c r w : is_eof t = false -> number_scan E (b :: l) = SOk (r, w, []) ->
  stops t FSource (run_number number_skip_next (consume_json_number (fuel E) b) c) s s (At (b :: l) t true).
Proof.
  intros Ht H. eapply (run_number_stops number_skip_next (fun l w => At l t true) t).
  - intros s0 b0 w0 _. destruct t; [discriminate|]. unfold number_skip_next. ss skip_some. eexists _, _. split; [reflexivity|]. repeat split.
  - intros s0 b0 b' l0 w0. exact (number_skip_next_ex s0 b0 (b' :: l0) t).
  - exact Ht.
  - apply eof_stops_number.
  - exact [].
  - discriminate.
  - exact H.
Qed.

Lemma stops_first {A : Type} t F (f : byte -> M A) s s' b l kn : stops t F (f b) s s' (At (b :: l) t true) ->
  stops t F (first_byte <- (ob <- peek_byte ;; match ob with Some b => ret b | None => panics Bug end) ;; f first_byte) s s' (At (b :: l) t kn).
Proof.
  intros (e & a' & H & He). exists e, a'. split; [|exact He]. rewrite exec_assoc. step peek_some. step ret_ok. exact H.
Qed.

Lemma plain_number w m : number_text_exp w m -> Forall plain w.
Proof.
  intros Hm. eapply Forall_impl; [|exact (number_chars _ _ Hm)]. intros x Hx. unfold number_char, digit in Hx.
  assert (Hl : x < 0x80) by lia. apply is_1byte_iff in Hl. unfold plain. splits; [exact Hl|lia|lia].
Qed.

Lemma number_tail_stops E t bo b l kn s res w rest F : (length (b :: l) < fuel E)%nat ->
  (b =? B_MINUS) || is_digit b = true ->
  number_scan E (b :: l) = SOk (res, w, rest) -> number_result t (restrict_number_values (cfg E)) res w rest = Some F ->
  stops t F (number_tail E bo) s (move (match F with FSyntax TrailingDataAfterNumber => w | _ => [] end) s) (At (b :: l) t kn).
Proof.
  intros Hf Hb Hs HF. unfold number_tail. apply stops_first. unfold number_result in HF.
  assert (Hnew : exec value_reader_new s (At (b :: l) t true) = Some ((Ok tt, s), Av (b :: l) t true [] false)) by reflexivity.
  eapply stops_bind_ok; [exact Hnew|]. pose proof (run_number_value_ex E s b l t 0) as H. rewrite Hs in H.
  destruct (hits_error t rest) eqn:Eh.
  { destruct rest; [|discriminate]. cbn in Eh. apply negb_true_iff in Eh.
    pose proof (run_value_stops E s b l t 0 _ _ Eh Hs) as Hst.
    destruct res; injection HF as <-; rewrite move_nil; apply stops_bind; [exact Hst|].
    exact (stops_source_end t (Some MalformedNumber) _ _ _ _ Hst). }
  eapply stops_bind_ok; [exact H|]. cbn [fst snd]. destruct res as [n|].
  2:{ destruct rest; injection HF as <-; rewrite move_nil; [|apply stops_syntax].
      cbn in Eh. destruct t; [|discriminate]. eexists _, _. split; [reflexivity|]. repeat split. }
  apply number_scan_sound in Hs as (He & Hends & m & Hm & ->). rewrite N.add_0_l.
  destruct (restrict_number_values (cfg E) && ((2 <? N.of_nat m) || (100 <? len64 w))) eqn:Er.
  { injection HF as <-. rewrite move_nil. ss vget_ok. ss (got_string rest t true w w false s (number_utf8 _ _ Hm)).
    eexists _, _. split; [reflexivity|]. repeat split. }
  destruct (sep_ok (is_eof t) rest) eqn:Esep; [discriminate|]. injection HF as <-.
  rewrite (move_all_plain w s (plain_number _ _ Hm)). ss vget_ok. unfold number_end_checks. ss update_ok. apply stops_bind.
  unfold verify_next_separator, verify_value_separator.
  destruct rest as [|b' rest]; [cbn in Eh, Esep; destruct t; discriminate|]. cbn in Esep. ss got_peek_some. rewrite Esep. apply stops_syntax.
Qed.

Lemma skip_number_tail_stops E t b l kn s res w rest F : (length (b :: l) < fuel E)%nat ->
  (b =? B_MINUS) || is_digit b = true ->
  number_scan E (b :: l) = SOk (res, w, rest) -> number_result t false res w rest = Some F ->
  stops t F (skip_number_tail E) s (move (match F with FSyntax TrailingDataAfterNumber => w | _ => [] end) s) (At (b :: l) t kn).
Proof.
  intros Hf Hb Hs HF. unfold skip_number_tail. apply stops_first. unfold number_result in HF.
  pose proof (run_number_skip_ex E s b l t 0) as H. rewrite Hs in H.
  destruct (hits_error t rest) eqn:Eh.
  { destruct rest; [|discriminate]. cbn in Eh. apply negb_true_iff in Eh.
    pose proof (run_skip_stops E s b l t 0 _ _ Eh Hs) as Hst.
    destruct res; injection HF as <-; rewrite move_nil; apply stops_bind; [exact Hst|].
    exact (stops_source_end t (Some MalformedNumber) _ _ _ _ Hst). }
  eapply stops_bind_ok; [exact H|]. cbn [fst snd]. destruct res as [n|].
  2:{ destruct rest; injection HF as <-; rewrite move_nil; [|apply stops_syntax].
      cbn in Eh. destruct t; [|discriminate]. eexists _, _. split; [reflexivity|]. repeat split. }
  apply number_scan_sound in Hs as (He & Hends & m & Hm & ->). rewrite N.add_0_l. cbn [andb] in HF.
  destruct (sep_ok (is_eof t) rest) eqn:Esep; [discriminate|]. injection HF as <-.
  rewrite (move_all_plain w s (plain_number _ _ Hm)). unfold number_end_checks. ss update_ok. apply stops_bind.
  unfold verify_next_separator, verify_value_separator.
  destruct rest as [|b' rest]; [cbn in Eh, Esep; destruct t; discriminate|]. cbn in Esep. ss peek_some. rewrite Esep. apply stops_syntax.
Qed.

(** A number either can be read or has one of the errors *)
Lemma number_decided E t restricted b l : (length (b :: l) < fuel E)%nat -> exists res w rest,
  number_scan E (b :: l) = SOk (res, w, rest) /\
  (number_result t restricted res w rest = None -> exists n v, res = Some n /\ from_utf8 w = Some v /\ hits_error t rest = false /\
     restricted && ((2 <? n) || (100 <? len64 w)) = false /\ sep_ok (is_eof t) rest = true).
Proof.
  intros Hf. pose proof (number_scan_fuel E b l) as Hs. cbn in Hf. specialize (Hs ltac:(lia)).
  destruct (number_scan E (b :: l)) as [[[res w] rest]| |] eqn:Es; [|contradiction|contradiction].
  exists res, w, rest. split; [reflexivity|]. unfold number_result. destruct res as [n|]; [|discriminate].
  apply number_scan_sound in Es as (_ & _ & m & Hm & _). intros H. exists n, w. splits; [reflexivity|exact (number_utf8 _ _ Hm)|..];
  (destruct (hits_error t rest); [congruence|]; destruct (restricted && _); [congruence|]; destruct (sep_ok _ _); congruence).
Qed.
