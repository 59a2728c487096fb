(** * The number automaton accepts exactly the RFC 8259 numbers *)

From Verif Require Import Base Utf8Model Utf8Proofs NumberModel SpecNumber.

(** Running a [nprog] on a list whose head is the current byte. *)
Inductive lres : Type :=
| LDone (r : option N) (rest : bytes)
| LOutOfFuel.

Fixpoint nrun_list (p : nprog) (l : bytes) : lres :=
  match p with
  | NRet r => LDone r l
  | NNext k => nrun_list (k (hd_error (tl l))) (tl l)
  | NFuel => LOutOfFuel
  end.

Lemma is_digit_iff b : is_digit b = true <-> digit b.
Proof. unfold is_digit, digit. rewrite andb_true_iff, !N.leb_le. tauto. Qed.
Lemma is_digit19_iff b : is_digit19 b = true <-> 0x31 <= b <= 0x39.
Proof. unfold is_digit19. rewrite andb_true_iff, !N.leb_le. tauto. Qed.

(** The text after a number token. *)
Definition ends_number (rest : bytes) : Prop :=
  match rest with [] => True | b :: _ => ~ number_char b end.

Lemma number_end_run b rest n : 
  nrun_list (number_end b n) (b :: rest) =
  LDone (if is_digit b || (b =? B_MINUS) || (b =? B_PLUS) || (b =? B_DOT) || (b =? B_e) || (b =? B_E)
         then None else Some n) (b :: rest).
Proof. unfold number_end. destruct (_ || _); reflexivity. Qed.

Lemma number_charb b :
  (is_digit b || (b =? B_MINUS) || (b =? B_PLUS) || (b =? B_DOT) || (b =? B_e) || (b =? B_E) = true)
  <-> number_char b.
Proof.
  unfold number_char. rewrite !orb_true_iff, is_digit_iff, !N.eqb_eq. tauto.
Qed.

Lemma number_end_ok b rest n : ~ number_char b ->
  nrun_list (number_end b n) (b :: rest) = LDone (Some n) (b :: rest).
Proof.
  intros H. rewrite number_end_run.
  destruct (_ || _) eqn:E; [|reflexivity]. apply number_charb in E. contradiction.
Qed.

(** ** Completeness *)

Lemma digits_loop_run d ds rest fuel k : Forall digit ds -> (length ds < fuel)%nat ->
  (match rest with [] => True | b :: _ => ~ digit b end) ->
  nrun_list (digits_loop fuel k) (d :: ds ++ rest) =
  match rest with
  | [] => LDone (Some 0) []
  | b :: _ => nrun_list (k b) rest
  end.
Proof.
  intros Hds. revert d fuel. induction Hds as [|d' ds Hd' Hds IH]; intros d fuel Hf Hr.
  - destruct fuel as [|fuel]; [cbn in Hf; lia|].
    cbn [digits_loop nrun_list tl app hd_error].
    destruct rest as [|b rest]; [reflexivity|]. cbn [hd_error].
    destruct (is_digit b) eqn:E; [apply is_digit_iff in E; contradiction|reflexivity].
  - destruct fuel as [|fuel]; [cbn in Hf; lia|].
    cbn [digits_loop nrun_list tl app hd_error].
    apply is_digit_iff in Hd'. rewrite Hd'. apply IH; [cbn in Hf; lia|exact Hr].
Qed.

Lemma significant_count ds : forall (count : N),
  Forall digit ds ->
  (if 0 <? count then count + N.of_nat (length ds) else N.of_nat (significant ds)) =
  fold_left (fun c d => if negb (d =? B_0) || (0 <? c) then c + 1 else c) ds count.
Proof.
  induction ds as [|d ds IH]; intros count H.
  - cbn [fold_left length significant]. destruct (N.ltb_spec 0 count); lia.
  - inversion H as [|? ? Hd Hds]; subst. cbn [fold_left significant length].
    destruct (N.eqb_spec d 0x30) as [->|Hn]; cbn [negb orb].
    + destruct (N.ltb_spec 0 count) as [Hc|Hc].
      * rewrite <- IH by exact Hds. destruct (N.ltb_spec 0 (count + 1)); lia.
      * rewrite <- IH by exact Hds. destruct (N.ltb_spec 0 count); lia.
    + rewrite <- IH by exact Hds. destruct (N.ltb_spec 0 (count + 1)); [|lia].
      destruct (N.ltb_spec 0 count); lia.
Qed.

Lemma exponent_loop_run d ds rest fuel count k : Forall digit ds -> (length ds < fuel)%nat ->
  (match rest with [] => True | b :: _ => ~ digit b end) ->
  let n := fold_left (fun c d => if negb (d =? B_0) || (0 <? c) then c + 1 else c) ds count in
  nrun_list (exponent_loop fuel count k) (d :: ds ++ rest) =
  match rest with
  | [] => LDone (Some n) []
  | b :: _ => nrun_list (k b n) rest
  end.
Proof.
  intros Hds. revert d fuel count. induction Hds as [|d' ds Hd' Hds IH]; intros d fuel count Hf Hr.
  - destruct fuel as [|fuel]; [cbn in Hf; lia|].
    cbn [exponent_loop nrun_list tl app hd_error fold_left].
    destruct rest as [|b rest]; [reflexivity|]. cbn [hd_error].
    destruct (is_digit b) eqn:E; [apply is_digit_iff in E; contradiction|reflexivity].
  - destruct fuel as [|fuel]; [cbn in Hf; lia|].
    cbn [exponent_loop nrun_list tl app hd_error fold_left].
    apply is_digit_iff in Hd'. rewrite Hd'. cbn [length] in Hf.
    destruct (negb (d' =? B_0) || (0 <? count)).
    + apply (IH d' fuel (count + 1)); [lia|exact Hr].
    + apply (IH d' fuel count); [lia|exact Hr].
Qed.

Lemma ends_number_not_digit rest : ends_number rest ->
  match rest with [] => True | b :: _ => ~ digit b end.
Proof. destruct rest as [|b rest]; [trivial|]. cbn. unfold number_char. tauto. Qed.

Lemma exponent_digits_run d ds rest fuel :
  digit d -> Forall digit ds -> (length ds < fuel)%nat -> ends_number rest ->
  nrun_list (exponent_digits fuel d) (d :: ds ++ rest) =
  LDone (Some (N.of_nat (significant (d :: ds)))) rest.
Proof.
  intros Hd Hds Hf Hr. unfold exponent_digits.
  assert (Hsig : N.of_nat (significant (d :: ds)) =
     fold_left (fun c d => if negb (d =? B_0) || (0 <? c) then c + 1 else c) ds
       (if is_digit19 d then 1 else 0)).
  { pose proof (significant_count (d :: ds) 0 ltac:(constructor; assumption)) as H.
    cbn [fold_left] in H. change (0 <? 0) with false in H. rewrite H. f_equal.
    unfold is_digit19, digit in *.
    destruct (N.eqb_spec d 0x30) as [->|Hn]; [reflexivity|]. cbn [negb orb].
    replace (B_1 <=? d) with true by (symmetry; apply N.leb_le; lia).
    replace (d <=? B_9) with true by (symmetry; apply N.leb_le; lia). reflexivity. }
  rewrite Hsig. clear Hsig.
  destruct (is_digit19 d) eqn:E.
  - rewrite exponent_loop_run by (first [assumption | apply ends_number_not_digit; assumption]).
    destruct rest as [|b rest]; [reflexivity|]. apply number_end_ok. exact Hr.
  - destruct (N.eqb_spec d B_0) as [->|Hn].
    + cbn [negb]. rewrite exponent_loop_run by (first [assumption | apply ends_number_not_digit; assumption]).
      destruct rest as [|b rest]; [reflexivity|]. apply number_end_ok. exact Hr.
    + exfalso. unfold digit in Hd. unfold is_digit19 in E. apply andb_false_iff in E.
      destruct E as [E|E]; apply N.leb_gt in E; lia.
Qed.

Lemma exponent_part_run exp n rest fuel : opt_exp_text exp n -> (length exp < fuel)%nat ->
  ends_number rest ->
  match exp ++ rest with
  | [] => n = 0%nat
  | b :: _ => nrun_list (exponent_part fuel b) (exp ++ rest) = LDone (Some (N.of_nat n)) rest
  end.
Proof.
  intros [[-> ->]|(e & sign & ds & -> & He & Hs & [Hne Hds] & ->)] Hf Hr.
  - cbn [app]. destruct rest as [|b rest]; [reflexivity|].
    unfold exponent_part.
    assert (Hb : (b =? B_e) || (b =? B_E) = false).
    { cbn in Hr. unfold number_char in Hr. apply orb_false_iff. rewrite !N.eqb_neq. tauto. }
    rewrite Hb. apply number_end_ok. exact Hr.
  - cbn [app]. destruct ds as [|d ds]; [contradiction|]. inversion Hds as [|? ? Hd Hds']; subst.
    unfold exponent_part. replace ((e =? B_e) || (e =? B_E)) with true.
    2:{ symmetry. apply orb_true_iff. rewrite !N.eqb_eq. tauto. }
    cbn [length] in Hf. rewrite app_length in Hf. cbn [length] in Hf.
    destruct Hs as [->|[->| ->]]; cbn [app nrun_list tl hd_error length] in Hf |- *.
    + assert (Hm : (d =? B_MINUS) || (d =? B_PLUS) = false).
      { unfold digit in Hd. apply orb_false_iff. rewrite !N.eqb_neq. lia. }
      rewrite Hm. apply exponent_digits_run; [assumption..|lia|assumption].
    + cbn. apply exponent_digits_run; [assumption..|lia|assumption].
    + cbn. apply exponent_digits_run; [assumption..|lia|assumption].
Qed.

Lemma exp_first exp n rest : opt_exp_text exp n -> ends_number rest ->
  match exp ++ rest with [] => True | b :: _ => ~ digit b end.
Proof.
  intros [[-> _]|(e & sign & ds & -> & He & _)] Hr.
  - apply ends_number_not_digit. exact Hr.
  - cbn. unfold digit. lia.
Qed.

Lemma exp_first_dot exp n rest : opt_exp_text exp n -> ends_number rest ->
  match exp ++ rest with [] => True | b :: _ => b <> B_DOT end.
Proof.
  intros [[-> _]|(e & sign & ds & -> & He & _)] Hr.
  - destruct rest as [|b rest]; [trivial|]. cbn in *. unfold number_char in Hr. lia.
  - cbn. lia.
Qed.

Lemma fraction_part_run frac exp n rest fuel : opt_frac_text frac -> opt_exp_text exp n ->
  (length (frac ++ exp) < fuel)%nat -> ends_number rest ->
  match frac ++ exp ++ rest with
  | [] => n = 0%nat
  | b :: _ => nrun_list (fraction_part fuel b) (frac ++ exp ++ rest) = LDone (Some (N.of_nat n)) rest
  end.
Proof.
  intros [->|(ds & -> & Hne & Hds)] Hexp Hf Hr; rewrite ?app_length in Hf.
  - cbn [app]. pose proof (exponent_part_run exp n rest fuel Hexp ltac:(cbn in Hf; lia) Hr) as H.
    pose proof (exp_first_dot exp n rest Hexp Hr) as Hd.
    destruct (exp ++ rest) as [|b l] eqn:E; [exact H|]. unfold fraction_part.
    replace (b =? B_DOT) with false by (symmetry; apply N.eqb_neq; exact Hd). exact H.
  - cbn [app]. destruct ds as [|d ds]; [contradiction|]. inversion Hds as [|? ? Hd Hds']; subst.
    unfold fraction_part. change (B_DOT =? B_DOT) with true. cbn [app nrun_list tl hd_error].
    apply is_digit_iff in Hd. rewrite Hd. cbn [negb].
    cbn [length] in Hf.
    rewrite digits_loop_run by (assumption || lia || eapply exp_first; eassumption).
    pose proof (exponent_part_run exp n rest fuel Hexp ltac:(lia) Hr) as H.
    destruct (exp ++ rest) as [|b l] eqn:E; [|exact H].
    apply app_eq_nil in E as [_ ->]. subst n. reflexivity.
Qed.

Lemma frac_first frac exp n rest : opt_frac_text frac -> opt_exp_text exp n -> ends_number rest ->
  match frac ++ exp ++ rest with [] => True | b :: _ => ~ digit b end.
Proof.
  intros [->|(ds & -> & _)] Hexp Hr.
  - cbn [app]. eapply exp_first; eassumption.
  - cbn. unfold digit. lia.
Qed.

Lemma integer_part_run int frac exp n rest fuel :
  int_text int -> opt_frac_text frac -> opt_exp_text exp n ->
  (length (int ++ frac ++ exp) < fuel)%nat -> ends_number rest ->
  match int ++ frac ++ exp ++ rest with
  | [] => False
  | b :: _ => nrun_list (integer_part fuel b) (int ++ frac ++ exp ++ rest)
              = LDone (Some (N.of_nat n)) rest
              /\ b <> B_MINUS
  end.
Proof.
  intros Hint Hfrac Hexp Hf Hr. rewrite !app_length in Hf.
  pose proof (fraction_part_run frac exp n rest fuel Hfrac Hexp
                ltac:(rewrite app_length; lia) Hr) as H.
  pose proof (frac_first frac exp n rest Hfrac Hexp Hr) as Hd.
  destruct Hint as [->|(d & ds & -> & Hdr & Hds)].
  - cbn [app]. split; [|lia]. unfold integer_part. change (is_digit19 0x30) with false.
    change (0x30 =? B_0) with true. cbn [nrun_list tl].
    destruct (frac ++ exp ++ rest) as [|b l] eqn:E; cbn [hd_error].
    + apply app_eq_nil in E as [_ E]. apply app_eq_nil in E as [_ ->]. subst n. reflexivity.
    + exact H.
  - cbn [app]. split; [|lia]. unfold integer_part.
    apply is_digit19_iff in Hdr. rewrite Hdr. cbn [length] in Hf.
    rewrite digits_loop_run by (assumption || lia).
    destruct (frac ++ exp ++ rest) as [|b l] eqn:E.
    + apply app_eq_nil in E as [_ E]. apply app_eq_nil in E as [_ ->]. subst n. reflexivity.
    + exact H.
Qed.

Lemma consume_complete t n rest fuel :
  number_text_exp t n -> ends_number rest -> (length t < fuel)%nat ->
  exists b l, t = b :: l /\
    nrun_list (consume_json_number fuel b) (t ++ rest) = LDone (Some (N.of_nat n)) rest.
Proof.
  intros (minus & int & frac & exp & -> & Hm & Hint & Hfrac & Hexp) Hr Hf.
  rewrite <- !app_assoc.
  pose proof (integer_part_run int frac exp n rest fuel Hint Hfrac Hexp) as H.
  destruct Hm as [->| ->].
  - cbn [app] in *. specialize (H Hf Hr).
    destruct (int ++ frac ++ exp) as [|b l] eqn:E.
    { exfalso. apply app_eq_nil in E as [E _].
      destruct Hint as [->|(d & ds & -> & _)]; discriminate. }
    exists b, l. split; [reflexivity|].
    assert (E' : int ++ frac ++ exp ++ rest = b :: l ++ rest).
    { change (b :: l ++ rest) with ((b :: l) ++ rest). rewrite <- E, <- !app_assoc. reflexivity. }
    rewrite E' in *. destruct H as [H Hne]. unfold consume_json_number.
    replace (b =? B_MINUS) with false by (symmetry; apply N.eqb_neq; exact Hne). exact H.
  - cbn [app] in *. eexists _, _. split; [reflexivity|].
    unfold consume_json_number. change (B_MINUS =? B_MINUS) with true.
    cbn [nrun_list tl]. cbn [length] in Hf. specialize (H ltac:(lia) Hr).
    destruct (int ++ frac ++ exp ++ rest) as [|b l] eqn:E; [contradiction|].
    cbn [hd_error]. exact (proj1 H).
Qed.

(** ** Soundness *)

Lemma number_end_sound b l count n rest :
  nrun_list (number_end b count) (b :: l) = LDone (Some n) rest ->
  rest = b :: l /\ n = count /\ ~ number_char b.
Proof.
  rewrite number_end_run. destruct (_ || _) eqn:E; [discriminate|].
  intros [= <- <-]. repeat split. intros Hc. apply number_charb in Hc. congruence.
Qed.

Lemma digits_loop_sound fuel : forall d l k n rest,
  nrun_list (digits_loop fuel k) (d :: l) = LDone (Some n) rest ->
  exists ds l', l = ds ++ l' /\ Forall digit ds /\
    ((l' = [] /\ n = 0 /\ rest = []) \/
     (exists b l'', l' = b :: l'' /\ ~ digit b /\ nrun_list (k b) l' = LDone (Some n) rest)).
Proof.
  induction fuel as [|fuel IH]; intros d l k n rest H; [discriminate|].
  cbn [digits_loop nrun_list tl] in H.
  destruct l as [|b l]; cbn [hd_error] in H.
  - injection H as <- <-. exists [], []. repeat split; auto.
  - destruct (is_digit b) eqn:E.
    + apply IH in H as (ds & l' & -> & Hds & Hr).
      exists (b :: ds), l'. repeat split; auto. constructor; [apply is_digit_iff; exact E|exact Hds].
    + exists [], (b :: l). repeat split; auto. right. exists b, l. repeat split; auto.
      rewrite <- is_digit_iff. congruence.
Qed.

Lemma exponent_loop_sound fuel : forall d l count n rest,
  nrun_list (exponent_loop fuel count number_end) (d :: l) = LDone (Some n) rest ->
  exists ds, l = ds ++ rest /\ Forall digit ds /\ ends_number rest /\
    n = fold_left (fun c d => if negb (d =? B_0) || (0 <? c) then c + 1 else c) ds count.
Proof.
  induction fuel as [|fuel IH]; intros d l count n rest H; [discriminate|].
  cbn [exponent_loop nrun_list tl] in H.
  destruct l as [|b l]; cbn [hd_error] in H.
  - injection H as <- <-. exists []. repeat split; auto.
  - destruct (is_digit b) eqn:E.
    + destruct (negb (b =? B_0) || (0 <? count)) eqn:Ec;
        apply IH in H as (ds & -> & Hds & Hr & ->); exists (b :: ds);
        (repeat split; auto; [constructor; [apply is_digit_iff; exact E|exact Hds]|]);
        cbn [fold_left]; rewrite Ec; reflexivity.
    + apply number_end_sound in H as (-> & -> & Hn). exists []. repeat split; auto.
Qed.

Lemma exponent_digits_sound fuel d l n rest :
  nrun_list (exponent_digits fuel d) (d :: l) = LDone (Some n) rest ->
  exists ds, l = ds ++ rest /\ digit d /\ Forall digit ds /\ ends_number rest /\
    n = N.of_nat (significant (d :: ds)).
Proof.
  unfold exponent_digits. intros H.
  assert (Hcnt : exists ds, l = ds ++ rest /\ digit d /\ Forall digit ds /\ ends_number rest /\
      n = fold_left (fun c d => if negb (d =? B_0) || (0 <? c) then c + 1 else c) (d :: ds) 0).
  { destruct (is_digit19 d) eqn:E.
    - apply exponent_loop_sound in H as (ds & -> & Hds & Hr & ->). exists ds.
      apply is_digit19_iff in E. repeat split; auto; try (unfold digit; lia).
      cbn [fold_left]. replace (d =? B_0) with false by (symmetry; apply N.eqb_neq; lia).
      reflexivity.
    - destruct (N.eqb_spec d B_0) as [->|Hn]; cbn [negb] in H; [|discriminate].
      apply exponent_loop_sound in H as (ds & -> & Hds & Hr & ->). exists ds.
      repeat split; auto; unfold digit; lia. }
  destruct Hcnt as (ds & -> & Hd & Hds & Hr & ->). exists ds. repeat split; auto; try apply Hd.
  rewrite <- significant_count by (constructor; assumption). reflexivity.
Qed.

Lemma exponent_part_sound fuel b l n rest :
  nrun_list (exponent_part fuel b) (b :: l) = LDone (Some n) rest ->
  exists exp m, b :: l = exp ++ rest /\ opt_exp_text exp m /\ ends_number rest /\ n = N.of_nat m.
Proof.
  unfold exponent_part. intros H.
  destruct ((b =? B_e) || (b =? B_E)) eqn:Eb.
  - apply orb_true_iff in Eb. rewrite !N.eqb_eq in Eb. cbn [nrun_list tl] in H.
    destruct l as [|b1 l]; cbn [hd_error] in H; [discriminate|].
    destruct ((b1 =? B_MINUS) || (b1 =? B_PLUS)) eqn:Es.
    + apply orb_true_iff in Es. rewrite !N.eqb_eq in Es. cbn [nrun_list tl] in H.
      destruct l as [|d l]; cbn [hd_error] in H; [discriminate|].
      apply exponent_digits_sound in H as (ds & -> & Hd & Hds & Hr & ->).
      exists (b :: [b1] ++ d :: ds), (significant (d :: ds)). repeat split; auto.
      right. exists b, [b1], (d :: ds). repeat split; auto; try (destruct Es as [->| ->]; auto);
        discriminate.
    + apply exponent_digits_sound in H as (ds & -> & Hd & Hds & Hr & ->).
      exists (b :: b1 :: ds), (significant (b1 :: ds)). repeat split; auto.
      right. exists b, [], (b1 :: ds). repeat split; auto. discriminate.
  - apply number_end_sound in H as (-> & -> & Hn). exists [], 0%nat. repeat split; auto.
    left. auto.
Qed.

Lemma fraction_part_sound fuel b l n rest :
  nrun_list (fraction_part fuel b) (b :: l) = LDone (Some n) rest ->
  exists frac exp m, b :: l = frac ++ exp ++ rest /\ opt_frac_text frac /\ opt_exp_text exp m
    /\ ends_number rest /\ n = N.of_nat m.
Proof.
  unfold fraction_part. intros H. destruct (N.eqb_spec b B_DOT) as [->|Hb].
  - cbn [nrun_list tl] in H. destruct l as [|d l]; cbn [hd_error] in H; [discriminate|].
    destruct (is_digit d) eqn:E; cbn [negb] in H; [|discriminate]. apply is_digit_iff in E.
    apply digits_loop_sound in H as (ds & l' & -> & Hds & [(-> & -> & ->)|(b & l'' & -> & Hb & H)]).
    + exists (B_DOT :: d :: ds), [], 0%nat. repeat split; auto.
      * right. exists (d :: ds). repeat split; auto. discriminate.
      * left. auto.
    + apply exponent_part_sound in H as (exp & m & He & Hexp & Hr & ->).
      exists (B_DOT :: d :: ds), exp, m. repeat split; auto.
      * cbn [app]. rewrite He. reflexivity.
      * right. exists (d :: ds). repeat split; auto. discriminate.
  - apply exponent_part_sound in H as (exp & m & He & Hexp & Hr & ->).
    exists [], exp, m. repeat split; auto. left. reflexivity.
Qed.

Lemma integer_part_sound fuel b l n rest :
  nrun_list (integer_part fuel b) (b :: l) = LDone (Some n) rest ->
  exists int frac exp m, b :: l = int ++ frac ++ exp ++ rest /\ int_text int /\ opt_frac_text frac
    /\ opt_exp_text exp m /\ ends_number rest /\ n = N.of_nat m.
Proof.
  unfold integer_part. intros H. destruct (is_digit19 b) eqn:Eb.
  - apply is_digit19_iff in Eb.
    apply digits_loop_sound in H as (ds & l' & -> & Hds & [(-> & -> & ->)|(b' & l'' & -> & Hb & H)]).
    + exists (b :: ds), [], [], 0%nat. cbn [app]. repeat split; auto.
      * right. exists b, ds. auto.
      * left. reflexivity.
      * left. auto.
    + apply fraction_part_sound in H as (frac & exp & m & He & Hfrac & Hexp & Hr & ->).
      exists (b :: ds), frac, exp, m. repeat split; auto.
      * cbn [app]. rewrite He. reflexivity.
      * right. exists b, ds. auto.
  - destruct (N.eqb_spec b B_0) as [->|Hb]; [|discriminate].
    cbn [nrun_list tl] in H. destruct l as [|b1 l]; cbn [hd_error] in H.
    + injection H as <- <-. exists [B_0], [], [], 0%nat. repeat split; auto.
      * left. reflexivity.
      * left. reflexivity.
      * left. auto.
    + apply fraction_part_sound in H as (frac & exp & m & He & Hfrac & Hexp & Hr & ->).
      exists [B_0], frac, exp, m. repeat split; auto.
      * cbn [app]. rewrite He. reflexivity.
      * left. reflexivity.
Qed.

Lemma consume_sound fuel b l n rest :
  nrun_list (consume_json_number fuel b) (b :: l) = LDone (Some n) rest ->
  exists t m, b :: l = t ++ rest /\ number_text_exp t m /\ ends_number rest /\ n = N.of_nat m.
Proof.
  unfold consume_json_number. intros H. destruct (N.eqb_spec b B_MINUS) as [->|Hb].
  - cbn [nrun_list tl] in H. destruct l as [|b1 l]; cbn [hd_error] in H; [discriminate|].
    apply integer_part_sound in H as (int & frac & exp & m & He & Hint & Hfrac & Hexp & Hr & ->).
    exists ([B_MINUS] ++ int ++ frac ++ exp), m. repeat split; auto.
    + cbn [app]. rewrite He, <- !app_assoc. reflexivity.
    + exists [B_MINUS], int, frac, exp. repeat split; auto.
  - apply integer_part_sound in H as (int & frac & exp & m & He & Hint & Hfrac & Hexp & Hr & ->).
    exists (int ++ frac ++ exp), m. repeat split; auto.
    + rewrite He, <- !app_assoc. reflexivity.
    + exists [], int, frac, exp. repeat split; auto.
Qed.

(** ** Fuel *)

Lemma digits_loop_fuel fuel : forall d l k, (length l < fuel)%nat ->
  (forall b l', (length l' <= length l)%nat -> nrun_list (k b) (b :: l') <> LOutOfFuel) ->
  nrun_list (digits_loop fuel k) (d :: l) <> LOutOfFuel.
Proof.
  induction fuel as [|fuel IH]; intros d l k Hl Hk; [lia|].
  cbn [digits_loop nrun_list tl]. destruct l as [|b l]; cbn [hd_error]; [discriminate|].
  cbn [length] in Hl. destruct (is_digit b).
  - apply IH; [lia|]. intros b' l' H'. apply Hk. cbn [length]. lia.
  - apply Hk. cbn [length]. lia.
Qed.

Lemma exponent_loop_fuel fuel : forall d l c, (length l < fuel)%nat ->
  nrun_list (exponent_loop fuel c number_end) (d :: l) <> LOutOfFuel.
Proof.
  induction fuel as [|fuel IH]; intros d l c Hl; [lia|].
  cbn [exponent_loop nrun_list tl]. destruct l as [|b l]; cbn [hd_error]; [discriminate|].
  cbn [length] in Hl. destruct (is_digit b).
  - destruct (_ || _); apply IH; lia.
  - rewrite number_end_run. discriminate.
Qed.

Lemma exponent_digits_fuel fuel b l : (length l < fuel)%nat ->
  nrun_list (exponent_digits fuel b) (b :: l) <> LOutOfFuel.
Proof.
  intros Hl. unfold exponent_digits. destruct (is_digit19 b).
  - apply exponent_loop_fuel. exact Hl.
  - destruct (negb _); [discriminate|]. apply exponent_loop_fuel. exact Hl.
Qed.

Lemma exponent_part_fuel fuel b l : (length l < fuel)%nat ->
  nrun_list (exponent_part fuel b) (b :: l) <> LOutOfFuel.
Proof.
  intros Hl. unfold exponent_part. destruct (_ || _).
  - cbn [nrun_list tl]. destruct l as [|b1 l]; cbn [hd_error]; [discriminate|].
    cbn [length] in Hl. destruct (_ || _).
    + cbn [nrun_list tl]. destruct l as [|b2 l]; cbn [hd_error]; [discriminate|].
      cbn [length] in Hl. apply exponent_digits_fuel. lia.
    + apply exponent_digits_fuel. lia.
  - rewrite number_end_run. discriminate.
Qed.

Lemma fraction_part_fuel fuel b l : (length l < fuel)%nat ->
  nrun_list (fraction_part fuel b) (b :: l) <> LOutOfFuel.
Proof.
  intros Hl. unfold fraction_part. destruct (b =? B_DOT).
  - cbn [nrun_list tl]. destruct l as [|b1 l]; cbn [hd_error]; [discriminate|].
    cbn [length] in Hl. destruct (negb _); [discriminate|].
    apply digits_loop_fuel; [lia|]. intros b' l' H'. apply exponent_part_fuel. lia.
  - apply exponent_part_fuel. exact Hl.
Qed.

Lemma integer_part_fuel fuel b l : (length l < fuel)%nat ->
  nrun_list (integer_part fuel b) (b :: l) <> LOutOfFuel.
Proof.
  intros Hl. unfold integer_part. destruct (is_digit19 b).
  - apply digits_loop_fuel; [lia|]. intros b' l' H'. apply fraction_part_fuel. lia.
  - destruct (b =? B_0); [|discriminate].
    cbn [nrun_list tl]. destruct l as [|b1 l]; cbn [hd_error]; [discriminate|].
    cbn [length] in Hl. apply fraction_part_fuel. lia.
Qed.

Lemma consume_fuel fuel b l : (length l < fuel)%nat ->
  nrun_list (consume_json_number fuel b) (b :: l) <> LOutOfFuel.
Proof.
  intros Hl. unfold consume_json_number. destruct (b =? B_MINUS).
  - cbn [nrun_list tl]. destruct l as [|b1 l]; cbn [hd_error]; [discriminate|].
    cbn [length] in Hl. apply integer_part_fuel. lia.
  - apply integer_part_fuel. exact Hl.
Qed.

(** ** The slice provider *)

Lemma nth_error_skipn {A} (l : list A) i : nth_error l i = hd_error (skipn i l).
Proof.
  revert l. induction i as [|i IH]; intros [|a l]; cbn; auto.
Qed.
Lemma tl_skipn {A} (l : list A) i : tl (skipn i l) = skipn (S i) l.
Proof.
  revert l. induction i as [|i IH]; intros [|a l]; [reflexivity..|].
  change (tl (skipn i l) = skipn (S i) l). apply IH.
Qed.

Lemma nrun_slice_list p : forall value i,
  match nrun_slice p value i with
  | NDone r j => nrun_list p (skipn i value) = LDone r (skipn j value)
  | NOutOfFuel => nrun_list p (skipn i value) = LOutOfFuel
  end.
Proof.
  induction p as [r|k IH|]; intros value i; cbn [nrun_slice nrun_list]; auto.
  rewrite tl_skipn, <- nth_error_skipn. apply IH.
Qed.

Lemma is_valid_json_number_spec (value : str) :
  is_valid_json_number value = true <-> number_text (encode_utf8 value).
Proof.
  unfold is_valid_json_number. destruct (encode_utf8 value) as [|b l] eqn:Ev.
  { split; [discriminate|]. intros (n & minus & int & frac & exp & He & Hm & Hint & _).
    exfalso. symmetry in He. apply app_eq_nil in He as [_ He]. apply app_eq_nil in He as [He _].
    destruct Hint as [->|(d & ds & -> & _)]; discriminate. }
  set (v := b :: l).
  pose proof (nrun_slice_list (consume_json_number (length v) b) v 0) as Hrun.
  cbn [skipn] in Hrun.
  split.
  - destruct (nrun_slice _ v 0) as [[n|] j|] eqn:E; try discriminate. intros Hj.
    apply Nat.leb_le in Hj. rewrite (skipn_all2 v) in Hrun by exact Hj.
    apply consume_sound in Hrun as (t & m & He & Ht & _ & _). rewrite app_nil_r in He.
    subst v. rewrite He. exists m. exact Ht.
  - intros (n & Hn).
    assert (Hnf : nrun_list (consume_json_number (length v) b) v <> LOutOfFuel)
      by (apply consume_fuel; subst v; cbn [length]; lia).
    destruct (nrun_slice _ v 0) as [r j|]; [|contradiction].
    (* completeness needs one unit of fuel more than the text has bytes; use a
       larger run and fuel independence *)
    assert (Hmono : forall f, (length l < f)%nat ->
       nrun_list (consume_json_number f b) v = nrun_list (consume_json_number (length v) b) v).
    { clear - v. intros f Hf.
      assert (Hgen : forall f1 f2 (d : byte) (l : bytes) k1 k2, (length l < f1)%nat -> (length l < f2)%nat ->
          (forall b' l', (length l' < length l)%nat -> nrun_list (k1 b') (b' :: l') = nrun_list (k2 b') (b' :: l')) ->
          nrun_list (digits_loop f1 k1) (d :: l) = nrun_list (digits_loop f2 k2) (d :: l)).
      { induction f1 as [|f1 IH]; intros f2 d l0 k1 k2 H1 H2 Hk; [lia|].
        destruct f2 as [|f2]; [lia|]. cbn [digits_loop nrun_list tl].
        destruct l0 as [|b0 l0]; cbn [hd_error]; [reflexivity|]. cbn [length] in *.
        destruct (is_digit b0); [|apply Hk; lia].
        apply IH; [lia..|]. intros b' l' H'. apply Hk. lia. }
      assert (Hexpl : forall f1 f2 (d : byte) (l : bytes) c, (length l < f1)%nat -> (length l < f2)%nat ->
          nrun_list (exponent_loop f1 c number_end) (d :: l) = nrun_list (exponent_loop f2 c number_end) (d :: l)).
      { induction f1 as [|f1 IH]; intros f2 d l0 c H1 H2; [lia|].
        destruct f2 as [|f2]; [lia|]. cbn [exponent_loop nrun_list tl].
        destruct l0 as [|b0 l0]; cbn [hd_error]; [reflexivity|]. cbn [length] in *.
        destruct (is_digit b0); [|reflexivity].
        destruct (_ || _); apply IH; lia. }
      assert (Hexpd : forall f1 f2 (d : byte) (l : bytes), (length l < f1)%nat -> (length l < f2)%nat ->
          nrun_list (exponent_digits f1 d) (d :: l) = nrun_list (exponent_digits f2 d) (d :: l)).
      { intros f1 f2 d l0 H1 H2. unfold exponent_digits. destruct (is_digit19 d); [auto|].
        destruct (negb _); auto. }
      assert (Hexp : forall f1 f2 (d : byte) (l : bytes), (length l < f1)%nat -> (length l < f2)%nat ->
          nrun_list (exponent_part f1 d) (d :: l) = nrun_list (exponent_part f2 d) (d :: l)).
      { intros f1 f2 d l0 H1 H2. unfold exponent_part. destruct (_ || _); [|reflexivity].
        cbn [nrun_list tl]. destruct l0 as [|b0 l0]; cbn [hd_error]; [reflexivity|]. cbn [length] in *.
        destruct (_ || _); [|apply Hexpd; lia].
        cbn [nrun_list tl]. destruct l0 as [|b1 l0]; cbn [hd_error]; [reflexivity|]. cbn [length] in *.
        apply Hexpd; lia. }
      assert (Hfrac : forall f1 f2 (d : byte) (l : bytes), (length l < f1)%nat -> (length l < f2)%nat ->
          nrun_list (fraction_part f1 d) (d :: l) = nrun_list (fraction_part f2 d) (d :: l)).
      { intros f1 f2 d l0 H1 H2. unfold fraction_part. destruct (d =? B_DOT); [|apply Hexp; assumption].
        cbn [nrun_list tl]. destruct l0 as [|b0 l0]; cbn [hd_error]; [reflexivity|]. cbn [length] in *.
        destruct (negb _); [reflexivity|]. apply Hgen; [lia..|].
        intros b' l' H'. apply Hexp; lia. }
      assert (Hint : forall f1 f2 (d : byte) (l : bytes), (length l < f1)%nat -> (length l < f2)%nat ->
          nrun_list (integer_part f1 d) (d :: l) = nrun_list (integer_part f2 d) (d :: l)).
      { intros f1 f2 d l0 H1 H2. unfold integer_part. destruct (is_digit19 d).
        - apply Hgen; [lia..|]. intros b' l' H'. apply Hfrac; lia.
        - destruct (d =? B_0); [|reflexivity].
          cbn [nrun_list tl]. destruct l0 as [|b0 l0]; cbn [hd_error]; [reflexivity|]. cbn [length] in *.
          apply Hfrac; lia. }
      subst v. unfold consume_json_number. destruct (b =? B_MINUS).
      - cbn [nrun_list tl]. destruct l as [|b1 l]; cbn [hd_error]; [reflexivity|]. cbn [length] in *.
        apply Hint; lia.
      - apply Hint; cbn [length]; lia. }
    pose proof (consume_complete v n [] (S (length v)) Hn I ltac:(lia)) as (b' & l' & He & Hc).
    subst v. injection He as <- <-. rewrite app_nil_r in Hc.
    rewrite Hmono in Hc by (cbn [length]; lia). rewrite Hc in Hrun. injection Hrun as <- Hj.
    apply Nat.leb_le. destruct (Nat.leb_spec (length (b :: l)) j) as [Hle|Hgt]; [exact Hle|].
    exfalso. apply (f_equal (@length N)) in Hj. rewrite skipn_length in Hj. cbn [length] in *. lia.
Qed.
