(** * The state of the reader and what the client knows *)

From Verif Require Import Base Utf8Model NumberModel SourceModel ReaderModel ReaderScan ReaderLex ReaderLexStr ReaderMid
  ReaderSess ReaderSafe ReaderAgree ReaderUsage SpecUsage.

Definition urel (u : usage) (d : dstate) : Prop :=
  match d with
  | DRun s rd r =>
    u_open u = stack s /\ u_name u = expects_member_name s /\ u_string u = string_reader_active s /\
    (stack s = [] -> u_some u = negb (is_empty s)) /\
    match rd with Some sv => string_reader_active s = negb (sv_reached_end sv) | None => True end
  | DDead _ => u_string u = true
  | _ => False
  end.

Lemma kind_kind_of p : kind p = kind_of p.
Proof. destruct p; reflexivity. Qed.

(** ** Allowed calls *)

Definition usees (E : env) (u : usage) (s : rstate) : Prop :=
  u_open u = stack s /\ u_name u = expects_member_name s /\ u_string u = string_reader_active s /\
  (stack s = [] -> u_some u = negb (is_empty s)).

Lemma usees_same E u s s' : same s s' -> usees E u s -> usees E u s'.
Proof. unfold usees. intros (-> & -> & -> & -> & _). auto. Qed.
Lemma usees_finished E u s s' : usees E u s -> finished s s' -> usees E (value_done (u_open u) u) s'.
Proof.
  unfold usees, finished, inside, is_in_object. intros (H1 & H2 & H3 & H4) (G1 & (G2 & G3) & G4). cbn. rewrite G1 in *. rewrite H1, G2, G3, G4.
  splits; auto. intros ->. reflexivity.
Qed.
Lemma usees_closed E u s s' st : usees E u s -> stack s' = st -> inside s' -> is_empty s' = false ->
  usees E (value_done st u) s'.
Proof.
  unfold usees, inside, is_in_object. intros (H1 & H2 & H3 & H4) G1 (G2 & G3) G4. cbn. rewrite G1 in *. rewrite G2, G3, G4.
  splits; auto. intros ->. reflexivity.
Qed.

Lemma value_allowed_ready E u s : usees E u s -> value_allowed (cfg E) u = true -> ready E s.
Proof.
  unfold usees, value_allowed, ready, quiet, is_behind_top_level. intros (H1 & H2 & H3 & H4) H. rewrite H1, H2, H3 in H.
  apply andb_true_iff in H as [H Ht]. apply andb_true_iff in H as [Ha Hn]. apply negb_true_iff in Ha, Hn. splits; auto.
  destruct (stack s); [|rewrite andb_false_r; discriminate]. rewrite andb_true_r, (H4 eq_refl) in *. intros He. rewrite He in Ht. exact Ht.
Qed.

Lemma value_not_allowed {A : Type} E inp t u s r (m : D A) : inv E inp s r -> usees E u s -> value_allowed (cfg E) u = false ->
  (expects_member_name s = true -> m s r = MMisuse) ->
  (expects_member_name s = false -> d_peek_internal E t s r = MMisuse -> m s r = MMisuse) -> m s r = MMisuse.
Proof.
  unfold usees, value_allowed. intros Hinv (H1 & H2 & H3 & H4) H Hm1 Hm2. rewrite H1, H2, H3 in H.
  destruct (expects_member_name s) eqn:En; [auto|]. apply Hm2; [reflexivity|].
  unfold d_peek_internal, d_peek_optional, dbind, dget, dmisuse_if.
  destruct (string_reader_active s) eqn:Ea; [reflexivity|]. unfold dret. cbn [negb andb] in H.
  unfold is_behind_top_level. destruct (stack s) as [|v st] eqn:Est; [|discriminate]. rewrite (H4 eq_refl) in H.
  apply orb_false_iff in H as [He Hm]. apply negb_false_iff in He. rewrite He, Hm. cbn [negb andb].
  destruct (peeked s) as [p|] eqn:Hpk; [|reflexivity].
  exfalso. pose proof (i_peek _ _ _ _ Hinv) as Hp. unfold peek_ok, is_behind_top_level in Hp. rewrite Hpk, Est, He in Hp.
  destruct Hp as (_ & _ & _ & _ & _ & Hp). specialize (Hp eq_refl). congruence.
Qed.

Lemma start_misuse E t ty chk s r : expects_member_name s = true \/ d_peek_internal E t s r = MMisuse -> d_start E t ty chk s r = MMisuse.
Proof.
  unfold d_start, dbind, dget, dmisuse_if. intros H. destruct (expects_member_name s); [reflexivity|]. destruct H as [H|H]; [discriminate|].
  unfold dret. rewrite H. reflexivity.
Qed.
Lemma peek_misuse E t s r : expects_member_name s = true \/ d_peek_internal E t s r = MMisuse -> d_peek E t s r = MMisuse.
Proof.
  unfold d_peek, dbind, dget, dmisuse_if. intros H. destruct (expects_member_name s); [reflexivity|]. destruct H as [H|H]; [discriminate|].
  unfold dret. rewrite H. reflexivity.
Qed.
Lemma bind_misuse {A B : Type} (m : D A) (f : A -> D B) s r : m s r = MMisuse -> dbind m f s r = MMisuse.
Proof. unfold dbind. intros ->. reflexivity. Qed.
Lemma peek_internal_active E t s r : string_reader_active s = true -> d_peek_internal E t s r = MMisuse.
Proof. unfold d_peek_internal, d_peek_optional, dbind, dget, dmisuse_if. intros ->. reflexivity. Qed.

Lemma skip_value_misuse E t s r : (0 < fuel E)%nat -> expects_member_name s = true \/ d_peek_internal E t s r = MMisuse -> d_skip_value E t s r = MMisuse.
Proof.
  intros Hf H. unfold d_skip_value. unfold dbind, dget, dmisuse_if. destruct (expects_member_name s) eqn:En; [reflexivity|].
  unfold dret. destruct (fuel E) as [|f]; [lia|]. cbn [d_skip_value_loop]. apply bind_misuse.
  unfold d_skip_step. unfold dbind at 1, dret at 1. cbn [negb]. unfold dbind at 1, dget at 1. rewrite En. unfold dbind at 1, dret at 1.
  apply bind_misuse. unfold d_skip_value_start. apply bind_misuse, peek_misuse. rewrite En. exact H.
Qed.

Lemma has_next_misuse E t s r :
  string_reader_active s = true \/ expects_member_value s = true \/ (stack s = [] /\ (is_empty s = true \/ allow_multiple_top_level (cfg E) = false)) ->
  d_has_next E t s r = MMisuse.
Proof.
  intros H. unfold d_has_next. unfold dbind at 1, dget at 1. destruct (expects_member_value s) eqn:Ev; [reflexivity|].
  unfold dbind at 1, dmisuse_if at 1, dret at 1. apply bind_misuse.
  destruct (stack s) as [|v st] eqn:Est.
  - unfold dbind, dmisuse_if. destruct (is_empty s) eqn:Ee; [reflexivity|]. unfold dret.
    destruct (allow_multiple_top_level (cfg E)) eqn:Em; [|reflexivity]. cbn [negb].
    unfold d_peek_optional, dbind, dget, dmisuse_if. destruct H as [->|[H|[_ [H|H]]]]; try discriminate. reflexivity.
  - apply bind_misuse, peek_internal_active. destruct H as [H|[H|[H _]]]; [exact H|discriminate|discriminate].
Qed.

Lemma before_name_misuse E t s r : string_reader_active s = true \/ expects_member_name s = false -> d_before_name E t s r = MMisuse.
Proof.
  unfold d_before_name, dbind, dget, dmisuse_if. intros [H|H]; rewrite H; [|reflexivity]. destruct (negb _); reflexivity.
Qed.

(** ** Seeking back over containers which are not the innermost ones *)

Lemma has_next_ok E inp t s r h s1 r1 : (length inp < fuel E)%nat -> inv E inp s r -> d_has_next E t s r = MOk h s1 r1 ->
  countable E s /\ inside s /\ same s s1 /\ inv E inp s1 r1.
Proof.
  intros Hf Hinv H. pose proof (has_next_good E inp t s r Hf Hinv) as Hg. rewrite H in Hg.
  destruct Hg as (Hi & Hs & Ha & Hv & _).
  assert (Hc : countable E s).
  { unfold countable. split; [exact Ha|]. split; [exact Hv|]. intros Hst.
    destruct (is_empty s) eqn:Ee; [rewrite has_next_misuse in H by auto; discriminate|].
    split; [reflexivity|]. destruct (allow_multiple_top_level (cfg E)) eqn:Em; [reflexivity|].
    rewrite has_next_misuse in H by auto. discriminate. }
  assert (Hin : inside s).
  { split; [exact Ha|]. unfold expects_member_value in Hv. destruct (is_in_object s) eqn:Eo; cbn in Hv.
    - apply negb_false_iff in Hv. exact Hv.
    - destruct (expects_member_name s) eqn:En; [|reflexivity]. rewrite (i_name _ _ _ _ Hinv En) in Eo. discriminate. }
  auto.
Qed.

Lemma skip_items_top E inp t f : forall s r, (length inp < fuel E)%nat -> inv E inp s r -> countable E s -> stack s = [] -> 
  fine E inp (d_skip_items E t f s r) (fun _ s' _ => stack s' = []) any.
Proof.
  induction f as [|f IH]; intros s r Hf Hinv Hc Hs; [exact I|]. cbn [d_skip_items].
  eapply fine_bind; [weaken (has_next_fine E inp t s r Hf Hinv Hc)|]. intros h s1 r1 Hinv1 H1. cbv beta in H1.
  destruct Hc as (Ha & Hv & Ht). destruct (Ht Hs) as [He Hm].
  destruct H1 as (G1 & G2 & G3 & G4 & _).
  destruct h; [|cbn; split; [exact Hinv1|congruence]].
  assert (Hr : ready E s1).
  { unfold ready, quiet. splits; [congruence|auto|]. rewrite G2.
    destruct (expects_member_name s) eqn:En; [|reflexivity]. pose proof (i_name _ _ _ _ Hinv En) as Ho. unfold is_in_object in Ho. rewrite Hs in Ho. discriminate. }
  eapply fine_bind; [apply (skip_value_fine E inp t s1 r1 Hf Hinv1 Hr)|]. intros u2 s2 r2 Hinv2 (K1 & (K2 & K3) & K4).
  apply IH; auto; [|congruence]. unfold countable, expects_member_value. splits; auto. rewrite K3. apply andb_negb_r.
Qed.

Lemma dbind_ok {A B : Type} (m : D A) (f : A -> D B) s r x s' r' : dbind m f s r = MOk x s' r' ->
  exists y s1 r1, m s r = MOk y s1 r1 /\ f y s1 r1 = MOk x s' r'.
Proof. unfold dbind. destruct (m s r) as [y s1 r1|e s1 r1|n| |]; try discriminate. intros H. exists y, s1, r1. auto. Qed.

Lemma end_array_ok E t s r x s' r' : d_end_array E t s r = MOk x s' r' -> is_in_array s = true.
Proof. unfold d_end_array, dbind, dget, dmisuse_if. destruct (is_in_array s); [reflexivity|]. discriminate. Qed.
Lemma end_object_ok E t s r x s' r' : d_end_object E t s r = MOk x s' r' -> is_in_object s = true.
Proof. unfold d_end_object, dbind, dget, dmisuse_if. destruct (is_in_object s); [reflexivity|]. discriminate. Qed.

Lemma items_array E inp t s r x s' r' : (length inp < fuel E)%nat -> inv E inp s r ->
  dbind (d_skip_items E t (fuel E)) (fun _ => d_end_array E t) s r = MOk x s' r' ->
  inside s /\ exists st, stack s = SArray :: st /\ stack s' = st /\ inside s' /\ inv E inp s' r'.
Proof.
  intros Hf Hinv H. apply dbind_ok in H as (y & s1 & r1 & H1 & H2).
  destruct (fuel E) as [|f] eqn:Ef; [lia|]. pose proof H1 as H1'. cbn [d_skip_items] in H1. apply dbind_ok in H1 as (h & s2 & r2 & Hh & H1).
  rewrite <- Ef in Hf. pose proof (has_next_ok E inp t s r h s2 r2 Hf Hinv Hh) as (Hc & Hi & Hsame & Hinv2).
  split; [exact Hi|].
  destruct (stack s) as [|[] st] eqn:Est.
  - pose proof (skip_items_top E inp t (S f) s r Hf Hinv Hc Est) as Hk. rewrite H1' in Hk. destruct Hk as [_ Hk].
    apply end_array_ok in H2. unfold is_in_array in H2. rewrite Hk in H2. discriminate.
  - exists st. split; [reflexivity|].
    pose proof (skip_items_fine E inp t st (S f) s r Hf Hinv Est Hi) as Hk. rewrite H1' in Hk. destruct Hk as (Hinv3 & K1 & K2).
    pose proof (end_array_fine E inp t s1 r1 st Hf Hinv3 (proj1 K2) K1) as Hk. rewrite H2 in Hk. destruct Hk as (K3 & K4 & K5 & _). auto.
  - exfalso. destruct h.
    + apply dbind_ok in H1 as (z & s3 & r3 & H3 & _). rewrite skip_value_misuse in H3; [discriminate|lia|].
      left. destruct Hsame as (_ & -> & _). exact (inside_name _ _ Est Hi).
    + injection H1 as _ <- <-. apply end_array_ok in H2. unfold is_in_array in H2. destruct Hsame as (_ & _ & Hst & _). rewrite Hst, Est in H2. discriminate.
Qed.

Lemma members_object E inp t s r x s' r' : (length inp < fuel E)%nat -> inv E inp s r ->
  dbind (d_skip_members E t (fuel E)) (fun _ => d_end_object E t) s r = MOk x s' r' ->
  inside s /\ exists st, stack s = SObject :: st /\ stack s' = st /\ inside s' /\ inv E inp s' r'.
Proof.
  intros Hf Hinv H. apply dbind_ok in H as (y & s1 & r1 & H1 & H2).
  destruct (fuel E) as [|f] eqn:Ef; [lia|]. pose proof H1 as H1'. cbn [d_skip_members] in H1. apply dbind_ok in H1 as (h & s2 & r2 & Hh & H1).
  rewrite <- Ef in Hf. pose proof (has_next_ok E inp t s r h s2 r2 Hf Hinv Hh) as (Hc & Hi & Hsame & Hinv2).
  split; [exact Hi|].
  assert (Hno : is_in_object s = false -> False).
  { intros Ho. destruct Hi as [_ Hn]. rewrite Ho in Hn. destruct h.
    - apply dbind_ok in H1 as (z & s3 & r3 & H3 & _). unfold d_skip_name in H3. rewrite bind_misuse in H3; [discriminate|].
      apply before_name_misuse. right. destruct Hsame as (_ & -> & _). exact Hn.
    - injection H1 as _ <- <-. apply end_object_ok in H2. unfold is_in_object in *. destruct Hsame as (_ & _ & Hst & _). rewrite Hst in H2. congruence. }
  destruct (stack s) as [|[] st] eqn:Est; try (exfalso; apply Hno; unfold is_in_object; rewrite Est; reflexivity).
  exists st. split; [reflexivity|].
  pose proof (skip_members_fine E inp t st (S f) s r Hf Hinv Est Hi) as Hk. rewrite H1' in Hk. destruct Hk as (Hinv3 & K1 & K2).
  pose proof (end_object_fine E inp t s1 r1 st Hf Hinv3 (proj1 K2) K1 (inside_name _ _ K1 K2)) as Hk. rewrite H2 in Hk. destruct Hk as (K3 & K4 & K5 & _). auto.
Qed.

Lemma seek_back_ok E inp t p : forall s r x s' r', (length inp < fuel E)%nat -> inv E inp s r ->
  d_seek_back_pieces E t p s r = MOk x s' r' -> p = [] \/ (inside s /\ exists st, stack s = map kind_of p ++ st).
Proof.
  induction p as [|[i|n] p IH]; intros s r x s' r' Hf Hinv H; [auto| |]; right; cbn [d_seek_back_pieces] in H.
  - apply dbind_ok in H as (y & s1 & r1 & H1 & H2). apply dbind_ok in H2 as (z & s2 & r2 & H2 & H3).
    assert (H12 : dbind (d_skip_items E t (fuel E)) (fun _ => d_end_array E t) s r = MOk z s2 r2) by (unfold dbind; rewrite H1; exact H2).
    destruct (items_array E inp t s r z s2 r2 Hf Hinv H12) as (Hi & st & K1 & K2 & K3 & K4). split; [exact Hi|].
    destruct (IH s2 r2 x s' r' Hf K4 H3) as [->|(_ & st' & K5)]; [exists st; exact K1|]. exists st'. cbn. rewrite K1, <- K2, K5. reflexivity.
  - apply dbind_ok in H as (y & s1 & r1 & H1 & H2). apply dbind_ok in H2 as (z & s2 & r2 & H2 & H3).
    assert (H12 : dbind (d_skip_members E t (fuel E)) (fun _ => d_end_object E t) s r = MOk z s2 r2) by (unfold dbind; rewrite H1; exact H2).
    destruct (members_object E inp t s r z s2 r2 Hf Hinv H12) as (Hi & st & K1 & K2 & K3 & K4). split; [exact Hi|].
    destruct (IH s2 r2 x s' r' Hf K4 H3) as [->|(_ & st' & K5)]; [exists st; exact K1|]. exists st'. cbn. rewrite K1, <- K2, K5. reflexivity.
Qed.

Lemma innermost_app inner : forall open, innermost inner open = true <-> exists st, open = inner ++ st.
Proof.
  induction inner as [|a l IH]; intros open; cbn.
  - split; [eauto|auto].
  - destruct open as [|b open].
    + split; [discriminate|intros (st & H); discriminate].
    + rewrite andb_true_iff, IH. split.
      * intros [H (st & ->)]. exists st. destruct a, b; try discriminate; reflexivity.
      * intros (st & [= -> ->]). split; [destruct a; reflexivity|eauto].
Qed.

(** ** Reading from a string reader *)

Lemma sv_loop_usage f : forall len out sv s r o sv' s' r', sv_reached_end sv = false -> string_reader_active s = true -> expects_member_name s = false ->
  d_sv_loop f len out sv s r = MOk (o, sv') s' r' ->
  (sv_reached_end sv' = false /\ same s s' /\ (len <= length o)%nat) \/
  (sv_reached_end sv' = true /\ finished s s' /\ (length o < len)%nat).
Proof.
  induction f as [|f IH]; intros len out sv s r o sv' s' r' Hr Ha Hn; cbn [d_sv_loop]; destruct (Nat.ltb_spec (length out) len) as [Hl|Hl];
    try discriminate; try (intros [= <- <- <- <-]; left; splits; auto using same_refl; fail).
  destruct (negb _); [discriminate|]. destruct (scan_unit r) as [r1|bs w r1|]; [| |discriminate].
  - intros H. apply dbind_ok in H as (y & s1 & r2 & H1 & H). apply dbind_ok in H as (z & s2 & r3 & H2 & H). injection H as <- <- <- <-.
    injection H1 as <- <- <-. right. splits; [reflexivity| |exact Hl].
    unfold d_on_value_end, dbind, dget, dupdate, dret, dbug in H2. revert H2.
    unfold is_in_array. cbn [stack set_active json_path]. rewrite ?stack_move.
    assert (Hfin : forall p, finished s (set_empty false (if is_in_object (set_path p (set_active false (move [B_QUOTE] s))) then set_expects_name true (set_path p (set_active false (move [B_QUOTE] s))) else set_path p (set_active false (move [B_QUOTE] s))))).
    { intros p. unfold is_in_object. cbn [stack set_path set_active]. rewrite ?stack_move.
      destruct (stack s) as [|[] st] eqn:Est; unfold finished, inside, is_in_object; cbn; rewrite ?stack_move, ?expects_name_move, Est; auto. }
    pose proof (Hfin (json_path (set_active false (move [B_QUOTE] s)))) as Hsame.
    replace (set_path (json_path (set_active false (move [B_QUOTE] s))) (set_active false (move [B_QUOTE] s))) with (set_active false (move [B_QUOTE] s)) in Hsame
      by (destruct (set_active false (move [B_QUOTE] s)); reflexivity).
    destruct (match stack s with SArray :: _ => true | _ => false end).
    + destruct (json_path (move [B_QUOTE] s)) as [[|[] l]|]; try discriminate; intros [= <- <- <-]; [apply Hfin|exact Hsame].
    + intros [= <- <- <-]. exact Hsame.
  - cbv zeta. destruct (Nat.ltb STRING_VALUE_READER_BUF_SIZE _); [discriminate|]. intros H. apply IH in H; [| |rewrite active_move; exact Ha|rewrite expects_name_move; exact Hn]; [|reflexivity].
    destruct H as [(H1 & H2 & H3)|(H1 & H2 & H3)]; [left|right]; splits; auto; [exact (same_trans _ _ _ (same_move w s) H2)|exact (finished_same _ _ _ (same_move w s) H2)].
Qed.

Lemma sv_read_usage E len sv s r o sv' s' r' : string_reader_active s = negb (sv_reached_end sv) -> (string_reader_active s = true -> expects_member_name s = false) ->
  d_sv_read E len sv s r = MOk (o, sv') s' r' ->
  if string_reader_active s && Nat.ltb (length o) len then finished s s' /\ sv_reached_end sv' = true
  else same s s' /\ sv_reached_end sv' = sv_reached_end sv.
Proof.
  intros Ha Hn. unfold d_sv_read. destruct (sv_reached_end sv) eqn:Er; cbn [negb] in Ha; rewrite Ha; cbn [orb andb].
  - intros [= <- <- <- <-]. split; [apply same_refl|exact Er].
  - destruct (Nat.eqb_spec len 0) as [->|H0].
    { intros [= <- <- <- <-]. cbn. split; [apply same_refl|exact Er]. }
    intros H. apply sv_loop_usage in H; [|destruct (Nat.eqb _ _); reflexivity|exact Ha|exact (Hn Ha)].
    destruct H as [(H1 & H2 & H3)|(H1 & H2 & H3)].
    + destruct (Nat.ltb_spec (length o) len); [lia|]. split; [exact H2|congruence].
    + destruct (Nat.ltb_spec (length o) len); [|lia]. split; assumption.
Qed.
