(** * Seeking, string readers and trailing whitespace in a known document

    Auxiliary: continuation of [ReaderSkip]. *)

From Verif Require Import Base Utf8Model Utf8Proofs NumberModel SpecNumber NumberProofs SpecJson SourceModel ReaderModel
  ReaderScan ReaderLex ReaderLexStr ReaderMid ReaderAgree ReaderSess ReaderGrammar ReaderSafe SpecCursor ReaderRepr ReaderForward
  ReaderSkip.

(** ** [seek_to] *)

Lemma structure_erep {A : Type} E inp fs vs st s r k : repr E inp fs vs st s r ->
  erep E inp fs vs st (XStructure k (path_of fs)) (@dstructure A k s r).
Proof. intros Hr. exists s, r. auto. Qed.

Lemma seek_item_forward E inp vs fs f : forall i k rem l s r, (length inp < fuel E)%nat -> repr E inp (InArray k l :: fs) vs true s r ->
  (mu s r < f)%nat ->
  if rem <? N.of_nat (length l)
  then exists s' r', d_seek_item E TEof f i rem s r = MOk tt s' r' /\
    repr E inp (InArray (k + rem) (skipn (N.to_nat rem) l) :: fs) vs true s' r'
  else erep E inp (InArray (k + N.of_nat (length l)) [] :: fs) vs true
    (XStructure (TooShortArray i) (path_of (InArray (k + N.of_nat (length l)) [] :: fs))) (d_seek_item E TEof f i rem s r).
Proof.
  induction f as [|f IH]; intros i k rem l s r Hf Hr Hmu; [lia|]. cbn [d_seek_item].
  pose proof (has_next_forward E inp _ vs true s r Hf Hr) as Hh. unfold more_at, more in Hh. cbn [is_reading reading frames] in Hh.
  destruct Hh as (s1 & r1 & He & Hr1 & _). rewrite (dbind_ok _ _ _ _ _ _ _ He).
  pose proof (has_next_good E inp TEof s r Hf (repr_inv _ _ _ _ _ _ _ Hr)) as Hg. rewrite He in Hg. destruct Hg as (_ & _ & _ & _ & Hg & _).
  destruct l as [|v l]; cbn [negb].
  - destruct (N.ltb_spec rem (N.of_nat (length (@nil json)))) as [H|H]; [cbn in H; lia|].
    cbn [length]. rewrite N.add_0_r. apply structure_erep. exact Hr1.
  - destruct (N.eqb_spec rem 0) as [->|Hn0].
    + cbn [N.ltb N.compare length N.of_nat]. exists s1, r1. split; [reflexivity|]. cbn [N.to_nat skipn]. rewrite N.add_0_r. exact Hr1.
    + pose proof (skip_value_forward E inp _ vs true s1 r1 Hf Hr1) as H. cbn [at_val at_value is_reading reading frames] in H.
      destruct H as (s2 & r2 & He2 & Hr2). rewrite (dbind_ok _ _ _ _ _ _ _ He2).
      pose proof (skip_value_good E inp TEof s1 r1 Hf (repr_inv _ _ _ _ _ _ _ Hr1)) as Hg2. rewrite He2 in Hg2. destruct Hg2 as [_ Hg2].
      assert (Hr3 : repr E inp (InArray (k + 1) l :: fs) vs true s2 r2) by exact Hr2.
      pose proof (IH i (k + 1) (rem - 1) l s2 r2 Hf Hr3 ltac:(blia)) as Hi.
      destruct (N.ltb_spec (rem - 1) (N.of_nat (length l))) as [Hlt|Hlt];
        destruct (N.ltb_spec rem (N.of_nat (length (v :: l)))) as [Hlt'|Hlt']; cbn [length] in Hlt'; try lia.
      * destruct Hi as (s3 & r3 & He3 & Hr4). exists s3, r3. split; [exact He3|].
        replace (k + 1 + (rem - 1)) with (k + rem) in Hr4 by lia.
        replace (N.to_nat rem) with (S (N.to_nat (rem - 1))) by lia. exact Hr4.
      * cbn [length]. replace (k + N.of_nat (S (length l))) with (k + 1 + N.of_nat (length l)) by lia. exact Hi.
Qed.

Lemma str_eqb_spec a b : str_eqb a b = true <-> a = b.
Proof.
  revert b. induction a as [|x a IH]; intros [|y b]; cbn; try (split; congruence).
  rewrite andb_true_iff, N.eqb_eq, IH. split; [intros [-> ->]; reflexivity|intros [= -> ->]; auto].
Qed.

Lemma seek_member_forward E inp vs fs f name : forall n l s r, (length inp < fuel E)%nat -> repr E inp (InObject n l :: fs) vs true s r ->
  (mu s r < f)%nat ->
  match find_member name l with
  | Some (v, l') => exists s' r', d_seek_member E TEof f name s r = MOk tt s' r' /\ repr E inp (AtValue name v l' :: fs) vs true s' r'
  | None => erep E inp (InObject (last_or n l) [] :: fs) vs true
    (XStructure (MissingObjectMember name) (path_of (InObject (last_or n l) [] :: fs))) (d_seek_member E TEof f name s r)
  end.
Proof.
  induction f as [|f IH]; intros n l s r Hf Hr Hmu; [lia|]. cbn [d_seek_member].
  pose proof (has_next_forward E inp _ vs true s r Hf Hr) as Hh. unfold more_at, more in Hh. cbn [is_reading reading frames] in Hh.
  destruct Hh as (s1 & r1 & He & Hr1 & _). rewrite (dbind_ok _ _ _ _ _ _ _ He).
  pose proof (has_next_good E inp TEof s r Hf (repr_inv _ _ _ _ _ _ _ Hr)) as Hg. rewrite He in Hg. destruct Hg as (_ & _ & _ & _ & Hg & _).
  destruct l as [|[m v] l]; cbn [negb find_member last_or].
  - apply structure_erep. exact Hr1.
  - pose proof (next_name_forward E inp _ vs true s1 r1 Hf Hr1) as (s2 & r2 & He2 & Hr2). rewrite (dbind_ok _ _ _ _ _ _ _ He2).
    pose proof (next_name_good E inp TEof s1 r1 Hf (repr_inv _ _ _ _ _ _ _ Hr1)) as Hg2. rewrite He2 in Hg2. destruct Hg2 as (_ & _ & _ & _ & _ & _ & Hg2).
    destruct (list_eq_dec N.eq_dec m name) as [->|Hne].
    + rewrite (proj2 (str_eqb_spec name name) eq_refl). exists s2, r2. auto.
    + destruct (str_eqb m name) eqn:Em; [apply str_eqb_spec in Em; contradiction|].
      pose proof (skip_value_forward E inp _ vs true s2 r2 Hf Hr2) as H. cbn [at_val at_value is_reading reading frames] in H.
      destruct H as (s3 & r3 & He3 & Hr3). rewrite (dbind_ok _ _ _ _ _ _ _ He3).
      pose proof (skip_value_good E inp TEof s2 r2 Hf (repr_inv _ _ _ _ _ _ _ Hr2)) as Hg3. rewrite He3 in Hg3. destruct Hg3 as [_ Hg3].
      apply (IH (Some m) l s3 r3 Hf Hr3). blia.
Qed.

(** The result [x] with the cursor [c] afterwards *)
Definition crep {A : Type} (E : env) (inp : bytes) (val : A -> rvalue) (x : expected) (c : cursor) (m : mres A) : Prop :=
  match x with
  | XOk v => exists y s' r', m = MOk y s' r' /\ val y = v /\ repr E inp (frames c) (top c) (started c) s' r'
  | _ => erep E inp (frames c) (top c) (started c) x m
  end.

Lemma repr_eq E inp fs vs st s r c : repr E inp fs vs st s r -> frames c = fs -> top c = vs -> started c = st ->
  repr E inp (frames c) (top c) (started c) s r.
Proof. intros H -> -> ->. exact H. Qed.

Lemma enter_f c : frames (enter_value c) = ent_f (frames c).
Proof. destruct c as [fs vs st rd]. destruct fs as [|[]]; reflexivity. Qed.
Lemma enter_t c : top (enter_value c) = ent_v (frames c) (top c).
Proof. destruct c as [fs vs st rd]. destruct fs as [|[]]; reflexivity. Qed.
Lemma enter_s E inp c s r : repr E inp (frames c) (top c) (started c) s r -> started (enter_value c) = true.
Proof. destruct c as [fs vs st rd]. destruct fs as [|[]]; cbn; try reflexivity; apply repr_started. Qed.
Lemma enter_r c : reading (enter_value c) = reading c.
Proof. destruct c as [fs vs st rd]. destruct fs as [|[]]; reflexivity. Qed.
Lemma done_f c : frames (value_done c) = frames_done (frames c).
Proof. destruct c as [fs vs st rd]. destruct fs as [|[]]; reflexivity. Qed.
Lemma done_t c : top (value_done c) = top c.
Proof. destruct c as [fs vs st rd]. destruct fs as [|[]]; reflexivity. Qed.
Lemma done_s c : started (value_done c) = started c.
Proof. destruct c as [fs vs st rd]. destruct fs as [|[]]; reflexivity. Qed.
Lemma done_r c : reading (value_done c) = reading c.
Proof. destruct c as [fs vs st rd]. destruct fs as [|[]]; reflexivity. Qed.

Lemma type_wrong E inp c ty v (k : D unit) (m : D unit) P s r : at_val E (frames c) (top c) (started c) = inr v ->
  vrep E inp (frames c) (top c) (started c) ty P (m s r) -> json_type v <> ty ->
  crep E inp to_unit (XType ty (json_type v) (cursor_path c)) c ((m ;; k)%dm s r).
Proof.
  unfold vrep. intros -> H Hne. assert (He : value_type_eqb (json_type v) ty = false) by (destruct (json_type v), ty; try reflexivity; contradiction).
  rewrite He in H. unfold crep. apply erep_bind. exact H.
Qed.

Lemma skipn_nonempty {A : Type} n (l : list A) : (n < length l)%nat -> exists x t, skipn n l = x :: t.
Proof.
  revert l. induction n as [|n IH]; intros [|x l] H; cbn in *; try lia; eauto. apply IH. lia.
Qed.

Lemma nextv_next E c v : at_val E (frames c) (top c) (started c) = inr v -> next_value c = Some v.
Proof. intros H. apply nextv_val in H as [H _]. destruct c as [fs vs st rd]. exact H. Qed.

Lemma seek_pieces_forward E inp path : forall c s r, (length inp < fuel E)%nat -> repr E inp (frames c) (top c) (started c) s r ->
  (exists v, at_val E (frames c) (top c) (started c) = inr v) ->
  crep E inp to_unit (fst (seek path c)) (snd (seek path c)) (d_seek_pieces E TEof path s r).
Proof.
  induction path as [|[i|n] path IH]; intros c s r Hf Hr (v & Hv); cbn [seek d_seek_pieces].
  - exists tt, s, r. auto.
  - rewrite (nextv_next _ _ _ Hv). pose proof (begin_array_forward E inp _ _ _ s r Hf Hr) as Hb.
    destruct v as [|b|t|x|l|l]; try (apply (type_wrong _ _ _ _ _ _ _ _ _ _ Hv Hb); discriminate).
    destruct (vrep_ok _ _ _ _ _ _ _ _ _ Hb Hv eq_refl) as (u & s1 & r1 & He1 & Hr1). rewrite (dbind_ok _ _ _ _ _ _ _ He1).
    unfold open_behind in Hr1. cbn [opened] in Hr1.
    pose proof (seek_item_forward E inp _ _ (fuel E) i 0 i l s1 r1 Hf Hr1 (mu_fuel _ _ _ _ Hf (repr_inv _ _ _ _ _ _ _ Hr1))) as Hs.
    rewrite !N.add_0_l in Hs.
    destruct (N.ltb_spec i (N.of_nat (length l))) as [Hlt|Hge].
    + destruct Hs as (s2 & r2 & He2 & Hr2). rewrite (dbind_ok _ _ _ _ _ _ _ He2). apply IH; auto.
      * apply (repr_eq _ _ _ _ _ _ _ _ Hr2); cbn; rewrite ?enter_f, ?enter_t, ?(enter_s _ _ _ _ _ Hr); reflexivity.
      * destruct (skipn_nonempty (N.to_nat i) l) as (x & t & Ht); [lia|]. exists x. cbn. rewrite Ht. reflexivity.
    + apply erep_bind. unfold cursor_path. cbn [fst snd open_frame frames top started].
      rewrite ?enter_f, ?enter_t, ?(enter_s _ _ _ _ _ Hr). exact Hs.
  - rewrite (nextv_next _ _ _ Hv). pose proof (begin_object_forward E inp _ _ _ s r Hf Hr) as Hb.
    destruct v as [|b|t|x|l|l]; try (apply (type_wrong _ _ _ _ _ _ _ _ _ _ Hv Hb); discriminate).
    destruct (vrep_ok _ _ _ _ _ _ _ _ _ Hb Hv eq_refl) as (u & s1 & r1 & He1 & Hr1). rewrite (dbind_ok _ _ _ _ _ _ _ He1).
    unfold open_behind in Hr1. cbn [opened] in Hr1.
    pose proof (seek_member_forward E inp _ _ (fuel E) n None l s1 r1 Hf Hr1 (mu_fuel _ _ _ _ Hf (repr_inv _ _ _ _ _ _ _ Hr1))) as Hs.
    destruct (find_member n l) as [[v l']|] eqn:Efm.
    + destruct Hs as (s2 & r2 & He2 & Hr2). rewrite (dbind_ok _ _ _ _ _ _ _ He2). apply IH; auto.
      * apply (repr_eq _ _ _ _ _ _ _ _ Hr2); cbn; rewrite ?enter_f, ?enter_t, ?(enter_s _ _ _ _ _ Hr); reflexivity.
      * exists v. reflexivity.
    + apply erep_bind. rewrite <- last_name_or in Hs. unfold cursor_path. cbn [fst snd open_frame frames top started].
      rewrite ?enter_f, ?enter_t, ?(enter_s _ _ _ _ _ Hr). exact Hs.
Qed.

Lemma seek_to_forward E inp path c s r : (length inp < fuel E)%nat -> repr E inp (frames c) (top c) (started c) s r ->
  match at_val E (frames c) (top c) (started c) with
  | inl x => erep E inp (frames c) (top c) (started c) x (d_seek_to E TEof path s r)
  | inr _ => crep E inp to_unit (fst (seek path c)) (snd (seek path c)) (d_seek_to E TEof path s r)
  end.
Proof.
  intros Hf Hr. unfold d_seek_to. pose proof (peek_forward E inp _ _ _ s r Hf Hr) as H.
  destruct (at_val E (frames c) (top c) (started c)) as [x|v] eqn:Ev; [apply erep_bind; exact H|].
  destruct H as (s1 & r1 & He & Hr1 & _). rewrite (dbind_ok _ _ _ _ _ _ _ He). apply seek_pieces_forward; eauto.
Qed.

(** ** [seek_back] *)

Lemma dbind_misuse {A B : Type} (m : D A) (f : A -> D B) s r : m s r = MMisuse -> dbind m f s r = MMisuse.
Proof. unfold dbind. intros ->. reflexivity. Qed.

Lemma has_next_misuse E inp fs vs st s r : (length inp < fuel E)%nat -> repr E inp fs vs st s r ->
  more_at E fs vs st = inl XMisuse -> d_has_next E TEof s r = MMisuse.
Proof. intros Hf Hr H. pose proof (has_next_forward E inp fs vs st s r Hf Hr) as Hh. rewrite H in Hh. apply Hh. Qed.

Lemma skip_items_misuse E inp fs vs st s r : (length inp < fuel E)%nat -> repr E inp fs vs st s r ->
  match fs with InArray _ _ :: _ => False | _ => True end ->
  (d_skip_items E TEof (fuel E) ;; d_end_array E TEof)%dm s r = MMisuse.
Proof.
  intros Hf Hr Hk. destruct (fuel E) as [|f] eqn:Ef; [lia|]. rewrite <- Ef in Hf.
  destruct fs as [|[i l|n l|n v l] fs]; [| contradiction | |].
  - destruct (more_at E [] vs st) as [x|b] eqn:Em.
    + assert (x = XMisuse) as -> by (revert Em; unfold more_at, more; cbn [is_reading reading frames]; destruct (_ || _); congruence).
      apply dbind_misuse. cbn [d_skip_items]. apply dbind_misuse. exact (has_next_misuse _ _ _ _ _ _ _ Hf Hr Em).
    + assert (allow_multiple_top_level (cfg E) = true /\ st = true) as [Hm ->].
      { revert Em. unfold more_at, more. cbn [is_reading reading frames started]. destruct st, (allow_multiple_top_level (cfg E)); cbn; try discriminate. auto. }
      rewrite <- Ef.
      destruct (skip_items_top E inp (fuel E) vs s r Hf Hr Hm (mu_fuel _ _ _ _ Hf (repr_inv _ _ _ _ _ _ _ Hr))) as (s1 & r1 & He & Hr1).
      rewrite (dbind_ok _ _ _ _ _ _ _ He). exact (end_array_forward E inp [] [] true s1 r1 Hf Hr1).
  - pose proof (repr_started _ _ _ _ _ _ _ _ Hr) as ->.
    pose proof (has_next_forward E inp _ vs true s r Hf Hr) as Hh. unfold more_at, more in Hh. cbn [is_reading reading frames] in Hh.
    destruct Hh as (s1 & r1 & He & Hr1 & _). cbn [d_skip_items]. rewrite dbind_assoc. rewrite (dbind_ok _ _ _ _ _ _ _ He).
    destruct l as [|[m v] l].
    + change ((dret tt ;; d_end_array E TEof)%dm s1 r1 = MMisuse). exact (end_array_forward E inp _ vs true s1 r1 Hf Hr1).
    + apply dbind_misuse. apply dbind_misuse. exact (skip_value_forward E inp _ vs true s1 r1 Hf Hr1).
  - apply dbind_misuse. cbn [d_skip_items]. apply dbind_misuse. exact (has_next_misuse _ _ _ _ _ _ _ Hf Hr eq_refl).
Qed.

Lemma skip_members_misuse E inp fs vs st s r : (length inp < fuel E)%nat -> repr E inp fs vs st s r ->
  match fs with InObject _ _ :: _ => False | _ => True end ->
  (d_skip_members E TEof (fuel E) ;; d_end_object E TEof)%dm s r = MMisuse.
Proof.
  intros Hf Hr Hk. destruct (fuel E) as [|f] eqn:Ef; [lia|]. rewrite <- Ef in Hf.
  destruct fs as [|[i l|n l|n v l] fs]; [| | contradiction |].
  - destruct (more_at E [] vs st) as [x|b] eqn:Em.
    + assert (x = XMisuse) as -> by (revert Em; unfold more_at, more; cbn [is_reading reading frames]; destruct (_ || _); congruence).
      apply dbind_misuse. cbn [d_skip_members]. apply dbind_misuse. exact (has_next_misuse _ _ _ _ _ _ _ Hf Hr Em).
    + pose proof (has_next_forward E inp _ vs st s r Hf Hr) as Hh. rewrite Em in Hh.
      destruct Hh as (s1 & r1 & He & Hr1 & _). cbn [d_skip_members]. rewrite dbind_assoc. rewrite (dbind_ok _ _ _ _ _ _ _ He).
      destruct b.
      * apply dbind_misuse. apply dbind_misuse. exact (skip_name_forward E inp _ vs st s1 r1 Hf Hr1).
      * change ((dret tt ;; d_end_object E TEof)%dm s1 r1 = MMisuse). exact (end_object_forward E inp _ vs st s1 r1 Hf Hr1).
  - pose proof (repr_started _ _ _ _ _ _ _ _ Hr) as ->.
    pose proof (has_next_forward E inp _ vs true s r Hf Hr) as Hh. unfold more_at, more in Hh. cbn [is_reading reading frames] in Hh.
    destruct Hh as (s1 & r1 & He & Hr1 & _). cbn [d_skip_members]. rewrite dbind_assoc. rewrite (dbind_ok _ _ _ _ _ _ _ He).
    destruct l as [|v l].
    + change ((dret tt ;; d_end_object E TEof)%dm s1 r1 = MMisuse). exact (end_object_forward E inp _ vs true s1 r1 Hf Hr1).
    + apply dbind_misuse. apply dbind_misuse. exact (skip_name_forward E inp _ vs true s1 r1 Hf Hr1).
  - apply dbind_misuse. cbn [d_skip_members]. apply dbind_misuse. exact (has_next_misuse _ _ _ _ _ _ _ Hf Hr eq_refl).
Qed.

Lemma back_misuse {A B C : Type} (m1 : D A) (m2 : D B) (m3 : D C) s r : (m1 ;; m2)%dm s r = MMisuse -> (m1 ;; m2 ;; m3)%dm s r = MMisuse.
Proof. unfold dbind. destruct (m1 s r); try discriminate; auto. intros H. rewrite H. reflexivity. Qed.

Lemma seek_back_forward E inp path : forall c s r, (length inp < fuel E)%nat -> repr E inp (frames c) (top c) (started c) s r ->
  is_reading c = false ->
  crep E inp to_unit (fst (seek_up path c)) (snd (seek_up path c)) (d_seek_back_pieces E TEof path s r).
Proof.
  induction path as [|[i|n] path IH]; intros c s r Hf Hr Hrd; cbn [seek_up d_seek_back_pieces].
  - exists tt, s, r. auto.
  - rewrite Hrd. destruct (frames c) as [|[k l|n l|n v l] fs] eqn:Efs;
      try (cbn [fst snd crep erep]; apply back_misuse; exact (skip_items_misuse E inp _ _ _ s r Hf Hr I)).
    pose proof (repr_started _ _ _ _ _ _ _ _ Hr) as Hst. rewrite Hst in Hr.
    destruct (skip_items_forward E inp _ _ (fuel E) _ _ s r Hf Hr (mu_fuel _ _ _ _ Hf (repr_inv _ _ _ _ _ _ _ Hr))) as (s1 & r1 & He & Hr1).
    rewrite (dbind_ok _ _ _ _ _ _ _ He).
    pose proof (end_array_forward E inp _ _ true s1 r1 Hf Hr1) as (x & s2 & r2 & He2 & Hr2 & Ha2). rewrite (dbind_ok _ _ _ _ _ _ _ He2).
    apply IH; auto.
    + unfold close_frame. apply (repr_eq _ _ _ _ _ _ _ _ Hr2); rewrite ?done_f, ?done_t, ?done_s; cbn [frames top started]; rewrite ?Efs; auto.
    + unfold close_frame, is_reading in *. rewrite done_r. exact Hrd.
  - rewrite Hrd. destruct (frames c) as [|[k l|m l|m v l] fs] eqn:Efs;
      try (cbn [fst snd crep erep]; apply back_misuse; exact (skip_members_misuse E inp _ _ _ s r Hf Hr I)).
    pose proof (repr_started _ _ _ _ _ _ _ _ Hr) as Hst. rewrite Hst in Hr.
    destruct (skip_members_forward E inp _ _ (fuel E) _ _ s r Hf Hr (mu_fuel _ _ _ _ Hf (repr_inv _ _ _ _ _ _ _ Hr))) as (s1 & r1 & He & Hr1).
    rewrite (dbind_ok _ _ _ _ _ _ _ He).
    pose proof (end_object_forward E inp _ _ true s1 r1 Hf Hr1) as (x & s2 & r2 & He2 & Hr2 & Ha2). rewrite (dbind_ok _ _ _ _ _ _ _ He2).
    apply IH; auto.
    + unfold close_frame. apply (repr_eq _ _ _ _ _ _ _ _ Hr2); rewrite ?done_f, ?done_t, ?done_s; cbn [frames top started]; rewrite ?Efs; auto.
    + unfold close_frame, is_reading in *. rewrite done_r. exact Hrd.
Qed.
