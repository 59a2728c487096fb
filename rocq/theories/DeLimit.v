(** * Proofs: the nesting limit of the deserializer matters only for data nested deeper *)

From Verif Require Import Base Utf8Model NumberModel SpecNumber SpecJson SourceModel ReaderModel SpecCursor SimpleModel DeModel SpecDe.

Local Ltac splits := repeat match goal with |- _ /\ _ => split end.

(** Successes of [x] are also those of [y] *)
Definition carries {A : Type} (x y : verdict A) : Prop :=
  match x with Gives _ | Keeps _ => y = x | _ => True end.

Lemma carries_refl A (x : verdict A) : carries x x.
Proof. destruct x; cbn; auto. Qed.

Lemma carries_then A B (x y : verdict A) (f : A -> derr + B) : carries x y -> carries (then_code x f) (then_code y f).
Proof. destruct x; cbn; try exact (fun _ => I); intros ->; apply carries_refl. Qed.

Lemma carries_enter A l1 l2 open (x y : verdict A) : open < l2 -> carries x y -> carries (enter l1 open x) (enter l2 open y).
Proof.
  intros H2 H. unfold enter. destruct (N.ltb_spec open l1); [|exact I]. destruct (N.ltb_spec open l2); [exact H|lia].
Qed.

Lemma fails_enter A l1 l2 open e : @carries A (enter l1 open (Fails e)) (enter l2 open (Fails e)).
Proof. unfold enter. destruct (open <? l1); exact I. Qed.

Definition nest_items (items : list json) : N := N.of_nat (list_max (map nesting items)).
Definition nest_members (ms : list (str * json)) : N := N.of_nat (list_max (map (fun m => nesting (snd m)) ms)).
Definition nest (v : json) : N := N.of_nat (nesting v).
Definition nest_pos (p : map_position) : N :=
  match p with
  | AtNames ms => nest_members ms
  | BeforeValue v ms => N.max (nest v) (nest_members ms)
  | ValueIgnored => 0
  end.

Lemma nest_cons v items : nest_items (v :: items) = N.max (nest v) (nest_items items).
Proof. unfold nest_items, nest. cbn [map list_max fold_right]. change (fold_right Nat.max 0%nat (map nesting items)) with (list_max (map nesting items)). lia. Qed.
Lemma nest_member name v ms : nest_members ((name, v) :: ms) = N.max (nest v) (nest_members ms).
Proof.
  unfold nest_members, nest. cbn [map list_max fold_right snd].
  change (fold_right Nat.max 0%nat (map (fun m => nesting (snd m)) ms)) with (list_max (map (fun m => nesting (snd m)) ms)). lia.
Qed.
Lemma nest_arr items : nest (JArr items) = 1 + nest_items items.
Proof. unfold nest, nest_items. cbn [nesting]. lia. Qed.
Lemma nest_obj ms : nest (JObj ms) = 1 + nest_members ms.
Proof. unfold nest, nest_members. cbn [nesting]. lia. Qed.

Lemma limit_carries V S (C : code V S) s l1 l2 : forall n,
  (forall seed v open, open + nest v <= l2 -> carries (sem_seed C s l1 n seed v open) (sem_seed C s l2 n seed v open)) /\
  (forall m vis v open, open + nest v <= l2 -> carries (sem_method C s l1 n m vis v open) (sem_method C s l2 n m vis v open)) /\
  (forall x len st items open, open + nest_items items <= l2 ->
     carries (sem_items C s l1 n x len st items open) (sem_items C s l2 n x len st items open)) /\
  (forall pos st open, open + nest_pos pos <= l2 ->
     carries (sem_members C s l1 n pos st open) (sem_members C s l2 n pos st open)) /\
  (forall vis ms open, open + nest_members ms <= l2 ->
     carries (sem_variant C s l1 n vis ms open) (sem_variant C s l2 n vis ms open)).
Proof.
  induction n as [n IHn] using lt_wf_ind. destruct n as [|n].
  { splits; intros; cbn; try exact I.
    - destruct (visit_seq C st) as [[|]|]; apply carries_refl.
    - destruct (visit_map C st) as [[|]| |]; destruct pos; apply carries_refl. }
  destruct (IHn n ltac:(lia)) as (IHs & IHm & IHi & IHp & IHv). splits.
  - intros seed v open H. cbn [sem_seed]. destruct (deserialize C seed) as [[|]|m vis after]; try apply carries_refl.
    apply carries_then. apply IHm. exact H.
  - intros m vis v open H. cbn [sem_method]. cbv zeta.
    assert (Ha : forall x items, v = JArr items ->
      carries (enter l1 open match sem_items C s l1 n x 0 vis items (open + 1) with
        | Gives (a, len, rest) | Keeps (a, len, rest) =>
          match x with
          | Some m => if len <? m then Fails (FError (DeInvalidLength len m)) else leave rest a
          | None => leave rest a
          end
        | Fails x => Fails x
        | Panics => Panics
        | Unfinished => Unfinished
        end)
      (enter l2 open match sem_items C s l2 n x 0 vis items (open + 1) with
        | Gives (a, len, rest) | Keeps (a, len, rest) =>
          match x with
          | Some m => if len <? m then Fails (FError (DeInvalidLength len m)) else leave rest a
          | None => leave rest a
          end
        | Fails x => Fails x
        | Panics => Panics
        | Unfinished => Unfinished
        end)).
    { intros x items ->. rewrite nest_arr in H. apply carries_enter; [lia|].
      assert (Hi : open + 1 + nest_items items <= l2) by lia.
      specialize (IHi x 0 vis items (open + 1) Hi). destruct (sem_items C s l1 n x 0 vis items (open + 1)); cbn in IHi; try exact I; rewrite IHi; apply carries_refl. }
    assert (Ho : forall ms, v = JObj ms ->
      carries (enter l1 open (sem_members C s l1 n (AtNames ms) vis (open + 1))) (enter l2 open (sem_members C s l2 n (AtNames ms) vis (open + 1)))).
    { intros ms ->. rewrite nest_obj in H. apply carries_enter; [lia|]. apply IHp. cbn. lia. }
    assert (He : forall ms, v = JObj ms ->
      carries (enter l1 open (sem_variant C s l1 n vis ms (open + 1))) (enter l2 open (sem_variant C s l2 n vis ms (open + 1)))).
    { intros ms ->. rewrite nest_obj in H. apply carries_enter; [lia|]. apply IHv. lia. }
    destruct m; destruct v; try apply carries_refl; try apply fails_enter;
      try (match goal with |- context [sem_items C s l1 n ?x 0 vis ?i _] => exact (Ha x i eq_refl) end); try (apply Ho; reflexivity); try (apply He; reflexivity); try (apply IHs; exact H).
    destruct n as [|n']; [exact I|]. destruct (visit_enum C vis) as [[|]|seed k failed]; try apply carries_refl.
    destruct (IHn n' ltac:(lia)) as (IHs' & _). specialize (IHs' seed (JStr s0) open H).
    destruct (sem_seed C s l1 n' seed (JStr s0) open); cbn in IHs'; try exact I; rewrite IHs'; apply carries_refl.
  - intros x len st items open H. cbn [sem_items]. destruct (visit_seq C st) as [[|]|seed k]; try apply carries_refl.
    destruct items as [|v items]; [apply IHi; exact H|]. rewrite nest_cons in H.
    assert (Hv : open + nest v <= l2) by lia. assert (Hi : open + nest_items items <= l2) by lia.
    assert (Hvi : open + nest_items (v :: items) <= l2) by (rewrite nest_cons; lia).
    assert (Hel : forall len', carries
      match sem_seed C s l1 n seed v open with
        | Gives a => sem_items C s l1 n x len' (k (inr (Some a))) items open
        | Keeps a => sem_items C s l1 n x len' (k (inr (Some a))) (v :: items) open
        | Fails x => Fails x
        | Panics => Panics
        | Unfinished => Unfinished
        end
      match sem_seed C s l2 n seed v open with
        | Gives a => sem_items C s l2 n x len' (k (inr (Some a))) items open
        | Keeps a => sem_items C s l2 n x len' (k (inr (Some a))) (v :: items) open
        | Fails x => Fails x
        | Panics => Panics
        | Unfinished => Unfinished
        end).
    { intros len'. specialize (IHs seed v open Hv). destruct (sem_seed C s l1 n seed v open); cbn in IHs; try exact I; rewrite IHs; apply IHi; assumption. }
    cbv zeta. destruct x as [m|]; [destruct (len <? m); [apply Hel|exact I]|apply Hel].
  - intros pos st open H. cbn [sem_members]. destruct (visit_map C st) as [[|]|seed k|seed k]; try apply carries_refl.
    + destruct pos as [[|[name v] ms]|v ms|]; try apply carries_refl.
      * apply IHp. exact H.
      * cbn [nest_pos] in H. rewrite nest_member in H. destruct (sem_key C n name seed); try exact I; apply IHp; cbn; lia.
    + destruct pos as [ms|v ms|]; try apply carries_refl. cbn [nest_pos] in H.
      assert (Hv : open + nest v <= l2) by lia. specialize (IHs seed v open Hv).
      destruct (sem_seed C s l1 n seed v open); cbn in IHs; try exact I; rewrite IHs; apply IHp; cbn; lia.
  - intros vis ms open H. cbn [sem_variant]. destruct (visit_enum C vis) as [[|]|seed k failed]; try apply carries_refl.
    destruct ms as [|[name v] ms]; [apply carries_refl|]. rewrite nest_member in H.
    assert (Hv : open + nest v <= l2) by lia. cbv zeta.
    assert (Hx : forall (x y : verdict V) (after : derr + V -> derr + V), carries x y -> carries
      match then_code x (fun b => after (inr b)) with Gives b => leave ms b | Keeps _ => Panics | x => x end
      match then_code y (fun b => after (inr b)) with Gives b => leave ms b | Keeps _ => Panics | x => x end).
    { intros x y after Hxy. apply (carries_then _ V x y (fun b => after (inr b))) in Hxy.
      destruct (then_code x (fun b => after (inr b))); cbn in Hxy; try exact I; rewrite Hxy; apply carries_refl. }
    destruct (sem_text C n name seed) as [a|a|y| |]; try exact I;
      (destruct (with_variant C (k a)) as [[|]|after|seed' after|len vis' after|vis' after]; try apply carries_refl; apply Hx; [apply IHs|apply IHm|apply IHm]; exact Hv).
Qed.

Lemma limit_same V S (C : code V S) s l1 l2 n seed v : nest v <= l1 -> nest v <= l2 ->
  (forall a, sem_seed C s l1 n seed v 0 = Gives a <-> sem_seed C s l2 n seed v 0 = Gives a) /\
  (forall a, sem_seed C s l1 n seed v 0 = Keeps a <-> sem_seed C s l2 n seed v 0 = Keeps a).
Proof.
  intros H1 H2.
  pose proof (proj1 (limit_carries V S C s l1 l2 n) seed v 0 H2) as A. pose proof (proj1 (limit_carries V S C s l2 l1 n) seed v 0 H1) as B.
  split; intros a; split; intros E; rewrite E in *; cbn in *; auto.
Qed.
