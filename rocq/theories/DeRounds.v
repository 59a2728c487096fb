(** * The results of deserializing do not depend on the limit of the number of steps *)

From Verif Require Import Base Utf8Model SourceModel ReaderModel ClientModel SpecSimple SimpleErrors SimpleRounds DeModel.

(** [m'] ends like [m] unless [m] has used up its steps *)
Definition dle {A : Type} (m m' : de A) : Prop :=
  forall d log r d', plays (m d) log (r, d') -> r <> DFuel -> plays (m' d) log (r, d').

Lemma dle_refl A (m : de A) : dle m m.
Proof. intros d log r d' H _. exact H. Qed.
Lemma dle_fuel A (m : de A) : dle (dend_now DFuel) m.
Proof. intros d log r d' H Hr. inversion H; subst. congruence. Qed.
Lemma dle_then A B (m m' : de A) (f f' : derr + A -> de B) : dle m m' -> (forall a, dle (f a) (f' a)) -> dle (dthen m f) (dthen m' f').
Proof.
  intros Hm Hf d log r d' H Hr. unfold dthen in *. apply plays_bind in H as (l1 & l2 & [r1 d1] & -> & H1 & H2).
  apply (plays_cbind _ _ _ _ l1 (r1, d1)).
  - apply Hm; [exact H1|]. intros ->. inversion H2; subst. congruence.
  - destruct r1; try exact H2. apply Hf; assumption.
Qed.
Lemma dle_bind A B (m m' : de A) (f f' : A -> de B) : dle m m' -> (forall a, dle (f a) (f' a)) -> dle (dbind m f) (dbind m' f').
Proof. intros Hm Hf. apply dle_then; [exact Hm|]. intros [e|a]; [apply dle_refl|apply Hf]. Qed.
Lemma dle_nesting A limit (m m' : de A) : dle m m' -> dle (check_nesting limit m) (check_nesting limit m').
Proof.
  intros Hm d log r d' H Hr. unfold check_nesting in *. destruct (limit <=? d); [exact H|].
  apply plays_bind in H as (l1 & l2 & [r1 d1] & -> & H1 & H2). apply (plays_cbind _ _ _ _ l1 (r1, d1)); [|exact H2].
  apply Hm; [exact H1|]. intros ->. inversion H2; subst. congruence.
Qed.
Lemma dle_array V limit x (m m' : de (V * N)) : dle m m' -> dle (de_array limit x m) (de_array limit x m').
Proof. intros Hm. apply dle_nesting. apply dle_bind; [apply dle_refl|intro]. apply dle_bind; [exact Hm|intro]. apply dle_refl. Qed.
Lemma dle_object V limit (m m' : de (V * bool)) : dle m m' -> dle (de_object limit m) (de_object limit m').
Proof. intros Hm. apply dle_nesting. apply dle_bind; [apply dle_refl|intro]. apply dle_bind; [exact Hm|intro]. apply dle_refl. Qed.

(** ... and for the deserializers of names *)
Definition ele {V : Type} (x x' : dend V) : Prop := x <> DFuel -> x' = x.
Lemma dle_end V (x x' : dend V) : ele x x' -> dle (dend_now x) (dend_now x').
Proof. intros Hx d log r d' H Hr. inversion H; subst. rewrite (Hx Hr). constructor. Qed.

Lemma str_rounds V S (C : code V S) : forall n n', (n <= n')%nat ->
  (forall t seed, ele (str_seed C n t seed) (str_seed C n' t seed)) /\ (forall t vis, ele (str_enum C n t vis) (str_enum C n' t vis)).
Proof.
  induction n as [|n IH]; intros n' Hn; [split; intros; intros H; exfalso; apply H; reflexivity|].
  destruct n' as [|n']; [lia|]. destruct (IH n' ltac:(lia)) as [IH1 IH2]. split; intros t x H; cbn [str_seed str_enum] in *.
  - destruct (deserialize C x) as [r|[] vis after]; try reflexivity. specialize (IH2 t vis). unfold ele in IH2.
    destruct (str_enum C n t vis); try (rewrite IH2 by discriminate; reflexivity). exfalso. apply H. reflexivity.
  - destruct (visit_enum C x) as [r|seed k failed]; [reflexivity|]. specialize (IH1 t seed). unfold ele in IH1.
    destruct (str_seed C n t seed); try (rewrite IH1 by discriminate; reflexivity). exfalso. apply H. reflexivity.
Qed.

Lemma key_rounds V S (C : code V S) : forall n n', (n <= n')%nat -> forall t seed, ele (key_seed C n t seed) (key_seed C n' t seed).
Proof.
  induction n as [|n IH]; intros n' Hn t seed H; [exfalso; apply H; reflexivity|].
  destruct n' as [|n']; [lia|]. cbn [key_seed] in *. destruct (deserialize C seed) as [r|[] vis after]; try reflexivity.
  - pose proof (IH n' ltac:(lia) t (visit_some C vis)) as E. unfold ele in E.
    destruct (key_seed C n t (visit_some C vis)); try (rewrite E by discriminate; reflexivity). exfalso. apply H. reflexivity.
  - pose proof (IH n' ltac:(lia) t (visit_newtype C vis)) as E. unfold ele in E.
    destruct (key_seed C n t (visit_newtype C vis)); try (rewrite E by discriminate; reflexivity). exfalso. apply H. reflexivity.
  - pose proof (proj2 (str_rounds V S C n n' ltac:(lia)) t vis) as E. unfold ele in E.
    destruct (str_enum C n t vis); try (rewrite E by discriminate; reflexivity). exfalso. apply H. reflexivity.
Qed.

Lemma de_rounds V S (C : code V S) limit : forall n n', (n <= n')%nat ->
  (forall seed, dle (run_seed C limit n seed) (run_seed C limit n' seed)) /\
  (forall m vis, dle (run_method C limit n m vis) (run_method C limit n' m vis)) /\
  (forall x len st, dle (run_seq C limit n x len st) (run_seq C limit n' x len st)) /\
  (forall b st, dle (run_map C limit n b st) (run_map C limit n' b st)) /\
  (forall b vis, dle (run_enum C limit n b vis) (run_enum C limit n' b vis)).
Proof.
  induction n as [|n IH]; intros n' Hn.
  { split; [intros; apply dle_fuel|]. split; [intros; apply dle_fuel|]. split; [|split; [|intros; apply dle_fuel]].
    - intros x len st. destruct n' as [|n']; [apply dle_refl|]. cbn [run_seq]. destruct (visit_seq C st); [apply dle_refl|apply dle_fuel].
    - intros b st. destruct n' as [|n']; [apply dle_refl|]. cbn [run_map]. destruct (visit_map C st), b; first [apply dle_refl|apply dle_fuel]. }
  destruct n' as [|n']; [lia|]. destruct (IH n' ltac:(lia)) as (I1 & I2 & I3 & I4 & I5).
  split; [|split; [|split; [|split]]].
  - intros seed. cbn [run_seed]. destruct (deserialize C seed); [apply dle_refl|]. apply dle_then; [apply I2|]. intro. apply dle_refl.
  - intros m vis. cbn [run_method].
    assert (HA : forall x, dle (de_array limit x (run_seq C limit n x 0 vis)) (de_array limit x (run_seq C limit n' x 0 vis))) by (intros x; apply dle_array, I3).
    assert (HO : dle (de_object limit (run_map C limit n false vis)) (de_object limit (run_map C limit n' false vis))) by apply dle_object, I4.
    destruct m; try apply dle_refl; try apply HA; try apply HO; try apply I1;
      (apply dle_bind; [apply dle_refl|]; intros []; try apply dle_refl; try apply HA; try apply HO; try apply I1).
    + apply dle_object, I5.
    + apply dle_bind; [apply I5|]. intro. apply dle_refl.
  - intros x len st. cbn [run_seq]. destruct (visit_seq C st) as [r|seed k]; [apply dle_refl|].
    apply dle_then; [apply dle_refl|]. intros [e|[|]]; try apply I3.
    destruct x as [m|]; [destruct (m <=? len); [apply I3|]|]; (apply dle_then; [apply I1|]; intro; apply I3).
  - intros b st. cbn [run_map]. destruct (visit_map C st) as [r|seed k|seed k]; [apply dle_refl| |].
    + destruct b; [apply dle_refl|]. apply dle_then; [apply dle_refl|]. intros [e|[|]]; try apply I4.
      apply dle_then; [|intros [e|v]; apply I4]. apply dle_bind; [apply dle_refl|]. intros key. apply dle_end, key_rounds. lia.
    + destruct (negb b); [apply dle_refl|]. apply dle_then; [apply I1|]. intro. apply I4.
  - intros b vis. cbn [run_enum]. destruct (visit_enum C vis) as [r|seed k failed]; [apply dle_refl|]. apply dle_then.
    + destruct b; [apply I1|]. apply dle_bind; [apply dle_refl|]. intros name. apply dle_end, (proj1 (str_rounds V S C n n' ltac:(lia))).
    + intros [e|v]; [apply dle_refl|]. destruct b; [apply dle_refl|].
      destruct (with_variant C (k v)); try apply dle_refl; (apply dle_then; [first [apply I1|apply I2]|intro; apply dle_refl]).
Qed.

Lemma deserialize_rounds V S (C : code V S) limit n n' seed log r : (n <= n')%nat ->
  plays (deserialize_with_limit C n limit seed) log r -> r <> DFuel -> plays (deserialize_with_limit C n' limit seed) log r.
Proof.
  intros Hn H Hr. unfold deserialize_with_limit in *. apply plays_bind in H as (l1 & l2 & [r1 d] & -> & H1 & H2).
  assert (l2 = [] /\ r = r1) as [-> ->] by (inversion H2; auto). apply (plays_cbind _ _ _ _ l1 (r1, d)); [|constructor].
  apply (proj1 (de_rounds V S C limit n n' Hn)); assumption.
Qed.
Lemma next_rounds V S (C : code V S) n n' seed log r : (n <= n')%nat ->
  plays (deserialize_next C n seed) log r -> r <> DFuel -> plays (deserialize_next C n' seed) log r.
Proof.
  intros Hn H Hr. unfold deserialize_next in *. apply plays_bind in H as (l1 & l2 & [r1 d] & -> & H1 & H2).
  assert (l2 = [] /\ r = r1) as [-> ->] by (inversion H2; auto). apply (plays_cbind _ _ _ _ l1 (r1, d)); [|constructor].
  eapply dle_bind; [apply dle_refl| |exact H1|exact Hr]. intro. apply (proj1 (de_rounds V S C 128 n n' Hn)).
Qed.
