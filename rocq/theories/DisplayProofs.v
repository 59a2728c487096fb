(** * Proofs about the texts of positions and errors *)

From Coq Require Import String.
From Verif Require Import Base Utf8Model SpecNumber WriterModel SpecWriter WriterSession SourceModel ReaderModel DisplayModel SpecDisplay StripProofs.
Local Open Scope list_scope.

(** ** Taking texts apart *)

Lemma span_eq (P : N -> Prop) a b x y r s : Forall P a -> Forall P b -> ~ P x -> ~ P y ->
  a ++ x :: r = b ++ y :: s -> a = b /\ x = y /\ r = s.
Proof.
  revert b. induction a as [|u a IH]; intros [|v b] Ha Hb Hx Hy E; cbn in E.
  - injection E as <- <-. auto.
  - injection E as -> _. apply Forall_cons_iff in Hb as [Hb _]. contradiction.
  - injection E as <- _. apply Forall_cons_iff in Ha as [Ha _]. contradiction.
  - injection E as <- E. apply Forall_cons_iff in Ha as [_ Ha]. apply Forall_cons_iff in Hb as [_ Hb].
    destruct (IH b Ha Hb Hx Hy E) as (-> & H). auto.
Qed.
Lemma span_eq_end (P : N -> Prop) a b x y r s : Forall P a -> Forall P b -> ~ P x -> ~ P y ->
  r ++ x :: a = s ++ y :: b -> a = b /\ x = y /\ r = s.
Proof.
  intros Ha Hb Hx Hy E. apply (f_equal (@rev _)) in E. rewrite !rev_app_distr in E. cbn [rev] in E. rewrite <- !app_assoc in E. cbn [app] in E.
  destruct (span_eq P (rev a) (rev b) x y (rev r) (rev s)) as (H1 & H2 & H3); auto using Forall_rev.
  apply (f_equal (@rev _)) in H1, H3. rewrite !rev_involutive in *. auto.
Qed.

Lemma number_digits n : Forall digit (nat_to_string n).
Proof.
  destruct (nat_to_string_spec n) as [[->|(d & ds & -> & H1 & H2)] _].
  - constructor; [unfold digit; lia|constructor].
  - constructor; [unfold digit; lia|exact H2].
Qed.
Lemma number_ends n : exists l d, nat_to_string n = l ++ [d] /\ digit d.
Proof.
  pose proof (number_digits n) as H. destruct (nat_to_string n) as [|x t] eqn:E using rev_ind.
  - destruct (nat_to_string_spec n) as [[H1|(d & ds & H1 & _)] _]; congruence.
  - exists t, x. split; [reflexivity|]. apply Forall_app in H as [_ H]. inversion H; auto.
Qed.
Lemma number_inj n m : nat_to_string n = nat_to_string m -> n = m.
Proof. intros E. rewrite <- (proj2 (nat_to_string_spec n)), <- (proj2 (nat_to_string_spec m)), E. reflexivity. Qed.
Lemma no_digit x : x < 0x30 \/ 0x39 < x -> ~ digit x.
Proof. unfold digit. lia. Qed.

(** A number in front of, and behind, something else *)
Lemma number_front n m x y r s : ~ digit x -> ~ digit y -> nat_to_string n ++ x :: r = nat_to_string m ++ y :: s -> n = m /\ x = y /\ r = s.
Proof.
  intros Hx Hy E. destruct (span_eq digit _ _ _ _ _ _ (number_digits n) (number_digits m) Hx Hy E) as (H & H'). auto using number_inj.
Qed.
Lemma number_end n m r s : r ++ 0x20 :: nat_to_string n = s ++ 0x20 :: nat_to_string m -> n = m /\ r = s.
Proof.
  intros E. assert (H : ~ digit 0x20) by (apply no_digit; lia).
  destruct (span_eq_end digit _ _ _ _ _ _ (number_digits n) (number_digits m) H H E) as (H1 & _ & H3). auto using number_inj.
Qed.

(** ** Locations *)

Definition path_part (path : option (list piece)) (more : bool) : str :=
  match path with
  | Some p => text "path '" ++ path_text p ++ (if more then text "', " else text "'")
  | None => if more then [] else text "<location unavailable>"
  end.
Definition end_part (l : location) : str :=
  match l_line_pos l, l_data_pos l with
  | Some (a, b), Some d => (((text "line" ++ 0x20 :: nat_to_string a) ++ text ", column") ++ 0x20 :: nat_to_string b) ++ text " (data pos" ++ (0x20 :: nat_to_string d) ++ [0x29]
  | Some (a, b), None => ((text "line" ++ 0x20 :: nat_to_string a) ++ text ", column") ++ 0x20 :: nat_to_string b
  | None, Some d => text "data pos" ++ 0x20 :: nat_to_string d
  | None, None => []
  end.
Definition has_end (l : location) : bool :=
  match l_line_pos l, l_data_pos l with None, None => false | _, _ => true end.

Lemma location_split l : location_text l = path_part (l_path l) (has_end l) ++ end_part l.
Proof.
  destruct l as [path [[a b]|] [d|]]; destruct path as [p|]; cbn [location_text l_path l_line_pos l_data_pos has_end end_part path_part]; unfold line_text;
    cbn [fst snd]; rewrite <- ?app_assoc, ?app_nil_r; reflexivity.
Qed.

Lemma line_inj r s a b c d :
  (((r ++ text "line") ++ 0x20 :: nat_to_string a) ++ text ", column") ++ 0x20 :: nat_to_string b =
  (((s ++ text "line") ++ 0x20 :: nat_to_string c) ++ text ", column") ++ 0x20 :: nat_to_string d -> a = c /\ b = d /\ r = s.
Proof.
  intros E. apply number_end in E as [-> E]. apply app_inv_tail in E.
  apply number_end in E as [-> E]. apply app_inv_tail in E. auto.
Qed.
Lemma full_inj r s a b c d n m :
  ((((((r ++ text "line") ++ 0x20 :: nat_to_string a) ++ text ", column") ++ 0x20 :: nat_to_string b) ++ text " (data pos") ++ 0x20 :: nat_to_string n) ++ [0x29] =
  ((((((s ++ text "line") ++ 0x20 :: nat_to_string c) ++ text ", column") ++ 0x20 :: nat_to_string d) ++ text " (data pos") ++ 0x20 :: nat_to_string m) ++ [0x29] ->
  a = c /\ b = d /\ n = m /\ r = s.
Proof.
  intros E. apply app_inv_tail in E. apply number_end in E as [-> E]. apply app_inv_tail in E.
  apply line_inj in E as (-> & -> & ->). auto.
Qed.

Lemma last_eq (r s : str) x y : r ++ [x] = s ++ [y] -> x = y.
Proof. intros E. apply app_inj_tail in E as [_ E]. exact E. Qed.

(** The last characters tell the forms apart *)
Lemma part_end path more : more = false -> exists r x, path_part path more = r ++ [x] /\ (x = 0x27 \/ x = 0x3E).
Proof.
  intros ->. destruct path as [p|]; cbn [path_part].
  - exists (text "path '" ++ path_text p), 0x27. split; [rewrite <- app_assoc; reflexivity|auto].
  - exists (text "<location unavailable"), 0x3E. split; [reflexivity|auto].
Qed.

Lemma location_parts l1 l2 : location_text l1 = location_text l2 ->
  l_line_pos l1 = l_line_pos l2 /\ l_data_pos l1 = l_data_pos l2 /\
  path_part (l_path l1) (has_end l1) = path_part (l_path l2) (has_end l2).
Proof.
  rewrite !location_split. unfold end_part.
  destruct l1 as [p1 q1 d1], l2 as [p2 q2 d2]. cbn [l_path l_line_pos l_data_pos].
  remember (path_part p1 (has_end (Location p1 q1 d1))) as x1 eqn:X1. remember (path_part p2 (has_end (Location p2 q2 d2))) as x2 eqn:X2.
  assert (Hdig : forall r n, exists r' c, r ++ 0x20 :: nat_to_string n = r' ++ [c] /\ digit c).
  { intros r n. destruct (number_ends n) as (l & c & -> & Hc). exists (r ++ 0x20 :: l), c. rewrite <- app_assoc. auto. }
  assert (Hq : forall x, x = 0x27 \/ x = 0x3E -> ~ digit x) by (intros x [-> | ->]; apply no_digit; lia).
  destruct q1 as [[a1 b1]|], d1 as [n1|], q2 as [[a2 b2]|], d2 as [n2|]; intros E; rewrite ?app_assoc in E.
  all: try (apply full_inj in E as (-> & -> & -> & ->); auto; fail).
  all: try (apply line_inj in E as (-> & -> & ->); auto; fail).
  all: try (apply number_end in E as [-> E]; apply app_inv_tail in E; auto; fail).
  all: try (rewrite !app_nil_r in E; auto; fail).
  all: exfalso; rewrite ?app_nil_r in E.
  all: try match type of E with
    | ?r ++ 0x20 :: nat_to_string ?n = ?s ++ 0x20 :: nat_to_string ?m => apply number_end in E as [_ E];
        (change (text ", column") with (text ", colum" ++ [0x6E]) in E; change (text "data pos") with (text "data po" ++ [0x73]) in E;
         rewrite ?app_assoc in E; apply last_eq in E; discriminate E)
    end.
  all: try match type of E with
    | ?r ++ 0x20 :: nat_to_string ?n = _ => destruct (Hdig r n) as (r' & c & Er & Hc); rewrite Er in E
    | _ = ?r ++ 0x20 :: nat_to_string ?n => destruct (Hdig r n) as (r' & c & Er & Hc); rewrite Er in E
    end.
  all: try match type of E with
    | ?x = _ => is_var x; destruct (part_end p1 _ eq_refl) as (r1 & y1 & Ey & Hy); cbn [has_end l_line_pos l_data_pos] in X1; rewrite X1, Ey in E
    | _ = ?x => is_var x; destruct (part_end p2 _ eq_refl) as (r1 & y1 & Ey & Hy); cbn [has_end l_line_pos l_data_pos] in X2; rewrite X2, Ey in E
    end.
  all: apply last_eq in E.
  all: clear - E Hq Hy Hc || clear - E Hq Hy || clear - E Hc.
  all: try (rewrite ?E in *; apply (Hq _ Hy); rewrite <- ?E in *; assumption).
  all: try (destruct Hy as [Hy|Hy]; rewrite Hy in E; discriminate E).
  all: rewrite <- ?E in Hc; rewrite ?E in Hc; revert Hc; apply no_digit; lia.
Qed.

(** ** Paths *)

Lemma path_part_inj p1 p2 more : path_part p1 more = path_part p2 more -> option_map path_text p1 = option_map path_text p2.
Proof.
  destruct p1 as [p1|], p2 as [p2|]; cbn [path_part option_map]; intros E; [|destruct more; discriminate E..|reflexivity].
  apply app_inv_head, app_inv_tail in E. congruence.
Qed.

Definition starts_piece (s : str) : Prop := match s with [] => True | c :: _ => c = 0x2E \/ c = 0x5B end.
Lemma pieces_start p : starts_piece (flat_map piece_text p).
Proof. destruct p as [|[i|n] p]; cbn; auto. Qed.
Lemma name_front n m r s : plain_name n -> plain_name m -> starts_piece r -> starts_piece s -> n ++ r = m ++ s -> n = m /\ r = s.
Proof.
  revert m. induction n as [|a n IH]; intros [|b m] Hn Hm Hr Hs E; cbn [app] in E; auto.
  - subst r. apply Forall_cons_iff in Hm as [Hb _]. cbn in Hr. lia.
  - subst s. apply Forall_cons_iff in Hn as [Hb _]. cbn in Hs. lia.
  - injection E as <- E. apply Forall_cons_iff in Hn as [_ Hn], Hm as [_ Hm]. destruct (IH m Hn Hm Hr Hs E) as [-> ->]. auto.
Qed.
Lemma pieces_inj : forall p1 p2, plain_path p1 -> plain_path p2 -> flat_map piece_text p1 = flat_map piece_text p2 -> p1 = p2.
Proof.
  induction p1 as [|x1 p1 IH]; intros [|x2 p2] H1 H2 E; [reflexivity|destruct x2; discriminate E|destruct x1; discriminate E|].
  apply Forall_cons_iff in H1 as [X1 H1], H2 as [X2 H2]. cbn [flat_map] in E.
  destruct x1 as [i1|n1], x2 as [i2|n2]; try discriminate E; unfold piece_text in E at 1 3; rewrite <- !app_assoc in E; apply app_inv_head in E.
  - apply number_front in E as (-> & _ & E); [|apply no_digit; first [left; reflexivity|right; reflexivity]..]. f_equal. apply IH; assumption.
  - apply name_front in E as (-> & E); auto using pieces_start. f_equal. apply IH; assumption.
Qed.
Lemma path_inj p1 p2 : plain_path p1 -> plain_path p2 -> path_text p1 = path_text p2 -> p1 = p2.
Proof. intros H1 H2 E. apply app_inv_head in E. apply pieces_inj; assumption. Qed.

Lemma location_fields l1 l2 : location_text l1 = location_text l2 ->
  l_line_pos l1 = l_line_pos l2 /\ l_data_pos l1 = l_data_pos l2 /\ option_map path_text (l_path l1) = option_map path_text (l_path l2).
Proof.
  intros E. destruct (location_parts l1 l2 E) as (H1 & H2 & H3). repeat split; auto.
  assert (Hh : has_end l1 = has_end l2) by (unfold has_end; rewrite H1, H2; reflexivity).
  rewrite Hh in H3. exact (path_part_inj _ _ _ H3).
Qed.
Lemma location_inj l1 l2 : plain_location l1 -> plain_location l2 -> location_text l1 = location_text l2 -> l1 = l2.
Proof.
  intros P1 P2 E. destruct (location_fields l1 l2 E) as (H1 & H2 & H3). destruct l1 as [p1 q1 d1], l2 as [p2 q2 d2].
  unfold plain_location in *. cbn [l_path l_line_pos l_data_pos] in *. subst. f_equal.
  destruct p1 as [p1|], p2 as [p2|]; try discriminate H3; [|reflexivity]. f_equal. cbn [option_map] in H3.
  apply (f_equal (fun o => match o with Some x => x | None => [] end)) in H3. apply path_inj; assumption.
Qed.
Lemma position_inj p1 p2 : location_of p1 = location_of p2 -> p1 = p2.
Proof. destruct p1, p2. cbn. intros E. injection E as -> -> -> ->. reflexivity. Qed.

(** ** Errors *)

Lemma place_at_end r s p1 p2 : r ++ location_text (location_of p1) = s ++ location_text (location_of p2) -> same_place p1 p2.
Proof.
  rewrite !location_split. cbn [end_part location_of l_line_pos l_data_pos]. intros E. rewrite !app_assoc in E.
  apply full_inj in E as (H1 & H2 & H3 & _). repeat split; assumption.
Qed.

Lemma kind_front k1 k2 r s : syntax_error_text k1 ++ 0x20 :: r = syntax_error_text k2 ++ 0x20 :: s -> k1 = k2.
Proof. destruct k1, k2; intros E; first [reflexivity|discriminate E]. Qed.
Lemma type_front t1 t2 r s : value_type_text t1 ++ 0x20 :: r = value_type_text t2 ++ 0x20 :: s -> t1 = t2 /\ r = s.
Proof. destruct t1, t2; intros E; first [discriminate E|injection E as E; auto]. Qed.
Lemma number_unquoted t : number_text t -> Forall (fun c => c <> 0x27) t.
Proof. intros H. apply StripProofs.number_chars in H. eapply Forall_impl; [|exact H]. cbv beta. unfold number_char, digit. lia. Qed.

Lemma error_place io1 io2 e1 e2 : error_text io1 e1 = error_text io2 e2 -> same_place (error_location e1) (error_location e2).
Proof.
  assert (H : forall io e, exists r, error_text io e = r ++ location_text (location_of (error_location e))).
  { intros io e. destruct e; cbn [error_text error_location]; rewrite ?app_assoc; eexists; reflexivity. }
  destruct (H io1 e1) as (r & ->), (H io2 e2) as (s & ->). apply place_at_end.
Qed.
Lemma error_problem io1 io2 e1 e2 : proper_error e1 -> proper_error e2 -> error_text io1 e1 = error_text io2 e2 -> same_problem e1 e2.
Proof.
  destruct e1 as [k1 l1|x1 a1 l1|k1 l1|d1 l1|n1 l1|i1 l1], e2 as [k2 l2|x2 a2 l2|k2 l2|d2 l2|n2 l2|i2 l2]; intros P1 P2 E;
    cbn [same_problem]; try exact I; try (discriminate E); cbn [error_text] in E; apply app_inv_head in E.
  - eapply kind_front, E.
  - apply type_front in E as [-> E]. change (text " but got ") with (0x20 :: text "but got ") in E.
    apply (app_inv_head (text "but got ")) in E. apply type_front in E as [-> _]. auto.
  - destruct k1, k2; try exact I; try reflexivity; try discriminate E. cbn [structure_error_text] in E. rewrite <- !app_assoc in E.
    apply app_inv_head in E. apply number_front in E as (-> & _); [reflexivity|apply no_digit; first [left; reflexivity|right; reflexivity]..].
  - apply number_front in E as (-> & _); [reflexivity|apply no_digit; first [left; reflexivity|right; reflexivity]..].
  - apply (span_eq (fun c => c <> 0x27)) in E as (-> & _); auto using number_unquoted.
Qed.

Lemma plain_no_quote n : plain_name n -> Forall (fun c => c <> 0x22) n.
Proof. apply Forall_impl. intros c H. apply H. Qed.
Lemma error_inj io1 io2 e1 e2 : proper_error e1 -> proper_error e2 -> plain_error e1 -> plain_error e2 -> error_text io1 e1 = error_text io2 e2 -> e1 = e2.
Proof.
  intros P1 P2 [L1 Q1] [L2 Q2] E. pose proof (error_problem _ _ _ _ P1 P2 E) as S.
  assert (Hl : forall p1 p2, plain_location (location_of p1) -> plain_location (location_of p2) -> location_text (location_of p1) = location_text (location_of p2) -> p1 = p2)
    by (intros p1 p2 H1 H2 H; apply position_inj, location_inj; assumption).
  destruct e1 as [k1 l1|x1 a1 l1|k1 l1|d1 l1|n1 l1|i1 l1], e2 as [k2 l2|x2 a2 l2|k2 l2|d2 l2|n2 l2|i2 l2]; cbn [same_problem] in S; try contradiction;
    cbn [error_text error_location] in *.
  - subst k2. do 3 apply app_inv_head in E. f_equal. auto.
  - destruct S as [-> ->]. do 5 apply app_inv_head in E. f_equal. auto.
  - assert (Hk : k1 = k2).
    { destruct k1 as [i1|n1| |], k2 as [i2|n2| |]; try exact S. f_equal. cbn [structure_error_text] in E. apply app_inv_head in E. rewrite <- !app_assoc in E.
      apply app_inv_head in E. apply (span_eq (fun c => c <> 0x22)) in E as (H & _); auto using plain_no_quote. }
    subst k2. do 3 apply app_inv_head in E. f_equal. auto.
  - subst d2. do 3 apply app_inv_head in E. f_equal. auto.
  - subst n2. do 3 apply app_inv_head in E. f_equal. auto.
Qed.
