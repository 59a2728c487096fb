(** * Proofs of the property theorems about the texts of errors of copying, serializing and deserializing *)

From Coq Require Import String.
From Verif Require Import Base Utf8Model SpecNumber WriterModel SourceModel ReaderModel DisplayModel SpecDisplay DisplayProofs ErrorTextModel.
From Verif Require TransferModel SerModel DeModel.
Local Open Scope list_scope.


Lemma C66_transfer_error_text_holds : forall (F : Type) (io1 io2 : io_error -> str) (wt1 wt2 : F -> str) (e1 e2 : TransferModel.transfer_error F),
  transfer_error_text io1 wt1 e1 = transfer_error_text io2 wt2 e2 ->
  match e1, e2 with
  | inl r1, inl r2 =>
    same_place (error_location r1) (error_location r2) /\ (proper_error r1 -> proper_error r2 -> same_problem r1 r2)
  | inr w1, inr w2 => wt1 w1 = wt2 w2
  | _, _ => False
  end.
Proof.
  intros F io1 io2 wt1 wt2 [r1|w1] [r2|w2] E; cbn [transfer_error_text] in E; try discriminate E; apply app_inv_head in E.
  - split; [exact (error_place _ _ _ _ E)|]. intros P1 P2. exact (error_problem _ _ _ _ P1 P2 E).
  - exact E.
Qed.

Lemma C66_serializer_error_text_holds : forall (c1 c2 : N -> str) (wt1 wt2 : werr -> str) (m1 m2 : str) (e1 e2 : SerModel.serr),
  (forall n, e1 <> SerModel.SeCustom n) -> (forall n, e2 <> SerModel.SeCustom n) ->
  serializer_error_text c1 wt1 m1 e1 = serializer_error_text c2 wt2 m2 e2 ->
  match e1, e2 with
  | SerModel.SeIo w1, SerModel.SeIo w2 => wt1 w1 = wt2 w2
  | SerModel.SeInvalidNumber, SerModel.SeInvalidNumber => m1 = m2
  | _, _ => e1 = e2
  end.
Proof.
  intros c1 c2 wt1 wt2 m1 m2 e1 e2 N1 N2 E.
  destruct e1 as [n1|w1| |x1 a1|]; [destruct (N1 n1 eq_refl)|..];
    (destruct e2 as [n2|w2| |x2 a2|]; [destruct (N2 n2 eq_refl)|..]); cbn [serializer_error_text] in E;
    try discriminate E; try (apply app_inv_head in E); try exact E; try reflexivity.
  apply number_front in E as (-> & _ & E); [|apply no_digit; left; reflexivity..].
  injection E as E. apply number_inj in E as ->. reflexivity.
Qed.

Lemma C66_custom_text_refuted_holds : forall (wt : werr -> str) (m : str) (e : SerModel.serr),
  exists c : N -> str, serializer_error_text c wt m (SerModel.SeCustom 0) = serializer_error_text c wt m e.
Proof.
  intros wt m e. exists (fun _ => serializer_error_text (fun _ => []) wt m e). destruct e; reflexivity.
Qed.

Lemma C66_deserializer_error_text_holds : forall (io1 io2 : io_error -> str) (c1 c2 : DeModel.derr -> str) (m1 m2 : str) (e1 e2 : DeModel.derr),
  (exists d, e1 = DeModel.DeMaxNesting d) \/ (exists r, e1 = DeModel.DeReader r) ->
  (exists d, e2 = DeModel.DeMaxNesting d) \/ (exists r, e2 = DeModel.DeReader r) ->
  deserializer_error_text io1 c1 m1 e1 = deserializer_error_text io2 c2 m2 e2 ->
  match e1, e2 with
  | DeModel.DeReader r1, DeModel.DeReader r2 =>
    same_place (error_location r1) (error_location r2) /\ (proper_error r1 -> proper_error r2 -> same_problem r1 r2)
  | _, _ => e1 = e2
  end.
Proof.
  assert (H : forall io r d, error_text io r <> text "maximum nesting depth " ++ nat_to_string d ++ text " exceeded").
  { intros io r d E.
    assert (L : exists s, error_text io r = s ++ [0x29]).
    { assert (P : exists s, error_text io r = s ++ location_text (location_of (error_location r)))
        by (destruct r; cbn [error_text error_location]; rewrite ?app_assoc; eexists; reflexivity).
      destruct P as (s & ->). rewrite location_split. cbn [end_part location_of l_line_pos l_data_pos]. rewrite !app_assoc.
      eexists. reflexivity. }
    destruct L as (s & L). rewrite L in E. change (text " exceeded") with (text " exceede" ++ [0x64]) in E. rewrite !app_assoc in E.
    apply last_eq in E. discriminate E. }
  intros io1 io2 c1 c2 m1 m2 e1 e2 [(d1 & ->)|(r1 & ->)] [(d2 & ->)|(r2 & ->)] E; cbn [deserializer_error_text] in E.
  - apply app_inv_head in E. apply number_front in E as (-> & _); [reflexivity|apply no_digit; left; reflexivity..].
  - symmetry in E. destruct (H _ _ _ E).
  - destruct (H _ _ _ E).
  - split; [exact (error_place _ _ _ _ E)|]. intros P1 P2. exact (error_problem _ _ _ _ P1 P2 E).
Qed.
