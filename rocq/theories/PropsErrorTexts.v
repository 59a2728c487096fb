(** * Properties of the texts of errors of copying, serializing and deserializing (C66) *)

From Coq Require Import String.
From Verif Require Import Base Utf8Model SpecNumber WriterModel SourceModel ReaderModel DisplayModel SpecDisplay ErrorTextModel ErrorTextFinal.
From Verif Require TransferModel SerModel DeModel.
Local Open Scope list_scope.


(** C66: the text of an error of copying tells whether the reader or the writer has failed, and for the reader what the
  problem is and where it is; the texts of the writer's errors are kept. *)
Theorem C66_transfer_error_text : forall (F : Type) (io1 io2 : io_error -> str) (wt1 wt2 : F -> str) (e1 e2 : TransferModel.transfer_error F),
  transfer_error_text io1 wt1 e1 = transfer_error_text io2 wt2 e2 ->
  match e1, e2 with
  | inl r1, inl r2 =>
    same_place (error_location r1) (error_location r2) /\ (proper_error r1 -> proper_error r2 -> same_problem r1 r2)
  | inr w1, inr w2 => wt1 w1 = wt2 w2
  | _, _ => False
  end.
Proof. exact C66_transfer_error_text_holds. Qed.
Print Assumptions C66_transfer_error_text.
Example C66_transfer_case :
  let e := ESyntax MalformedJson (Position (Some [PIndex 0]) 0 1 1) in
  transfer_error_text (fun _ => []) (fun w : str => w) (inl e) =
    text "reader error: syntax error: JSON syntax error MalformedJson at path '$[0]', line 0, column 1 (data pos 1)" /\
  transfer_error_text (fun _ => []) (fun w : str => w) (inr (text "reader error: x")) = text "writer error: reader error: x".
Proof. split; vm_compute; reflexivity. Qed.


(** The text of an error of the serializer, unless it is custom, tells its kind and both counts, whatever the messages contain. *)
Theorem C66_serializer_error_text : forall (c1 c2 : N -> str) (wt1 wt2 : werr -> str) (m1 m2 : str) (e1 e2 : SerModel.serr),
  (forall n, e1 <> SerModel.SeCustom n) -> (forall n, e2 <> SerModel.SeCustom n) ->
  serializer_error_text c1 wt1 m1 e1 = serializer_error_text c2 wt2 m2 e2 ->
  match e1, e2 with
  | SerModel.SeIo w1, SerModel.SeIo w2 => wt1 w1 = wt2 w2
  | SerModel.SeInvalidNumber, SerModel.SeInvalidNumber => m1 = m2
  | _, _ => e1 = e2
  end.
Proof. exact C66_serializer_error_text_holds. Qed.
Print Assumptions C66_serializer_error_text.
Example C66_serializer_case :
  serializer_error_text (fun _ => []) (fun _ => []) [] (SerModel.SeCount 12 3) = text "incorrect elements count, expected 12 but got 3" /\
  serializer_error_text (fun _ => []) (fun _ => text "invalid number: x") [] (SerModel.SeIo WWriteZero) = text "IO error: invalid number: x".
Proof. split; vm_compute; reflexivity. Qed.


(** Custom messages are used as they are, so a custom error can have the text of every other error. *)
Theorem C66_custom_text_refuted : forall (wt : werr -> str) (m : str) (e : SerModel.serr),
  exists c : N -> str, serializer_error_text c wt m (SerModel.SeCustom 0) = serializer_error_text c wt m e.
Proof. exact C66_custom_text_refuted_holds. Qed.
Print Assumptions C66_custom_text_refuted.
Example C66_custom_case :
  serializer_error_text (fun _ => text "map key cannot be converted to string") (fun _ => []) [] (SerModel.SeCustom 0) =
  serializer_error_text (fun _ => []) (fun _ => []) [] SerModel.SeKeyNotString.
Proof. reflexivity. Qed.


(** Among the errors of the deserializer which are its own nesting limit or come from the reader, the text tells which of the
  two it is (the reader has a nesting limit of its own, with a similar text), the limit, and the problem and the place of
  the reader's error. *)
Theorem C66_deserializer_error_text : forall (io1 io2 : io_error -> str) (c1 c2 : DeModel.derr -> str) (m1 m2 : str) (e1 e2 : DeModel.derr),
  (exists d, e1 = DeModel.DeMaxNesting d) \/ (exists r, e1 = DeModel.DeReader r) ->
  (exists d, e2 = DeModel.DeMaxNesting d) \/ (exists r, e2 = DeModel.DeReader r) ->
  deserializer_error_text io1 c1 m1 e1 = deserializer_error_text io2 c2 m2 e2 ->
  match e1, e2 with
  | DeModel.DeReader r1, DeModel.DeReader r2 =>
    same_place (error_location r1) (error_location r2) /\ (proper_error r1 -> proper_error r2 -> same_problem r1 r2)
  | _, _ => e1 = e2
  end.
Proof. exact C66_deserializer_error_text_holds. Qed.
Print Assumptions C66_deserializer_error_text.
Example C66_deserializer_case :
  deserializer_error_text (fun _ => []) (fun _ => []) [] (DeModel.DeMaxNesting 128) = text "maximum nesting depth 128 exceeded" /\
  deserializer_error_text (fun _ => []) (fun _ => []) [] (DeModel.DeReader (EMaxNestingDepth 128 (Position None 0 128 128))) =
    text "maximum nesting depth 128 exceeded at line 0, column 128 (data pos 128)".
Proof. split; vm_compute; reflexivity. Qed.

