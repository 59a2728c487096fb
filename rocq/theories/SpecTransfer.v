(** * Specification: copying a value to a writer *)

From Verif Require Import Base Utf8Model SpecNumber SpecJson SourceModel ReaderModel TransferModel.

(** [copies v ps]: the calls [ps] write the value [v].  The text of a string is
    written in any number of parts. *)
Inductive copies : json -> list put -> Prop :=
| CopyNull : copies JNull [PutNull]
| CopyBool b : copies (JBool b) [PutBool b]
| CopyNumber t : copies (JNum t) [PutNumber t]
| CopyString s parts : concat parts = s ->
    copies (JStr s) ([PutStringWriter] ++ map PutWriteStr parts ++ [PutFinishValue])
| CopyArray items ps : copies_items items ps ->
    copies (JArr items) ([PutBeginArray] ++ ps ++ [PutEndArray])
| CopyObject ms ps : copies_members ms ps ->
    copies (JObj ms) ([PutBeginObject] ++ ps ++ [PutEndObject])
with copies_items : list json -> list put -> Prop :=
| CopyNoItem : copies_items [] []
| CopyItem v ps items qs : copies v ps -> copies_items items qs -> copies_items (v :: items) (ps ++ qs)
with copies_members : list (str * json) -> list put -> Prop :=
| CopyNoMember : copies_members [] []
| CopyMember n v ps ms qs : copies v ps -> copies_members ms qs ->
    copies_members ((n, v) :: ms) ([PutName n] ++ ps ++ qs).

(** Makes the calls one after the other, up to the first which does not
    succeed *)
Fixpoint feed {F W : Type} (h : handler F W) (ps : list put) (w : W) : res F unit * W :=
  match ps with
  | [] => (Ok tt, w)
  | p :: ps' =>
    match h p w with
    | (Ok _, w') => feed h ps' w'
    | (r, w') => (r, w')
    end
  end.

(** How [transfer_to] ends if the calls of the writer end with [r] *)
Definition transferred {F : Type} (r : res F unit) : res (transfer_error F) unit :=
  match r with
  | Ok _ => Ok tt
  | Err e => Err (inr e)
  | Panic k => Panic k
  | OutOfFuel => OutOfFuel
  end.
