(** * Code which uses a [JsonWriter]

    Used for the simple writer API and for the serde serializer, which use a
    [JsonWriter] only through its API: programs which make calls of
    [WriterModel.wcall] and continue with their results. *)

From Verif Require Import Base WriterModel.

(** How code ends which uses the writer.  That a method returns [Err] is a normal
    end here.  [EInvalid] is a result which the called method cannot have (see
    [RInexpressible]); [EFuel] does not occur for a [JsonStreamWriter]. *)
Inductive wend (A : Type) : Type :=
| ERet (a : A)
| EPanic (k : panic)
| EFuel
| EInvalid.
Arguments ERet {A} a.
Arguments EPanic {A} k.
Arguments EFuel {A}.
Arguments EInvalid {A}.

(** Code which makes calls of the methods of the writer, except [finish_document] *)
Inductive prog (A : Type) : Type :=
| PDone (a : A)
| PCall (c : wcall) (k : wresult -> prog A).
Arguments PDone {A} a.
Arguments PCall {A} c k.

Fixpoint pbind {A B : Type} (m : prog A) (f : A -> prog B) : prog B :=
  match m with
  | PDone a => f a
  | PCall c k => PCall c (fun r => pbind (k r) f)
  end.

(** The methods whose error type is [JsonNumberError]: [fp_number_value] and
    [number_value_from_string], src/writer/mod.rs:393, 460 *)
Definition number_method (c : wcall) : bool :=
  match c with CFloat _ | CNumberFromString _ => true | _ => false end.
