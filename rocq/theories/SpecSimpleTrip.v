(** * Specification: a program which reads any JSON data with the simple reader API

    This is an example of code which uses the API, not a part of struson: it reads a
    value of unknown type by asking for the type of each value first, and builds the
    tree of the data. *)

From Verif Require Import Base SpecJson ReaderModel SimpleModel.

(** The tree for what the method for the type [t] has returned *)
Definition tree_value (t : value_type) (x : reply json) : json :=
  match t, x with
  | TBoolean, VBool b => JBool b
  | TString, VStr s => JStr s
  | TNumber, VStr n => JNum n
  | TArray, VResult v | TObject, VResult v => v
  | _, _ => JNull
  end.

Definition add_item (acc v : json) : json :=
  match acc with JArr items => JArr (items ++ [v]) | _ => acc end.
Definition add_member (n : str) (acc v : json) : json :=
  match acc with JObj ms => JObj (ms ++ [(n, v)]) | _ => acc end.

(** A closure which peeks at the type of the value, reads it with the method [read]
    for this type, and ends with [add] of its tree *)
Definition tree_body (read : value_type -> op json) (add : json -> json) : body json :=
  BPeek (fun t =>
    match t with
    | inl e => BDone (inl e)
    | inr t => BRead (read t) (fun x =>
        match x with
        | inl e => BDone (inl e)
        | inr x => BDone (inr (add (tree_value t x)))
        end)
    end).

(** The method for a value of type [t]; containers which are nested deeper than [depth]
    are skipped *)
Fixpoint tree_op (depth : nat) (t : value_type) : op json :=
  match t with
  | TNull => OpNull
  | TBoolean => OpBool
  | TString => OpString
  | TNumber => OpNumber
  | TArray =>
    match depth with
    | O => OpSkip
    | S depth' => OpItems (fun acc => tree_body (tree_op depth') (add_item acc)) (JArr [])
    end
  | TObject =>
    match depth with
    | O => OpSkip
    | S depth' => OpMembersOwned (fun n acc => tree_body (tree_op depth') (add_member n acc)) (JObj [])
    end
  end.

(** The complete program; [read_seeked] with the empty path passes the top-level value
    to the closure *)
Definition read_tree (depth : nat) : use json :=
  URead (OpSeeked [] (tree_body (tree_op depth) (fun v => v))).
