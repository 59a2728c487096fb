(** * Specification of the bounds of the reported positions (C51)

    The reader counts lines, columns, bytes and array items with integers of a
    fixed size, the model with unbounded ones.  They agree as long as the
    numbers are small enough. *)

From Verif Require Import Base SourceModel ReaderModel SpecText.

(** The position which a call reports, if any *)
Definition reported_position (o : outcome) : option position :=
  match o with
  | OOk (RPos p) => Some p
  | OErr e | OReadErr (SvError e) => Some (error_position e)
  | _ => None
  end.

(** The number of containers on a path plus the number of items which precede
    it in its arrays *)
Fixpoint path_size (path : list piece) : N :=
  match path with
  | [] => 0
  | PIndex i :: p => (i + 1) + path_size p
  | PName _ :: p => 1 + path_size p
  end.
