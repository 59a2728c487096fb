(** * Specification for the texts of positions and errors (C56) *)

From Verif Require Import Base Utf8Model SpecNumber SourceModel ReaderModel DisplayModel.

(** A member name without the characters which have a meaning in a path, and
    without quotes *)
Definition plain_name (n : str) : Prop := Forall (fun c => c <> 0x2E /\ c <> 0x5B /\ c <> 0x22) n.
Definition plain_path (p : list piece) : Prop :=
  Forall (fun x => match x with PName n => plain_name n | PIndex _ => True end) p.
Definition plain_location (l : location) : Prop :=
  match l_path l with Some p => plain_path p | None => True end.

Definition error_location (e : reader_error) : position :=
  match e with
  | ESyntax _ l | EUnexpectedType _ _ l | EUnexpectedStructure _ l | EMaxNestingDepth _ l
  | EUnsupportedNumber _ l | EIo _ l => l
  end.

(** Two errors describe the same problem: everything but the location, the text
    of an IO error, and the name of a missing member *)
Definition same_problem (e1 e2 : reader_error) : Prop :=
  match e1, e2 with
  | ESyntax k1 _, ESyntax k2 _ => k1 = k2
  | EUnexpectedType x1 a1 _, EUnexpectedType x2 a2 _ => x1 = x2 /\ a1 = a2
  | EUnexpectedStructure k1 _, EUnexpectedStructure k2 _ =>
    match k1, k2 with
    | MissingObjectMember _, MissingObjectMember _ => True
    | _, _ => k1 = k2
    end
  | EMaxNestingDepth d1 _, EMaxNestingDepth d2 _ => d1 = d2
  | EUnsupportedNumber n1 _, EUnsupportedNumber n2 _ => n1 = n2
  | EIo _ _, EIo _ _ => True
  | _, _ => False
  end.

(** The same line, column and byte *)
Definition same_place (p1 p2 : position) : Prop :=
  p_line p1 = p_line p2 /\ p_column p1 = p_column p2 /\ p_byte p1 = p_byte p2.

(** What the reader guarantees: an unsupported number is the text of a number
    (ASCII characters, which are equal to their bytes) *)
Definition proper_error (e : reader_error) : Prop :=
  match e with EUnsupportedNumber n _ => number_text n | _ => True end.
(** No IO error, and names without special characters *)
Definition plain_error (e : reader_error) : Prop :=
  plain_location (location_of (error_location e)) /\
  match e with
  | EUnexpectedStructure (MissingObjectMember n) _ => plain_name n
  | EIo _ _ => False
  | _ => True
  end.
