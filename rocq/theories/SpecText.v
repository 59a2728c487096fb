(** * Specification: positions in the input, and the text a call consumes *)

From Verif Require Import Base Utf8Model SpecNumber SpecJson SourceModel ReaderModel.

(** ** Positions *)

(** Line and column behind the given characters, both starting at 0: CR, LF and
    CR LF end a line, and every other character is one column. *)
Fixpoint line_and_column (cs : str) (l c : N) : N * N :=
  match cs with
  | [] => (l, c)
  | x :: cs' =>
    if x =? 0x0A then line_and_column cs' (l + 1) 0
    else if x =? 0x0D then
      match cs' with
      | y :: cs2 => if y =? 0x0A then line_and_column cs2 (l + 1) 0 else line_and_column cs' (l + 1) 0
      | [] => (l + 1, 0)
      end
    else line_and_column cs' l (c + 1)
  end.

(** [p] is the position directly behind the text [t], which is the start of the
    input.  The number of bytes is exact, and so is the number of characters. *)
Definition is_behind (p : position) (t : bytes) : Prop :=
  p_byte p = N.of_nat (length t) /\
  exists cs, t = encode_utf8 cs /\ Forall is_char cs /\ (p_line p, p_column p) = line_and_column cs 0 0.

(** The location in an error *)
Definition error_position (e : reader_error) : position :=
  match e with
  | ESyntax _ p | EUnexpectedType _ _ p | EUnexpectedStructure _ p | EMaxNestingDepth _ p | EUnsupportedNumber _ p | EIo _ p => p
  end.

(** ** The text of calls *)

(** What is skipped before an element: whitespace and comments, around at most
    one comma or colon *)
Definition gap_text (sx : syntax) (w : bytes) : Prop :=
  ws_text sx w \/
  exists w1 b w2, w = w1 ++ b :: w2 /\ ws_text sx w1 /\ ws_text sx w2 /\ (b = 0x2C \/ b = 0x3A).

(** The text [t] of the element for which a call is made, if the call returns
    [v].  [peek] and [has_next] only skip what is before it. *)
Definition element_text (c : rcall) (v : rvalue) (t : bytes) : Prop :=
  match c, v with
  | CPeek, RType _ => t = []
  | CHasNext, RBool _ => t = []
  | CBeginArray, RUnit => t = [0x5B]
  | CEndArray, RUnit => t = [0x5D]
  | CBeginObject, RUnit => t = [0x7B]
  | CEndObject, RUnit => t = [0x7D]
  | (CNextName | CNextNameOwned), RStr n => quoted t n
  | CSkipName, RUnit => exists n, quoted t n
  | (CNextString | CNextStr), RStr x => quoted t x
  | CNextStringReader, RUnit => t = [0x22]
  | (CNextNumberStr | CNextNumberString), RStr x => t = x /\ number_text t
  | CNextBool, RBool true => t = [0x74; 0x72; 0x75; 0x65]
  | CNextBool, RBool false => t = [0x66; 0x61; 0x6C; 0x73; 0x65]
  | CNextNull, RUnit => t = [0x6E; 0x75; 0x6C; 0x6C]
  | _, _ => False
  end.

(** The calls for which [element_text] is defined *)
Definition has_element (c : rcall) : bool :=
  match c with
  | CPeek | CHasNext | CBeginArray | CEndArray | CBeginObject | CEndObject | CNextName | CNextNameOwned | CSkipName
  | CNextString | CNextStr | CNextStringReader | CNextNumberStr | CNextNumberString | CNextBool | CNextNull => true
  | _ => false
  end.
