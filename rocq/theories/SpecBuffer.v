(** * Specification of the buffering of the writer (C54)

    The text of a document under construction, and the behaviour of sinks with
    respect to the number of [write] calls. *)

From Verif Require Import Base Utf8Model SpecJson WriterModel SpecWriter.

(** ** The text of the document so far *)

(** The items of an array, the members of an object, at the given level *)
Fixpoint items_text (cfg : wsettings) (level : nat) (first : bool) (items : list json) : bytes :=
  match items with
  | [] => []
  | x :: items' => before_element cfg first level ++ layout cfg level x ++ items_text cfg level false items'
  end.
Fixpoint members_text (cfg : wsettings) (level : nat) (first : bool) (ms : list (str * json)) : bytes :=
  match ms with
  | [] => []
  | (n, x) :: ms' =>
    before_element cfg first level ++ string_text cfg n ++ colon cfg ++ layout cfg level x
      ++ members_text cfg level false ms'
  end.

(** What precedes the next value, in the innermost open container *)
Definition before_next_value (cfg : wsettings) (top : list json) (open : list open_container) : bytes :=
  match open with
  | [] => if is_nil top then [] else separator cfg
  | OpenArr items :: outer => before_element cfg (is_nil items) (S (length outer))
  | OpenObj _ _ :: _ => []
  end.

(** Finished top-level values, and open containers (innermost first) without
    their end *)
Fixpoint open_text_so_far (cfg : wsettings) (top : list json) (open : list open_container) : bytes :=
  match open with
  | [] => documents_layout cfg top
  | c :: outer =>
    open_text_so_far cfg top outer ++ before_next_value cfg top outer ++
    match c with
    | OpenArr items => [0x5B] ++ items_text cfg (S (length outer)) true items
    | OpenObj ms pending =>
      [0x7B] ++ members_text cfg (S (length outer)) true ms ++
      match pending with
      | None => []
      | Some n => before_element cfg (is_nil ms) (S (length outer)) ++ string_text cfg n ++ colon cfg
      end
    end
  end.

(** [s] are the complete characters of [acc]: what is left is shorter than a
    character and does not begin with one *)
Definition complete_chars (acc : bytes) (s : str) : Prop :=
  Forall is_char s /\
  exists tail, acc = encode_utf8 s ++ tail /\ (length tail <= 3)%nat /\
    forall c r, is_char c -> tail <> encode_char c ++ r.

(** The text of the document so far; of a string value which is being written,
    the characters which are complete *)
Definition text_so_far (cfg : wsettings) (d : wdoc) (t : bytes) : Prop :=
  match d_string d with
  | None => t = open_text_so_far cfg (d_top d) (d_open d)
  | Some acc => exists s, complete_chars acc s /\
      t = open_text_so_far cfg (d_top d) (d_open d) ++ before_next_value cfg (d_top d) (d_open d)
          ++ [0x22] ++ string_content cfg s
  end.

(** ** Sinks *)

(** A sink which accepts everything, up to 1024 bytes, in each of the next [n]
    calls of [write] *)
Definition counting_sink (n : nat) : sink := Sink [] (repeat (SAccept 1024) n) [] 0.
(** How often [write] was called (if that is less than [n]) *)
Definition write_calls (n : nat) (s : sink) : nat := n - length (write_resps s).

(** The number of [flush] calls of the program *)
Definition is_flush (c : wcall) : bool := match c with CFlush => true | _ => false end.
Definition flush_calls (cs : list wcall) : nat := length (filter is_flush cs).
