(** * Reading and converting integers

    [JsonReader::next_number] for the integer types, and the conversions of
    [FiniteNumber].  [usize] and [isize] are like [u64] and [i64] (or [u32] and
    [i32]), depending on the platform. *)

From Verif Require Import Base SourceModel ReaderModel DeModel.

(** A call of a client: one of the other methods, or [next_number::<T>()] *)
Inductive icall : Type :=
| IRead (c : rcall)
| INextNumber (t : int_type).

(** What a call returns: [IParsed] is [Ok] of the result of parsing, which is
    [None] if that is an error *)
Inductive ioutcome : Type :=
| IOut (o : outcome)
| IParsed (r : option Z).

(** [next_number], src/reader/mod.rs:1162-1164: calls [next_number_as_str] ... *)
Definition reader_call (c : icall) : rcall :=
  match c with IRead c => c | INextNumber _ => CNextNumberStr end.
(** ... and parses its result *)
Definition parse_result (c : icall) (o : outcome) : ioutcome :=
  match c, o with
  | INextNumber t, OOk (RStr text) => IParsed (parse_int t text)
  | _, _ => IOut o
  end.

(** A client program run on a reader *)
Definition integer_session (s : settings) (evs : list event) (cs : list icall) : list ioutcome :=
  map (fun co => parse_result (fst co) (snd co)) (combine cs (read_session s evs (map reader_call cs))).

(** [as_u64], src/writer/mod.rs:740-744: [try_into] *)
Definition as_u64 (z : Z) : option Z := if in_range U64 z then Some z else None.
(** [as_i64], src/writer/mod.rs:746-750 *)
Definition as_i64 (z : Z) : option Z := if in_range I64 z then Some z else None.
