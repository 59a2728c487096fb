(** * Model of src/json_number.rs *)

From Verif Require Import Base Utf8Model.

(** [consume_json_number] is generic over a [NumberBytesProvider]
    (src/json_number.rs:3-8), which is only used to ask for the next byte.
    A [nprog] is the resulting interaction: [NNext k] is a call of
    [consume_current_peek_next] (consume the current byte, peek at the next
    one, [None] at the end of the input), [NRet] the returned value, where
    [None] stands for "invalid number" and [Some n] for a valid number whose
    exponent has [n] digits without leading zeros.  [NFuel] marks exhausted
    fuel.  Errors of the provider end the call with that error ([?] operator),
    so they need no constructor here.
    Simplification: the exponent digits counter is unbounded ([u32] in Rust). *)
Inductive nprog : Type :=
| NRet (r : option N)
| NNext (k : option byte -> nprog)
| NFuel.

(** The two loops which consume digits, src/json_number.rs:30-41 and 68-79;
    [k] continues with the first byte that is not a digit. *)
Fixpoint digits_loop (fuel : nat) (k : byte -> nprog) : nprog :=
  match fuel with
  | O => NFuel
  | S f => NNext (fun ob =>
      match ob with
      | None => NRet (Some 0)
      | Some b => if is_digit b then digits_loop f k else k b
      end)
  end.

(** src/json_number.rs:109-125 *)
Fixpoint exponent_loop (fuel : nat) (count : N) (k : byte -> N -> nprog) : nprog :=
  match fuel with
  | O => NFuel
  | S f => NNext (fun ob =>
      match ob with
      | None => NRet (Some count)
      | Some b =>
        if is_digit b then
          if negb (b =? B_0) || (0 <? count)
          then exponent_loop f (count + 1) k
          else exponent_loop f count k
        else k b count
      end)
  end.

(** src/json_number.rs:128-135: the byte after the number *)
Definition number_end (b : byte) (count : N) : nprog :=
  if is_digit b || (b =? B_MINUS) || (b =? B_PLUS) || (b =? B_DOT) || (b =? B_e) || (b =? B_E)
  then NRet None
  else NRet (Some count).

(** src/json_number.rs:82-126: exponent part *)
Definition exponent_digits (fuel : nat) (b : byte) : nprog :=
  if is_digit19 b then exponent_loop fuel 1 number_end
  else if negb (b =? B_0) then NRet None
  else exponent_loop fuel 0 number_end.

Definition exponent_part (fuel : nat) (b : byte) : nprog :=
  if (b =? B_e) || (b =? B_E) then
    NNext (fun ob =>
      match ob with
      | None => NRet None
      | Some b =>
        if (b =? B_MINUS) || (b =? B_PLUS) then
          NNext (fun ob =>
            match ob with
            | None => NRet None
            | Some b => exponent_digits fuel b
            end)
        else exponent_digits fuel b
      end)
  else number_end b 0.

(** src/json_number.rs:54-80: fraction part *)
Definition fraction_part (fuel : nat) (b : byte) : nprog :=
  if b =? B_DOT then
    NNext (fun ob =>
      match ob with
      | None => NRet None
      | Some b =>
        if negb (is_digit b) then NRet None
        else digits_loop fuel (exponent_part fuel)
      end)
  else exponent_part fuel b.

(** src/json_number.rs:28-52: integer part *)
Definition integer_part (fuel : nat) (b : byte) : nprog :=
  if is_digit19 b then digits_loop fuel (fraction_part fuel)
  else if b =? B_0 then
    NNext (fun ob =>
      match ob with
      | None => NRet (Some 0)
      | Some b => fraction_part fuel b
      end)
  else NRet None.

(** src/json_number.rs:13-136 *)
Definition consume_json_number (fuel : nat) (first_byte : byte) : nprog :=
  if first_byte =? B_MINUS then
    NNext (fun ob =>
      match ob with
      | None => NRet None
      | Some b => integer_part fuel b
      end)
  else integer_part fuel first_byte.

(** Outcome of running a [nprog] *)
Inductive nres : Type :=
| NDone (r : option N) (index : nat)
| NOutOfFuel.

(** [BytesSliceNumberBytesProvider], src/json_number.rs:138-151: [index] is
    advanced, the byte at the new [index] is returned if there is one. *)
Fixpoint nrun_slice (p : nprog) (value : bytes) (index : nat) : nres :=
  match p with
  | NRet r => NDone r index
  | NNext k => nrun_slice (k (nth_error value (S index))) value (S index)
  | NFuel => NOutOfFuel
  end.

(** [is_valid_json_number], src/json_number.rs:153-170.  The fuel is the length
    of the string, which the loops never exhaust (see [NumberProofs]). *)
Definition is_valid_json_number (value : str) : bool :=
  match encode_utf8 value with
  | [] => false
  | (b0 :: _) as value_bytes =>
    match nrun_slice (consume_json_number (length value_bytes) b0) value_bytes 0 with
    | NDone (Some _) index => Nat.leb (length value_bytes) index
    | NDone None _ => false
    | NOutOfFuel => false
    end
  end.
