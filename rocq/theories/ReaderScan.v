(** * Pure scanners for the lexical elements

    Auxiliary functions of the proofs: what the lexical functions of the reader
    do, as functions of the bytes still to be read.  [ReaderLex] shows that the
    model agrees with them, [ReaderGrammar] relates them to the grammar. *)

From Verif Require Import Base Utf8Model NumberModel SourceModel ReaderModel.

Inductive sres (A : Type) : Type :=
| SOk (a : A)
| SFail
| SFuel.
Arguments SOk {A} a.
Arguments SFail {A}.
Arguments SFuel {A}.

Definition is_eof (t : tail_end) : bool := match t with TEof => true | TErr _ => false end.
Definition eof_ok (k : option syntax_error) : bool := match k with None => true | Some _ => false end.

(** ** Positions *)

(** Line, column, byte, and whether the last byte was a CR *)
Definition pstep (p : N * N * N * bool) (x : byte) : N * N * N * bool :=
  let '(l, c, b, cr) := p in
  if x =? B_LF then (if cr : bool then (l, c, b + 1, false) else (l + 1, 0, b + 1, false))
  else if x =? B_CR then (l + 1, 0, b + 1, true)
  else if is_continuation x then (l, c, b + 1, false)
  else (l, c + 1, b + 1, false).

Definition at_pos (p : N * N * N * bool) (s : rstate) : rstate :=
  let '(l, c, b, _) := p in set_position l c b s.

Definition movecr (cr : bool) (w : bytes) (s : rstate) : rstate :=
  at_pos (fold_left pstep w (line s, column s, byte_pos s, cr)) s.
Definition move (w : bytes) (s : rstate) : rstate := movecr false w s.

Definition last_cr (cr : bool) (w : bytes) : bool := fold_left (fun _ x => x =? B_CR) w cr.

(** ** UTF-8 *)

Definition take_multi (b0 : byte) (r : bytes) : option (bytes * bytes) :=
  match r with
  | [] => None
  | b1 :: r1 =>
    if negb (is_continuation b1) then None
    else if is_2byte_start b0 then
      if negb (is_valid_2bytes b0 b1) then None else Some ([b0; b1], r1)
    else
      match r1 with
      | [] => None
      | b2 :: r2 =>
        if negb (is_continuation b2) then None
        else if is_3byte_start b0 then
          if negb (is_valid_3bytes b0 b1 b2) then None else Some ([b0; b1; b2], r2)
        else if is_4byte_start b0 then
          match r2 with
          | [] => None
          | b3 :: r3 =>
            if negb (is_continuation b3) then None
            else if negb (is_valid_4bytes b0 b1 b2 b3) then None
            else Some ([b0; b1; b2; b3], r3)
          end
        else None
      end
  end.

(** ** Whitespace *)

Definition prepend (w : bytes) (o : sres (bytes * bytes)) : sres (bytes * bytes) :=
  match o with
  | SOk (w', r) => SOk (w ++ w', r)
  | SFail => SFail
  | SFuel => SFuel
  end.

Fixpoint scan_to (f : nat) (stop : byte -> bool) (eof : bool) (r : bytes) : sres (bytes * bytes) :=
  match f with
  | O => SFuel
  | S f' =>
    match r with
    | [] => if eof then SOk ([], []) else SFail
    | b :: r' =>
      if stop b then SOk ([], r)
      else if rejected_control b then SFail
      else if is_1byte b then prepend [b] (scan_to f' stop eof r')
      else
        match take_multi b r' with
        | None => SFail
        | Some (bs, r'') => prepend bs (scan_to f' stop eof r'')
        end
    end
  end.

Definition is_break (b : byte) : bool := (b =? B_LF) || (b =? B_CR).
Definition is_star (b : byte) : bool := b =? B_STAR.
Definition not_ws (b : byte) : bool := negb (is_ws b).

Fixpoint scan_block (F f : nat) (r : bytes) : sres (bytes * bytes) :=
  match f with
  | O => SFuel
  | S f' =>
    match scan_to F is_star false r with
    | SOk (w, star :: b :: r') =>
      if b =? B_SLASH then SOk (w ++ [star; b], r')
      else prepend (w ++ [star]) (scan_block F f' (b :: r'))
    | SOk _ => SFail
    | SFail => SFail
    | SFuel => SFuel
    end
  end.

(** [eof]: the input ends without IO error; [ok]: the end of the input is
    allowed here *)
Fixpoint scan_ws (F f : nat) (com eof ok : bool) (r : bytes) : sres (bytes * bytes) :=
  match f with
  | O => SFuel
  | S f' =>
    match scan_to F not_ws eof r with
    | SFail => SFail
    | SFuel => SFuel
    | SOk (w, []) => if ok then SOk (w, []) else SFail
    | SOk (w, b :: r1) =>
      if b =? B_SLASH then
        if negb com then SFail
        else
          match r1 with
          | [] => SFail
          | b2 :: r2 =>
            if b2 =? B_STAR then
              match scan_block F F r2 with
              | SOk (w2, r3) => prepend (w ++ [b; b2] ++ w2) (scan_ws F f' com eof ok r3)
              | SFail => SFail
              | SFuel => SFuel
              end
            else if b2 =? B_SLASH then
              match scan_to F is_break (eof && ok) r2 with
              | SOk (w2, r3) => prepend (w ++ [b; b2] ++ w2) (scan_ws F f' com eof ok r3)
              | SFail => SFail
              | SFuel => SFuel
              end
            else SFail
          end
      else SOk (w, b :: r1)
    end
  end.

(** ** Literals *)

Fixpoint strip (lit r : bytes) : option bytes :=
  match lit, r with
  | [], _ => Some r
  | e :: lit', b :: r' => if b =? e then strip lit' r' else None
  | _ :: _, [] => None
  end.

(** The check of the byte behind a literal or number *)
Definition sep_ok (eof : bool) (r : bytes) : bool :=
  match r with [] => eof | b :: _ => is_value_separator b end.

(** ** Strings *)

Definition hex4_value (d1 d2 d3 d4 : N) : N :=
  N.lor d4 (N.lor (N.shiftl d3 4) (N.lor (N.shiftl d2 8) (N.shiftl d1 12))).

Definition take_hex4 (r : bytes) : option (N * bytes * bytes) :=
  match r with
  | h1 :: h2 :: h3 :: h4 :: r' =>
    match hex_digit h1, hex_digit h2, hex_digit h3, hex_digit h4 with
    | Some d1, Some d2, Some d3, Some d4 => Some (hex4_value d1 d2 d3 d4, [h1; h2; h3; h4], r')
    | _, _, _, _ => None
    end
  | _ => None
  end.

Definition take_escape (r : bytes) : option (char * bytes * bytes) :=
  match take_hex4 r with
  | None => None
  | Some (c, hs, r1) =>
    if (0xDC00 <=? c) && (c <=? 0xDFFF) then None
    else if (0xD800 <=? c) && (c <=? 0xDBFF) then
      match r1 with
      | b1 :: b2 :: r2 =>
        if negb (b1 =? B_BACKSLASH) then None
        else if negb (b2 =? B_u) then None
        else
          match take_hex4 r2 with
          | None => None
          | Some (c2, hs2, r3) =>
            if negb ((0xDC00 <=? c2) && (c2 <=? 0xDFFF)) then None
            else Some (N.lor (N.shiftl (c - 0xD800) 10) (c2 - 0xDC00) + 0x10000,
                       hs ++ [b1; b2] ++ hs2, r3)
          end
      | _ => None
      end
    else Some (c, hs, r1)
  end.

(** One element of a string: its end, or a character: its encoding, the text
    consumed, and the rest *)
Inductive unit_res : Type :=
| UEnd (r : bytes)
| UChar (bs w r : bytes)
| UFail.

Definition scan_unit (r : bytes) : unit_res :=
  match r with
  | [] => UFail
  | b :: r1 =>
    if b =? B_BACKSLASH then
      match r1 with
      | [] => UFail
      | e :: r2 =>
        if escape_literal e then UChar [e] [b; e] r2
        else
          match escape_replacement e with
          | Some x => UChar [x] [b; e] r2
          | None =>
            if e =? B_u then
              match take_escape r2 with
              | Some (c, hs, r3) => UChar (encode_char c) ([b; e] ++ hs) r3
              | None => UFail
              end
            else UFail
          end
      end
    else if b =? B_QUOTE then UEnd r1
    else if b <=? 0x1F then UFail
    else if b <=? 0x7F then UChar [b] [b] r1
    else
      match take_multi b r1 with
      | Some (bs, r2) => UChar bs bs r2
      | None => UFail
      end
  end.

(** The rest of a string: decoded bytes, consumed text, what follows *)
Fixpoint scan_string (f : nat) (r : bytes) : sres (bytes * bytes * bytes) :=
  match f with
  | O => SFuel
  | S f' =>
    match scan_unit r with
    | UFail => SFail
    | UEnd r' => SOk ([], [B_QUOTE], r')
    | UChar bs w r' =>
      match scan_string f' r' with
      | SOk (d, w', r'') => SOk (bs ++ d, w ++ w', r'')
      | SFail => SFail
      | SFuel => SFuel
      end
    end
  end.

(** ** Numbers *)

(** Result of the automaton, the consumed bytes and the rest; the head of the
    list is the current byte *)
Fixpoint scan_nprog (p : nprog) (l : bytes) : sres (option N * bytes * bytes) :=
  match p with
  | NRet r => SOk (r, [], l)
  | NNext k =>
    match l with
    | [] => SFuel
    | b :: l' =>
      match scan_nprog (k (hd_error l')) l' with
      | SOk (r, w, rest) => SOk (r, b :: w, rest)
      | SFail => SFail
      | SFuel => SFuel
      end
    end
  | NFuel => SFuel
  end.
