(** * Model of the byte level of the reader: the input buffer and the values
      collected in it

    The code of [JsonStreamReader] above this level (model: [ReaderModel]) is
    written as a [prog]: an interaction tree over the operations below.  This
    file gives the operations their meaning in terms of the fields [buf],
    [buf_pos], ... of the reader and of the [Read] implementation which supplies
    the data ([crun]), and, for the specifications, in terms of the bytes which
    are still to be read ([arun]). *)

From Verif Require Import Base Utf8Model.

(** ** Operations *)

(** Answer of a peek operation: an IO error of the underlying [Read], the end of
    the input, or the next byte. *)
Inductive peek_res : Type :=
| PkErr (e : N)
| PkEof
| PkByte (b : byte).

(** Programs over the operations:
    - [DPeek]: [peek_byte], src/reader/stream_reader.rs:515-521
    - [DSkip]: [skip_peeked_byte], 524-527
    - [DVNew]: [BytesValueReader::new], 1321-1343
    - [DVPeek]: [BytesValueReader::peek_byte_optional], 1350-1404; the error in
      case of the end of the input is created by the caller
    - [DVConsume]: [consume_peeked_byte], 1418-1422
    - [DVSkipPrev]: [skip_previous_byte], 1424-1447
    - [DVSkipFinal]: [skip_final_byte], 1449-1455
    - [DVPush]: [push_bytes], 1457-1474
    - [DVGet]: [get_bytes], 1476-1512; the returned [BytesValue] is kept in the
      state, the programs never hold more than one
    - [DVStrPeek], [DVStr], [DVString]: [get_str_peek] 1293-1306, [get_str]
      1308-1316, [get_string] 1280-1291 *)
Inductive prog (A : Type) : Type :=
| Ret (a : A)
| DPeek (k : peek_res -> prog A)
| DSkip (k : prog A)
| DVNew (k : prog A)
| DVPeek (k : peek_res -> prog A)
| DVConsume (k : prog A)
| DVSkipPrev (k : prog A)
| DVSkipFinal (k : prog A)
| DVPush (bs : bytes) (k : prog A)
| DVGet (requires_borrowed : bool) (k : prog A)
| DVStrPeek (k : str -> prog A)
| DVStr (k : str -> prog A)
| DVString (k : str -> prog A).
Arguments Ret {A} a.
Arguments DPeek {A} k.
Arguments DSkip {A} k.
Arguments DVNew {A} k.
Arguments DVPeek {A} k.
Arguments DVConsume {A} k.
Arguments DVSkipPrev {A} k.
Arguments DVSkipFinal {A} k.
Arguments DVPush {A} bs k.
Arguments DVGet {A} requires_borrowed k.
Arguments DVStrPeek {A} k.
Arguments DVStr {A} k.
Arguments DVString {A} k.

Fixpoint pbind {A B : Type} (p : prog A) (f : A -> prog B) : prog B :=
  match p with
  | Ret a => f a
  | DPeek k => DPeek (fun r => pbind (k r) f)
  | DSkip k => DSkip (pbind k f)
  | DVNew k => DVNew (pbind k f)
  | DVPeek k => DVPeek (fun r => pbind (k r) f)
  | DVConsume k => DVConsume (pbind k f)
  | DVSkipPrev k => DVSkipPrev (pbind k f)
  | DVSkipFinal k => DVSkipFinal (pbind k f)
  | DVPush bs k => DVPush bs (pbind k f)
  | DVGet b k => DVGet b (pbind k f)
  | DVStrPeek k => DVStrPeek (fun s => pbind (k s) f)
  | DVStr k => DVStr (fun s => pbind (k s) f)
  | DVString k => DVString (fun s => pbind (k s) f)
  end.

(** ** The buffer *)

(** [READER_BUF_SIZE], src/reader/stream_reader.rs:72 *)
Definition READER_BUF_SIZE : nat := N.to_nat 1024.

(** What the [Read] implementation does on successive calls of [read]: supply
    data, fail with [ErrorKind::Interrupted], or fail with another error.  When
    the list is exhausted [read] returns 0, that is, the end of the input.  If
    the supplied data does not fit in the given slice, [read] returns as much as
    fits, and the rest on the next call.  [EvData []] is a [read] which returns
    0. *)
Inductive event : Type :=
| EvData (bs : bytes)
| EvInterrupted
| EvErr (e : N).

(** [BytesValue] and [BytesRefProvider], src/reader/stream_reader.rs:1230-1263 *)
Inductive cval : Type :=
| CReaderBuf (start stop : nat)
| CValueBuf
| CVec (bs : bytes).

(** The fields of [JsonStreamReader] concerned with the input
    (src/reader/stream_reader.rs:123-137) together with the fields of the
    [BytesValueReader] which is currently in use, if any (1204-1227), and the
    [BytesValue] which it has produced.  [c_buf] holds only the filled part of
    the buffer, [buf_end_pos] is its length; the other fields are, in order,
    [buf_pos], [buf_used_for_bytes_value], [reached_eof], [value_bytes_buf],
    [is_using_bytes_buf], [buf_value_start] and [skip_final_byte]. *)
Record csrc : Type := CSrc {
  c_events : list event;
  c_buf : bytes;
  c_pos : nat;
  c_used : bool;
  c_eof : bool;
  c_vbuf : bytes;
  c_using : bool;
  c_vstart : nat;
  c_final : bool;
  c_value : option cval
}.

(** [new_custom], src/reader/stream_reader.rs:384-409 *)
Definition csrc_new (evs : list event) : csrc := CSrc evs [] 0 false false [] false 0 false None.

(** The loop which calls [read], src/reader/stream_reader.rs:483-491: the
    error or the bytes read, and what remains.  [space] is the length of the
    slice passed to [read]. *)
Fixpoint read_events (evs : list event) (space : nat) : (N + bytes) * list event :=
  match evs with
  | [] => (inr [], [])
  | EvInterrupted :: evs' => read_events evs' space
  | EvErr e :: evs' => (inl e, evs')
  | EvData bs :: evs' =>
    (inr (firstn space bs),
     if Nat.leb (length bs) space then evs' else EvData (skipn space bs) :: evs')
  end.

(** [fill_buffer], src/reader/stream_reader.rs:469-497.  [None] is a panic
    (failed [debug_assert!], or the explicit one). *)
Definition fill_buffer (start_pos : nat) (c : csrc) : option (N + bool) * csrc :=
  if c_eof c then (Some (inr false), c)
  else if negb (Nat.leb (length (c_buf c)) (c_pos c)) then (None, c)
  else if negb (Nat.ltb start_pos READER_BUF_SIZE) then (None, c)
  else if c_used c then (None, c)
  else
    match read_events (c_events c) (READER_BUF_SIZE - start_pos) with
    | (inl e, evs) =>
      (Some (inl e), CSrc evs (c_buf c) start_pos (c_used c) (c_eof c)
                          (c_vbuf c) (c_using c) (c_vstart c)
                          (c_final c) (c_value c))
    | (inr data, evs) =>
      (Some (inr (negb (Nat.eqb (length data) 0))),
       CSrc evs (firstn start_pos (c_buf c) ++ data) start_pos (c_used c)
            (Nat.eqb (length data) 0)
            (c_vbuf c) (c_using c) (c_vstart c) (c_final c) (c_value c))
    end.

(** Turns the result of [fill_buffer] into the byte at [buf_pos]: lines 515-521,
    1376-1377 and 1393-1394 *)
Definition byte_after_fill (r : option (N + bool) * csrc) : option peek_res * csrc :=
  match r with
  | (Some (inl e), c) => (Some (PkErr e), c)
  | (Some (inr false), c) => (Some PkEof, c)
  | (Some (inr true), c) =>
    match nth_error (c_buf c) (c_pos c) with
    | Some b => (Some (PkByte b), c)
    | None => (None, c)
    end
  | (None, c) => (None, c)
  end.

(** [ensure_non_empty_buffer] and [peek_byte],
    src/reader/stream_reader.rs:505-521 *)
Definition c_peek (c : csrc) : option peek_res * csrc :=
  if Nat.ltb (c_pos c) (length (c_buf c)) then
    match nth_error (c_buf c) (c_pos c) with
    | Some b => (Some (PkByte b), c)
    | None => (None, c)
    end
  else byte_after_fill (fill_buffer 0 c).

Definition set_pos (p : nat) (c : csrc) : csrc :=
  CSrc (c_events c) (c_buf c) p (c_used c) (c_eof c)
       (c_vbuf c) (c_using c) (c_vstart c) (c_final c) (c_value c).

Definition set_used (u : bool) (c : csrc) : csrc :=
  CSrc (c_events c) (c_buf c) (c_pos c) u (c_eof c)
       (c_vbuf c) (c_using c) (c_vstart c) (c_final c) (c_value c).

Definition set_value (v : option cval) (c : csrc) : csrc :=
  CSrc (c_events c) (c_buf c) (c_pos c) (c_used c) (c_eof c)
       (c_vbuf c) (c_using c) (c_vstart c) (c_final c) v.

Definition set_skip_final (f : bool) (c : csrc) : csrc :=
  CSrc (c_events c) (c_buf c) (c_pos c) (c_used c) (c_eof c)
       (c_vbuf c) (c_using c) (c_vstart c) f (c_value c).

(** [value_bytes_buf], [is_using_bytes_buf] and [buf_value_start] *)
Definition set_vbuf (vb : bytes) (use : bool) (start : nat) (c : csrc) : csrc :=
  CSrc (c_events c) (c_buf c) (c_pos c) (c_used c) (c_eof c)
       vb use start (c_final c) (c_value c).

(** [skip_peeked_byte], src/reader/stream_reader.rs:524-527 *)
Definition c_skip (c : csrc) : option csrc :=
  if Nat.ltb (c_pos c) (length (c_buf c)) then Some (set_pos (S (c_pos c)) c) else None.

(** [BytesValueReader::new], src/reader/stream_reader.rs:1321-1343.
    Simplification: the capacity of [value_bytes_buf] is not modelled. *)
Definition c_vnew (c : csrc) : option csrc :=
  if Nat.leb (c_pos c) (length (c_buf c)) then
    Some (CSrc (c_events c) (skipn (c_pos c) (c_buf c)) 0 (c_used c)
               (c_eof c) [] false 0 false (c_value c))
  else None.

(** [peek_byte_optional], src/reader/stream_reader.rs:1350-1404 *)
Definition c_vpeek (c : csrc) : option peek_res * csrc :=
  let end_pos := length (c_buf c) in
  if c_final c then (None, c)
  else if Nat.ltb (c_pos c) end_pos then
    match nth_error (c_buf c) (c_pos c) with
    | Some b => (Some (PkByte b), c)
    | None => (None, c)
    end
  else if c_using c || Nat.leb READER_BUF_SIZE (c_pos c) then
    let c1 :=
      if Nat.ltb (c_vstart c) end_pos then
        set_vbuf (c_vbuf c ++ slice (c_buf c) (c_vstart c) end_pos) true 0 c
      else set_vbuf (c_vbuf c) (c_using c) 0 c in
    byte_after_fill (fill_buffer 0 c1)
  else byte_after_fill (fill_buffer end_pos c).

(** [consume_peeked_byte], src/reader/stream_reader.rs:1418-1422 *)
Definition c_vconsume (c : csrc) : option csrc := Some (set_pos (S (c_pos c)) c).

(** [&self.json_reader.buf[start..end]]: panics unless [start <= end <= 1024];
    the model also treats a slice beyond the filled part of the buffer as a
    panic *)
Definition buf_slice (c : csrc) (a b : nat) : option bytes :=
  if Nat.leb a b && Nat.leb b (length (c_buf c)) then Some (slice (c_buf c) a b) else None.

(** [skip_previous_byte], src/reader/stream_reader.rs:1424-1447 *)
Definition c_vskip_prev (c : csrc) : option csrc :=
  if c_final c then None
  else
    let end_pos := c_pos c in
    if Nat.eqb (S (c_vstart c)) end_pos then
      Some (set_vbuf (c_vbuf c) (c_using c) (S (c_vstart c)) c)
    else
      match end_pos with
      | O => None
      | S p =>
        match buf_slice c (c_vstart c) p with
        | Some bs => Some (set_vbuf (c_vbuf c ++ bs) true end_pos c)
        | None => None
        end
      end.

(** [push_bytes], src/reader/stream_reader.rs:1457-1474 *)
Definition c_vpush (bs : bytes) (c : csrc) : option csrc :=
  let end_pos := c_pos c in
  if Nat.ltb (c_vstart c) end_pos then
    match buf_slice c (c_vstart c) end_pos with
    | Some r => Some (set_vbuf (c_vbuf c ++ r ++ bs) true end_pos c)
    | None => None
    end
  else Some (set_vbuf (c_vbuf c ++ bs) true (c_vstart c) c).

(** [get_bytes], src/reader/stream_reader.rs:1476-1512 *)
Definition c_vget (requires_borrowed : bool) (c : csrc) : option csrc :=
  match (if c_final c then
           match c_pos c with O => None | S p => Some p end
         else Some (c_pos c)) with
  | None => None
  | Some end_pos =>
    if c_using c then
      match buf_slice c (c_vstart c) end_pos with
      | None => None
      | Some r =>
        if requires_borrowed then
          Some (set_value (Some CValueBuf)
                  (set_vbuf (c_vbuf c ++ r) true (c_vstart c) c))
        else
          Some (set_value (Some (CVec (c_vbuf c ++ r)))
                  (set_vbuf [] true (c_vstart c) c))
      end
    else if c_used c then None
    else Some (set_value (Some (CReaderBuf (c_vstart c) end_pos)) (set_used true c))
  end.

(** [get_bytes_ref] and [get_str] of [BytesRefProvider],
    src/reader/stream_reader.rs:1266-1277; [to_str_unchecked] (src/utf8.rs:100-104)
    panics if the bytes are not valid UTF-8. *)
Definition c_ref_str (v : cval) (c : csrc) : option str :=
  match v with
  | CReaderBuf a b =>
    match buf_slice c a b with Some bs => from_utf8 bs | None => None end
  | CValueBuf => from_utf8 (c_vbuf c)
  | CVec bs => None
  end.

(** [get_str_peek], src/reader/stream_reader.rs:1293-1306 *)
Definition c_vstr_peek (c : csrc) : option str :=
  match c_value c with Some v => c_ref_str v c | None => None end.

(** [get_str], src/reader/stream_reader.rs:1308-1316 *)
Definition c_vstr (c : csrc) : option (str * csrc) :=
  match c_value c with
  | Some v =>
    let c1 := set_used false c in
    match c_ref_str v c1 with Some s => Some (s, set_value None c1) | None => None end
  | None => None
  end.

(** [get_string], src/reader/stream_reader.rs:1280-1291 *)
Definition c_vstring (c : csrc) : option (str * csrc) :=
  match c_value c with
  | Some (CVec bs) =>
    match from_utf8 bs with Some s => Some (s, set_value None c) | None => None end
  | Some v =>
    let c1 := set_used false c in
    match c_ref_str v c1 with Some s => Some (s, set_value None c1) | None => None end
  | None => None
  end.

(** Running a program against the buffer; [None] is an unintended panic. *)
Fixpoint crun {A : Type} (p : prog A) (c : csrc) : option (A * csrc) :=
  match p with
  | Ret a => Some (a, c)
  | DPeek k => match c_peek c with (Some r, c') => crun (k r) c' | (None, _) => None end
  | DSkip k => match c_skip c with Some c' => crun k c' | None => None end
  | DVNew k => match c_vnew c with Some c' => crun k c' | None => None end
  | DVPeek k => match c_vpeek c with (Some r, c') => crun (k r) c' | (None, _) => None end
  | DVConsume k => match c_vconsume c with Some c' => crun k c' | None => None end
  | DVSkipPrev k => match c_vskip_prev c with Some c' => crun k c' | None => None end
  | DVSkipFinal k => crun k (set_skip_final true c)
  | DVPush bs k => match c_vpush bs c with Some c' => crun k c' | None => None end
  | DVGet b k => match c_vget b c with Some c' => crun k c' | None => None end
  | DVStrPeek k => match c_vstr_peek c with Some s => crun (k s) c | None => None end
  | DVStr k => match c_vstr c with Some (s, c') => crun (k s) c' | None => None end
  | DVString k => match c_vstring c with Some (s, c') => crun (k s) c' | None => None end
  end.

(** ** The abstract view: bytes still to be read *)

(** What follows the remaining bytes: the end of the input, or an IO error *)
Inductive tail_end : Type := TEof | TErr (e : N).

(** State of the value being collected: none; being collected, with the bytes
    so far, whether the last byte was read just before, and whether the final
    byte has been dropped; complete. *)
Inductive vmode : Type :=
| VNone
| VActive (acc : bytes) (just_read : bool) (final : bool)
| VGot (bs : bytes) (borrowed : bool).

(** [a_known]: the next byte (or the end of the input) has already been peeked;
    [a_failed]: an IO error was reported. *)
Record asrc : Type := ASrc {
  a_rest : bytes;
  a_tail : tail_end;
  a_known : bool;
  a_mode : vmode;
  a_failed : bool
}.

Definition a_peek_res (a : asrc) : peek_res :=
  match a_rest a with
  | b :: _ => PkByte b
  | [] => match a_tail a with TEof => PkEof | TErr e => PkErr e end
  end.

Definition is_err (r : peek_res) : bool := match r with PkErr _ => true | _ => false end.

(** Running a program on the bytes still to be read.  [None] means that the
    program uses the operations in a way whose effect on the buffer is not
    described by this view. *)
Definition a_peek (a : asrc) : option (peek_res * asrc) :=
  if a_failed a then None
  else
    match a_mode a with
    | VActive _ _ _ => None
    | VGot _ _ =>
      if a_known a
      then Some (a_peek_res a, a)
      else None
    | VNone =>
      Some (a_peek_res a, ASrc (a_rest a) (a_tail a) true (a_mode a) (is_err (a_peek_res a)))
    end.

Definition a_skip (a : asrc) : option asrc :=
  match a_failed a, a_mode a, a_known a, a_rest a with
  | false, VNone, true, b :: r => Some (ASrc r (a_tail a) false VNone false)
  | _, _, _, _ => None
  end.

Definition a_vnew (a : asrc) : option asrc :=
  match a_failed a, a_mode a with
  | false, VNone =>
    Some (ASrc (a_rest a) (a_tail a) (match a_rest a with [] => false | _ => a_known a end)
               (VActive [] false false) false)
  | _, _ => None
  end.

Definition a_vpeek (a : asrc) : option (peek_res * asrc) :=
  match a_failed a, a_mode a with
  | false, VActive acc jr false =>
    match a_known a, a_rest a with
    | true, [] => None
    | _, _ => Some (a_peek_res a, ASrc (a_rest a) (a_tail a) true (VActive acc false false)
                                       (is_err (a_peek_res a)))
    end
  | _, _ => None
  end.

Definition a_vconsume (a : asrc) : option asrc :=
  match a_failed a, a_mode a, a_known a, a_rest a with
  | false, VActive acc _ false, true, b :: r =>
    Some (ASrc r (a_tail a) false (VActive (acc ++ [b]) true false) false)
  | _, _, _, _ => None
  end.

Definition a_vskip_prev (a : asrc) : option asrc :=
  match a_failed a, a_mode a with
  | false, VActive acc true false =>
    Some (ASrc (a_rest a) (a_tail a) (a_known a) (VActive (removelast acc) false false) false)
  | _, _ => None
  end.

Definition a_vskip_final (a : asrc) : option asrc :=
  match a_failed a, a_mode a with
  | false, VActive acc true false =>
    Some (ASrc (a_rest a) (a_tail a) (a_known a) (VActive (removelast acc) false true) false)
  | _, _ => None
  end.

Definition a_vpush (bs : bytes) (a : asrc) : option asrc :=
  match a_failed a, a_mode a with
  | false, VActive acc _ false =>
    Some (ASrc (a_rest a) (a_tail a) (a_known a) (VActive (acc ++ bs) false false) false)
  | _, _ => None
  end.

Definition a_vget (b : bool) (a : asrc) : option asrc :=
  match a_failed a, a_mode a with
  | false, VActive acc _ _ => Some (ASrc (a_rest a) (a_tail a) (a_known a) (VGot acc b) false)
  | _, _ => None
  end.

Definition a_vstr_peek (a : asrc) : option str :=
  match a_failed a, a_mode a with
  | false, VGot bs true => from_utf8 bs
  | _, _ => None
  end.

Definition a_vstr (a : asrc) : option (str * asrc) :=
  match a_failed a, a_mode a with
  | false, VGot bs true =>
    match from_utf8 bs with
    | Some s => Some (s, ASrc (a_rest a) (a_tail a) (a_known a) VNone false)
    | None => None
    end
  | _, _ => None
  end.

Definition a_vstring (a : asrc) : option (str * asrc) :=
  match a_failed a, a_mode a with
  | false, VGot bs _ =>
    match from_utf8 bs with
    | Some s => Some (s, ASrc (a_rest a) (a_tail a) (a_known a) VNone false)
    | None => None
    end
  | _, _ => None
  end.

Fixpoint arun {A : Type} (p : prog A) (a : asrc) : option (A * asrc) :=
  match p with
  | Ret x => Some (x, a)
  | DPeek k => match a_peek a with Some (r, a') => arun (k r) a' | None => None end
  | DSkip k => match a_skip a with Some a' => arun k a' | None => None end
  | DVNew k => match a_vnew a with Some a' => arun k a' | None => None end
  | DVPeek k => match a_vpeek a with Some (r, a') => arun (k r) a' | None => None end
  | DVConsume k => match a_vconsume a with Some a' => arun k a' | None => None end
  | DVSkipPrev k => match a_vskip_prev a with Some a' => arun k a' | None => None end
  | DVSkipFinal k => match a_vskip_final a with Some a' => arun k a' | None => None end
  | DVPush bs k => match a_vpush bs a with Some a' => arun k a' | None => None end
  | DVGet b k => match a_vget b a with Some a' => arun k a' | None => None end
  | DVStrPeek k => match a_vstr_peek a with Some s => arun (k s) a | None => None end
  | DVStr k => match a_vstr a with Some (s, a') => arun (k s) a' | None => None end
  | DVString k => match a_vstring a with Some (s, a') => arun (k s) a' | None => None end
  end.

(** The bytes a schedule supplies until the end of the input or the first IO
    error, and how the input ends *)
Fixpoint supplied (evs : list event) : bytes * tail_end :=
  match evs with
  | [] => ([], TEof)
  | EvInterrupted :: evs' => supplied evs'
  | EvErr e :: _ => ([], TErr e)
  | EvData [] :: _ => ([], TEof)
  | EvData bs :: evs' => let (r, t) := supplied evs' in (bs ++ r, t)
  end.

Definition asrc_new (r : bytes) (t : tail_end) : asrc := ASrc r t false VNone false.
