(** * Model of the [Debug] output of the reader and the writer

    Only the part which concerns the buffers is modelled: it contains all the
    indexing, slicing and [unwrap] of the two functions.  The other fields are
    shown by derived [Debug] implementations. *)

From Verif Require Import Base Utf8Model WriterModel SourceModel.

(** Rust's [Utf8Error::valid_up_to] for the error of [from_utf8]: the number of
    bytes in front of the first one which is not part of a valid character.
    Defined by the same cases as [from_utf8]. *)
Fixpoint valid_up_to (bs : bytes) : nat :=
  match bs with
  | [] => O
  | b0 :: r0 =>
    if b0 <=? 0x7F then S (valid_up_to r0)
    else match r0 with
    | [] => O
    | b1 :: r1 =>
      if in_range 0xC2 0xDF b0 then
        if in_range 0x80 0xBF b1 then S (S (valid_up_to r1)) else O
      else match r1 with
      | [] => O
      | b2 :: r2 =>
        if in_range 0xE0 0xEF b0 then
          if (if b0 =? 0xE0 then in_range 0xA0 0xBF b1
              else if b0 =? 0xED then in_range 0x80 0x9F b1
              else in_range 0x80 0xBF b1) && in_range 0x80 0xBF b2
          then S (S (S (valid_up_to r2)))
          else O
        else match r2 with
        | [] => O
        | b3 :: r3 =>
          if in_range 0xF0 0xF4 b0 then
            if (if b0 =? 0xF0 then in_range 0x90 0xBF b1
                else if b0 =? 0xF4 then in_range 0x80 0x8F b1
                else in_range 0x80 0xBF b1) && in_range 0x80 0xBF b2 && in_range 0x80 0xBF b3
            then S (S (S (S (valid_up_to r3))))
            else O
          else O
        end
      end
    end
  end.

(** [&bytes[a..b]]; [None] is the panic *)
Definition checked_slice (bs : bytes) (a b : nat) : option bytes :=
  if Nat.leb a b && Nat.leb b (length bs) then Some (slice bs a b) else None.

(** The text ["..."] *)
Definition ellipsis : str := [0x2E; 0x2E; 0x2E].

(** ** Reader: src/reader/stream_reader.rs:156-219 *)

(** The fields about the buffer: either [reached_eof], or [buf_count], [buf_str]
    and, if present, [...buf...] *)
Inductive reader_debug : Type :=
| RdEof
| RdBuf (buf_count : nat) (buf_str : str) (buf : option bytes).

(** [limit_str], src/reader/stream_reader.rs:167-179.  Slicing a [str] at an
    index supplied by [char_indices] does not panic. *)
Definition limit_str (s : str) (add_ellipsis : bool) : str :=
  match nth_error s 45 with
  | None => s
  | Some _ => if add_ellipsis then firstn 45 s ++ ellipsis else firstn 45 s
  end.

(** src/reader/stream_reader.rs:161-201.  [None] is a panic: of the subtraction,
    of a slice, or of [unwrap] *)
Definition debug_reader (c : csrc) : option reader_debug :=
  if c_eof c then Some RdEof
  else if Nat.ltb (length (c_buf c)) (c_pos c) then None
  else
    let count := (length (c_buf c) - c_pos c)%nat in
    match checked_slice (c_buf c) (c_pos c) (length (c_buf c)) with
    | None => None
    | Some content =>
      match from_utf8 content with
      | Some s => Some (RdBuf count (limit_str s true) None)
      | None =>
        let prefix_end := valid_up_to content in
        match checked_slice content 0 prefix_end with
        | None => None
        | Some prefix =>
          match from_utf8 prefix with
          | None => None
          | Some s =>
            let shown := limit_str s false in
            if Nat.ltb (length (encode_utf8 shown)) 15 then
              match checked_slice content prefix_end
                      (Nat.min (prefix_end + 30) (length content)) with
              | None => None
              | Some more => Some (RdBuf count (shown ++ ellipsis) (Some more))
              end
            else Some (RdBuf count (shown ++ ellipsis) None)
          end
        end
      end
    end.

(** ** Writer: src/writer/stream_writer.rs:553-631 *)

(** The fields [buf_count], [buf...] (if present) and [buf_str] *)
Record writer_debug : Type := WDebug {
  wd_count : nat;
  wd_buf : option bytes;
  wd_str : str
}.

(** [limit_str_middle], src/writer/stream_writer.rs:560-581; [None] is the panic
    of the [unwrap] calls.  [nth_back(24)] is the character at index
    [length - 25].  The [assert!] concerns constants only. *)
Definition limit_str_middle (s : str) : option str :=
  if Nat.leb (length s) 55 then Some s
  else
    match nth_error s 25, nth_error (rev s) 24 with
    | Some _, Some _ =>
      Some (firstn 25 s ++ [0x20] ++ ellipsis ++ [0x20] ++ skipn (length s - 25) s)
    | _, _ => None
    end.

(** The loop which looks for the start of a valid suffix,
    src/writer/stream_writer.rs:594-600, from index [i] on, for [n] indices *)
Fixpoint valid_suffix (buf : bytes) (n i : nat) : option (nat * str) :=
  match n with
  | O => None
  | S n' =>
    match from_utf8 (skipn i buf) with
    | Some s => Some (i, s)
    | None => valid_suffix buf n' (S i)
    end
  end.

(** src/writer/stream_writer.rs:556-612 *)
Definition debug_writer (st : wst) : option writer_debug :=
  let buf := w_buf st in
  let count := length buf in
  match from_utf8 buf with
  | Some s =>
    match limit_str_middle s with
    | Some t => Some (WDebug count None t)
    | None => None
    end
  | None =>
    match valid_suffix buf (count - 1) 1 with
    | Some (i, s) =>
      match limit_str_middle s, checked_slice buf 0 i with
      | Some t, Some b => Some (WDebug count (Some b) (ellipsis ++ t))
      | _, _ => None
      end
    | None => Some (WDebug count (Some buf) ellipsis)
    end
  end.
