(** * Model of src/writer/stream_writer.rs *)

From Verif Require Import Base Utf8Model NumberModel.

(** ** The underlying [Write] *)

(** IO errors: an error returned by the sink (any kind other than
    [Interrupted]), the [WriteZero] error created by [write_all], the
    [InvalidData] errors for malformed UTF-8, and the error by which a string
    value writer repeats a previous error (lines 737-748). *)
Inductive werr : Type :=
| WSink (kind : N)
| WWriteZero
| WInvalidData
| WPrevious (e : werr).

(** A response of [Write::write] to a non-empty buffer: accept (at most) [n]
    bytes, the error kind [Interrupted], or another error. *)
Inductive wresp : Type :=
| SAccept (n : N)
| SInterrupted
| SErr (kind : N).

(** The sink: what it has received so far, how it will respond to the next
    [write] calls (it accepts everything once the list is exhausted), how it
    will respond to the next [flush] calls ([None] is success), and the number
    of [flush] calls so far. *)
Record sink : Type := Sink {
  received : bytes;
  write_resps : list wresp;
  flush_resps : list (option N);
  flushes : N
}.

(** [Write::write_all] of the standard library: calls [write] until the buffer
    has been accepted completely, retries on [Interrupted], fails with
    [WriteZero] when a call accepts no bytes. *)
Fixpoint write_all_loop (resps : list wresp) (recv : bytes) (buf : bytes)
  : res werr unit * bytes * list wresp :=
  match buf with
  | [] => (Ok tt, recv, resps)
  | _ :: _ =>
    match resps with
    | [] => (Ok tt, recv ++ buf, [])
    | SInterrupted :: r => write_all_loop r recv buf
    | SErr e :: r => (Err (WSink e), recv, r)
    | SAccept n :: r =>
      let k := N.to_nat (N.min n (N.of_nat (length buf))) in
      match k with
      | O => (Err WWriteZero, recv, r)
      | S _ => write_all_loop r (recv ++ firstn k buf) (skipn k buf)
      end
    end
  end.

Definition write_all (s : sink) (buf : bytes) : res werr unit * sink :=
  let '(r, recv, resps) := write_all_loop (write_resps s) (received s) buf in
  (r, Sink recv resps (flush_resps s) (flushes s)).

(** [Write::flush] of the sink *)
Definition sink_flush (s : sink) : res werr unit * sink :=
  match flush_resps s with
  | [] => (Ok tt, Sink (received s) (write_resps s) [] (flushes s + 1))
  | None :: r => (Ok tt, Sink (received s) (write_resps s) r (flushes s + 1))
  | Some e :: r => (Err (WSink e), Sink (received s) (write_resps s) r (flushes s + 1))
  end.

(** ** State *)

(** [WriterSettings], lines 29-94 *)
Record wsettings : Type := WSettings {
  pretty_print : bool;
  escape_all_control_chars : bool;
  escape_all_non_ascii : bool;
  multi_top_level_value_separator : option str
}.

(** [WriterSettings::default], lines 96-110 *)
Definition default_wsettings : wsettings := WSettings false false false None.

(** [StackValue], lines 113-116 *)
Inductive stack_value : Type := SvArray | SvObject.

Definition WRITER_BUF_SIZE : nat := N.to_nat 1024.

(** [JsonStreamWriter], lines 131-147.  [w_buf] are the first [buf_write_pos]
    bytes of [buf] (the others are never read), the head of [w_stack] is the
    last element of the [Vec].
    Simplification: [indentation_level] is unbounded. *)
Record wst : Type := Wst {
  w_sink : sink;
  w_buf : bytes;
  w_is_empty : bool;
  w_expects_member_name : bool;
  w_stack : list stack_value;
  w_string_active : bool;
  w_indentation : nat
}.

(** [new_custom], lines 159-171 *)
Definition new_writer (s : sink) : wst := Wst s [] true false [] false 0.

Definition set_sink_buf (st : wst) (s : sink) (b : bytes) : wst :=
  Wst s b (w_is_empty st) (w_expects_member_name st) (w_stack st) (w_string_active st) (w_indentation st).
Definition set_empty (b : bool) (st : wst) : wst :=
  Wst (w_sink st) (w_buf st) b (w_expects_member_name st) (w_stack st) (w_string_active st) (w_indentation st).
Definition set_expects_name (b : bool) (st : wst) : wst :=
  Wst (w_sink st) (w_buf st) (w_is_empty st) b (w_stack st) (w_string_active st) (w_indentation st).
Definition set_stack (s : list stack_value) (st : wst) : wst :=
  Wst (w_sink st) (w_buf st) (w_is_empty st) (w_expects_member_name st) s (w_string_active st) (w_indentation st).
Definition set_string_active (b : bool) (st : wst) : wst :=
  Wst (w_sink st) (w_buf st) (w_is_empty st) (w_expects_member_name st) (w_stack st) b (w_indentation st).
Definition set_indentation (n : nat) (st : wst) : wst :=
  Wst (w_sink st) (w_buf st) (w_is_empty st) (w_expects_member_name st) (w_stack st) (w_string_active st) n.

(** Methods with [&mut self] return the new state *)
Definition W (A : Type) : Type := wst -> res werr A * wst.
Definition wret {A} (a : A) : W A := fun st => (Ok a, st).
Definition werror {A} (e : werr) : W A := fun st => (Err e, st).
Definition wpanic {A} (k : panic) : W A := fun st => (Panic k, st).
Definition wbind {A B} (m : W A) (f : A -> W B) : W B := fun st =>
  match m st with
  | (Ok a, st') => f a st'
  | (Err e, st') => (Err e, st')
  | (Panic k, st') => (Panic k, st')
  | (OutOfFuel, st') => (OutOfFuel, st')
  end.
Definition wmodify (f : wst -> wst) : W unit := fun st => (Ok tt, f st).
Definition wget {A} (f : wst -> A) : W A := fun st => (Ok (f st), st).

Declare Scope w_scope.
Notation "x <-! m ;; f" := (wbind m (fun x => f)) (at level 61, m at next level, right associativity) : w_scope.
Notation "m ;;! f" := (wbind m (fun _ => f)) (at level 61, right associativity) : w_scope.
Open Scope w_scope.

(** ** Low level byte writing, lines 174-201 *)

(** [write_bytes], lines 176-193; one unit of fuel per iteration of the loop *)
Fixpoint write_bytes_loop (fuel : nat) (bs : bytes) : W unit :=
  match bs with
  | [] => wret tt
  | _ :: _ =>
    match fuel with
    | O => fun st => (OutOfFuel, st)
    | S f => fun st =>
      let copied_count := Nat.min (WRITER_BUF_SIZE - length (w_buf st)) (length bs) in
      let buf' := w_buf st ++ firstn copied_count bs in
      let bs' := skipn copied_count bs in
      if Nat.leb WRITER_BUF_SIZE (length buf') then
        match write_all (w_sink st) buf' with
        | (Ok _, s') => write_bytes_loop f bs' (set_sink_buf st s' [])
        | (Err e, s') => (Err e, set_sink_buf st s' buf')
        | (Panic k, s') => (Panic k, set_sink_buf st s' buf')
        | (OutOfFuel, s') => (OutOfFuel, set_sink_buf st s' buf')
        end
      else write_bytes_loop f bs' (set_sink_buf st (w_sink st) buf')
    end
  end.

Definition write_bytes (bs : bytes) : W unit := write_bytes_loop (S (length bs)) bs.

(** [flush], lines 195-200 *)
Definition flush : W unit := fun st =>
  match write_all (w_sink st) (w_buf st) with
  | (Ok _, s') =>
    let (r, s'') := sink_flush s' in (r, set_sink_buf st s'' [])
  | (Err e, s') => (Err e, set_sink_buf st s' (w_buf st))
  | (Panic k, s') => (Panic k, set_sink_buf st s' (w_buf st))
  | (OutOfFuel, s') => (OutOfFuel, set_sink_buf st s' (w_buf st))
  end.

(** ** JSON structure state, lines 203-298 *)

(** lines 205-207 *)
Definition w_is_in_array (st : wst) : bool :=
  match w_stack st with SvArray :: _ => true | _ => false end.
(** lines 209-213 *)
Definition w_is_in_object (st : wst) : bool :=
  match w_stack st with SvObject :: _ => true | _ => false end.

(** lines 215-217 *)
Definition increase_indentation : W unit :=
  wmodify (fun st => set_indentation (S (w_indentation st)) st).
(** lines 219-221: [u32] subtraction, panics on underflow *)
Definition decrease_indentation : W unit := fun st =>
  match w_indentation st with
  | O => (Panic Bug, st)
  | S n => (Ok tt, set_indentation n st)
  end.

(** lines 223-228 *)
Fixpoint write_indentation_loop (n : nat) : W unit :=
  match n with
  | O => wret tt
  | S n' => write_bytes [B_SPACE; B_SPACE] ;;! write_indentation_loop n'
  end.
Definition write_indentation : W unit := fun st => write_indentation_loop (w_indentation st) st.

(** lines 230-248 *)
Definition before_container_element (cfg : wsettings) : W unit :=
  is_empty <-! wget w_is_empty ;;
  if is_empty then
    if pretty_print cfg then
      write_bytes [B_LF] ;;!
      increase_indentation ;;!
      write_indentation
    else wret tt
  else
    if pretty_print cfg then
      write_bytes [B_COMMA; B_LF] ;;!
      write_indentation
    else write_bytes [B_COMMA].

(** lines 250-280 *)
Definition before_value (cfg : wsettings) : W unit :=
  active <-! wget w_string_active ;;
  if active then wpanic Misuse else
  expects <-! wget w_expects_member_name ;;
  if expects then wpanic Misuse else
  behind <-! wget (fun st => negb (w_is_empty st) && match w_stack st with [] => true | _ => false end) ;;
  in_array <-! wget w_is_in_array ;;
  (if behind then
     match multi_top_level_value_separator cfg with
     | None => wpanic Misuse
     | Some separator => write_bytes (encode_utf8 separator)
     end
   else if in_array then before_container_element cfg
   else wret tt) ;;!
  wmodify (set_empty false) ;;!
  in_object <-! wget w_is_in_object ;;
  if in_object then wmodify (set_expects_name true) else wret tt.

(** lines 282-297 *)
Definition on_container_end (cfg : wsettings) : W unit :=
  wmodify (fun st => set_stack (tl (w_stack st)) st) ;;!
  is_empty <-! wget w_is_empty ;;
  (if negb is_empty && pretty_print cfg then
     write_bytes [B_LF] ;;!
     decrease_indentation ;;!
     write_indentation
   else wret tt) ;;!
  wmodify (set_empty false) ;;!
  wmodify (fun st => set_expects_name (w_is_in_object st) st).

(** ** String writing, lines 300-388 *)

(** lines 302-308 *)
Definition should_escape (cfg : wsettings) (c : char) : bool :=
  ((c =? B_QUOTE) || (c =? B_BACKSLASH))
  || (c <=? 0x1F)
  || (escape_all_non_ascii cfg && negb (is_ascii c))
  || (escape_all_control_chars cfg && is_control c).

(** lines 315-321; [None] is the [unreachable!] *)
Definition to_hex (i : N) : option byte :=
  if i <=? 9 then Some (B_0 + i)
  else if i <=? 15 then Some (0x41 + (i - 10))
  else None.

(** lines 311-329; [None] is a failed [debug_assert!] or [unreachable!] *)
Definition get_unicode_escape (value : N) : option bytes :=
  if 0xFFFF <? value then None
  else
    match to_hex (N.land (N.shiftr value 12) 15), to_hex (N.land (N.shiftr value 8) 15),
          to_hex (N.land (N.shiftr value 4) 15), to_hex (N.land value 15) with
    | Some h1, Some h2, Some h3, Some h4 => Some [h1; h2; h3; h4]
    | _, _, _, _ => None
    end.

Definition write_unicode_escape (value : N) : W unit :=
  write_bytes [B_BACKSLASH; B_u] ;;!
  match get_unicode_escape value with
  | Some hex => write_bytes hex
  | None => wpanic Bug
  end.

(** lines 310-360 *)
Definition write_escaped_char (c : char) : W unit :=
  if c =? B_QUOTE then write_bytes [B_BACKSLASH; B_QUOTE]
  else if c =? B_BACKSLASH then write_bytes [B_BACKSLASH; B_BACKSLASH]
  else if c =? B_SLASH then write_bytes [B_BACKSLASH; B_SLASH]
  else if c =? 0x08 then write_bytes [B_BACKSLASH; B_b]
  else if c =? 0x0C then write_bytes [B_BACKSLASH; B_f]
  else if c =? B_LF then write_bytes [B_BACKSLASH; B_n]
  else if c =? B_CR then write_bytes [B_BACKSLASH; B_r]
  else if c =? B_TAB then write_bytes [B_BACKSLASH; B_t]
  else if c <=? 0xFFFF then write_unicode_escape c
  else
    let temp := c - 0x10000 in
    let high := N.shiftr temp 10 + 0xD800 in
    let low := N.land temp (N.shiftl 1 10 - 1) + 0xDC00 in
    write_unicode_escape high ;;!
    write_unicode_escape low.

(** The loop over [char_indices], lines 366-374 *)
Fixpoint string_piece_loop (cfg : wsettings) (bs : bytes) (chars : str)
    (index next_to_write_index : nat) : W nat :=
  match chars with
  | [] => wret next_to_write_index
  | c :: chars' =>
    if should_escape cfg c then
      (if Nat.ltb next_to_write_index index
       then write_bytes (slice bs next_to_write_index index)
       else wret tt) ;;!
      write_escaped_char c ;;!
      string_piece_loop cfg bs chars' (index + len_utf8 c) (index + len_utf8 c)
    else string_piece_loop cfg bs chars' (index + len_utf8 c) next_to_write_index
  end.

(** lines 362-381 *)
Definition write_string_value_piece (cfg : wsettings) (value : str) : W unit :=
  let bs := encode_utf8 value in
  next_to_write_index <-! string_piece_loop cfg bs value 0 0 ;;
  if Nat.ltb next_to_write_index (length bs)
  then write_bytes (skipn next_to_write_index bs)
  else wret tt.

(** lines 383-387 *)
Definition write_string_value (cfg : wsettings) (value : str) : W unit :=
  write_bytes [B_QUOTE] ;;!
  write_string_value_piece cfg value ;;!
  write_bytes [B_QUOTE].

(** ** [impl JsonWriter], lines 390-550 *)

(** lines 399-405 *)
Definition begin_object (cfg : wsettings) : W unit :=
  before_value cfg ;;!
  wmodify (fun st => set_stack (SvObject :: w_stack st) st) ;;!
  wmodify (set_empty true) ;;!
  wmodify (set_expects_name true) ;;!
  write_bytes [B_LBRACE].

(** lines 407-424 *)
Definition name (cfg : wsettings) (n : str) : W unit :=
  expects <-! wget w_expects_member_name ;;
  if negb expects then wpanic Misuse else
  active <-! wget w_string_active ;;
  if active then wpanic Misuse else
  before_container_element cfg ;;!
  write_string_value cfg n ;;!
  write_bytes (if pretty_print cfg then [B_COLON; B_SPACE] else [B_COLON]) ;;!
  wmodify (set_expects_name false).

(** lines 426-438 *)
Definition end_object (cfg : wsettings) : W unit :=
  in_object <-! wget w_is_in_object ;;
  if negb in_object then wpanic Misuse else
  active <-! wget w_string_active ;;
  if active then wpanic Misuse else
  expects <-! wget w_expects_member_name ;;
  if negb expects then wpanic Misuse else
  on_container_end cfg ;;!
  write_bytes [B_RBRACE].

(** lines 440-449 *)
Definition begin_array (cfg : wsettings) : W unit :=
  before_value cfg ;;!
  wmodify (fun st => set_stack (SvArray :: w_stack st) st) ;;!
  wmodify (set_empty true) ;;!
  wmodify (set_expects_name false) ;;!
  write_bytes [B_LBRACKET].

(** lines 451-462 *)
Definition end_array (cfg : wsettings) : W unit :=
  in_array <-! wget w_is_in_array ;;
  if negb in_array then wpanic Misuse else
  active <-! wget w_string_active ;;
  if active then wpanic Misuse else
  on_container_end cfg ;;!
  write_bytes [B_RBRACKET].

(** lines 464-467 *)
Definition string_value (cfg : wsettings) (value : str) : W unit :=
  before_value cfg ;;!
  write_string_value cfg value.

(** lines 469-472 *)
Definition bool_value (cfg : wsettings) (value : bool) : W unit :=
  before_value cfg ;;!
  write_bytes (if value then lit_true else lit_false).

(** lines 474-477 *)
Definition null_value (cfg : wsettings) : W unit :=
  before_value cfg ;;!
  write_bytes lit_null.

(** The closure in [number_value] (lines 479-484) and [fp_number_value] (lines
    486-491); see there for how [use_json_number] obtains [number_str].  It is also what [number_value] does
    with the [TransferredNumber] of [transfer_to] (src/writer/mod.rs:786-803). *)
Definition number_str_value (cfg : wsettings) (number_str : bytes) : W unit :=
  before_value cfg ;;!
  write_bytes number_str.

(** Decimal digits of a number; [to_string] of the Rust integer types.
    The fuel is the number of bits, which is at least the number of digits. *)
Fixpoint decimal_digits (fuel : nat) (n : N) (acc : bytes) : bytes :=
  match fuel with
  | O => acc
  | S f => if n <? 10 then (B_0 + n) :: acc
           else decimal_digits f (n / 10) ((B_0 + n mod 10) :: acc)
  end.
Definition nat_to_string (n : N) : bytes := decimal_digits (S (N.to_nat (N.size n))) n [].
Definition int_to_string (z : Z) : bytes :=
  match z with
  | Zneg p => B_MINUS :: nat_to_string (Npos p)
  | _ => nat_to_string (Z.to_N z)
  end.

(** [number_value] with an integer type, lines 479-484 and
    src/writer/mod.rs:725-738 (with its [debug_assert!]); [z] is the value of
    the Rust integer, of any width. *)
Definition number_value (cfg : wsettings) (z : Z) : W unit :=
  let string := int_to_string z in
  if negb (is_valid_json_number string) then wpanic Bug else
  number_str_value cfg string.

(** [JsonNumberError] (src/writer/mod.rs:712-721) is an outcome of its own:
    [InvalidNumber], or what the other writer methods return *)
Inductive number_result : Type := NumberWritten | InvalidNumber.

(** [fp_number_value], lines 486-491 and src/writer/mod.rs:754-775.  Formatting
    of floating point numbers is not modelled: [value] is [None] for a number
    that is not finite, otherwise the result of [to_string] on it. *)
Definition fp_number_value (cfg : wsettings) (value : option str) : W number_result :=
  match value with
  | None => wret InvalidNumber
  | Some string =>
    if negb (is_valid_json_number string) then wpanic Bug else
    number_str_value cfg (encode_utf8 string) ;;!
    wret NumberWritten
  end.

(** lines 493-503 *)
Definition number_value_from_string (cfg : wsettings) (value : str) : W number_result :=
  if is_valid_json_number value then
    before_value cfg ;;!
    write_bytes (encode_utf8 value) ;;!
    wret NumberWritten
  else wret InvalidNumber.

(** [finish_document], lines 520-536; the returned [Write] is the sink of the
    new state *)
Definition finish_document : W unit :=
  active <-! wget w_string_active ;;
  if active then wpanic Misuse else
  expects <-! wget w_expects_member_name ;;
  if expects then wpanic Misuse else
  stack <-! wget w_stack ;;
  is_empty <-! wget w_is_empty ;;
  match stack with
  | [] => if is_empty then wpanic Misuse else flush
  | _ :: _ => wpanic Misuse
  end.

(** ** String value writer, lines 627-803 *)

(** [StringValueWriterImpl], lines 627-643.  [sv_buf] are the first [utf8_pos]
    bytes of [utf8_buf] (the others are never read). *)
Record svw : Type := Svw {
  sv_buf : bytes;
  sv_expected_len : nat;
  sv_error : option werr
}.

(** [string_value_writer], lines 538-549 *)
Definition string_value_writer (cfg : wsettings) : W svw :=
  before_value cfg ;;!
  write_bytes [B_QUOTE] ;;!
  wmodify (set_string_active true) ;;!
  wret (Svw [] 0 None).

(** Methods of the string value writer also change its own fields; on error
    the changed fields are kept. *)
Definition SV (A : Type) : Type := svw -> wst -> res werr A * svw * wst.

Definition sv_lift {A} (m : W A) : SV A := fun sv st =>
  let (r, st') := m st in (r, sv, st').
Definition sv_ret {A} (a : A) : SV A := fun sv st => (Ok a, sv, st).
Definition sv_err {A} (e : werr) : SV A := fun sv st => (Err e, sv, st).
Definition sv_panic {A} (k : panic) : SV A := fun sv st => (Panic k, sv, st).
Definition sv_bind {A B} (m : SV A) (f : A -> SV B) : SV B := fun sv st =>
  match m sv st with
  | (Ok a, sv', st') => f a sv' st'
  | (Err e, sv', st') => (Err e, sv', st')
  | (Panic k, sv', st') => (Panic k, sv', st')
  | (OutOfFuel, sv', st') => (OutOfFuel, sv', st')
  end.
Definition sv_set (buf : bytes) (expected_len : nat) : SV unit := fun sv st =>
  (Ok tt, Svw buf expected_len (sv_error sv), st).

Notation "x <-% m ;; f" := (sv_bind m (fun x => f)) (at level 61, m at next level, right associativity) : w_scope.
Notation "m ;;% f" := (sv_bind m (fun _ => f)) (at level 61, right associativity) : w_scope.

(** [std::str::from_utf8(..).map_err(map_utf8_error)], line 645 *)
Definition sv_from_utf8 (bs : bytes) : SV str :=
  match from_utf8 bs with
  | Some s => sv_ret s
  | None => sv_err WInvalidData
  end.

(** lines 649-657 *)
Definition decode_utf8_char (bs : bytes) : SV str :=
  s <-% sv_from_utf8 bs ;;
  match s with
  | [_] => sv_ret s
  | _ => sv_panic Bug
  end.

(** lines 680-688; [None] is the failed [debug_assert!] *)
Definition max_or_offset_negative (a b b_neg_off : nat) : option nat :=
  if Nat.ltb b a then None
  else if Nat.ltb b b_neg_off then Some a
  else Some (b - b_neg_off)%nat.

(** The [while] loop, lines 692-729, followed by lines 731-734.
    Slices out of range are panics. *)
Fixpoint write_scan_loop (cfg : wsettings) (fuel : nat) (buf : bytes) (start_pos i : nat) : SV nat :=
  match fuel with
  | O => fun sv st => (OutOfFuel, sv, st)
  | S f =>
    match nth_error buf i with
    | None =>
      if Nat.ltb (length buf) start_pos then sv_panic Bug else
      s <-% sv_from_utf8 (skipn start_pos buf) ;;
      sv_lift (write_string_value_piece cfg s) ;;%
      sv_ret (length buf)
    | Some byte =>
      if is_1byte byte then write_scan_loop cfg f buf start_pos (i + 1)
      else
        let with_expected (expected_bytes_count : nat) :=
          let remaining_count := (length buf - i)%nat in
          if Nat.ltb remaining_count expected_bytes_count then
            if Nat.ltb i start_pos then sv_panic Bug else
            s <-% sv_from_utf8 (slice buf start_pos i) ;;
            sv_lift (write_string_value_piece cfg s) ;;%
            sv_set (skipn i buf) expected_bytes_count ;;%
            sv_ret (length buf)
          else write_scan_loop cfg f buf start_pos (i + (expected_bytes_count - 1) + 1)
        in
        if is_2byte_start byte then with_expected 2%nat
        else if is_3byte_start byte then with_expected 3%nat
        else if is_4byte_start byte then with_expected 4%nat
        else if is_continuation byte then write_scan_loop cfg f buf start_pos (i + 1)
        else sv_err WInvalidData
    end
  end.

(** lines 660-735 *)
Definition sv_write_impl (cfg : wsettings) (buf : bytes) : SV nat := fun sv st =>
  match buf with
  | [] => (Ok 0%nat, sv, st)
  | _ :: _ =>
    (start_pos <-%
      (match sv_buf sv with
       | [] => sv_ret 0%nat
       | _ :: _ =>
         if Nat.ltb (sv_expected_len sv) (length (sv_buf sv)) then sv_panic Bug else
         let copy_count := Nat.min (sv_expected_len sv - length (sv_buf sv)) (length buf) in
         let utf8_buf := sv_buf sv ++ firstn copy_count buf in
         if Nat.ltb MAX_BYTES_PER_CHAR (length utf8_buf) then sv_panic Bug else
         (if Nat.leb (sv_expected_len sv) (length utf8_buf) then
            sv_set [] (sv_expected_len sv) ;;%
            s <-% decode_utf8_char utf8_buf ;;
            sv_lift (write_string_value_piece cfg s)
          else sv_set utf8_buf (sv_expected_len sv)) ;;%
         sv_ret copy_count
       end) ;;
     match max_or_offset_negative start_pos (length buf) MAX_BYTES_PER_CHAR with
     | None => sv_panic Bug
     | Some i => write_scan_loop cfg (S (length buf)) buf start_pos i
     end) sv st
  end.

(** lines 737-748 *)
Definition check_previous_error : SV unit := fun sv st =>
  match sv_error sv with
  | None => (Ok tt, sv, st)
  | Some e => (Err (WPrevious e), sv, st)
  end.

(** lines 750-760 *)
Definition run_with_error_tracking {A} (f : SV A) : SV A :=
  check_previous_error ;;%
  fun sv st =>
    match f sv st with
    | (Err e, sv', st') => (Err e, Svw (sv_buf sv') (sv_expected_len sv') (Some e), st')
    | r => r
    end.

(** [Write::write], lines 763-765 *)
Definition sv_write (cfg : wsettings) (buf : bytes) : SV nat :=
  run_with_error_tracking (sv_write_impl cfg buf).

(** [Write::flush], lines 767-769 *)
Definition sv_flush : SV unit := run_with_error_tracking (sv_lift flush).

(** lines 774-786 *)
Definition sv_write_str (cfg : wsettings) (s : str) : SV unit :=
  run_with_error_tracking (fun sv st =>
    match sv_buf sv with
    | _ :: _ => (Err WInvalidData, sv, st)
    | [] => sv_lift (write_string_value_piece cfg s) sv st
    end).

(** lines 788-802 *)
Definition sv_finish_value : SV unit :=
  check_previous_error ;;%
  fun sv st =>
    match sv_buf sv with
    | _ :: _ => (Err WInvalidData, sv, st)
    | [] =>
      (sv_lift (write_bytes [B_QUOTE]) ;;%
       sv_lift (wmodify (set_string_active false))) sv st
    end.

(** ** Sessions

    A client program performs a sequence of calls.  The string value writer
    borrows the JSON writer, so calls of the JSON writer are only possible
    once it has been dropped; it is dropped silently if the client forgets to
    call [finish_value]. *)

Inductive wcall : Type :=
| CBeginObject | CEndObject | CBeginArray | CEndArray
| CName (n : str)
| CString (s : str) | CBool (b : bool) | CNull
| CNumber (z : Z)                   (* number_value with an integer *)
| CFloat (s : option str)           (* fp_number_value, see there *)
| CNumberFromString (s : str)
| CStringWriter                     (* string_value_writer *)
| CWrite (bs : bytes)               (* Write::write of the string value writer *)
| CWriteStr (s : str)               (* StringValueWriter::write_str *)
| CFlush                            (* Write::flush of the string value writer *)
| CFinishValue.                     (* StringValueWriter::finish_value *)

(** The writer, and the string value writer while the client holds it *)
Record wsession : Type := Wsession {
  ws_writer : wst;
  ws_string : option svw
}.

Definition new_session (s : sink) : wsession := Wsession (new_writer s) None.

(** Result of a call.  [RCount] is the number of bytes returned by
    [Write::write].  [RInexpressible] stands for a call on a string value
    writer which the client does not hold; Rust does not allow to write it. *)
Inductive wresult : Type :=
| RDone | RInvalidNumber | RCount (n : nat)
| RError (e : werr) | RPanic (k : panic) | RNoFuel | RInexpressible.

Definition wresult_of {A} (f : A -> wresult) (r : res werr A) : wresult :=
  match r with Ok a => f a | Err e => RError e | Panic k => RPanic k | OutOfFuel => RNoFuel end.

Definition json_call (m : W unit) (s : wsession) : wresult * wsession :=
  let (r, st') := m (ws_writer s) in
  (wresult_of (fun _ => RDone) r, Wsession st' None).

Definition string_call {A} (f : A -> wresult) (m : SV A) (s : wsession) : wresult * wsession :=
  match ws_string s with
  | None => (RInexpressible, s)
  | Some sv =>
    let '(r, sv', st') := m sv (ws_writer s) in
    (wresult_of f r, Wsession st' (Some sv'))
  end.

Definition number_call (m : W number_result) (s : wsession) : wresult * wsession :=
  let (r, st') := m (ws_writer s) in
  (wresult_of (fun n => match n with NumberWritten => RDone | InvalidNumber => RInvalidNumber end) r,
   Wsession st' None).

Definition wstep (cfg : wsettings) (c : wcall) (s : wsession) : wresult * wsession :=
  match c with
  | CBeginObject => json_call (begin_object cfg) s
  | CEndObject => json_call (end_object cfg) s
  | CBeginArray => json_call (begin_array cfg) s
  | CEndArray => json_call (end_array cfg) s
  | CName n => json_call (name cfg n) s
  | CString v => json_call (string_value cfg v) s
  | CBool b => json_call (bool_value cfg b) s
  | CNull => json_call (null_value cfg) s
  | CNumber z => json_call (number_value cfg z) s
  | CFloat v => number_call (fp_number_value cfg v) s
  | CNumberFromString v => number_call (number_value_from_string cfg v) s
  | CStringWriter =>
    match string_value_writer cfg (ws_writer s) with
    | (Ok sv, st') => (RDone, Wsession st' (Some sv))
    | (Err e, st') => (RError e, Wsession st' None)
    | (Panic k, st') => (RPanic k, Wsession st' None)
    | (OutOfFuel, st') => (RNoFuel, Wsession st' None)
    end
  | CWrite bs => string_call RCount (sv_write cfg bs) s
  | CWriteStr v => string_call (fun _ => RDone) (sv_write_str cfg v) s
  | CFlush => string_call (fun _ => RDone) sv_flush s
  | CFinishValue =>
    (* consumes the string value writer *)
    let (r, s') := string_call (fun _ => RDone) sv_finish_value s in
    (r, Wsession (ws_writer s') None)
  end.

(** The results of a sequence of calls.  A client may continue after an error
    (it should not), but not after a panic. *)
Fixpoint wrun (cfg : wsettings) (cs : list wcall) (s : wsession) : list wresult * wsession :=
  match cs with
  | [] => ([], s)
  | c :: cs' =>
    match wstep cfg c s with
    | (RPanic k, s') => ([RPanic k], s')
    | (r, s') => let (rs, s'') := wrun cfg cs' s' in (r :: rs, s'')
    end
  end.

(** [finish_document] at the end; consumes the writer *)
Definition wfinish (s : wsession) : wresult * sink :=
  let (r, st') := finish_document (ws_writer s) in
  (wresult_of (fun _ => RDone) r, w_sink st').
