(** * Model of the simple reader API

    src/reader/simple.rs: [SimpleJsonReader] and the readers which are passed to
    the closures of its methods.  The methods use a [JsonReader] only through its
    API, so they are modelled as programs ([ClientModel.client]). *)

From Verif Require Import Base Utf8Model SourceModel ReaderModel.
From Verif Require Export ClientModel.
From Verif Require DeModel.

(** ** Errors *)

(** The error which [ErrorSafeJsonReader] keeps, lines 1299-1318, 1335, 1505-1508:
    [KDummy] is made by [create_dummy_error], lines 1265-1272, and has the given
    location; [KIo] is an [IoError] whose location is unknown. *)
Inductive kept_error : Type :=
| KReader (e : reader_error)
| KDummy (loc : option position)
| KIo.

(** [use_delegate!], lines 1301-1317.  The text of an [IoError] is changed to
    "previous error", which the model does not show. *)
Definition keep (e : reader_error) : kept_error :=
  match e with
  | ESyntax _ _ | EMaxNestingDepth _ _ | EUnsupportedNumber _ _ | EIo _ _ => KReader e
  | EUnexpectedType _ _ loc | EUnexpectedStructure _ loc => KDummy (Some loc)
  end.

(** [Box<dyn Error>] as it occurs in the results of the API: an error of the
    reader, of a string reader, a kept error which is reported again, an error of
    [read_deserialize], the error of [read_seeked_multi] for a path without match, or
    an error of a closure.  [DeserializerError::ReaderError] is represented by the
    error it contains, that is, by [SError] or [SPrevious]. *)
Inductive simple_error : Type :=
| SError (e : reader_error)
| SReadError (e : sv_read_error)
| SPrevious (e : kept_error)
| SDeserialize (e : DeModel.derr)
| SNoMatch
| SCustom (n : N).

(** How a method ends.  [SInvalid]: the Rust compiler rejects the program (a
    method which the reader does not have, or use of a reader after it has been
    moved); [SFuel]: a loop has used up its fuel, which the theorems exclude. *)
Inductive sres (A : Type) : Type :=
| SOk (a : A)
| SErr (e : simple_error)
| SPanic (k : panic)
| SFuel
| SInvalid.
Arguments SOk {A} a.
Arguments SErr {A} e.
Arguments SPanic {A} k.
Arguments SFuel {A}.
Arguments SInvalid {A}.

(** ** [ErrorSafeJsonReader], lines 1331-1478 *)

(** Code using the error safe reader: it gets the kept error and returns the new
    kept error *)
Definition simple (A : Type) : Type := option kept_error -> client (sres A * option kept_error).

Definition sret {A : Type} (a : A) : simple A := fun err => Done (SOk a, err).
Definition sfail {A : Type} (e : simple_error) : simple A := fun err => Done (SErr e, err).
Definition spanic {A : Type} (k : panic) : simple A := fun err => Done (SPanic k, err).
Definition sfuel {A : Type} : simple A := fun err => Done (SFuel, err).
Definition sinvalid {A : Type} : simple A := fun err => Done (SInvalid, err).

(** [?] *)
Definition sbind {A B : Type} (m : simple A) (f : A -> simple B) : simple B := fun err =>
  cbind (m err) (fun re =>
    match re with
    | (SOk a, err') => f a err'
    | (SErr e, err') => Done (SErr e, err')
    | (SPanic k, err') => Done (SPanic k, err')
    | (SFuel, err') => Done (SFuel, err')
    | (SInvalid, err') => Done (SInvalid, err')
    end).

Declare Scope smonad_scope.
Delimit Scope smonad_scope with sm.
Notation "x <- m ;; k" := (sbind m (fun x => k))
  (at level 61, m at next level, right associativity) : smonad_scope.
Notation "m ;; k" := (sbind m (fun _ => k)) (at level 61, right associativity) : smonad_scope.
Open Scope smonad_scope.

(** A call whose [Result] is given to the closure which has made it *)
Definition capture {A : Type} (m : simple A) : simple (simple_error + A) := fun err =>
  cbind (m err) (fun re =>
    match re with
    | (SOk a, err') => Done (SOk (inr a), err')
    | (SErr e, err') => Done (SOk (inl e), err')
    | (SPanic k, err') => Done (SPanic k, err')
    | (SFuel, err') => Done (SFuel, err')
    | (SInvalid, err') => Done (SInvalid, err')
    end).

Definition of_result {A : Type} (r : simple_error + A) : simple A :=
  match r with inl e => sfail e | inr a => sret a end.

(** [use_delegate!], lines 1282-1322 *)
Definition delegate (c : rcall) : simple rvalue := fun err =>
  match err with
  | Some e => Done (SErr (SPrevious e), err)
  | None =>
    Call c (fun o =>
      match o with
      | OOk v => Done (SOk v, None)
      | OErr e => Done (SErr (SError e), Some (keep e))
      | OReadErr _ => Done (SPanic Bug, None)
      | OPanic k => Done (SPanic k, None)
      | OFuel => Done (SFuel, None)
      | ONotPossible | OStopped => Done (SInvalid, None)
      end)
  end.

(** The values of calls *)
Definition unit_of (v : rvalue) : simple unit := sret tt.
Definition bool_of (v : rvalue) : simple bool :=
  match v with RBool b => sret b | _ => spanic Bug end.
Definition type_of (v : rvalue) : simple value_type :=
  match v with RType t => sret t | _ => spanic Bug end.
Definition str_of (v : rvalue) : simple str :=
  match v with RStr s => sret s | _ => spanic Bug end.

(** Lines 1338-1409, 1433-1443, 1463-1469 *)
Definition d_unit (c : rcall) : simple unit := (v <- delegate c ;; unit_of v).
Definition d_has_next : simple bool := (v <- delegate CHasNext ;; bool_of v).
Definition d_peek : simple value_type := (v <- delegate CPeek ;; type_of v).
Definition d_bool : simple bool := (v <- delegate CNextBool ;; bool_of v).
Definition d_str (c : rcall) : simple str := (v <- delegate c ;; str_of v).

(** [current_position], lines 1458-1461: also after an error.  The model shows
    the position only where the reader may still be used. *)
Definition d_position : simple (option position) := fun err =>
  Call (CPosition true) (fun o =>
    match o with
    | OOk (RPos p) => Done (SOk (Some p), err)
    | _ => Done (SOk None, err)
    end).

(** [consume_trailing_whitespace], lines 1471-1477 *)
Definition d_consume : simple unit := fun err =>
  match err with
  | Some e => Done (SErr (SPrevious e), err)
  | None =>
    Call CConsumeTrailingWhitespace (fun o =>
      match o with
      | OOk _ => Done (SOk tt, None)
      | OErr e => Done (SErr (SError e), None)
      | OReadErr _ => Done (SPanic Bug, None)
      | OPanic k => Done (SPanic k, None)
      | OFuel => Done (SFuel, None)
      | ONotPossible | OStopped => Done (SInvalid, None)
      end)
  end.

(** [deserialize_next], lines 1411-1431: the delegate is used without protection
    against errors which the implementation of [Deserialize] ignores.  An error of the
    reader is kept as it is (line 1420). *)
Definition de_error (e : DeModel.derr) : simple_error :=
  match e with DeModel.DeReader e' => SError e' | e' => SDeserialize e' end.
Definition de_keep (e : DeModel.derr) : kept_error :=
  match e with DeModel.DeReader e' => KReader e' | _ => KDummy None end.
Definition d_deserialize {V S : Type} (C : DeModel.code V S) (steps : nat) (seed : S) : simple V := fun err =>
  match err with
  | Some e => Done (SErr (SPrevious e), err)
  | None =>
    cbind (DeModel.deserialize_next C steps seed) (fun x =>
      match x with
      | DeModel.DRet (inr a) => Done (SOk a, None)
      | DeModel.DRet (inl e) => Done (SErr (de_error e), Some (de_keep e))
      | DeModel.DPanic k => Done (SPanic k, None)
      | DeModel.DFuel => Done (SFuel, None)
      | DeModel.DInvalid => Done (SInvalid, None)
      end)
  end.

(** [ErrorSafeStringValueReader::read], lines 1486-1517; the [unreachable!] of
    line 1499 is the panic *)
Definition string_read (len : nat) : simple bytes := fun err =>
  match err with
  | Some (KIo | KReader (EIo _ _)) => Done (SErr (SPrevious KIo), err)
  | Some _ => Done (SPanic Bug, err)
  | None =>
    Call (CRead len) (fun o =>
      match o with
      | OOk (RBytes bs) => Done (SOk bs, None)
      | OOk _ => Done (SPanic Bug, None)
      | OReadErr e => Done (SErr (SReadError e), Some KIo)
      | OErr _ => Done (SPanic Bug, None)
      | OPanic k => Done (SPanic k, None)
      | OFuel => Done (SFuel, None)
      | ONotPossible | OStopped => Done (SInvalid, None)
      end)
  end.

(** ** Closures

    A closure is a program which uses the reader it is given, and continues with
    the results it sees.  It ends with an error or with a value of type [R]; for
    the closures which are called repeatedly ([FnMut]) this is the new value of
    the variables which they capture.  Simplification: an error does not carry
    the variables which the closure has changed before. *)

(** A closure for [read_string_with_reader], which may only call [read] *)
Inductive string_body (R : Type) : Type :=
| SBDone (r : simple_error + R)
| SBRead (len : nat) (k : simple_error + bytes -> string_body R).
Arguments SBDone {R} r.
Arguments SBRead {R} len k.

(** [MultiJsonPathPiece], lines 62-101 *)
Inductive multi_piece : Type :=
| MIndex (i : N)
| MAllItems (allow_empty : bool)
| MName (n : str)
| MOptionalName (n : str)
| MAllMembers (allow_empty : bool).

(** What the methods return *)
Inductive reply (R : Type) : Type :=
| VUnit
| VBool (b : bool)
| VStr (s : str)
| VResult (r : R).
Arguments VUnit {R}.
Arguments VBool {R} b.
Arguments VStr {R} s.
Arguments VResult {R} r.

(** The methods of [ValueReader], lines 255-863, and the closures which use a
    [SingleValueReader], [MemberReader] or [&mut ArrayReader].  [read_number] is
    [OpNumber] followed by a function of the text of the number.
    - [OpItems f r]: [read_array_items], with the captured variables [r]
    - [OpMembers]: [read_object_borrowed_names]; [OpMembersOwned]:
      [read_object_owned_names]
    - [OpDeserialize C steps seed]: [read_deserialize] with the implementation of
      [Deserialize] given by [C] and [seed] (see DeModel), which makes at most [steps]
      steps
    - [BHasNext] is [ArrayReader::has_next], [BReadName] is
      [MemberReader::read_name] *)
Inductive op (R : Type) : Type :=
| OpNull | OpBool | OpString | OpNumber | OpSkip
| OpStr (f : str -> simple_error + R)
| OpStringReader (f : string_body R)
| OpArray (f : body R)
| OpItems (f : R -> body R) (r : R)
| OpMembers (f : R -> body R) (r : R)
| OpMembersOwned (f : str -> R -> body R) (r : R)
| OpSeeked (path : list piece) (f : body R)
| OpMulti (path : list multi_piece) (at_least_one_match : bool) (f : R -> body R) (r : R)
| OpDeserialize (S : Type) (C : DeModel.code R S) (steps : nat) (seed : S)
with body (R : Type) : Type :=
| BDone (r : simple_error + R)
| BPeek (k : simple_error + value_type -> body R)
| BHasNext (k : simple_error + bool -> body R)
| BReadName (k : simple_error + str -> body R)
| BRead (o : op R) (k : simple_error + reply R -> body R).
Arguments OpNull {R}.
Arguments OpBool {R}.
Arguments OpString {R}.
Arguments OpNumber {R}.
Arguments OpSkip {R}.
Arguments OpStr {R} f.
Arguments OpStringReader {R} f.
Arguments OpArray {R} f.
Arguments OpItems {R} f r.
Arguments OpMembers {R} f r.
Arguments OpMembersOwned {R} f r.
Arguments OpSeeked {R} path f.
Arguments OpMulti {R} path at_least_one_match f r.
Arguments OpDeserialize {R S} C steps seed.
Arguments BDone {R} r.
Arguments BPeek {R} k.
Arguments BHasNext {R} k.
Arguments BReadName {R} k.
Arguments BRead {R} o k.

(** ** The readers of closures *)

(** [ArrayReader], [SingleValueReader], [MemberReader], lines 1783-2026, with the
    flags [consumed_name] and [consumed_value]; [moved]: a method has taken the
    reader by value.  An [ArrayReader] is used by reference and is never moved. *)
Inductive reader_kind : Type := KArray | KSingle | KMember.
Record handle : Type := Handle {
  h_kind : reader_kind;
  consumed_name : bool;
  consumed_value : bool;
  moved : bool
}.
Definition array_reader : handle := Handle KArray true true false.
Definition single_reader : handle := Handle KSingle true false false.
Definition member_reader : handle := Handle KMember false false false.

(** A method which reads a value with [m].  [ArrayReader]: lines 1817-1897;
    [SingleValueReader]: lines 1917-2012; [MemberReader]: lines 2053-2059,
    2074-2183. *)
Definition read_with {R : Type} (h : handle) (m : simple (reply R))
  : simple (handle * (simple_error + reply R)) :=
  if moved h then sinvalid
  else
    match h_kind h with
    | KArray => (x <- capture m ;; sret (h, x))
    | KSingle => (x <- capture m ;; sret (Handle KSingle true true true, x))
    | KMember =>
      if consumed_name h
      then (x <- capture m ;; sret (Handle KMember true true true, x))
      else
        (y <- capture (d_unit CSkipName) ;;
         match y with
         | inl e => sret (Handle KMember true false true, inl e)
         | inr _ => (x <- capture m ;; sret (Handle KMember true true true, x))
         end)
    end.

(** [peek_value], lines 1813-1815, 1913-1915, 2069-2072 *)
Definition peek_with (h : handle) : simple (handle * (simple_error + value_type)) :=
  if moved h then sinvalid
  else
    match h_kind h with
    | KArray | KSingle => (x <- capture d_peek ;; sret (h, x))
    | KMember =>
      if consumed_name h
      then (x <- capture d_peek ;; sret (h, x))
      else
        (y <- capture (d_unit CSkipName) ;;
         match y with
         | inl e => sret (Handle KMember true false false, inl e)
         | inr _ => (x <- capture d_peek ;; sret (Handle KMember true false false, x))
         end)
    end.

(** [ArrayReader::has_next], lines 1806-1808 *)
Definition has_next_with (h : handle) : simple (simple_error + bool) :=
  match h_kind h with
  | KArray => capture d_has_next
  | _ => sinvalid
  end.

(** [MemberReader::read_name], lines 2031-2051 *)
Definition read_name_with (h : handle) : simple (handle * (simple_error + str)) :=
  if moved h then sinvalid
  else
    match h_kind h with
    | KMember =>
      if consumed_name h then spanic Misuse
      else (x <- capture (d_str CNextName) ;; sret (Handle KMember true false false, x))
    | _ => sinvalid
    end.

(** ** The functions which read a value *)

(** A closure applied to its reader *)
Definition closure (R : Type) : Type := handle -> simple (handle * (simple_error + R)).

(** Lines 955-971 *)
Definition read_value {R : Type} (f : closure R) : simple R :=
  (hx <- f single_reader ;;
   result <- of_result (snd hx) ;;
   (if consumed_value (fst hx) then sret tt else d_unit CSkipValue) ;;
   sret result).

(** Lines 865-874 *)
Definition read_array {R : Type} (f : simple (simple_error + R)) : simple R :=
  (d_unit CBeginArray ;;
   x <- f ;;
   result <- of_result x ;;
   d_unit CEndArray ;;
   sret result).

(** The loop of [read_array_items], lines 672-674, and of lines 1180-1182 *)
Fixpoint items_loop {R : Type} (fuel : nat) (f : R -> closure R) (r : R) : simple R :=
  match fuel with
  | O => sfuel
  | S fuel' =>
    (b <- d_has_next ;;
     if b : bool
     then (r' <- read_value (f r) ;; items_loop fuel' f r')
     else sret r)
  end.

(** Lines 881-897 *)
Fixpoint members_loop {R : Type} (fuel : nat) (f : R -> closure R) (r : R) : simple R :=
  match fuel with
  | O => sfuel
  | S fuel' =>
    (b <- d_has_next ;;
     if b : bool
     then
       (hx <- f r member_reader ;;
        r' <- of_result (snd hx) ;;
        (if consumed_name (fst hx) then sret tt else d_unit CSkipName) ;;
        (if consumed_value (fst hx) then sret tt else d_unit CSkipValue) ;;
        members_loop fuel' f r')
     else sret r)
  end.

(** Lines 907-919 *)
Fixpoint members_owned_loop {R : Type} (fuel : nat) (f : str -> R -> closure R) (r : R) : simple R :=
  match fuel with
  | O => sfuel
  | S fuel' =>
    (b <- d_has_next ;;
     if b : bool
     then
       (name <- d_str CNextNameOwned ;;
        r' <- read_value (f name r) ;;
        members_owned_loop fuel' f r')
     else sret r)
  end.

(** A closure applied to the string reader *)
Fixpoint run_string {R : Type} (f : string_body R) : simple (simple_error + R) :=
  match f with
  | SBDone r => sret r
  | SBRead len k => (x <- capture (string_read len) ;; run_string (k x))
  end.

(** Lines 946-948 *)
Fixpoint drain (fuel : nat) : simple unit :=
  match fuel with
  | O => sfuel
  | S fuel' =>
    (bs <- string_read 512 ;;
     match bs with [] => sret tt | _ :: _ => drain fuel' end)
  end.

(** Lines 935-937 *)
Definition check_string_error : simple unit := fun err =>
  match err with
  | Some e => Done (SErr (SPrevious e), err)
  | None => Done (SOk tt, err)
  end.

(** Lines 924-952; [utf8::MAX_BYTES_PER_CHAR] is 4 (src/utf8.rs:4) *)
Definition read_string_with_reader {R : Type} (fuel : nat) (f : string_body R) : simple R :=
  (d_unit CNextStringReader ;;
   x <- run_string f ;;
   result <- of_result x ;;
   check_string_error ;;
   bs <- string_read 4 ;;
   match bs with [] => sret tt | _ :: _ => drain fuel end ;;
   sret result).

(** Lines 973-982 *)
Definition read_seeked {R : Type} (path : list piece) (f : closure R) : simple R :=
  (d_unit (CSeekTo path) ;;
   result <- read_value f ;;
   d_unit (CSeekBack path) ;;
   sret result).

(** ** [read_seeked_multi], lines 984-1246 *)

(** [PartialPath], lines 995-1000 *)
Inductive partial_path : Type :=
| PPath (path : list piece)
| PAllItems (allow_empty : bool)
| POptional (n : str)
| PAllMembers (allow_empty : bool).

(** [current_section.take()] pushed to the path *)
Definition take_section (section : option (list piece)) : list partial_path :=
  match section with Some p => [PPath p] | None => [] end.
Definition push_piece (section : option (list piece)) (p : piece) : option (list piece) :=
  Some (match section with Some ps => ps | None => [] end ++ [p]).

(** [convert_path], lines 1004-1047 *)
Fixpoint convert_path (section : option (list piece)) (path : list multi_piece) : list partial_path :=
  match path with
  | [] => take_section section
  | MIndex i :: path' => convert_path (push_piece section (PIndex i)) path'
  | MName n :: path' => convert_path (push_piece section (PName n)) path'
  | MAllItems ae :: path' => take_section section ++ PAllItems ae :: convert_path None path'
  | MOptionalName n :: path' => take_section section ++ POptional n :: convert_path None path'
  | MAllMembers ae :: path' => take_section section ++ PAllMembers ae :: convert_path None path'
  end.

(** Lines 1083-1093 and 1142-1152: [result.expect_err(...)] *)
Definition expect_err {A B : Type} (m : simple A) : simple B :=
  (x <- capture m ;; match x with inl e => sfail e | inr _ => spanic Bug end).

(** Lines 1109-1118: whether the member has been found *)
Fixpoint find_loop (fuel : nat) (n : str) : simple bool :=
  match fuel with
  | O => sfuel
  | S fuel' =>
    (b <- d_has_next ;;
     if b : bool
     then
       (m <- d_str CNextName ;;
        if list_eq_dec N.eq_dec m n then sret true
        else (d_unit CSkipValue ;; find_loop fuel' n))
     else sret false)
  end.

(** Lines 1127-1130 *)
Fixpoint skip_members_loop (fuel : nat) : simple unit :=
  match fuel with
  | O => sfuel
  | S fuel' =>
    (b <- d_has_next ;;
     if b : bool
     then (d_unit CSkipName ;; d_unit CSkipValue ;; skip_members_loop fuel')
     else sret tt)
  end.

(** Lines 1187-1190 *)
Fixpoint all_members_loop {R : Type} (fuel : nat) (f : R -> closure R) (r : R) : simple R :=
  match fuel with
  | O => sfuel
  | S fuel' =>
    (b <- d_has_next ;;
     if b : bool
     then (d_unit CSkipName ;; r' <- read_value (f r) ;; all_members_loop fuel' f r')
     else sret r)
  end.

(** Lines 1065-1165: the new values of [is_moving_down] and [path_index].
    [read_name]: the check of lines 1076-1104 and 1135-1164 differs only in the
    calls which are made. *)
Definition multi_step (fuel : nat) (p : partial_path) (down : bool) (index : nat)
  : simple (bool * nat) :=
  match p with
  | PPath path =>
    if down then (d_unit (CSeekTo path) ;; sret (true, S index))
    else (d_unit (CSeekBack path) ;; sret (false, index))
  | PAllItems allow_empty =>
    ((if down
      then
        (d_unit CBeginArray ;;
         if negb allow_empty
         then (b <- d_has_next ;; if negb b then expect_err d_peek else sret tt)
         else sret tt)
      else sret tt) ;;
     b <- d_has_next ;;
     if b : bool then sret (true, S index)
     else (d_unit CEndArray ;; sret (false, index)))
  | POptional n =>
    if down
    then
      (d_unit CBeginObject ;;
       found <- find_loop fuel n ;;
       if found : bool then sret (true, S index)
       else (d_unit CEndObject ;; sret (false, index)))
    else
      (skip_members_loop fuel ;;
       d_unit CEndObject ;;
       sret (false, index))
  | PAllMembers allow_empty =>
    ((if down
      then
        (d_unit CBeginObject ;;
         if negb allow_empty
         then (b <- d_has_next ;; if negb b then expect_err (d_unit CSkipName) else sret tt)
         else sret tt)
      else sret tt) ;;
     b <- d_has_next ;;
     if b : bool then (d_unit CSkipName ;; sret (true, S index))
     else (d_unit CEndObject ;; sret (false, index)))
  end.

(** Lines 1169-1193: a value has been found; [p] is the last piece of the path *)
Definition multi_found {R : Type} (fuel : nat) (p : partial_path) (f : R -> closure R) (r : R)
  : simple R :=
  (r1 <- read_value (f r) ;;
   match p with
   | PPath _ | POptional _ => sret r1
   | PAllItems _ => items_loop fuel f r1
   | PAllMembers _ => all_members_loop fuel f r1
   end).

(** Lines 1064-1207; the result has [has_match].  An index out of range is a
    panic. *)
Fixpoint multi_loop {R : Type} (fuel loop_fuel : nat) (path : list partial_path) (f : R -> closure R)
  (down : bool) (index : nat) (has_match : bool) (r : R) : simple (R * bool) :=
  match fuel with
  | O => sfuel
  | S fuel' =>
    match nth_error path index with
    | None => spanic Bug
    | Some p =>
      (s <- multi_step loop_fuel p down index ;;
       t <- (if fst s && Nat.leb (length path) (snd s)
             then
               match nth_error path (snd s - 1) with
               | None => spanic Bug
               | Some q => (r' <- multi_found loop_fuel q f r ;; sret (false, true, r'))
               end
             else sret (fst s, has_match, r)) ;;
       match t with
       | (down', has_match', r') =>
         if down' : bool then multi_loop fuel' loop_fuel path f true (snd s) has_match' r'
         else
           match snd s with
           | O => sret (r', has_match')
           | S index' => multi_loop fuel' loop_fuel path f false index' has_match' r'
           end
       end)
    end
  end.

(** Lines 1209-1242 *)
Definition no_match {A : Type} (loc : option position) : simple A := fun err =>
  Done (SErr SNoMatch, match err with Some e => Some e | None => Some (KDummy loc) end).

Definition read_seeked_multi {R : Type} (fuel : nat) (path : list multi_piece)
  (at_least_one_match : bool) (f : R -> closure R) (r : R) : simple R :=
  match path with
  | [] => read_value (f r)
  | _ :: _ =>
    (loc <- (if at_least_one_match then d_position else sret None) ;;
     rm <- multi_loop fuel fuel (convert_path None path) f true 0 false r ;;
     if at_least_one_match && negb (snd rm) then no_match loc else sret (fst rm))
  end.

(** ** Methods and closures *)

Definition as_result {R : Type} (m : simple R) : simple (reply R) := (r <- m ;; sret (VResult r)).

(** [fuel] limits the number of rounds of each loop *)
Fixpoint run_op {R : Type} (fuel : nat) (o : op R) : simple (reply R) :=
  match o with
  | OpNull => (d_unit CNextNull ;; sret VUnit)
  | OpBool => (b <- d_bool ;; sret (VBool b))
  | OpString => (s <- d_str CNextString ;; sret (VStr s))
  | OpNumber => (s <- d_str CNextNumberString ;; sret (VStr s))
  | OpSkip => (d_unit CSkipValue ;; sret VUnit)
  | OpStr f => (s <- d_str CNextStr ;; as_result (of_result (f s)))
  | OpStringReader f => as_result (read_string_with_reader fuel f)
  | OpArray f => as_result (read_array (hx <- run_body fuel f array_reader ;; sret (snd hx)))
  | OpItems f r =>
    as_result (read_array (capture (items_loop fuel (fun r' h => run_body fuel (f r') h) r)))
  | OpMembers f r =>
    as_result (d_unit CBeginObject ;;
               r' <- members_loop fuel (fun r' h => run_body fuel (f r') h) r ;;
               d_unit CEndObject ;;
               sret r')
  | OpMembersOwned f r =>
    as_result (d_unit CBeginObject ;;
               r' <- members_owned_loop fuel (fun n r' h => run_body fuel (f n r') h) r ;;
               d_unit CEndObject ;;
               sret r')
  | OpSeeked path f => as_result (read_seeked path (fun h => run_body fuel f h))
  | OpMulti path alo f r =>
    as_result (read_seeked_multi fuel path alo (fun r' h => run_body fuel (f r') h) r)
  | OpDeserialize C steps seed => as_result (d_deserialize C steps seed)
  end
with run_body {R : Type} (fuel : nat) (b : body R) (h : handle)
  : simple (handle * (simple_error + R)) :=
  match b with
  | BDone r => sret (h, r)
  | BPeek k => (hx <- peek_with h ;; run_body fuel (k (snd hx)) (fst hx))
  | BHasNext k => (x <- has_next_with h ;; run_body fuel (k x) h)
  | BReadName k => (hx <- read_name_with h ;; run_body fuel (k (snd hx)) (fst hx))
  | BRead o k => (hx <- read_with h (run_op fuel o) ;; run_body fuel (k (snd hx)) (fst hx))
  end.

(** ** [SimpleJsonReader], lines 1547-1777 *)

(** The use of a [SimpleJsonReader]: [peek_value] and [seek_to] (line 1637) may be
    called any number of times, then a method which reads the value takes the
    reader by value *)
Inductive use (R : Type) : Type :=
| UPeek (k : simple_error + value_type -> use R)
| USeek (path : list piece) (k : simple_error + unit -> use R)
| URead (o : op R).
Arguments UPeek {R} k.
Arguments USeek {R} path k.
Arguments URead {R} o.

(** Lines 1642-1649 *)
Definition finish (has_seeked : bool) : simple unit :=
  ((if has_seeked then d_unit CSkipToTopLevel else sret tt) ;; d_consume).

Fixpoint run_use {R : Type} (fuel : nat) (u : use R) (has_seeked : bool) : simple (reply R) :=
  match u with
  | UPeek k => (x <- capture d_peek ;; run_use fuel (k x) has_seeked)
  | USeek path k => (x <- capture (d_unit (CSeekTo path)) ;; run_use fuel (k x) true)
  | URead o => (x <- run_op fuel o ;; finish has_seeked ;; sret x)
  end.

(** A new [SimpleJsonReader], lines 1583-1591, and its use *)
Definition simple_client {R : Type} (fuel : nat) (u : use R) : client (sres (reply R)) :=
  cbind (run_use fuel u false None) (fun re => Done (fst re)).

(** ... with a [JsonStreamReader] for the given [Read] implementation *)
Definition simple_session {R : Type} (fuel : nat) (s : settings) (evs : list event) (u : use R)
  : sres (reply R) :=
  match crun (client_run (Env s (enough_fuel (fst (supplied evs)))) (simple_client fuel u)
                         (session_new s))
             (csrc_new evs) with
  | Some (r, _, _) => r
  | None => SPanic Bug
  end.
