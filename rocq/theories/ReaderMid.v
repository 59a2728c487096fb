(** * The reader without its input buffer

    Auxiliary functions of the proofs: the functions of the reader as functions
    of the state and of the bytes still to be read, on top of the scanners of
    [ReaderScan].  [ReaderAgree] shows that the model agrees with them. *)

From Verif Require Import Base Utf8Model NumberModel SourceModel ReaderModel ReaderScan ReaderLex ReaderLexStr.

(** Result: success, recoverable error, any other error (with the text of an
    unsupported number), documented panic; [MBug]: internal panic, no fuel left *)
Inductive mres (A : Type) : Type :=
| MOk (x : A) (s : rstate) (r : bytes)
| MErr (e : reader_error) (s : rstate) (r : bytes)
| MFail (number : option str)
| MMisuse
| MBug.
Arguments MOk {A} x s r.
Arguments MErr {A} e s r.
Arguments MFail {A} number.
Arguments MMisuse {A}.
Arguments MBug {A}.

Definition D (A : Type) : Type := rstate -> bytes -> mres A.

Definition dret {A : Type} (x : A) : D A := fun s r => MOk x s r.
Definition dbind {A B : Type} (m : D A) (f : A -> D B) : D B := fun s r =>
  match m s r with
  | MOk x s' r' => f x s' r'
  | MErr e s' r' => MErr e s' r'
  | MFail n => MFail n
  | MMisuse => MMisuse
  | MBug => MBug
  end.
Definition dget : D rstate := fun s r => MOk s s r.
Definition dupdate (f : rstate -> rstate) : D unit := fun s r => MOk tt (f s) r.
Definition derr {A : Type} (e : position -> reader_error) : D A := fun s r => MErr (e (location s)) s r.
Definition dfail {A : Type} : D A := fun s r => MFail None.
Definition dmisuse {A : Type} : D A := fun s r => MMisuse.
Definition dbug {A : Type} : D A := fun s r => MBug.
Definition dmisuse_if (b : bool) : D unit := if b then dmisuse else dret tt.
Definition dstructure {A : Type} (k : structure_error) : D A := derr (EUnexpectedStructure k).

Declare Scope dmonad_scope.
Delimit Scope dmonad_scope with dm.
Notation "x <- m ;; k" := (dbind m (fun x => k))
  (at level 61, m at next level, right associativity) : dmonad_scope.
Notation "m ;; k" := (dbind m (fun _ => k)) (at level 61, right associativity) : dmonad_scope.
Open Scope dmonad_scope.

(** ** Lexical functions *)

Definition d_ws (E : env) (t : tail_end) : D (option byte) := fun s r =>
  match ws_scan E t None r with
  | SOk (w, r') => MOk (hd_error r') (move w s) r'
  | SFail => MFail None
  | SFuel => MBug
  end.

Definition d_after_name (E : env) (t : tail_end) : D unit := fun s r =>
  match ws_scan E t (Some MissingColon) r with
  | SOk (w, b :: r') => if b =? B_COLON then MOk tt (advance 1 1 (move w s)) r' else MFail None
  | SOk (w, []) => MBug
  | SFail => MFail None
  | SFuel => MBug
  end.

Definition lit_token (lit : bytes) (p : peeked_value) (eof : bool) (r : bytes) : option (peeked_value * bytes) :=
  match strip lit r with
  | Some r' => if sep_ok eof r' then Some (p, r') else None
  | None => None
  end.

(** The token at the start of the bytes, and what follows the consumed part of
    it *)
Definition token (names in_array eof : bool) (r : bytes) : option (peeked_value * bytes) :=
  match r with
  | [] => None
  | b :: r' =>
    if names then
      if b =? B_RBRACE then Some (PkObjectEnd, r')
      else if b =? B_QUOTE then Some (PkNameStart, r')
      else None
    else if b =? B_LBRACKET then Some (PkArrayStart, r')
    else if b =? B_RBRACKET then if in_array then Some (PkArrayEnd, r') else None
    else if b =? B_LBRACE then Some (PkObjectStart, r')
    else if b =? B_RBRACE then None
    else if b =? B_QUOTE then Some (PkStringStart, r')
    else if (b =? B_MINUS) || is_digit b then Some (PkNumberStart, r)
    else if b =? B_n then lit_token lit_null PkNull eof r
    else if b =? B_t then lit_token lit_true PkTrue eof r
    else if b =? B_f then lit_token lit_false PkFalse eof r
    else None
  end.

Definition can_have_comma (s : rstate) : bool :=
  negb (is_empty s) && (is_in_array s || expects_member_name s).

(** Peeking when nothing has been peeked yet *)
Definition d_fresh (E : env) (t : tail_end) : D (option peeked_value) := fun s r =>
  match ws_scan E t None r with
  | SFail => MFail None
  | SFuel => MBug
  | SOk (w, []) => MOk None (move w s) []
  | SOk (w, b :: r1) =>
    if b =? B_COMMA then
      if negb (can_have_comma s) then MFail None
      else
        match ws_scan E t (Some IncompleteDocument) r1 with
        | SFail => MFail None
        | SFuel => MBug
        | SOk (w2, r2) =>
          match token (expects_member_name s) (is_in_array s) (is_eof t) r2 with
          | None => MFail None
          | Some (p, r3) =>
            if is_end_token p && negb (allow_trailing_comma (cfg E)) then MFail None
            else MOk (Some p) (set_peeked (Some p) (move w2 (advance 1 1 (move w s)))) r3
          end
        end
    else
      match token (expects_member_name s) (is_in_array s) (is_eof t) (b :: r1) with
      | None => MFail None
      | Some (p, r3) =>
        if negb (is_end_token p) && can_have_comma s then MFail None
        else MOk (Some p) (set_peeked (Some p) (move w s)) r3
      end
  end.

Definition d_string (E : env) : D str := fun s r =>
  match scan_string (fuel E) r with
  | SOk (d, w, r') =>
    match from_utf8 d with
    | Some v => MOk v (move w s) r'
    | None => MBug
    end
  | SFail => MFail None
  | SFuel => MBug
  end.

Definition d_skip_string (E : env) : D unit := fun s r =>
  match scan_string (fuel E) r with
  | SOk (d, w, r') => MOk tt (move w s) r'
  | SFail => MFail None
  | SFuel => MBug
  end.

Definition d_number_body (E : env) (t : tail_end) (restrict : bool) : D str := fun s r =>
  match r with
  | [] => MBug
  | _ =>
    match number_scan E r with
    | SFail => MBug
    | SFuel => MBug
    | SOk (res, w, rest) =>
      if hits_error t rest then MFail None
      else
        match res with
        | None => MFail None
        | Some n =>
          match from_utf8 w with
          | None => MBug
          | Some v =>
            if restrict && ((2 <? n) || (100 <? len64 w)) then MFail (Some v)
            else if sep_ok (is_eof t) rest then MOk v (advance (len64 w) (len64 w) s) rest
            else MFail None
          end
        end
    end
  end.

(** ** Peeking *)

Definition d_peek_optional (E : env) (t : tail_end) : D (option peeked_value) :=
  s <- dget ;;
  dmisuse_if (string_reader_active s) ;;
  match peeked s with
  | Some p => dret (Some p)
  | None =>
    dmisuse_if (is_behind_top_level s && negb (allow_multiple_top_level (cfg E))) ;;
    (if expects_member_value s then d_after_name E t else dret tt) ;;
    d_fresh E t
  end.

Definition d_peek_internal (E : env) (t : tail_end) : D peeked_value :=
  op <- d_peek_optional E t ;;
  match op with
  | Some p => dret p
  | None =>
    s <- dget ;;
    if is_behind_top_level s && allow_multiple_top_level (cfg E)
    then dstructure FewerElementsThanExpected
    else dfail
  end.

Definition d_map_peeked (p : peeked_value) : D value_type :=
  match p with
  | PkObjectStart => dret TObject
  | PkObjectEnd | PkNameStart => dbug
  | PkArrayStart => dret TArray
  | PkArrayEnd => dstructure FewerElementsThanExpected
  | PkStringStart => dret TString
  | PkNumberStart => dret TNumber
  | PkNull => dret TNull
  | PkTrue | PkFalse => dret TBoolean
  end.

Definition d_consume_peeked : D unit :=
  s <- dget ;;
  match peeked s with
  | None => dbug
  | Some p => dupdate (fun s => advance (peeked_length p) (peeked_length p) (set_peeked None s))
  end.

(** ** Values and containers *)

Definition d_start (E : env) (t : tail_end) (expected : value_type) (check_depth : bool)
  : D peeked_value :=
  s <- dget ;;
  dmisuse_if (expects_member_name s) ;;
  p <- d_peek_internal E t ;;
  actual <- d_map_peeked p ;;
  if value_type_eqb actual expected then
    s <- dget ;;
    match (if check_depth then depth_exceeded E s else None) with
    | Some m => derr (EMaxNestingDepth m)
    | None => d_consume_peeked ;; dret p
    end
  else derr (EUnexpectedType expected actual).

Definition d_on_container_start (E : env) (t : tail_end) (expected : value_type) (v : stack_value) : D unit :=
  d_start E t expected true ;;
  dupdate (fun s => set_empty true (set_stack (v :: stack s) s)).

Definition d_on_value_end : D unit :=
  s <- dget ;;
  (if is_in_array s then
     match json_path s with
     | None => dret tt
     | Some (PIndex i :: l) => dupdate (set_path (Some (PIndex (i + 1) :: l)))
     | Some _ => dbug
     end
   else dret tt) ;;
  dupdate (fun s => set_empty false (if is_in_object s then set_expects_name true s else s)).

Definition d_on_container_end : D unit :=
  dupdate (fun s => set_path (option_map (@tl piece) (json_path s)) (set_stack (tl (stack s)) s)) ;;
  d_on_value_end.

(** ** The methods *)

Definition d_peek (E : env) (t : tail_end) : D value_type :=
  s <- dget ;;
  dmisuse_if (expects_member_name s) ;;
  p <- d_peek_internal E t ;;
  d_map_peeked p.

Definition d_begin_array (E : env) (t : tail_end) : D unit :=
  d_on_container_start E t TArray SArray ;;
  dupdate (fun s => set_expects_name false
                      (set_path (option_map (cons (PIndex 0)) (json_path s)) s)).

Definition d_end_array (E : env) (t : tail_end) : D unit :=
  s <- dget ;;
  dmisuse_if (negb (is_in_array s)) ;;
  p <- d_peek_internal E t ;;
  match p with
  | PkArrayEnd => d_consume_peeked ;; d_on_container_end
  | _ => dstructure MoreElementsThanExpected
  end.

Definition d_begin_object (E : env) (t : tail_end) : D unit :=
  d_on_container_start E t TObject SObject ;;
  dupdate (fun s => set_expects_name true
                      (set_path (option_map (cons (PName name_placeholder)) (json_path s)) s)).

Definition d_end_object (E : env) (t : tail_end) : D unit :=
  s <- dget ;;
  dmisuse_if (negb (is_in_object s)) ;;
  dmisuse_if (expects_member_value s) ;;
  p <- d_peek_internal E t ;;
  match p with
  | PkObjectEnd => d_consume_peeked ;; dupdate (set_expects_name false) ;; d_on_container_end
  | _ => dstructure MoreElementsThanExpected
  end.

Definition d_has_next (E : env) (t : tail_end) : D bool :=
  s <- dget ;;
  dmisuse_if (expects_member_value s) ;;
  op <-
    match stack s with
    | [] =>
      dmisuse_if (is_empty s) ;;
      dmisuse_if (negb (allow_multiple_top_level (cfg E))) ;;
      d_peek_optional E t
    | _ => p <- d_peek_internal E t ;; dret (Some p)
    end ;;
  match op with
  | None => dret false
  | Some p =>
    s <- dget ;;
    if negb (expects_member_name s) ||
       match p with PkNameStart | PkObjectEnd => true | _ => false end
    then dret (negb (is_end_token p))
    else dbug
  end.

Definition d_before_name (E : env) (t : tail_end) : D unit :=
  s <- dget ;;
  dmisuse_if (negb (expects_member_name s)) ;;
  dmisuse_if (string_reader_active s) ;;
  h <- d_has_next E t ;;
  if negb h then dstructure FewerElementsThanExpected
  else
    dupdate (set_expects_name false) ;;
    d_consume_peeked.

Definition d_set_path_name (name : str) : D unit :=
  s <- dget ;;
  match json_path s with
  | None => dret tt
  | Some (PName _ :: l) => dupdate (set_path (Some (PName name :: l)))
  | Some _ => dbug
  end.

(** [next_name] and [next_name_owned] *)
Definition d_next_name (E : env) (t : tail_end) : D str :=
  d_before_name E t ;;
  name <- d_string E ;;
  d_set_path_name name ;;
  dret name.

Definition d_skip_name (E : env) (t : tail_end) : D unit :=
  d_before_name E t ;;
  s <- dget ;;
  match json_path s with
  | Some _ => name <- d_string E ;; d_set_path_name name
  | None => d_skip_string E
  end.

Definition d_next_bool (E : env) (t : tail_end) : D bool :=
  p <- d_start E t TBoolean false ;;
  v <- match p with PkTrue => dret true | PkFalse => dret false | _ => dbug end ;;
  d_on_value_end ;;
  dret v.

Definition d_next_null (E : env) (t : tail_end) : D unit :=
  d_start E t TNull false ;;
  d_on_value_end.

(** [next_string] and [next_str] *)
Definition d_next_string (E : env) (t : tail_end) : D str :=
  d_start E t TString false ;;
  r <- d_string E ;;
  d_on_value_end ;;
  dret r.

Definition d_next_string_reader (E : env) (t : tail_end) : D sv_state :=
  d_start E t TString false ;;
  dupdate (set_active true) ;;
  dret (SvState [] 0 false false).

(** [next_number_as_string], [next_number_as_str]; without restriction and
    without result: skipping a number *)
Definition d_number (E : env) (t : tail_end) (restrict : bool) : D str :=
  d_start E t TNumber false ;;
  v <- d_number_body E t restrict ;;
  d_on_value_end ;;
  dret v.

Definition d_next_number (E : env) (t : tail_end) : D str :=
  d_number E t (restrict_number_values (cfg E)).

Definition d_skip_value_start (E : env) (t : tail_end) : D bool :=
  ty <- d_peek E t ;;
  match ty with
  | TArray => d_begin_array E t ;; dret true
  | TObject => d_begin_object E t ;; dret true
  | TString =>
    d_start E t TString false ;;
    d_skip_string E ;;
    d_on_value_end ;;
    dret false
  | TNumber => d_number E t false ;; dret false
  | TBoolean => d_next_bool E t ;; dret false
  | TNull => d_next_null E t ;; dret false
  end.

Definition d_end_container (E : env) (t : tail_end) : D unit :=
  s <- dget ;;
  if is_in_array s then d_end_array E t else d_end_object E t.

(** One step of [skip_value]: the new depth *)
Definition d_skip_step (E : env) (t : tail_end) (depth : nat) : D nat :=
  h <- match depth with O => dret true | _ => d_has_next E t end ;;
  (if negb h then d_end_container E t ;; dret (pred depth)
   else
     s <- dget ;;
     (if expects_member_name s then d_skip_name E t else dret tt) ;;
     started <- d_skip_value_start E t ;;
     dret (if started : bool then S depth else depth)).

Fixpoint d_skip_value_loop (E : env) (t : tail_end) (f : nat) (depth : nat) : D unit :=
  match f with
  | O => dbug
  | S f' =>
    depth' <- d_skip_step E t depth ;;
    match depth' with
    | O => dret tt
    | _ => d_skip_value_loop E t f' depth'
    end
  end.
Definition d_skip_value (E : env) (t : tail_end) : D unit :=
  s <- dget ;;
  dmisuse_if (expects_member_name s) ;;
  d_skip_value_loop E t (fuel E) 0.

Fixpoint d_skip_items (E : env) (t : tail_end) (f : nat) : D unit :=
  match f with
  | O => dbug
  | S f' =>
    h <- d_has_next E t ;;
    if h : bool then d_skip_value E t ;; d_skip_items E t f' else dret tt
  end.

Fixpoint d_skip_members (E : env) (t : tail_end) (f : nat) : D unit :=
  match f with
  | O => dbug
  | S f' =>
    h <- d_has_next E t ;;
    if h : bool then d_skip_name E t ;; d_skip_value E t ;; d_skip_members E t f' else dret tt
  end.

Fixpoint d_skip_to_top_level_loop (E : env) (t : tail_end) (f : nat) : D unit :=
  match f with
  | O => dbug
  | S f' =>
    s <- dget ;;
    match stack s with
    | [] => dret tt
    | SArray :: _ => d_skip_items E t (fuel E) ;; d_end_array E t ;; d_skip_to_top_level_loop E t f'
    | SObject :: _ => d_skip_members E t (fuel E) ;; d_end_object E t ;; d_skip_to_top_level_loop E t f'
    end
  end.
Definition d_skip_to_top_level (E : env) (t : tail_end) : D unit :=
  s <- dget ;;
  dmisuse_if (string_reader_active s) ;;
  (if expects_member_value s then d_skip_value E t else dret tt) ;;
  d_skip_to_top_level_loop E t (fuel E).

Fixpoint d_seek_item (E : env) (t : tail_end) (f : nat) (index remaining : N) : D unit :=
  match f with
  | O => dbug
  | S f' =>
    h <- d_has_next E t ;;
    if negb h then dstructure (TooShortArray index)
    else if remaining =? 0 then dret tt
    else d_skip_value E t ;; d_seek_item E t f' index (remaining - 1)
  end.

Fixpoint d_seek_member (E : env) (t : tail_end) (f : nat) (name : str) : D unit :=
  match f with
  | O => dbug
  | S f' =>
    h <- d_has_next E t ;;
    if negb h then dstructure (MissingObjectMember name)
    else
      n <- d_next_name E t ;;
      if str_eqb n name then dret tt
      else d_skip_value E t ;; d_seek_member E t f' name
  end.

Fixpoint d_seek_pieces (E : env) (t : tail_end) (path : list piece) : D unit :=
  match path with
  | [] => dret tt
  | PIndex i :: path' => d_begin_array E t ;; d_seek_item E t (fuel E) i i ;; d_seek_pieces E t path'
  | PName n :: path' => d_begin_object E t ;; d_seek_member E t (fuel E) n ;; d_seek_pieces E t path'
  end.

Definition d_seek_to (E : env) (t : tail_end) (path : list piece) : D unit :=
  d_peek E t ;;
  d_seek_pieces E t path.

Fixpoint d_seek_back_pieces (E : env) (t : tail_end) (rev_path : list piece) : D unit :=
  match rev_path with
  | [] => dret tt
  | PIndex _ :: p => d_skip_items E t (fuel E) ;; d_end_array E t ;; d_seek_back_pieces E t p
  | PName _ :: p => d_skip_members E t (fuel E) ;; d_end_object E t ;; d_seek_back_pieces E t p
  end.

Definition d_seek_back (E : env) (t : tail_end) (path : list piece) : D unit :=
  d_seek_back_pieces E t (rev path).

Definition d_consume_trailing (E : env) (t : tail_end) : D unit :=
  s <- dget ;;
  dmisuse_if (string_reader_active s) ;;
  match stack s with
  | [] => dmisuse_if (is_empty s)
  | _ => dmisuse
  end ;;
  ob <- d_ws E t ;;
  match ob with
  | Some _ => dfail
  | None => dret tt
  end.
