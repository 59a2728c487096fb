(** * Specification: correct usage of a reader

    Which calls are allowed is described from what a client knows: the calls it
    has made and their results.  The input does not occur here. *)

From Verif Require Import Base SourceModel ReaderModel.

(** What the calls so far have led to.
    [u_open]: the arrays and objects which have been opened and not yet closed,
    the innermost first.
    [u_name]: in an object, the next thing to read is the name of a member.
    [u_some]: a top-level value has been read completely.
    [u_string]: there is a string reader whose end has not been reached. *)
Record usage : Type := Usage {
  u_open : list stack_value;
  u_name : bool;
  u_some : bool;
  u_string : bool
}.

Definition usage_start : usage := Usage [] false false false.

Definition name_next (open : list stack_value) : bool := match open with SObject :: _ => true | _ => false end.

(** A value which is an element of [open] has been read: in an object a name is
    next *)
Definition value_done (open : list stack_value) (u : usage) : usage :=
  Usage open (name_next open) (match open with [] => true | _ => u_some u end) false.

(** A value may be read: no member name has to be read first, no string reader is
    unfinished, and there is no earlier top-level value, unless several are
    allowed *)
Definition value_allowed (s : settings) (u : usage) : bool :=
  negb (u_string u) && negb (u_name u) &&
  match u_open u with [] => negb (u_some u) || allow_multiple_top_level s | _ => true end.

Definition kind (p : piece) : stack_value := match p with PIndex _ => SArray | PName _ => SObject end.

Definition same_kind (a b : stack_value) : bool :=
  match a, b with SArray, SArray | SObject, SObject => true | _, _ => false end.

(** [inner] are the innermost of the open containers *)
Fixpoint innermost (inner open : list stack_value) : bool :=
  match inner, open with
  | [], _ => true
  | a :: inner', b :: open' => same_kind a b && innermost inner' open'
  | _, [] => false
  end.

(** May the call be made? *)
Definition allowed (s : settings) (u : usage) (c : rcall) : bool :=
  match c with
  | CPosition _ | CRead _ => true
  | CPeek | CBeginArray | CBeginObject | CNextString | CNextStr | CNextStringReader
  | CNextNumberStr | CNextNumberString | CNextBool | CNextNull | CSkipValue | CSeekTo _ => value_allowed s u
  | CHasNext =>
    negb (u_string u) &&
    match u_open u with
    | [] => u_some u && allow_multiple_top_level s
    | SArray :: _ => true
    | SObject :: _ => u_name u
    end
  | CEndArray => negb (u_string u) && match u_open u with SArray :: _ => true | _ => false end
  | CEndObject => negb (u_string u) && match u_open u with SObject :: _ => u_name u | _ => false end
  | CNextName | CNextNameOwned | CSkipName => negb (u_string u) && u_name u
  | CSeekBack [] => true
  | CSeekBack path =>
    negb (u_string u) && eqb (u_name u) (name_next (u_open u)) && innermost (rev (map kind path)) (u_open u)
  | CSkipToTopLevel => negb (u_string u)
  | CConsumeTrailingWhitespace => negb (u_string u) && u_some u && match u_open u with [] => true | _ => false end
  end.

(** A call which consists of several steps; after a recoverable error of it the
    client does not know how far it got *)
Definition several_steps (c : rcall) : bool :=
  match c with CSkipValue | CSeekTo _ | CSeekBack _ | CSkipToTopLevel => true | _ => false end.

(** What the outcome of a call leads to; [None]: the program has ended, or
    nothing is claimed about what follows *)
Definition usage_after (c : rcall) (o : outcome) (u : usage) : option usage :=
  match o with
  | OOk v =>
    match c with
    | CPeek | CHasNext | CPosition _ => Some u
    | CBeginArray => Some (Usage (SArray :: u_open u) false (u_some u) false)
    | CBeginObject => Some (Usage (SObject :: u_open u) true (u_some u) false)
    | CEndArray | CEndObject => Some (value_done (tl (u_open u)) u)
    | CNextName | CNextNameOwned | CSkipName => Some (Usage (u_open u) false (u_some u) false)
    | CNextString | CNextStr | CNextNumberStr | CNextNumberString | CNextBool | CNextNull | CSkipValue =>
      Some (value_done (u_open u) u)
    | CNextStringReader => Some (Usage (u_open u) false (u_some u) true)
    | CRead len =>
      match v with
      | RBytes bs =>
        (* less than what has been asked for: the end of the string *)
        if u_string u && Nat.ltb (length bs) len then Some (value_done (u_open u) u) else Some u
      | _ => None
      end
    | CSeekTo [] | CSeekBack [] => Some u
    | CSeekTo path => Some (Usage (rev (map kind path) ++ u_open u) false (u_some u) false)
    | CSeekBack path => Some (value_done (skipn (length path) (u_open u)) u)
    | CSkipToTopLevel => Some (match u_open u with [] => u | _ => value_done [] u end)
    | CConsumeTrailingWhitespace => None
    end
  | OErr e => if recoverable e && negb (several_steps c) then Some u else None
  | OReadErr _ | ONotPossible => match c with CRead _ => Some u | _ => None end
  | _ => None
  end.

(** What a list of calls and their outcomes leads to *)
Fixpoint usage_of (cs : list rcall) (os : list outcome) (u : usage) : option usage :=
  match cs, os with
  | [], [] => Some u
  | c :: cs', o :: os' =>
    match usage_after c o u with
    | Some u' => usage_of cs' os' u'
    | None => None
    end
  | _, _ => None
  end.

(** Every call of the program was allowed when it was made (a program ends at the
    first outcome after which nothing is claimed) *)
Fixpoint correct_usage (s : settings) (cs : list rcall) (os : list outcome) (u : usage) : Prop :=
  match cs, os with
  | c :: cs', o :: os' =>
    allowed s u c = true /\
    match usage_after c o u with
    | Some u' => correct_usage s cs' os' u'
    | None => cs' = []
    end
  | _, _ => cs = []
  end.
