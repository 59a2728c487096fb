(** * Specification: the simple reader API

    The first part describes runs of a program which uses a [JsonReader], whatever
    that reader does.  The second part says what a closure gets for a document
    whose data is known as a tree. *)

From Verif Require Import Base Utf8Model SpecNumber SpecJson ReaderModel SpecCursor SpecRead SimpleModel.
From Verif Require SpecDe.

(** ** Runs *)

(** [plays m log a]: the program makes the calls of [log], which have the outcomes
    of [log], and ends with [a] *)
Inductive plays {A : Type} : client A -> list (rcall * outcome) -> A -> Prop :=
| Plays_done a : plays (Done a) [] a
| Plays_call c k o log a : plays (k o) log a -> plays (Call c k) ((c, o) :: log) a.

(** [current_position], the only call which does not return a [Result] and does
    not use the reader's input *)
Definition position_call (c : rcall) : Prop := exists b, c = CPosition b.

(** The call has failed *)
Definition failed_call (c : rcall) (o : outcome) : Prop :=
  ~ position_call c /\ match o with OErr _ | OReadErr _ => True | _ => False end.

Definition success {A : Type} (r : sres A) : Prop := exists a, r = SOk a.

(** [read_seeked_multi] with the empty path *)
Definition empty_multi {R : Type} (o : op R) : Prop :=
  match o with OpMulti [] _ _ _ => True | _ => False end.

(** The documentation of [read_deserialize] requires implementations of [Deserialize]
    which return each error (SpecDe); this concerns those used by a method, by a
    closure, or by a program *)
Fixpoint returns_errors_op {R : Type} (o : op R) : Prop :=
  match o with
  | OpDeserialize C _ _ => SpecDe.returns_errors C
  | OpArray f | OpSeeked _ f => returns_errors_body f
  | OpItems f _ | OpMembers f _ | OpMulti _ _ f _ => forall r, returns_errors_body (f r)
  | OpMembersOwned f _ => forall n r, returns_errors_body (f n r)
  | _ => True
  end
with returns_errors_body {R : Type} (b : body R) : Prop :=
  match b with
  | BDone _ => True
  | BPeek k => forall x, returns_errors_body (k x)
  | BHasNext k => forall x, returns_errors_body (k x)
  | BReadName k => forall x, returns_errors_body (k x)
  | BRead o k => returns_errors_op o /\ forall x, returns_errors_body (k x)
  end.
Fixpoint returns_errors_use {R : Type} (u : use R) : Prop :=
  match u with
  | UPeek k => forall x, returns_errors_use (k x)
  | USeek _ k => forall x, returns_errors_use (k x)
  | URead o => returns_errors_op o
  end.

(** ** What closures get *)

(** How a method or closure ends:
    - [Gives a]: it succeeds and has read exactly its value
    - [Fails]: the reader reports an error.  The closures see an error, and so they
      do for every further call
    - [Aborts e complete]: it ends with the error [e] of a closure; [complete]: the
      value had already been read completely
    - [Unspecified]: it depends on details which the documentation leaves open: the
      program is not valid, panics, or goes on using the reader although a
      closure has ended with an error of its own; or an implementation of
      [Deserialize] does not end, misuses the deserializer, or does not use it *)
Inductive verdict (A : Type) : Type :=
| Gives (a : A)
| Fails
| Aborts (e : simple_error) (complete : bool)
| Unspecified.
Arguments Gives {A} a.
Arguments Fails {A}.
Arguments Aborts {A} e complete.
Arguments Unspecified {A}.

(** What the reader of a closure stands for: the rest of an array; a value which
    can be read once; a member, whose name may have been read; nothing any more *)
Inductive view : Type :=
| AtItems (items : list json)
| AtSingle (v : json)
| AtMember (name_read : bool) (n : str) (v : json)
| Taken.

(** A string reader delivers the data of the string; what is left when the closure
    ends is skipped *)
Fixpoint sem_string {R : Type} (f : string_body R) (data : bytes) : verdict (reply R) :=
  match f with
  | SBDone (inr r) => Gives (VResult r)
  | SBDone (inl e) => Aborts e false
  | SBRead len k => sem_string (k (inr (firstn len data))) (skipn len data)
  end.

(** A closure is called for each value in turn, with the result of the previous
    call *)
Fixpoint sem_each {A R : Type} (f : R -> A -> verdict R) (l : list A) (r : R) : verdict R :=
  match l with
  | [] => Gives r
  | x :: l' =>
    match f r x with
    | Gives r' => sem_each f l' r'
    | Fails => Fails
    | Aborts e _ => Aborts e false
    | Unspecified => Unspecified
    end
  end.

(** The result of a closure which need not read its value *)
Definition sem_any {R : Type} (x : verdict (R * view)) : verdict R :=
  match x with
  | Gives (r, _) => Gives r
  | Fails => Fails
  | Aborts e _ => Aborts e false
  | Unspecified => Unspecified
  end.

Definition sem_result {R : Type} (x : verdict R) : verdict (reply R) :=
  match x with
  | Gives r => Gives (VResult r)
  | Fails => Fails
  | Aborts e _ => Aborts e false
  | Unspecified => Unspecified
  end.

(** The value of the first member with the given name *)
Definition member (n : str) (ms : list (str * json)) : option json :=
  match find (fun m => if list_eq_dec N.eq_dec (fst m) n then true else false) ms with
  | Some m => Some (snd m)
  | None => None
  end.

(** The values which a path selects, in the order of the document, up to the first
    place where the data does not match the path; and whether it matches
    everywhere *)
Fixpoint select_all (f : json -> list json * bool) (vs : list json) : list json * bool :=
  match vs with
  | [] => ([], true)
  | v :: vs' =>
    match f v with
    | (us, true) => (us ++ fst (select_all f vs'), snd (select_all f vs'))
    | (us, false) => (us, false)
    end
  end.

Definition is_nil {A : Type} (l : list A) : bool := match l with [] => true | _ => false end.

Fixpoint select (path : list multi_piece) (v : json) : list json * bool :=
  match path with
  | [] => ([v], true)
  | MIndex i :: path' =>
    match v with
    | JArr items =>
      match nth_error items (N.to_nat i) with Some u => select path' u | None => ([], false) end
    | _ => ([], false)
    end
  | MName n :: path' =>
    match v with
    | JObj ms => match member n ms with Some u => select path' u | None => ([], false) end
    | _ => ([], false)
    end
  | MOptionalName n :: path' =>
    match v with
    | JObj ms => match member n ms with Some u => select path' u | None => ([], true) end
    | _ => ([], false)
    end
  | MAllItems allow_empty :: path' =>
    match v with
    | JArr items =>
      if is_nil items && negb allow_empty then ([], false) else select_all (select path') items
    | _ => ([], false)
    end
  | MAllMembers allow_empty :: path' =>
    match v with
    | JObj ms =>
      if is_nil ms && negb allow_empty then ([], false) else select_all (select path') (map snd ms)
    | _ => ([], false)
    end
  end.

(** The closure is called for the selected values.  It is an error if the data
    does not match the path, or if there is no value but one is required. *)
Definition sem_multi {R : Type} (f : R -> json -> verdict R) (selected : list json * bool)
  (at_least_one_match : bool) (r : R) : verdict R :=
  match sem_each f (fst selected) r with
  | Gives r' =>
    if snd selected && negb (at_least_one_match && is_nil (fst selected)) then Gives r' else Fails
  | x => x
  end.

(** The next value of the reader, and the reader behind it *)
Definition sem_value (w : view) : option json :=
  match w with
  | AtItems (v :: _) => Some v
  | AtSingle v => Some v
  | AtMember _ _ v => Some v
  | _ => None
  end.
Definition sem_behind (w : view) : view :=
  match w with
  | AtItems items => AtItems (tl items)
  | _ => Taken
  end.
(** The name of the member is skipped *)
Definition sem_named (w : view) : view :=
  match w with
  | AtMember _ n v => AtMember true n v
  | w => w
  end.

(** A method or closure for a value.  [read_array] requires that the closure reads
    all items; the other methods skip what the closure has not read.  The result of
    [read_deserialize] is that of SpecDe, with the default nesting limit. *)
Fixpoint sem_op {R : Type} (s : settings) (o : op R) (v : json) : verdict (reply R) :=
  match o with
  | OpNull => match v with JNull => Gives VUnit | _ => Fails end
  | OpBool => match v with JBool b => Gives (VBool b) | _ => Fails end
  | OpString => match v with JStr t => Gives (VStr t) | _ => Fails end
  | OpNumber =>
    match v with
    | JNum t => if restrict_number_values s && unsupported_number t then Fails else Gives (VStr t)
    | _ => Fails
    end
  | OpSkip => Gives VUnit
  | OpStr f =>
    match v with
    | JStr t => match f t with inr r => Gives (VResult r) | inl e => Aborts e true end
    | _ => Fails
    end
  | OpStringReader f => match v with JStr t => sem_string f (encode_utf8 t) | _ => Fails end
  | OpArray f =>
    match v with
    | JArr items =>
      match sem_body s f (AtItems items) with
      | Gives (r, AtItems []) => Gives (VResult r)
      | Gives _ => Fails
      | Fails => Fails
      | Aborts e _ => Aborts e false
      | Unspecified => Unspecified
      end
    | _ => Fails
    end
  | OpItems f r =>
    match v with
    | JArr items => sem_result (sem_each (fun r' u => sem_any (sem_body s (f r') (AtSingle u))) items r)
    | _ => Fails
    end
  | OpMembers f r =>
    match v with
    | JObj ms =>
      sem_result (sem_each (fun r' m => sem_any (sem_body s (f r') (AtMember false (fst m) (snd m)))) ms r)
    | _ => Fails
    end
  | OpMembersOwned f r =>
    match v with
    | JObj ms =>
      sem_result (sem_each (fun r' m => sem_any (sem_body s (f (fst m) r') (AtSingle (snd m)))) ms r)
    | _ => Fails
    end
  | OpSeeked path f =>
    match lookup path v with
    | Some u => sem_result (sem_any (sem_body s f (AtSingle u)))
    | None => Fails
    end
  | OpMulti path alo f r =>
    sem_result (sem_multi (fun r' u => sem_any (sem_body s (f r') (AtSingle u))) (select path v) alo r)
  | OpDeserialize C steps seed =>
    match SpecDe.sem_seed C s 128 steps seed v 0 with
    | SpecDe.Gives r => Gives (VResult r)
    | SpecDe.Fails _ => Fails
    | SpecDe.Keeps _ | SpecDe.Panics | SpecDe.Unfinished => Unspecified
    end
  end
with sem_body {R : Type} (s : settings) (b : body R) (w : view) : verdict (R * view) :=
  match b with
  | BDone (inr r) => Gives (r, w)
  | BDone (inl e) => Aborts e false
  | BPeek k =>
    match w, sem_value w with
    | _, Some v => sem_body s (k (inr (json_type v))) (sem_named w)
    | AtItems _, None => Fails
    | _, None => Unspecified
    end
  | BHasNext k =>
    match w with
    | AtItems items => sem_body s (k (inr (negb (is_nil items)))) w
    | _ => Unspecified
    end
  | BReadName k =>
    match w with
    | AtMember false n v => sem_body s (k (inr n)) (AtMember true n v)
    | _ => Unspecified
    end
  | BRead o k =>
    match w, sem_value w with
    | _, Some v =>
      match sem_op s o v with
      | Gives x => sem_body s (k (inr x)) (sem_behind w)
      | Fails => Fails
      | Aborts e true => sem_body s (k (inl e)) (sem_behind w)
      | Aborts e false =>
        match k (inl e) with
        | BDone (inl e') => Aborts e' false
        | _ => Unspecified
        end
      | Unspecified => Unspecified
      end
    | AtItems _, None =>
      match o with OpMulti [] _ _ _ => Unspecified | _ => Fails end
    | _, None => Unspecified
    end
  end.

(** The use of a [SimpleJsonReader] at the value [v]; seeking moves it to a value
    inside of [v] *)
Fixpoint sem_use {R : Type} (s : settings) (u : use R) (v : json) : verdict (reply R) :=
  match u with
  | UPeek k => sem_use s (k (inr (json_type v))) v
  | USeek path k =>
    match lookup path v with
    | Some v' => sem_use s (k (inr tt)) v'
    | None => Fails
    end
  | URead o => sem_op s o v
  end.

(** [r] is the result of a program whose verdict is [x].  In the case of a failure
    the closures still decide with which error the program ends; they may also
    end it with a panic by reading a name twice, or be no valid program. *)
Definition ends_with {A : Type} (x : verdict A) (r : sres A) : Prop :=
  match x with
  | Gives a => r = SOk a
  | Fails => (exists e, r = SErr e) \/ r = SPanic Misuse \/ r = SInvalid
  | Aborts e _ => r = SErr e
  | Unspecified => True
  end.
