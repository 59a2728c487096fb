(** * Specification: programs which follow the documented rules of the simple reader
      and of Serde

    Nothing here depends on the input. *)

From Verif Require Import Base SourceModel ReaderModel.
From Verif Require Import DeModel SimpleModel.
From Verif Require SpecDe.

(** ** Implementations of [Deserialize]

    The states of the code which stand for
    - [seeds]: something which is deserialized: it calls one method of the
      deserializer, or fails
    - [visitors]: a visitor
    - [elements]: a visitor which is reading a sequence
    - [members false], [members true]: a visitor which is reading a map and may ask for
      the next key or stop; which has got a key and must ask for the value *)
Record orderly_states {V S : Type} (C : code V S) (seeds visitors elements : S -> Prop) (members : bool -> S -> Prop) : Prop := {
  os_seed : forall st, seeds st ->
    match deserialize C st with
    | SaResult r => exists e, r = inl e
    | SaCall _ vis _ => visitors vis
    end;
  os_visitor : forall st, visitors st ->
    seeds (visit_some C st) /\ seeds (visit_newtype C st) /\ elements st /\ members false st /\
    match visit_enum C st with
    | EnDone r => exists e, r = inl e
    | EnVariant seed k _ =>
      seeds seed /\
      forall a,
        match with_variant C (k a) with
        | VaDone r => exists e, r = inl e
        | VaUnit _ => True
        | VaNewtype seed' _ => seeds seed'
        | VaTuple _ vis _ | VaStruct vis _ => visitors vis
        end
    end;
  os_element : forall st, elements st ->
    match visit_seq C st with
    | SqDone _ => True
    | SqNext seed k => seeds seed /\ forall x, elements (k (inr x))
    end;
  os_key : forall st, members false st ->
    match visit_map C st with
    | MpDone _ => True
    | MpKey seed k => members false (k (inr None)) /\ forall a, members true (k (inr (Some a)))
    | MpValue _ _ => False
    end;
  os_value : forall st, members true st ->
    match visit_map C st with
    | MpDone r => exists e, r = inl e
    | MpKey _ _ => False
    | MpValue seed k => seeds seed /\ forall a, members false (k (inr a))
    end
}.

(** The code follows the rules of Serde when it is started with [seed], and it
    returns the errors it gets *)
Definition orderly_code {V S : Type} (C : code V S) (seed : S) : Prop :=
  SpecDe.returns_errors C /\
  exists seeds visitors elements members, orderly_states C seeds visitors elements members /\ seeds seed.

(** ** Closures *)

(** The closures of the method never end with an error of their own *)
Fixpoint never_fails_string {R : Type} (f : string_body R) : Prop :=
  match f with
  | SBDone r => exists a, r = inr a
  | SBRead _ k => forall x, never_fails_string (k x)
  end.
Fixpoint never_fails_body {R : Type} (b : body R) : Prop :=
  match b with
  | BDone r => exists a, r = inr a
  | BPeek k => forall x, never_fails_body (k x)
  | BHasNext k => forall x, never_fails_body (k x)
  | BReadName k => forall x, never_fails_body (k x)
  | BRead _ k => forall x, never_fails_body (k x)
  end.
Definition never_fails_op {R : Type} (o : op R) : Prop :=
  match o with
  | OpNull | OpBool | OpString | OpNumber | OpSkip | OpDeserialize _ _ _ => True
  | OpStr f => forall t, exists a, f t = inr a
  | OpStringReader f => never_fails_string f
  | OpArray f | OpSeeked _ f => never_fails_body f
  | OpItems f _ | OpMembers f _ | OpMulti _ _ f _ => forall r, never_fails_body (f r)
  | OpMembersOwned f _ => forall n r, never_fails_body (f n r)
  end.

Definition ends_with_error {R : Type} (b : body R) : Prop := exists e, b = BDone (inl e).

(** The documented rules for closures:
    - if a method may have ended with the error of one of its closures, then the
      closure which has called the method passes on the error.  Errors of the
      reader itself may be ignored.
    - [read_name] is called at most once for a member, and before its value is
      peeked or read ([name]: it may still be called)
    - implementations of [Deserialize] follow the rules of Serde *)
Fixpoint orderly_body {R : Type} (name : bool) (b : body R) : Prop :=
  match b with
  | BDone _ => True
  | BPeek k => forall x, orderly_body false (k x)
  | BHasNext k => forall x, orderly_body name (k x)
  | BReadName k => name = true /\ forall x, orderly_body false (k x)
  | BRead o k =>
    orderly_op o /\ (forall x, orderly_body false (k x)) /\
    (never_fails_op o \/ forall e, ends_with_error (k (inl e)))
  end
with orderly_op {R : Type} (o : op R) : Prop :=
  match o with
  | OpArray f | OpSeeked _ f => orderly_body true f
  | OpItems f _ | OpMembers f _ | OpMulti _ _ f _ => forall r, orderly_body true (f r)
  | OpMembersOwned f _ => forall n r, orderly_body true (f n r)
  | OpDeserialize C _ seed => orderly_code C seed
  | _ => True
  end.
Fixpoint orderly_use {R : Type} (u : use R) : Prop :=
  match u with
  | UPeek k => forall x, orderly_use (k x)
  | USeek _ k => forall x, orderly_use (k x)
  | URead o => orderly_op o
  end.
