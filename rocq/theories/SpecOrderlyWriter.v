(** * Specification: closures and [Serialize] implementations which follow the documented
      rules of the simple writer and of Serde

    Nothing here depends on the underlying [Write] or on the settings. *)

From Verif Require Import Base WriterModel SimpleWriterModel.
From Verif Require Import SerModel.
From Verif Require SpecSer.

(** ** Implementations of [Serialize]

    The rule of Serde for [SerializeMap]: keys and values alternate, beginning with a
    key, and there is a value for the last key ([key_first]: the next one is a key).
    The implementation may stop with an error at any point. *)
Fixpoint alternates (v : sval) : Prop :=
  match v with
  | SvSome v | SvNewtypeStruct _ v | SvNewtypeVariant _ _ _ v | SvThen v _ => alternates v
  | SvSeq _ b | SvTuple _ b | SvTupleStruct _ _ b | SvTupleVariant _ _ _ _ b => alternates_elems b
  | SvMap _ b => alternates_entries true b
  | SvStruct _ _ b | SvStructVariant _ _ _ _ b => alternates_fields b
  | _ => True
  end
with alternates_elems (b : elems) : Prop :=
  match b with
  | ElEnd | ElAbort _ => True
  | ElNext v k => alternates v /\ alternates_elems (k None)
  end
with alternates_entries (key_first : bool) (b : entries) : Prop :=
  match b with
  | EnEnd => key_first = true
  | EnAbort _ => True
  | EnKey _ k => key_first = true /\ alternates_entries false (k None)
  | EnValue v k => key_first = false /\ alternates v /\ alternates_entries true (k None)
  end
with alternates_fields (b : fields) : Prop :=
  match b with
  | FiEnd | FiAbort _ => True
  | FiNext _ v k => alternates v /\ alternates_fields (k None)
  end.

(** ... and it aborts after an error *)
Definition orderly_value (v : sval) : Prop := alternates v /\ SpecSer.careful v.

(** ** Closures *)

(** The closures of the method end with an error only if a method of the writer has
    failed, as it is the case if the operator [?] is used everywhere.
    What they do after a failure is irrelevant. *)
Fixpoint no_own_error_string {R : Type} (f : sbody R) : Prop :=
  match f with
  | SWDone _ e => e = None
  | SWWrite _ k => forall n, no_own_error_string (k (inr n))
  | SWWriteStr _ k => no_own_error_string (k None)
  | SWFlush k => no_own_error_string (k None)
  end.
Fixpoint no_own_error {R : Type} (o : wop R) : Prop :=
  match o with
  | WStringWith f => no_own_error_string f
  | WArray f => no_own_error_array f
  | WObject f => no_own_error_object f
  | _ => True
  end
with no_own_error_array {R : Type} (b : abody R) : Prop :=
  match b with
  | ADone _ e => e = None
  | AWrite o k => no_own_error o /\ forall x, no_own_error_array (k x None)
  end
with no_own_error_object {R : Type} (b : obody R) : Prop :=
  match b with
  | ODone _ e => e = None
  | OWrite m k => no_own_error_member m /\ forall x, no_own_error_object (k x None)
  end
with no_own_error_member {R : Type} (m : member R) : Prop :=
  match m with
  | MValue _ o => no_own_error o
  | MMember _ f => no_own_error_value f
  end
with no_own_error_value {R : Type} (b : mbody R) : Prop :=
  match b with
  | MDone _ e => e = None
  | MWrite o k => no_own_error o /\ forall x, snd (k x None) = None
  end.

(** The documented rules for closures:
    - if a method may have ended with an error which one of its closures has made itself,
      then the closure which has called the method ends with an error as well.
      Errors of the writer may be ignored.
    - implementations of [Serialize] follow the rules *)
Fixpoint orderly_write {R : Type} (o : wop R) : Prop :=
  match o with
  | WArray f => orderly_array f
  | WObject f => orderly_object f
  | WSerialize v => orderly_value v
  | _ => True
  end
with orderly_array {R : Type} (b : abody R) : Prop :=
  match b with
  | ADone _ _ => True
  | AWrite o k =>
    orderly_write o /\ (forall x, orderly_array (k x None)) /\
    (no_own_error o \/ forall x e, exists r e', k x (Some e) = ADone r (Some e'))
  end
with orderly_object {R : Type} (b : obody R) : Prop :=
  match b with
  | ODone _ _ => True
  | OWrite m k =>
    orderly_member m /\ (forall x, orderly_object (k x None)) /\
    (no_own_error_member m \/ forall x e, exists r e', k x (Some e) = ODone r (Some e'))
  end
with orderly_member {R : Type} (m : member R) : Prop :=
  match m with
  | MValue _ o => orderly_write o
  | MMember _ f => orderly_member_value f
  end
with orderly_member_value {R : Type} (b : mbody R) : Prop :=
  match b with
  | MDone _ _ => True
  | MWrite o k => orderly_write o /\ (no_own_error o \/ forall x e, snd (k x (Some e)) <> None)
  end.
