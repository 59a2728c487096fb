(** * Rust types with derived serde implementations

    Nothing in this file models code of /repo.  It describes the client code of the
    serializer and the deserializer in the common case: types of the standard library and types with
    [#[derive(Serialize, Deserialize)]] (serde 1, without attributes), so that the two can be
    composed. *)

From Verif Require Import Base Utf8Model SpecNumber SpecJson WriterModel WClientModel SerModel SpecSer
  SourceModel ReaderModel SpecCursor SimpleModel DeModel.
From Verif Require Import SpecDe.

(** ** Types and values *)

(** [TyMap] stands for a map type which keeps its entries as a list; [TyBytes] for the byte
    buffer of serde_bytes.  [TyNamed] refers to a named type, so types can be recursive. *)
Inductive rty : Type :=
| TyBool
| TyInt (t : int_type)
| TyFloat (t : float_type)
| TyChar
| TyString
| TyBytes
| TyUnit
| TyOption (t : rty)
| TyVec (t : rty)
| TyTuple (ts : list rty)
| TyMap (k v : rty)
| TyUnitStruct (name : str)
| TyNewtype (name : str) (t : rty)
| TyTupleStruct (name : str) (ts : list rty)
| TyStruct (name : str) (fs : list (str * rty))
| TyEnum (name : str) (vs : list (str * rvariant))
| TyNamed (n : N)
with rvariant : Type :=
| VrUnit
| VrNewtype (t : rty)
| VrTuple (ts : list rty)
| VrStruct (fs : list (str * rty)).

(** Values; [i] is the index of a variant.  A floating point number is represented by its text. *)
Inductive rval : Type :=
| RvBool (b : bool)
| RvInt (z : Z)
| RvFloat (t : str)
| RvChar (c : char)
| RvStr (s : str)
| RvBytes (bs : bytes)
| RvUnit
| RvNone
| RvSome (v : rval)
| RvVec (l : list rval)
| RvTuple (l : list rval)
| RvMap (es : list (rval * rval))
| RvUnitStruct (name : str)
| RvNewtype (name : str) (v : rval)
| RvTupleStruct (name : str) (l : list rval)
| RvStruct (name : str) (fs : list (str * rval))
| RvUnitVariant (name : str) (i : N) (variant : str)
| RvNewtypeVariant (name : str) (i : N) (variant : str) (v : rval)
| RvTupleVariant (name : str) (i : N) (variant : str) (l : list rval)
| RvStructVariant (name : str) (i : N) (variant : str) (fs : list (str * rval)).

(** The variant with the given name, and its index *)
Fixpoint find_variant (s : str) (i : N) (vs : list (str * rvariant)) : option (N * rvariant) :=
  match vs with
  | [] => None
  | (name, r) :: vs' => if list_eq_dec N.eq_dec s name then Some (i, r) else find_variant s (i + 1) vs'
  end.

(** [has_type types t v]: [v] is a value of the type [t]; [types] are the named types.  Names
    of fields and variants are distinct. *)
Inductive has_type (types : N -> rty) : rty -> rval -> Prop :=
| HT_bool b : has_type types TyBool (RvBool b)
| HT_int t z : (min_int t <= z <= max_int t)%Z -> has_type types (TyInt t) (RvInt z)
| HT_float ft t : number_text t -> has_type types (TyFloat ft) (RvFloat t)
| HT_char c : is_char c -> has_type types TyChar (RvChar c)
| HT_str s : Forall is_char s -> has_type types TyString (RvStr s)
| HT_bytes bs : Forall is_byte bs -> has_type types TyBytes (RvBytes bs)
| HT_unit : has_type types TyUnit RvUnit
| HT_none t : has_type types (TyOption t) RvNone
| HT_some t v : has_type types t v -> has_type types (TyOption t) (RvSome v)
| HT_vec t l : Forall (has_type types t) l -> has_type types (TyVec t) (RvVec l)
| HT_tuple ts l : Forall2 (has_type types) ts l -> has_type types (TyTuple ts) (RvTuple l)
| HT_map tk tv es : Forall (fun e => has_type types tk (fst e) /\ has_type types tv (snd e)) es ->
    has_type types (TyMap tk tv) (RvMap es)
| HT_unit_struct name : has_type types (TyUnitStruct name) (RvUnitStruct name)
| HT_newtype name t v : has_type types t v -> has_type types (TyNewtype name t) (RvNewtype name v)
| HT_tuple_struct name ts l : Forall2 (has_type types) ts l -> has_type types (TyTupleStruct name ts) (RvTupleStruct name l)
| HT_struct name fs l : fields_type types fs l -> has_type types (TyStruct name fs) (RvStruct name l)
| HT_unit_variant name vs i variant : Forall is_char variant ->
    find_variant variant 0 vs = Some (i, VrUnit) -> has_type types (TyEnum name vs) (RvUnitVariant name i variant)
| HT_newtype_variant name vs i variant t v : Forall is_char variant ->
    find_variant variant 0 vs = Some (i, VrNewtype t) -> has_type types t v ->
    has_type types (TyEnum name vs) (RvNewtypeVariant name i variant v)
| HT_tuple_variant name vs i variant ts l : Forall is_char variant ->
    find_variant variant 0 vs = Some (i, VrTuple ts) -> Forall2 (has_type types) ts l ->
    has_type types (TyEnum name vs) (RvTupleVariant name i variant l)
| HT_struct_variant name vs i variant fs l : Forall is_char variant ->
    find_variant variant 0 vs = Some (i, VrStruct fs) -> fields_type types fs l ->
    has_type types (TyEnum name vs) (RvStructVariant name i variant l)
| HT_named n v : (forall m, types n <> TyNamed m) -> has_type types (types n) v -> has_type types (TyNamed n) v
with fields_type (types : N -> rty) : list (str * rty) -> list (str * rval) -> Prop :=
| FT_fields fs l : NoDup (map fst fs) -> Forall (fun f => Forall is_char (fst f)) fs ->
    Forall2 (fun f x => fst x = fst f /\ has_type types (snd f) (snd x)) fs l ->
    fields_type types fs l.

(** ** [Serialize] *)

Fixpoint to_sval (v : rval) : sval :=
  match v with
  | RvBool b => SvBool b
  | RvInt z => SvInt z
  | RvFloat t => SvFloat (Some t)
  | RvChar c => SvChar c
  | RvStr s => SvStr s
  | RvBytes bs => SvBytes bs
  | RvUnit => SvUnit
  | RvNone => SvNone
  | RvSome v => SvSome (to_sval v)
  | RvVec l => SvSeq (Some (N.of_nat (length l))) (elems_of (map to_sval l))
  | RvTuple l => SvTuple (N.of_nat (length l)) (elems_of (map to_sval l))
  | RvMap es => SvMap (Some (N.of_nat (length es))) (entries_then (map (fun e => (to_sval (fst e), to_sval (snd e))) es) EnEnd)
  | RvUnitStruct name => SvUnitStruct name
  | RvNewtype name v => SvNewtypeStruct name (to_sval v)
  | RvTupleStruct name l => SvTupleStruct name (N.of_nat (length l)) (elems_of (map to_sval l))
  | RvStruct name fs => SvStruct name (N.of_nat (length fs)) (fields_of (map (fun f => (fst f, to_sval (snd f))) fs))
  | RvUnitVariant name i variant => SvUnitVariant name i variant
  | RvNewtypeVariant name i variant v => SvNewtypeVariant name i variant (to_sval v)
  | RvTupleVariant name i variant l => SvTupleVariant name i variant (N.of_nat (length l)) (elems_of (map to_sval l))
  | RvStructVariant name i variant fs =>
    SvStructVariant name i variant (N.of_nat (length fs)) (fields_of (map (fun f => (fst f, to_sval (snd f))) fs))
  end.

(** ** [Deserialize] *)

(** How a value is built from its elements or fields: of a tuple, of a named type or of a variant *)
Inductive shape : Type :=
| ShTuple
| ShNamed (name : str)
| ShVariant (name : str) (i : N) (variant : str).
Definition build_tuple (sh : shape) (l : list rval) : rval :=
  match sh with
  | ShTuple => RvTuple l
  | ShNamed name => RvTupleStruct name l
  | ShVariant name i variant => RvTupleVariant name i variant l
  end.
Definition build_fields (sh : shape) (fs : list (str * rval)) : rval :=
  match sh with
  | ShTuple => RvStruct [] fs
  | ShNamed name => RvStruct name fs
  | ShVariant name i variant => RvStructVariant name i variant fs
  end.

(** - seeds: [Seed t] for [t]; [Wrap f t] for [t], with [f] applied to the value; [Ident names] for
      one of the names of variants; [FieldIdent names] for one of the names of fields, or any
      other name; [Ignore] for [IgnoredAny]
    - visitors: [Vis t], [InTuple], [InFields]; the latter two and the others also while they use an
      access type
    - [VariantOf]: with the access to the value of a variant
    - [Stop r]: returns [r] *)
Inductive derive_state : Type :=
| Seed (t : rty)
| Wrap (f : rval -> rval) (t : rty)
| Ident (names : list str)
| FieldIdent (names : list str)
| Ignore
| Vis (t : rty)
| InVec (t : rty) (l : list rval)
| InBytes (bs : bytes)
| InTuple (sh : shape) (ts : list rty) (l : list rval)
| InMap (tk tv : rty) (es : list (rval * rval))
| AtMapValue (tk tv : rty) (es : list (rval * rval)) (key : rval)
| InFields (sh : shape) (fs : list (str * rty)) (l : list (str * rval))
| AtField (sh : shape) (fs : list (str * rty)) (l : list (str * rval)) (name : str) (t : rty)
| AtUnknownField (sh : shape) (fs : list (str * rty)) (l : list (str * rval))
| VariantOf (name : str) (vs : list (str * rvariant)) (variant : str)
| Stop (r : derr + rval).

Definition map_ok (f : rval -> rval) (r : derr + rval) : derr + rval :=
  match r with inr v => inr (f v) | inl e => inl e end.

Fixpoint assoc {A : Type} (s : str) (l : list (str * A)) : option A :=
  match l with
  | [] => None
  | (name, a) :: l' => if list_eq_dec N.eq_dec s name then Some a else assoc s l'
  end.

Definition resolve (types : N -> rty) (t : rty) : rty := match t with TyNamed n => types n | _ => t end.

(** Errors which the implementations make: wrong data, a name which is not known, an element
    or field which is missing, a field which occurs twice *)
Definition wrong_data : derr := DeCustom 0.
Definition unknown_name : derr := DeCustom 1.
Definition missing : derr := DeCustom 2.
Definition duplicate : derr := DeCustom 3.

(** The method which is called for a type *)
Definition seed_call (t : rty) (f : rval -> rval) : seed_act rval derive_state :=
  let call (m : method) (vis : derive_state) := SaCall m vis (map_ok f) in
  match t with
  | TyBool => call MBool (Vis t)
  | TyInt ty => call (MInt ty) (Vis t)
  | TyFloat ty => call (MFloat ty) (Vis t)
  | TyChar => call MChar (Vis t)
  | TyString => call MString (Vis t)
  | TyBytes => call MByteBuf (Vis t)
  | TyUnit => call MUnit (Vis t)
  | TyOption _ => call MOption (Vis t)
  | TyVec _ => call MSeq (Vis t)
  | TyTuple ts => call (MTuple (N.of_nat (length ts))) (InTuple ShTuple ts [])
  | TyMap _ _ => call MMap (Vis t)
  | TyUnitStruct _ => call MUnitStruct (Vis t)
  | TyNewtype _ _ => call MNewtypeStruct (Vis t)
  | TyTupleStruct name ts => call (MTupleStruct (N.of_nat (length ts))) (InTuple (ShNamed name) ts [])
  | TyStruct name fs => call MStruct (InFields (ShNamed name) fs [])
  | TyEnum _ _ => call MEnum (Vis t)
  | TyNamed _ => SaResult (inl wrong_data)
  end.

(** At the end of a struct: the fields in the order of their declaration; options can be
    missing *)
Fixpoint collect_fields (types : N -> rty) (fs : list (str * rty)) (l : list (str * rval)) : derr + list (str * rval) :=
  match fs with
  | [] => inr []
  | (name, t) :: fs' =>
    match assoc name l, resolve types t with
    | None, TyOption _ => match collect_fields types fs' l with inr l' => inr ((name, RvNone) :: l') | inl e => inl e end
    | None, _ => inl missing
    | Some v, _ => match collect_fields types fs' l with inr l' => inr ((name, v) :: l') | inl e => inl e end
    end
  end.

Definition derived (types : N -> rty) : code rval derive_state := {|
  deserialize := fun st =>
    match st with
    | Seed t => seed_call (resolve types t) (fun v => v)
    | Wrap f t => seed_call (resolve types t) f
    | Ident names => SaCall MIdentifier st (fun r => r)
    | FieldIdent names => SaCall MIdentifier st (fun r => r)
    | Ignore => SaCall MIgnoredAny st (fun r => r)
    | _ => SaResult (inl wrong_data)
    end;
  visit_data := fun st x =>
    match st, x with
    | Vis TyBool, ViBool b => inr (RvBool b)
    | Vis (TyInt t), ViInt _ z => if ((min_int t <=? z) && (z <=? max_int t))%Z then inr (RvInt z) else inl wrong_data
    | Vis (TyFloat _), ViFloat _ t => inr (RvFloat t)
    | Vis TyChar, (ViStr [c] | ViString [c]) => inr (RvChar c)
    | Vis TyString, (ViStr s | ViString s) => inr (RvStr s)
    | Vis TyBytes, (ViBytes bs | ViByteBuf bs) => inr (RvBytes bs)
    | Vis TyUnit, ViUnit => inr RvUnit
    | Vis (TyOption _), (ViNone | ViUnit) => inr RvNone
    | Vis (TyUnitStruct name), ViUnit => inr (RvUnitStruct name)
    | Ident names, (ViStr s | ViString s) => if in_dec (list_eq_dec N.eq_dec) s names then inr (RvStr s) else inl unknown_name
    | FieldIdent names, (ViStr s | ViString s) =>
      inr (if in_dec (list_eq_dec N.eq_dec) s names then RvSome (RvStr s) else RvNone)
    | Ignore, _ => inr RvUnit
    | _, _ => inl wrong_data
    end;
  visit_some := fun st => match st with Vis (TyOption t) => Wrap RvSome t | _ => Stop (inl wrong_data) end;
  visit_newtype := fun st => match st with Vis (TyNewtype name t) => Wrap (RvNewtype name) t | _ => Stop (inl wrong_data) end;
  visit_seq := fun st =>
    let vec t l := SqNext (Seed t) (fun r =>
      match r with inl e => Stop (inl e) | inr None => Stop (inr (RvVec l)) | inr (Some v) => InVec t (l ++ [v]) end) in
    let byte bs := SqNext (Seed (TyInt U8)) (fun r =>
      match r with
      | inl e => Stop (inl e)
      | inr None => Stop (inr (RvBytes bs))
      | inr (Some (RvInt z)) => InBytes (bs ++ [Z.to_N z])
      | inr (Some _) => Stop (inl wrong_data)
      end) in
    match st with
    | Vis (TyVec t) => vec t []
    | InVec t l => vec t l
    | Vis TyBytes => byte []
    | InBytes bs => byte bs
    | InTuple sh [] l => SqDone (inr (build_tuple sh l))
    | InTuple sh (t :: ts) l => SqNext (Seed t) (fun r =>
        match r with inl e => Stop (inl e) | inr None => Stop (inl missing) | inr (Some v) => InTuple sh ts (l ++ [v]) end)
    | InFields sh fs l =>
      match nth_error fs (length l) with
      | None => SqDone (inr (build_fields sh l))
      | Some (name, t) => SqNext (Seed t) (fun r =>
        match r with inl e => Stop (inl e) | inr None => Stop (inl missing) | inr (Some v) => InFields sh fs (l ++ [(name, v)]) end)
      end
    | Stop r => SqDone r
    | _ => SqDone (inl wrong_data)
    end;
  visit_map := fun st =>
    let key tk tv es := MpKey (Seed tk) (fun r =>
      match r with inl e => Stop (inl e) | inr None => Stop (inr (RvMap es)) | inr (Some k) => AtMapValue tk tv es k end) in
    match st with
    | Vis (TyMap tk tv) => key tk tv []
    | InMap tk tv es => key tk tv es
    | AtMapValue tk tv es k => MpValue (Seed tv) (fun r =>
        match r with inl e => Stop (inl e) | inr v => InMap tk tv (es ++ [(k, v)]) end)
    | InFields sh fs l => MpKey (FieldIdent (map fst fs)) (fun r =>
        match r with
        | inl e => Stop (inl e)
        | inr None => Stop (match collect_fields types fs l with inr l' => inr (build_fields sh l') | inl e => inl e end)
        | inr (Some (RvSome (RvStr name))) =>
          match assoc name l, assoc name fs with
          | None, Some t => AtField sh fs l name t
          | Some _, _ => Stop (inl duplicate)
          | None, None => Stop (inl unknown_name)
          end
        | inr (Some _) => AtUnknownField sh fs l
        end)
    | AtField sh fs l name t => MpValue (Seed t) (fun r =>
        match r with inl e => Stop (inl e) | inr v => InFields sh fs (l ++ [(name, v)]) end)
    | AtUnknownField sh fs l => MpValue Ignore (fun r =>
        match r with inl e => Stop (inl e) | inr _ => InFields sh fs l end)
    | Stop r => MpDone r
    | _ => MpDone (inl wrong_data)
    end;
  visit_enum := fun st =>
    match st with
    | Vis (TyEnum name vs) =>
      EnVariant (Ident (map fst vs))
        (fun v => match v with RvStr variant => VariantOf name vs variant | _ => Stop (inl wrong_data) end)
        (fun e => inl e)
    | _ => EnDone (inl wrong_data)
    end;
  with_variant := fun st =>
    match st with
    | VariantOf name vs variant =>
      match find_variant variant 0 vs with
      | Some (i, VrUnit) => VaUnit (fun r => match r with inr _ => inr (RvUnitVariant name i variant) | inl e => inl e end)
      | Some (i, VrNewtype t) => VaNewtype (Seed t) (map_ok (RvNewtypeVariant name i variant))
      | Some (i, VrTuple ts) => VaTuple (N.of_nat (length ts)) (InTuple (ShVariant name i variant) ts []) (fun r => r)
      | Some (i, VrStruct fs) => VaStruct (InFields (ShVariant name i variant) fs []) (fun r => r)
      | None => VaDone (inl unknown_name)
      end
    | Stop (inl e) => VaDone (inl e)
    | _ => VaDone (inl wrong_data)
    end
|}.

(** ** Values which JSON can represent *)

(** Values which are written as [null] *)
Fixpoint writes_null (v : rval) : bool :=
  match v with
  | RvUnit | RvNone | RvUnitStruct _ => true
  | RvSome v | RvNewtype _ v => writes_null v
  | _ => false
  end.

(** Values which can be keys of maps *)
Fixpoint is_key (v : rval) : bool :=
  match v with
  | RvBool _ | RvInt _ | RvFloat _ | RvChar _ | RvStr _ | RvUnitVariant _ _ _ => true
  | RvSome v | RvNewtype _ v => is_key v
  | _ => false
  end.

(** Keys can be keys, and there is no [Some(x)] where [x] is written as [null] *)
Fixpoint representable (v : rval) : bool :=
  match v with
  | RvSome v => negb (writes_null v) && representable v
  | RvNewtype _ v | RvNewtypeVariant _ _ _ v => representable v
  | RvVec l | RvTuple l | RvTupleStruct _ l | RvTupleVariant _ _ _ l => forallb representable l
  | RvMap es => forallb (fun e => is_key (fst e) && representable (snd e)) es
  | RvStruct _ fs | RvStructVariant _ _ _ fs => forallb (fun f => representable (snd f)) fs
  | _ => true
  end.

(** The texts of the floating point numbers, except those in keys *)
Fixpoint floats (v : rval) : list str :=
  match v with
  | RvFloat t => [t]
  | RvSome v | RvNewtype _ v | RvNewtypeVariant _ _ _ v => floats v
  | RvVec l | RvTuple l | RvTupleStruct _ l | RvTupleVariant _ _ _ l => flat_map floats l
  | RvMap es => flat_map (fun e => floats (snd e)) es
  | RvStruct _ fs | RvStructVariant _ _ _ fs => flat_map (fun f => floats (snd f)) fs
  | _ => []
  end.

(** None of them is rejected by [restrict_number_values] *)
Definition floats_readable (s : settings) (v : rval) : Prop :=
  restrict_number_values s = true -> Forall (fun t => unsupported_number t = false) (floats v).
