(** * What the serde serializer writes

    The JSON data, the error or the panic which a value stands for, according to the
    documentation of [JsonWriterSerializer] and of the traits of serde, without
    reference to a [JsonWriter].  Only the types of the values and errors are
    taken from the model. *)

From Verif Require Import Base Utf8Model SpecNumber SpecJson WriterModel SpecWriter WClientModel SerModel.

(** ** Meaning of values *)

Inductive outcome (A : Type) : Type :=
| Gives (a : A)
| Fails (e : serr)
| Panics.
Arguments Gives {A} a.
Arguments Fails {A} e.
Arguments Panics {A}.

Definition map_outcome {A B : Type} (f : A -> B) (o : outcome A) : outcome B :=
  match o with Gives a => Gives (f a) | Fails e => Fails e | Panics => Panics end.

(** For [SvThen]: the implementation of [Serialize] can replace the result by an error of its own *)
Inductive own_error {A : Type} (f : option serr -> option N) : outcome A -> outcome A -> Prop :=
| OE_gives a : f None = None -> own_error f (Gives a) (Gives a)
| OE_gives_own a n : f None = Some n -> own_error f (Gives a) (Fails (SeCustom n))
| OE_fails e : f (Some e) = None -> own_error f (Fails e) (Fails e)
| OE_fails_own e n : f (Some e) = Some n -> own_error f (Fails e) (Fails (SeCustom n))
| OE_panics : own_error f Panics Panics.

(** The member name for a map key: booleans, numbers, characters, strings and names of
    unit variants, possibly wrapped by [Some] or by newtype structs, have one; there
    is none for anything else. *)
Inductive key_means : sval -> outcome str -> Prop :=
| KM_bool b : key_means (SvBool b) (Gives (if b then lit_true else lit_false))
| KM_int z t : decimal_text z t -> key_means (SvInt z) (Gives t)
| KM_float t : key_means (SvFloat (Some t)) (Gives t)
| KM_not_finite : key_means (SvFloat None) (Fails SeInvalidNumber)
| KM_char c : key_means (SvChar c) (Gives [c])
| KM_str s : key_means (SvStr s) (Gives s)
| KM_some v o : key_means v o -> key_means (SvSome v) o
| KM_unit_variant name i variant : key_means (SvUnitVariant name i variant) (Gives variant)
| KM_newtype_struct name v o : key_means v o -> key_means (SvNewtypeStruct name v) o
| KM_bytes bs : key_means (SvBytes bs) (Fails SeKeyNotString)
| KM_none : key_means SvNone (Fails SeKeyNotString)
| KM_unit : key_means SvUnit (Fails SeKeyNotString)
| KM_unit_struct name : key_means (SvUnitStruct name) (Fails SeKeyNotString)
| KM_newtype_variant name i variant v : key_means (SvNewtypeVariant name i variant v) (Fails SeKeyNotString)
| KM_seq len b : key_means (SvSeq len b) (Fails SeKeyNotString)
| KM_tuple len b : key_means (SvTuple len b) (Fails SeKeyNotString)
| KM_tuple_struct name len b : key_means (SvTupleStruct name len b) (Fails SeKeyNotString)
| KM_tuple_variant name i variant len b : key_means (SvTupleVariant name i variant len b) (Fails SeKeyNotString)
| KM_map len b : key_means (SvMap len b) (Fails SeKeyNotString)
| KM_struct name len b : key_means (SvStruct name len b) (Fails SeKeyNotString)
| KM_struct_variant name i variant len b : key_means (SvStructVariant name i variant len b) (Fails SeKeyNotString)
| KM_fails n : key_means (SvFails n) (Fails (SeCustom n))
| KM_then v f o o' : key_means v o -> own_error f o o' -> key_means (SvThen v f) o'.

(** Number of elements compared to the announced one, [i] elements having been serialized *)
Definition more_allowed (len : option N) (i : N) : Prop := forall n, len = Some n -> i < n.
Definition enough (len : option N) (i : N) : Prop := forall n, len = Some n -> n <= i.

(** [value_means v o]: serializing [v] has the outcome [o].
    [elems_mean len i b o], [entries_mean] and [fields_mean]: the same for what remains of
    a compound value, after [i] of [len] elements have been serialized.

    There is no rule for implementations of [Serialize] which continue after a
    method has returned an error: the serializer must not be used then.
    Where the rules say [k (Some e) = ElAbort e'], the implementation gets the error
    [e] from the serializer and returns the error [e']; normally they are the same. *)
Inductive value_means : sval -> outcome json -> Prop :=
| VM_bool b : value_means (SvBool b) (Gives (JBool b))
| VM_int z t : decimal_text z t -> value_means (SvInt z) (Gives (JNum t))
| VM_float t : value_means (SvFloat (Some t)) (Gives (JNum (encode_utf8 t)))
| VM_not_finite : value_means (SvFloat None) (Fails SeInvalidNumber)
| VM_char c : value_means (SvChar c) (Gives (JStr [c]))
| VM_str s : value_means (SvStr s) (Gives (JStr s))
| VM_bytes bs ts : Forall2 (fun b t => decimal_text (Z.of_N b) t) bs ts ->
    value_means (SvBytes bs) (Gives (JArr (map JNum ts)))
| VM_none : value_means SvNone (Gives JNull)
| VM_some v o : value_means v o -> value_means (SvSome v) o
| VM_unit : value_means SvUnit (Gives JNull)
| VM_unit_struct name : value_means (SvUnitStruct name) (Gives JNull)
| VM_unit_variant name i variant : value_means (SvUnitVariant name i variant) (Gives (JStr variant))
| VM_newtype_struct name v o : value_means v o -> value_means (SvNewtypeStruct name v) o
| VM_newtype_variant name i variant v o : value_means v o ->
    value_means (SvNewtypeVariant name i variant v) (map_outcome (fun j => JObj [(variant, j)]) o)
| VM_seq len b o : elems_mean len 0 b o -> value_means (SvSeq len b) (map_outcome JArr o)
| VM_tuple len b o : elems_mean (Some len) 0 b o -> value_means (SvTuple len b) (map_outcome JArr o)
| VM_tuple_struct name len b o : elems_mean (Some len) 0 b o -> value_means (SvTupleStruct name len b) (map_outcome JArr o)
| VM_tuple_variant name i variant len b o : elems_mean (Some len) 0 b o ->
    value_means (SvTupleVariant name i variant len b) (map_outcome (fun js => JObj [(variant, JArr js)]) o)
| VM_map len b o : entries_mean len 0 b o -> value_means (SvMap len b) (map_outcome JObj o)
| VM_struct name len b o : fields_mean len 0 b o -> value_means (SvStruct name len b) (map_outcome JObj o)
| VM_struct_variant name i variant len b o : fields_mean len 0 b o ->
    value_means (SvStructVariant name i variant len b) (map_outcome (fun ms => JObj [(variant, JObj ms)]) o)
| VM_fails n : value_means (SvFails n) (Fails (SeCustom n))
| VM_then v f o o' : value_means v o -> own_error f o o' -> value_means (SvThen v f) o'

with elems_mean : option N -> N -> elems -> outcome (list json) -> Prop :=
| EM_end len i : enough len i -> elems_mean len i ElEnd (Gives [])
| EM_too_few n i : i < n -> elems_mean (Some n) i ElEnd (Fails (SeCount n i))
| EM_too_many n i v k e : n <= i -> k (Some (SeCount n (i + 1))) = ElAbort e -> elems_mean (Some n) i (ElNext v k) (Fails e)
| EM_abort len i e : elems_mean len i (ElAbort e) (Fails e)
| EM_next len i v k j o : more_allowed len i -> value_means v (Gives j) -> elems_mean len (i + 1) (k None) o ->
    elems_mean len i (ElNext v k) (map_outcome (cons j) o)
| EM_next_fails len i v k e e' : more_allowed len i -> value_means v (Fails e) -> k (Some e) = ElAbort e' ->
    elems_mean len i (ElNext v k) (Fails e')
| EM_next_panics len i v k : more_allowed len i -> value_means v Panics -> elems_mean len i (ElNext v k) Panics

with entries_mean : option N -> N -> entries -> outcome (list (str * json)) -> Prop :=
| NM_end len i : enough len i -> entries_mean len i EnEnd (Gives [])
| NM_too_few n i : i < n -> entries_mean (Some n) i EnEnd (Fails (SeCount n i))
| NM_too_many n i v k e : n <= i -> k (Some (SeCount n (i + 1))) = EnAbort e -> entries_mean (Some n) i (EnKey v k) (Fails e)
| NM_abort len i e : entries_mean len i (EnAbort e) (Fails e)
| NM_value_without_key len i v k : entries_mean len i (EnValue v k) Panics
| NM_key_fails len i v k e e' : more_allowed len i -> key_means v (Fails e) -> k (Some e) = EnAbort e' ->
    entries_mean len i (EnKey v k) (Fails e')
| NM_key len i v k n o : more_allowed len i -> key_means v (Gives n) -> entry_means len i n (k None) o ->
    entries_mean len i (EnKey v k) o

(** After the key, whose name is [n] *)
with entry_means : option N -> N -> str -> entries -> outcome (list (str * json)) -> Prop :=
| NV_end len i n : entry_means len i n EnEnd Panics
| NV_key len i n v k : entry_means len i n (EnKey v k) Panics
| NV_abort len i n e : entry_means len i n (EnAbort e) (Fails e)
| NV_value len i n v k j o : value_means v (Gives j) -> entries_mean len (i + 1) (k None) o ->
    entry_means len i n (EnValue v k) (map_outcome (cons (n, j)) o)
| NV_value_fails len i n v k e e' : value_means v (Fails e) -> k (Some e) = EnAbort e' ->
    entry_means len i n (EnValue v k) (Fails e')
| NV_value_panics len i n v k : value_means v Panics -> entry_means len i n (EnValue v k) Panics

with fields_mean : N -> N -> fields -> outcome (list (str * json)) -> Prop :=
| FM_end n i : n <= i -> fields_mean n i FiEnd (Gives [])
| FM_too_few n i : i < n -> fields_mean n i FiEnd (Fails (SeCount n i))
| FM_too_many n i key v k e : n <= i -> k (Some (SeCount n (i + 1))) = FiAbort e -> fields_mean n i (FiNext key v k) (Fails e)
| FM_abort n i e : fields_mean n i (FiAbort e) (Fails e)
| FM_next n i key v k j o : i < n -> value_means v (Gives j) -> fields_mean n (i + 1) (k None) o ->
    fields_mean n i (FiNext key v k) (map_outcome (cons (key, j)) o)
| FM_next_fails n i key v k e e' : i < n -> value_means v (Fails e) -> k (Some e) = FiAbort e' ->
    fields_mean n i (FiNext key v k) (Fails e')
| FM_next_panics n i key v k : i < n -> value_means v Panics -> fields_mean n i (FiNext key v k) Panics.

(** ** Restrictions on values *)

(** What Rust guarantees (see [SpecWriter.valid_call]) *)
Fixpoint valid_sval (v : sval) : Prop :=
  match v with
  | SvFloat (Some t) => Forall is_char t /\ number_text (encode_utf8 t)
  | SvChar c => is_char c
  | SvStr s => Forall is_char s
  | SvBytes bs => Forall is_byte bs
  | SvUnitVariant _ _ variant => Forall is_char variant
  | SvSome v | SvNewtypeStruct _ v | SvThen v _ => valid_sval v
  | SvNewtypeVariant _ _ variant v => Forall is_char variant /\ valid_sval v
  | SvSeq _ b | SvTuple _ b | SvTupleStruct _ _ b => valid_elems b
  | SvTupleVariant _ _ variant _ b => Forall is_char variant /\ valid_elems b
  | SvMap _ b => valid_entries b
  | SvStruct _ _ b => valid_fields b
  | SvStructVariant _ _ variant _ b => Forall is_char variant /\ valid_fields b
  | SvBool _ | SvInt _ | SvFloat None | SvNone | SvUnit | SvUnitStruct _ | SvFails _ => True
  end
with valid_elems (b : elems) : Prop :=
  match b with
  | ElEnd | ElAbort _ => True
  | ElNext v k => valid_sval v /\ forall r, valid_elems (k r)
  end
with valid_entries (b : entries) : Prop :=
  match b with
  | EnEnd | EnAbort _ => True
  | EnKey v k | EnValue v k => valid_sval v /\ forall r, valid_entries (k r)
  end
with valid_fields (b : fields) : Prop :=
  match b with
  | FiEnd | FiAbort _ => True
  | FiNext key v k => Forall is_char key /\ valid_sval v /\ forall r, valid_fields (k r)
  end.

(** The documentation of [SerializerError] requires that processing is aborted
    after an error.  Implementations which do this: *)
Fixpoint careful (v : sval) : Prop :=
  match v with
  | SvSome v | SvNewtypeStruct _ v | SvThen v _ | SvNewtypeVariant _ _ _ v => careful v
  | SvSeq _ b | SvTuple _ b | SvTupleStruct _ _ b | SvTupleVariant _ _ _ _ b => careful_elems b
  | SvMap _ b => careful_entries b
  | SvStruct _ _ b | SvStructVariant _ _ _ _ b => careful_fields b
  | _ => True
  end
with careful_elems (b : elems) : Prop :=
  match b with
  | ElNext v k => careful v /\ careful_elems (k None) /\ forall e, exists e', k (Some e) = ElAbort e'
  | _ => True
  end
with careful_entries (b : entries) : Prop :=
  match b with
  | EnKey v k | EnValue v k => careful v /\ careful_entries (k None) /\ forall e, exists e', k (Some e) = EnAbort e'
  | _ => True
  end
with careful_fields (b : fields) : Prop :=
  match b with
  | FiNext _ v k => careful v /\ careful_fields (k None) /\ forall e, exists e', k (Some e) = FiAbort e'
  | _ => True
  end.

(** ** Compound values given by lists

    They are serialized the way most implementations of [Serialize] do it: element by
    element, errors are returned. *)
Fixpoint elems_of (vs : list sval) : elems :=
  match vs with
  | [] => ElEnd
  | v :: vs' => ElNext v (fun r => match r with None => elems_of vs' | Some e => ElAbort e end)
  end.
(** Entries, then what [b] does *)
Fixpoint entries_then (es : list (sval * sval)) (b : entries) : entries :=
  match es with
  | [] => b
  | (key, v) :: es' =>
    EnKey key (fun r =>
      match r with
      | None => EnValue v (fun r => match r with None => entries_then es' b | Some e => EnAbort e end)
      | Some e => EnAbort e
      end)
  end.
Fixpoint fields_of (fs : list (str * sval)) : fields :=
  match fs with
  | [] => FiEnd
  | (key, v) :: fs' => FiNext key v (fun r => match r with None => fields_of fs' | Some e => FiAbort e end)
  end.

(** ** Numbers of elements *)

(** Values which announce [n] elements and serialize them with [b], and the data which
    consists of the elements *)
Inductive announces_elements : sval -> N -> elems -> (list json -> json) -> Prop :=
| AE_seq n b : announces_elements (SvSeq (Some n) b) n b JArr
| AE_tuple n b : announces_elements (SvTuple n b) n b JArr
| AE_tuple_struct name n b : announces_elements (SvTupleStruct name n b) n b JArr
| AE_tuple_variant name i variant n b : announces_elements (SvTupleVariant name i variant n b) n b (fun js => JObj [(variant, JArr js)]).
Inductive announces_entries : sval -> N -> entries -> (list (str * json) -> json) -> Prop :=
| AN_map n b : announces_entries (SvMap (Some n) b) n b JObj.
Inductive announces_fields : sval -> N -> fields -> (list (str * json) -> json) -> Prop :=
| AF_struct name n b : announces_fields (SvStruct name n b) n b JObj
| AF_struct_variant name i variant n b : announces_fields (SvStructVariant name i variant n b) n b (fun ms => JObj [(variant, JObj ms)]).

(** [m] elements are serialized although [n] were announced: the data if the numbers are the
    same; otherwise an error with the numbers, which is reported at the end or as soon as there is
    an element too many *)
Definition counted_outcome (n m : N) (j : json) : outcome json :=
  if m <? n then Fails (SeCount n m) else if n <? m then Fails (SeCount n (n + 1)) else Gives j.

(** ** Results of the serializer *)

(** The serializer returns [Ok], it returns the error, or it panics *)
Definition agrees (o : outcome json) (x : wend (sres unit)) : Prop :=
  match o with
  | Gives _ => x = ERet (SrOk tt)
  | Fails e => x = ERet (SrErr e)
  | Panics => x = EPanic Misuse
  end.
