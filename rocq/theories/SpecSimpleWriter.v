(** * What closures write with the simple writer API

    The JSON data which is described by nested calls, without reference to how
    the API is implemented. *)

From Verif Require Import Base Utf8Model SpecNumber SpecJson WriterModel SpecWriter SimpleWriterModel.
From Verif Require SerModel SpecSer.

(** ** The described data

    In all these relations every call of the closures returns [Ok], and the
    closures continue accordingly. *)

(** [string_described bs f bs' r e]: after the bytes [bs] have been written for the
    string, the closure [f] writes the rest of [bs'] and ends with [r] and [e].
    Bytes may be split anywhere, but [write_str] is only possible between two
    characters. *)
Inductive string_described {R : Type} : bytes -> sbody R -> bytes -> R -> wresulting -> Prop :=
| SD_done bs r e : string_described bs (SWDone r e) bs r e
| SD_write bs t k bs' r e : string_described (bs ++ t) (k (inr (length t))) bs' r e ->
    string_described bs (SWWrite t k) bs' r e
| SD_write_str bs s k bs' r e : from_utf8 bs <> None -> string_described (bs ++ encode_utf8 s) (k None) bs' r e ->
    string_described bs (SWWriteStr s k) bs' r e
| SD_flush bs k bs' r e : string_described bs (k None) bs' r e -> string_described bs (SWFlush k) bs' r e.

(** [value_described o v x]: the method [o] writes the value [v]; [x] are the
    variables of its closure, if it has one.  A closure for a string, array or
    object has to return [Ok], which is [None].
    A closure for a member either writes a value, or it does not and the value is
    [null]; only in the first case it may return an error.
    [write_serialize] writes the data which the value stands for ([SpecSer.value_means]). *)
Inductive value_described {R : Type} : wop R -> json -> option R -> Prop :=
| VD_null : value_described WNull JNull None
| VD_bool b : value_described (WBool b) (JBool b) None
| VD_string s : value_described (WString s) (JStr s) None
| VD_number z t : decimal_text z t -> value_described (WNumber z) (JNum t) None
| VD_float s : number_text (encode_utf8 s) -> value_described (WFloat (Some s)) (JNum (encode_utf8 s)) None
| VD_number_string s : number_text (encode_utf8 s) -> value_described (WNumberString s) (JNum (encode_utf8 s)) None
| VD_string_with f bs s r : string_described [] f bs r None -> from_utf8 bs = Some s ->
    value_described (WStringWith f) (JStr s) (Some r)
| VD_array f vs r : items_described f vs r None -> value_described (WArray f) (JArr vs) (Some r)
| VD_object f ms r : members_described f ms r None -> value_described (WObject f) (JObj ms) (Some r)
| VD_serialize v j : SpecSer.value_means v (SpecSer.Gives j) -> value_described (WSerialize v) j None
with items_described {R : Type} : abody R -> list json -> R -> wresulting -> Prop :=
| ID_done r e : items_described (ADone r e) [] r e
| ID_write o k v x vs r e : value_described o v x -> items_described (k x None) vs r e ->
    items_described (AWrite o k) (v :: vs) r e
with members_described {R : Type} : obody R -> list (str * json) -> R -> wresulting -> Prop :=
| OD_done r e : members_described (ODone r e) [] r e
| OD_write m k n v x e' ms r e : member_described m n v x e' -> members_described (k x e') ms r e ->
    members_described (OWrite m k) ((n, v) :: ms) r e
with member_described {R : Type} : member R -> str -> json -> option R -> wresulting -> Prop :=
| MD_value n o v x : value_described o v x -> member_described (MValue n o) n v x None
| MD_empty n r : member_described (MMember n (MDone r None)) n JNull (Some r) None
| MD_closure n o k v x r e : value_described o v x -> k x None = (r, e) ->
    member_described (MMember n (MWrite o k)) n v (Some r) e.

(** ** Arguments which Rust guarantees (see [SpecWriter.valid_call]) *)

Fixpoint valid_sbody {R : Type} (b : sbody R) : Prop :=
  match b with
  | SWDone _ _ => True
  | SWWrite bs k => Forall is_byte bs /\ forall x, valid_sbody (k x)
  | SWWriteStr s k => Forall is_char s /\ forall e, valid_sbody (k e)
  | SWFlush k => forall e, valid_sbody (k e)
  end.
Fixpoint valid_wop {R : Type} (o : wop R) : Prop :=
  match o with
  | WNull | WBool _ | WNumber _ | WFloat None => True
  | WString s | WNumberString s => Forall is_char s
  | WFloat (Some s) => Forall is_char s /\ number_text (encode_utf8 s)
  | WStringWith f => valid_sbody f
  | WArray f => valid_abody f
  | WObject f => valid_obody f
  | WSerialize v => SpecSer.valid_sval v
  end
with valid_abody {R : Type} (b : abody R) : Prop :=
  match b with
  | ADone _ _ => True
  | AWrite o k => valid_wop o /\ forall x e, valid_abody (k x e)
  end
with valid_obody {R : Type} (b : obody R) : Prop :=
  match b with
  | ODone _ _ => True
  | OWrite m k => valid_member m /\ forall x e, valid_obody (k x e)
  end
with valid_member {R : Type} (m : member R) : Prop :=
  match m with
  | MValue n o => Forall is_char n /\ valid_wop o
  | MMember n f => Forall is_char n /\ valid_mbody f
  end
with valid_mbody {R : Type} (b : mbody R) : Prop :=
  match b with
  | MDone _ _ => True
  | MWrite o k => valid_wop o
  end.

(** The [Serialize] implementations whose values are written abort after an error, as the
    documentation of [SerializerError] requires ([SpecSer.careful]) *)
Fixpoint careful_wop {R : Type} (o : wop R) : Prop :=
  match o with
  | WArray f => careful_abody f
  | WObject f => careful_obody f
  | WSerialize v => SpecSer.careful v
  | _ => True
  end
with careful_abody {R : Type} (b : abody R) : Prop :=
  match b with
  | ADone _ _ => True
  | AWrite o k => careful_wop o /\ forall x e, careful_abody (k x e)
  end
with careful_obody {R : Type} (b : obody R) : Prop :=
  match b with
  | ODone _ _ => True
  | OWrite m k => careful_member m /\ forall x e, careful_obody (k x e)
  end
with careful_member {R : Type} (m : member R) : Prop :=
  match m with
  | MValue n o => careful_wop o
  | MMember n f => careful_mbody f
  end
with careful_mbody {R : Type} (b : mbody R) : Prop :=
  match b with
  | MDone _ _ => True
  | MWrite o k => careful_wop o
  end.

(** ** Which calls a program makes *)

(** [finish_document], or another method *)
Inductive used : Type := UFinish | UCall (c : wcall).

(** [uses m log a]: the program uses the methods of [log], which have the results
    of [log], and ends with [a] *)
Inductive uses {A : Type} : wclient A -> list (used * wresult) -> A -> Prop :=
| Uses_done a : uses (WDone a) [] a
| Uses_call c k r log a : uses (k r) log a -> uses (WCall c k) ((UCall c, r) :: log) a
| Uses_finish k r : uses (WFinish k) [(UFinish, r)] (k r).

(** The same for a method of the writers which are passed to closures *)
Inductive calls {A : Type} : prog A -> list (wcall * wresult) -> A -> Prop :=
| Calls_done a : calls (PDone a) [] a
| Calls_call c k r log a : calls (k r) log a -> calls (PCall c k) ((c, r) :: log) a.

(** The method has returned an error.  Only the methods for numbers can report an
    invalid number. *)
Definition failed_use (c : wcall) (r : wresult) : Prop :=
  match r with
  | RError _ => True
  | RInvalidNumber => match c with CFloat _ | CNumberFromString _ => True | _ => False end
  | _ => False
  end.

(** The end of a method: with [Ok], with an error *)
Definition wsuccess {R : Type} (x : wend (R * wresulting)) : Prop := exists r, x = ERet (r, None).
Definition wfails {R : Type} (x : wend (R * wresulting)) : Prop := exists r e, x = ERet (r, Some e).

(** The error of a method for the error [e] of the serialization; an error of the
    underlying [Write] stays one. *)
Inductive reports_error : swerr -> SerModel.serr -> Prop :=
| RE_io e : reports_error (WeIo e) (SerModel.SeIo e)
| RE_other e : (forall e', e <> SerModel.SeIo e') -> reports_error (WeSerialize e) e.
