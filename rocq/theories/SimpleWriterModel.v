(** * Model of the simple writer API

    src/writer/simple.rs: [SimpleJsonWriter] and the writers which are passed to
    the closures of its methods.  The methods use a [JsonWriter] only through its
    API, so they are modelled as programs which make calls of [WriterModel.wcall]
    and continue with their results. *)

From Verif Require Import Base Utf8Model WriterModel.
From Verif Require SerModel.
From Verif Require Export WClientModel.

(** ** Programs which use a [JsonWriter] *)

(** [WFinish] is the call of [finish_document], after which the writer is gone *)
Inductive wclient (A : Type) : Type :=
| WDone (a : A)
| WCall (c : wcall) (k : wresult -> wclient A)
| WFinish (k : wresult -> A).
Arguments WDone {A} a.
Arguments WCall {A} c k.
Arguments WFinish {A} k.

(** The program run on a [JsonStreamWriter]; the result includes what has been
    done with the underlying [Write] *)
Fixpoint wclient_run {A : Type} (cfg : wsettings) (m : wclient A) (s : wsession) : A * sink :=
  match m with
  | WDone a => (a, w_sink (ws_writer s))
  | WCall c k => let (r, s') := wstep cfg c s in wclient_run cfg (k r) s'
  | WFinish k => let (r, out) := wfinish s in (k r, out)
  end.

(** ** Errors *)

(** [StoredIoError], lines 226-237: the kind and the message of an [IoError], of
    a [JsonNumberError] or of a [SerializerError] (lines 374-377).  The model keeps the
    original error. *)
Inductive stored_error : Type :=
| KIoError (e : werr)
| KInvalidNumber
| KSerialize (e : SerModel.serr).

(** [Box<dyn Error>], [IoError], [JsonNumberError] or [SerializerError] as it is returned by the
    methods: an error of the writer, a stored error which is reported again
    (lines 239-245), or an error which a closure has made itself *)
Inductive swerr : Type :=
| WeIo (e : werr)
| WeInvalidNumber
| WeSerialize (e : SerModel.serr)
| WePrevious (e : stored_error)
| WeCustom (n : N).

(** Code which uses the [ErrorSafeJsonWriter], lines 282-287, until
    [finish_document] is called: it gets the stored error and returns the new one *)
Definition sw (A : Type) : Type := option stored_error -> prog (wend A * option stored_error).

Definition swret {A : Type} (a : A) : sw A := fun err => PDone (ERet a, err).
Definition swbind {A B : Type} (m : sw A) (f : A -> sw B) : sw B := fun err =>
  pbind (m err) (fun re =>
    match re with
    | (ERet a, err') => f a err'
    | (EPanic k, err') => PDone (EPanic k, err')
    | (EFuel, err') => PDone (EFuel, err')
    | (EInvalid, err') => PDone (EInvalid, err')
    end).

Declare Scope swmonad_scope.
Delimit Scope swmonad_scope with swm.
Notation "x <- m ;; k" := (swbind m (fun x => k))
  (at level 61, m at next level, right associativity) : swmonad_scope.
Open Scope swmonad_scope.

(** A [Result<(), E>] *)
Definition wresulting : Type := option swerr.

(** [use_delegate!], lines 247-272, and [ErrorSafeStringValueWriter::use_delegate],
    lines 397-412, for the calls of lines 292-360, 414-425 except [write].
    [finish_value], lines 427-437, does the same. *)
Definition delegate (c : wcall) : sw wresulting := fun err =>
  match err with
  | Some e => PDone (ERet (Some (WePrevious e)), err)
  | None =>
    PCall c (fun r =>
      match r with
      | RDone => PDone (ERet None, None)
      | RInvalidNumber =>
        if number_method c
        then PDone (ERet (Some WeInvalidNumber), Some KInvalidNumber)
        else PDone (EInvalid, None)
      | RError e => PDone (ERet (Some (WeIo e)), Some (KIoError e))
      | RPanic k => PDone (EPanic k, None)
      | RNoFuel => PDone (EFuel, None)
      | RCount _ | RInexpressible => PDone (EInvalid, None)
      end)
  end.

(** [ErrorSafeStringValueWriter::write], lines 414-416 *)
Definition delegate_write (bs : bytes) : sw (swerr + nat) := fun err =>
  match err with
  | Some e => PDone (ERet (inl (WePrevious e)), err)
  | None =>
    PCall (CWrite bs) (fun r =>
      match r with
      | RCount n => PDone (ERet (inr n), None)
      | RError e => PDone (ERet (inl (WeIo e)), Some (KIoError e))
      | RPanic k => PDone (EPanic k, None)
      | RNoFuel => PDone (EFuel, None)
      | RDone | RInvalidNumber | RInexpressible => PDone (EInvalid, None)
      end)
  end.

(** [ErrorSafeJsonWriter::serialize_value], lines 363-380, with
    [SerializerError::IoError] as [WeIo] and [KIoError] *)
Definition ser_error (e : SerModel.serr) : swerr :=
  match e with SerModel.SeIo e => WeIo e | e => WeSerialize e end.
Definition ser_keep (e : SerModel.serr) : stored_error :=
  match e with SerModel.SeIo e => KIoError e | e => KSerialize e end.
Definition delegate_serialize (v : SerModel.sval) : sw wresulting := fun err =>
  match err with
  | Some e => PDone (ERet (Some (WePrevious e)), err)
  | None =>
    pbind (SerModel.ser_value v) (fun x =>
      match x with
      | ERet (SerModel.SrOk _) => PDone (ERet None, None)
      | ERet (SerModel.SrErr e) => PDone (ERet (Some (ser_error e)), Some (ser_keep e))
      | EPanic k => PDone (EPanic k, None)
      | EFuel => PDone (EFuel, None)
      | EInvalid => PDone (EInvalid, None)
      end)
  end.

(** ** Closures

    A closure is a program which uses the writer it is given, and continues with
    the results it sees.  It ends with a [Result] and with the values of the
    variables which it has captured, of type [R]. *)

(** A closure for [write_string_with_writer], with the methods of
    [StringValueWriter], lines 948-970 *)
Inductive sbody (R : Type) : Type :=
| SWDone (r : R) (e : wresulting)
| SWWrite (bs : bytes) (k : swerr + nat -> sbody R)
| SWWriteStr (s : str) (k : wresulting -> sbody R)
| SWFlush (k : wresulting -> sbody R).
Arguments SWDone {R} r e.
Arguments SWWrite {R} bs k.
Arguments SWWriteStr {R} s k.
Arguments SWFlush {R} k.

(** The methods of [ValueWriter], lines 23-177, and of [ObjectWriter], lines
    683-850, and the closures which use an [ArrayWriter], [ObjectWriter] or
    [MemberValueWriter].
    - [WFloat], [WNumber]: see the corresponding calls of [WriterModel]
    - [WSerialize]: [write_serialize]; the values are those of [SerModel]
    - [MValue n o]: the methods [write_..._member], which differ only in how the
      value is written
    - [MMember n f]: [write_member]
    - a closure which uses a method with a closure gets the variables of that
      closure, unless it has not been called
    - a [MemberValueWriter] is consumed by the method which writes the value *)
Inductive wop (R : Type) : Type :=
| WNull
| WBool (b : bool)
| WString (s : str)
| WNumber (z : Z)
| WFloat (v : option str)
| WNumberString (s : str)
| WStringWith (f : sbody R)
| WArray (f : abody R)
| WObject (f : obody R)
| WSerialize (v : SerModel.sval)
with abody (R : Type) : Type :=
| ADone (r : R) (e : wresulting)
| AWrite (o : wop R) (k : option R -> wresulting -> abody R)
with obody (R : Type) : Type :=
| ODone (r : R) (e : wresulting)
| OWrite (m : member R) (k : option R -> wresulting -> obody R)
with member (R : Type) : Type :=
| MValue (n : str) (o : wop R)
| MMember (n : str) (f : mbody R)
with mbody (R : Type) : Type :=
| MDone (r : R) (e : wresulting)
| MWrite (o : wop R) (k : option R -> wresulting -> R * wresulting).
Arguments WNull {R}.
Arguments WBool {R} b.
Arguments WString {R} s.
Arguments WNumber {R} z.
Arguments WFloat {R} v.
Arguments WNumberString {R} s.
Arguments WStringWith {R} f.
Arguments WArray {R} f.
Arguments WObject {R} f.
Arguments WSerialize {R} v.
Arguments ADone {R} r e.
Arguments AWrite {R} o k.
Arguments ODone {R} r e.
Arguments OWrite {R} m k.
Arguments MValue {R} n o.
Arguments MMember {R} n f.
Arguments MDone {R} r e.
Arguments MWrite {R} o k.

(** ** The methods *)

Fixpoint run_sbody {R : Type} (b : sbody R) : sw (R * wresulting) :=
  match b with
  | SWDone r e => swret (r, e)
  | SWWrite bs k => (x <- delegate_write bs ;; run_sbody (k x))
  | SWWriteStr s k => (x <- delegate (CWriteStr s) ;; run_sbody (k x))
  | SWFlush k => (x <- delegate CFlush ;; run_sbody (k x))
  end.

(** The check for an error which the closure has not propagated, lines 211-214 *)
Definition not_propagated : sw wresulting := fun err =>
  match err with
  | Some e => PDone (ERet (Some (WePrevious e)), err)
  | None => PDone (ERet None, None)
  end.

(** [write_string_with_writer], lines 201-218 *)
Definition write_string_with {R : Type} (f : sbody R) : sw (option R * wresulting) :=
  (e <- delegate CStringWriter ;;
   match e with
   | Some _ => swret (None, e)
   | None =>
     re <- run_sbody f ;;
     match snd re with
     | Some _ => swret (Some (fst re), snd re)
     | None =>
       e' <- not_propagated ;;
       match e' with
       | Some _ => swret (Some (fst re), e')
       | None => e'' <- delegate CFinishValue ;; swret (Some (fst re), e'')
       end
     end
   end).

(** [write_array] and [write_object], lines 179-199: [c] and [c'] are the calls
    which begin and end the array or object, [m] is the closure *)
Definition write_container {R : Type} (c c' : wcall) (m : sw (R * wresulting)) : sw (option R * wresulting) :=
  (e <- delegate c ;;
   match e with
   | Some _ => swret (None, e)
   | None =>
     re <- m ;;
     match snd re with
     | Some _ => swret (Some (fst re), snd re)
     | None => e' <- delegate c' ;; swret (Some (fst re), e')
     end
   end).

(** A method which writes a value with one call *)
Definition write_simple {R : Type} (c : wcall) : sw (option R * wresulting) :=
  (e <- delegate c ;; swret (None, e)).

(** The methods of [ValueWriter] for [&mut ArrayWriter], lines 607-673; those for
    [MemberValueWriter], lines 859-946, only set the flag [wrote_value] before.
    [run_member]: lines 729-850, with the flag as second result of [run_mbody]. *)
Fixpoint run_wop {R : Type} (o : wop R) : sw (option R * wresulting) :=
  match o with
  | WNull => write_simple CNull
  | WBool b => write_simple (CBool b)
  | WString s => write_simple (CString s)
  | WNumber z => write_simple (CNumber z)
  | WFloat v => write_simple (CFloat v)
  | WNumberString s => write_simple (CNumberFromString s)
  | WStringWith f => write_string_with f
  | WArray f => write_container CBeginArray CEndArray (run_abody f)
  | WObject f => write_container CBeginObject CEndObject (run_obody f)
  | WSerialize v => (e <- delegate_serialize v ;; swret (None, e))
  end
with run_abody {R : Type} (b : abody R) : sw (R * wresulting) :=
  match b with
  | ADone r e => swret (r, e)
  | AWrite o k => (x <- run_wop o ;; run_abody (k (fst x) (snd x)))
  end
with run_obody {R : Type} (b : obody R) : sw (R * wresulting) :=
  match b with
  | ODone r e => swret (r, e)
  | OWrite m k => (x <- run_member m ;; run_obody (k (fst x) (snd x)))
  end
with run_member {R : Type} (m : member R) : sw (option R * wresulting) :=
  match m with
  | MValue n o =>
    (e <- delegate (CName n) ;;
     match e with
     | Some _ => swret (None, e)
     | None => run_wop o
     end)
  | MMember n f =>
    (e <- delegate (CName n) ;;
     match e with
     | Some _ => swret (None, e)
     | None =>
       x <- run_mbody f ;;
       match snd (fst x) with
       | Some _ => swret (Some (fst (fst x)), snd (fst x))
       | None =>
         if negb (snd x)
         then e' <- delegate CNull ;; swret (Some (fst (fst x)), e')
         else swret (Some (fst (fst x)), None)
       end
     end)
  end
with run_mbody {R : Type} (b : mbody R) : sw (R * wresulting * bool) :=
  match b with
  | MDone r e => swret (r, e, false)
  | MWrite o k => (x <- run_wop o ;; swret (k (fst x) (snd x), true))
  end.

(** [SimpleJsonWriter], lines 516-599: the value, then [finish_document] of lines
    382-388 *)
Fixpoint then_finish {R : Type} (m : prog (wend (option R * wresulting) * option stored_error))
  : wclient (wend (option R * wresulting)) :=
  match m with
  | PCall c k => WCall c (fun r => then_finish (k r))
  | PDone (ERet (x, Some e), _) => WDone (ERet (x, Some e))
  | PDone (ERet (x, None), Some e) => WDone (ERet (x, Some (WePrevious e)))
  | PDone (ERet (x, None), None) =>
    WFinish (fun r =>
      match r with
      | RDone => ERet (x, None)
      | RError e => ERet (x, Some (WeIo e))
      | RPanic k => EPanic k
      | RNoFuel => EFuel
      | RCount _ | RInvalidNumber | RInexpressible => EInvalid
      end)
  | PDone (EPanic k, _) => WDone (EPanic k)
  | PDone (EFuel, _) => WDone EFuel
  | PDone (EInvalid, _) => WDone EInvalid
  end.
Definition simple_writer {R : Type} (o : wop R) : wclient (wend (option R * wresulting)) :=
  then_finish (run_wop o None).

(** A [SimpleJsonWriter] for a new [JsonStreamWriter], lines 497-514 *)
Definition simple_write {R : Type} (cfg : wsettings) (out : sink) (o : wop R) : wend (option R * wresulting) * sink :=
  wclient_run cfg (simple_writer o) (new_session out).
