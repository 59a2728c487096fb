(** * Specification: reading complete values, looking up paths *)

From Verif Require Import Base Utf8Model SpecNumber SpecJson SourceModel ReaderModel SpecCursor.

(** The calls which read a value completely, and what they return *)
Fixpoint read_calls (v : json) : list rcall :=
  match v with
  | JNull => [CNextNull]
  | JBool _ => [CNextBool]
  | JNum _ => [CNextNumberStr]
  | JStr _ => [CNextString]
  | JArr items => [CBeginArray] ++ flat_map read_calls items ++ [CEndArray]
  | JObj ms => [CBeginObject] ++ flat_map (fun m => CNextName :: read_calls (snd m)) ms ++ [CEndObject]
  end.

Fixpoint read_values (v : json) : list rvalue :=
  match v with
  | JNull => [RUnit]
  | JBool b => [RBool b]
  | JNum t => [RStr t]
  | JStr t => [RStr t]
  | JArr items => [RUnit] ++ flat_map read_values items ++ [RUnit]
  | JObj ms => [RUnit] ++ flat_map (fun m => RStr (fst m) :: read_values (snd m)) ms ++ [RUnit]
  end.

(** The texts of the numbers in a value *)
Fixpoint numbers (v : json) : list bytes :=
  match v with
  | JNum t => [t]
  | JArr items => flat_map numbers items
  | JObj ms => flat_map (fun m => numbers (snd m)) ms
  | _ => []
  end.

(** No number of the value is rejected by [restrict_number_values] *)
Definition readable (s : settings) (v : json) : Prop :=
  restrict_number_values s = true -> Forall (fun t => unsupported_number t = false) (numbers v).

(** The value with the given path: [None] if there is none; the first of several
    members with the same name *)
Fixpoint lookup (path : list piece) (v : json) : option json :=
  match path, v with
  | [], _ => Some v
  | PIndex i :: path', JArr items =>
    match nth_error items (N.to_nat i) with Some u => lookup path' u | None => None end
  | PName n :: path', JObj ms =>
    match find (fun m => if list_eq_dec N.eq_dec (fst m) n then true else false) ms with
    | Some m => lookup path' (snd m)
    | None => None
    end
  | _, _ => None
  end.

(** The pieces in which data is delivered to buffers of the given sizes *)
Fixpoint chunks (lens : list nat) (data : bytes) : list bytes :=
  match lens with
  | [] => []
  | n :: lens' => firstn n data :: chunks lens' (skipn n data)
  end.

(** All calls of a program which reads a sequence of top-level values, asking
    after each value whether there is another one; and what they return *)
Fixpoint read_all_calls (vs : list json) : list rcall :=
  match vs with
  | [] => []
  | v :: vs' => read_calls v ++ [CHasNext] ++ read_all_calls vs'
  end.
Fixpoint read_all_values (vs : list json) : list rvalue :=
  match vs with
  | [] => []
  | v :: vs' => read_values v ++ [RBool match vs' with [] => false | _ => true end] ++ read_all_values vs'
  end.

(** The input consists of the documents [vs] *)
Definition document_input (s : settings) (vs : list json) (evs : list event) : Prop :=
  snd (supplied evs) = TEof /\ input_text s vs (fst (supplied evs)) /\ within_limit s vs.

(** Results without line, column and byte position *)
Definition forget_location (p : position) : position := Position (p_path p) 0 0 0.
Definition forget_error (e : reader_error) : reader_error :=
  match e with
  | ESyntax k p => ESyntax k (forget_location p)
  | EUnexpectedType x y p => EUnexpectedType x y (forget_location p)
  | EUnexpectedStructure k p => EUnexpectedStructure k (forget_location p)
  | EMaxNestingDepth m p => EMaxNestingDepth m (forget_location p)
  | EUnsupportedNumber n p => EUnsupportedNumber n (Position None 0 0 0)
  | EIo k p => EIo k (forget_location p)
  end.
Definition forget (o : outcome) : outcome :=
  match o with
  | OOk (RPos p) => OOk (RPos (forget_location p))
  | OErr e => OErr (forget_error e)
  | o => o
  end.

(** Results without the JSON path *)
Definition no_path (p : position) : position := Position None (p_line p) (p_column p) (p_byte p).
Definition no_path_error (e : reader_error) : reader_error :=
  match e with
  | ESyntax k p => ESyntax k (no_path p)
  | EUnexpectedType x y p => EUnexpectedType x y (no_path p)
  | EUnexpectedStructure k p => EUnexpectedStructure k (no_path p)
  | EMaxNestingDepth m p => EMaxNestingDepth m (no_path p)
  | EUnsupportedNumber n p => EUnsupportedNumber n (no_path p)
  | EIo k p => EIo k (no_path p)
  end.
Definition no_path_outcome (o : outcome) : outcome :=
  match o with
  | OOk (RPos p) => OOk (RPos (no_path p))
  | OErr e => OErr (no_path_error e)
  | OReadErr (SvError e) => OReadErr (SvError (no_path_error e))
  | o => o
  end.

(** The same settings with path tracking turned off *)
Definition without_path (c : settings) : settings :=
  Settings (allow_comments c) (allow_trailing_comma c) (allow_multiple_top_level c) false
           (max_nesting_depth c) (restrict_number_values c).
