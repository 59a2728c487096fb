(** * Specification: comparing the results of two client programs, or of one
      program on two inputs or with two settings *)

From Verif Require Import Base Utf8Model SourceModel ReaderModel.

(** ** Results which agree *)

(** The same result; of a position only the path has to be the same, because
    looking ahead skips whitespace *)
Definition same_result (o o' : outcome) : Prop :=
  o = o' \/ exists p p', o = OOk (RPos p) /\ o' = OOk (RPos p') /\ p_path p = p_path p'.

(** The same results up to the first one which has the property [P]; then
    nothing is said about the rest *)
Inductive same_until (P : outcome -> Prop) : list outcome -> list outcome -> Prop :=
| su_nil : same_until P [] []
| su_same o os1 os2 : same_until P os1 os2 -> same_until P (o :: os1) (o :: os2)
| su_diff o1 o2 os1 os2 : P o1 -> same_until P (o1 :: os1) (o2 :: os2).

(** A call fails with an error of the given kind, possibly reading from a string
    reader *)
Definition hit_outcome (hit : reader_error -> Prop) (o : outcome) : Prop :=
  match o with
  | OErr e | OReadErr (SvError e) => hit e
  | _ => False
  end.

(** ** Classes of calls *)

(** Functions which are defined by several calls of other functions *)
Definition composite (c : rcall) : Prop :=
  match c with CSkipValue | CSeekTo _ | CSeekBack _ | CSkipToTopLevel => True | _ => False end.

(** Calls which should not have an effect: successful [peek] and [has_next], and
    calls which fail with an error after which the client may continue *)
Definition looks (c : rcall) (o : outcome) : Prop :=
  ((c = CPeek \/ c = CHasNext) /\ exists v, o = OOk v) \/
  (~ composite c /\ exists e, o = OErr e /\ recoverable e = true).

(** The program does not continue reading from a string reader *)
Definition first_not_read (cs : list rcall) : Prop := match cs with CRead _ :: _ => False | _ => True end.

(** ** Different ways to read the same *)

(** One function for each kind of data: [next_name] for all functions which
    consume a name, and so on *)
Definition canonical (c : rcall) : rcall :=
  match c with
  | CNextNameOwned | CSkipName => CNextName
  | CNextString => CNextStr
  | CNextNumberString => CNextNumberStr
  | _ => c
  end.

(** The result of the canonical function as result of the function itself:
    skipping a name does not return it *)
Definition result_as (c : rcall) (o : outcome) : outcome :=
  match c, o with CSkipName, OOk (RStr _) => OOk RUnit | _, _ => o end.

Fixpoint results_as (cs : list rcall) (os : list outcome) : list outcome :=
  match cs, os with
  | c :: cs', o :: os' => result_as c o :: results_as cs' os'
  | _, _ => []
  end.

(** A read which does not report the end of the data: it returns as many bytes
    as asked for, or fails *)
Definition full_or_error (n : nat) (o : outcome) : Prop :=
  (exists bs, o = OOk (RBytes bs) /\ length bs = n) \/ (exists e, o = OReadErr e).

(** ** Settings which differ in one item *)

Definition set_comments (b : bool) (s : settings) : settings :=
  Settings b (allow_trailing_comma s) (allow_multiple_top_level s) (track_path s) (max_nesting_depth s) (restrict_number_values s).
Definition set_trailing_comma (b : bool) (s : settings) : settings :=
  Settings (allow_comments s) b (allow_multiple_top_level s) (track_path s) (max_nesting_depth s) (restrict_number_values s).
Definition set_max_nesting_depth (d : option N) (s : settings) : settings :=
  Settings (allow_comments s) (allow_trailing_comma s) (allow_multiple_top_level s) (track_path s) d (restrict_number_values s).
Definition set_restrict_numbers (b : bool) (s : settings) : settings :=
  Settings (allow_comments s) (allow_trailing_comma s) (allow_multiple_top_level s) (track_path s) (max_nesting_depth s) b.
