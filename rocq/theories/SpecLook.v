(** * Specification: which calls need no input behind what they consume

    A streaming client does not want to wait for input which is not needed yet:
    when the sender has transmitted a complete array and waits for an answer, a
    reader which blocks until the next byte arrives is a deadlock. *)

From Verif Require Import Base NumberModel SourceModel ReaderModel.

(** The methods whose success consumes a token which shows its own end: one of
    the bytes [\[], [\]], [{], [}] or a string with its quotes *)
Definition consumes_delimited (c : rcall) : bool :=
  match c with
  | CBeginArray | CEndArray | CBeginObject | CEndObject
  | CNextName | CNextNameOwned | CSkipName
  | CNextString | CNextStr | CNextStringReader => true
  | _ => false
  end.

(** Calls and their results after which the reader is directly behind such a
    token *)
Inductive delimited_end : list rcall -> list outcome -> Prop :=
  | de_call c v : consumes_delimited c = true -> delimited_end [c] [OOk v]
  (* the string reader reports the end of the string *)
  | de_read len bs : (length bs < len)%nat -> delimited_end [CRead len] [OOk (RBytes bs)]
  (* [seek_to] stops behind the name of a member *)
  | de_seek_to path n v : delimited_end [CSeekTo (path ++ [PName n])] [OOk v]
  (* [seek_back] stops behind the end of an array or object *)
  | de_seek_back path v : path <> [] -> delimited_end [CSeekBack path] [OOk v]
  (* an array, object or string has been skipped *)
  | de_skip t v : t <> TNumber -> t <> TBoolean -> t <> TNull ->
      delimited_end [CPeek; CSkipValue] [OOk (RType t); OOk v].

(** The results of the calls of [read] which the reader has not asked for when
    the session is over *)
Definition events_left (s : settings) (evs : list event) (cs : list rcall) : list event :=
  match crun (client_calls (Env s (enough_fuel (fst (supplied evs)))) cs (session_new s)) (csrc_new evs) with
  | Some (_, c) => c_events c
  | None => []
  end.
