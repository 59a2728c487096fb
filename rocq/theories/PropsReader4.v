(** * Properties of reading: C03, C05, C25 *)

From Verif Require Import Base Utf8Model SpecNumber SpecJson SourceModel ReaderModel SpecCursor SpecRead SpecSessions SpecText
  ReaderFinal4 PropsReader.


(** C25: the position which the reader reports is directly behind a prefix of the
    input: its byte offset is the length of the prefix, and its line and
    column are those of the characters of the prefix.  The same holds for the
    location in errors after which reading can continue.
    (If a string reader has failed, the position is not specified.) *)
Theorem C25_positions_are_exact : forall (s : settings) (evs : list event) (cs : list rcall) (c : rcall) (os : list outcome) (o : outcome) (p : position),
  Forall is_byte (fst (supplied evs)) ->
  read_session s evs (cs ++ [c]) = os ++ [o] ->
  o = OOk (RPos p) \/ (exists e, o = OErr e /\ recoverable e = true /\ p = error_position e) ->
  (forall e, ~ In (OReadErr e) os) ->
  exists pre rest, fst (supplied evs) = pre ++ rest /\ is_behind p pre.
Proof. exact C25_positions_are_exact_holds. Qed.
Print Assumptions C25_positions_are_exact.
(** C25, C03, C05: between the positions before and after a call which reads one
    element is exactly the text of this element, behind skipped whitespace,
    comments and at most one comma or colon.  So a number is returned
    verbatim, and a string is the decoded text between its quotes. *)
Theorem C25_consumed_text : forall (s : settings) (evs : list event) (cs : list rcall) (os : list outcome) (c : rcall) (v : rvalue)
    (b1 b2 : bool) (p1 p2 : position), Forall is_byte (fst (supplied evs)) ->
  has_element c = true ->
  read_session s evs (cs ++ [CPosition b1; c; CPosition b2]) = os ++ [OOk (RPos p1); OOk v; OOk (RPos p2)] ->
  exists pre gap text rest,
    fst (supplied evs) = pre ++ gap ++ text ++ rest /\
    is_behind p1 pre /\ is_behind p2 (pre ++ gap ++ text) /\
    element_text c v text /\
    (gap_text (Syntax (allow_comments s) (allow_trailing_comma s)) gap \/
     c = CHasNext /\ v = RBool false /\ final_ws_text (Syntax (allow_comments s) (allow_trailing_comma s)) gap /\ rest = []).
Proof. exact C25_consumed_text_holds. Qed.
Print Assumptions C25_consumed_text.
(** The same after a successful [peek] or [has_next]: then nothing is skipped,
    and the position is directly before the element. *)
Theorem C25_consumed_text_after_looking : forall (s : settings) (evs : list event) (cs : list rcall) (os : list outcome) (q c : rcall) (w v : rvalue)
    (b1 b2 : bool) (p1 p2 : position), Forall is_byte (fst (supplied evs)) ->
  q = CPeek \/ q = CHasNext ->
  has_element c = true ->
  read_session s evs (cs ++ [q; CPosition b1; c; CPosition b2]) = os ++ [OOk w; OOk (RPos p1); OOk v; OOk (RPos p2)] ->
  exists pre text rest,
    fst (supplied evs) = pre ++ text ++ rest /\
    is_behind p1 pre /\ is_behind p2 (pre ++ text) /\
    element_text c v text.
Proof. exact C25_consumed_text_after_looking_holds. Qed.
Print Assumptions C25_consumed_text_after_looking.
(** [[1e5 ,"\n"]] in which the number is read between two positions *)
Example C25_example :
  read_session default_settings [EvData [0x5B; 0x0A; 0x31; 0x65; 0x35]; EvData [0x20; 0x2C; 0x22; 0x5C; 0x6E; 0x22; 0x5D]]
    [CBeginArray; CPeek; CPosition false; CNextNumberStr; CPosition false; CNextString; CPosition false] =
    [OOk RUnit; OOk (RType TNumber); OOk (RPos (Position None 1 0 2)); OOk (RStr [0x31; 0x65; 0x35]);
     OOk (RPos (Position None 1 3 5)); OOk (RStr [0x0A]); OOk (RPos (Position None 1 9 11))].
Proof. vm_compute. reflexivity. Qed.

