(** * Properties of reading: the cost (C36) *)

From Verif Require Import Base Utf8Model SourceModel ReaderModel SpecCost CostFinal.


(** C36: every call of every program terminates: the loops of the model, which are bounded by the length of the input
  plus 2, never reach this bound. *)
Theorem C36_every_call_terminates : forall (s : settings) (evs : list event) (cs : list rcall) (o : outcome), Forall is_byte (fst (supplied evs)) ->
  In o (read_session s evs cs) -> o <> OFuel.
Proof. exact C36_every_call_terminates_holds. Qed.
Print Assumptions C36_every_call_terminates.
(** C36: the number of operations of a call is linear in the number of bytes which have not been consumed before the call,
  whatever the calls before were, whatever the input is and however it is delivered.  It depends neither on the nesting depth
  nor on the path of [seek_to]. *)
Theorem C36_operations_of_a_call : forall (s : settings) (evs : list event) (cs : list rcall) (c : rcall), Forall is_byte (fst (supplied evs)) ->
  session_operations s evs (cs ++ [c]) <=
    session_operations s evs cs + 24 * N.of_nat (length (session_unread s evs cs)) + 31.
Proof. exact C36_operations_of_a_call_holds. Qed.
Print Assumptions C36_operations_of_a_call.
(** C36: the number of operations of all calls of a program is linear in the length of the input plus the number of calls, that
  is, the calls share the cost of the input. *)
Theorem C36_operations_of_a_program : forall (s : settings) (evs : list event) (cs : list rcall), Forall is_byte (fst (supplied evs)) ->
  session_operations s evs cs <= 24 * N.of_nat (length (fst (supplied evs))) + 13 * N.of_nat (length cs).
Proof. exact C36_operations_of_a_program_holds. Qed.
Print Assumptions C36_operations_of_a_program.
(** [[1, "a/b"] /* x */ ] and the value [2] behind it, one byte at a time *)
Definition C36_text : bytes :=
  [0x5B; 0x31; 0x2C; 0x20; 0x22; 0x61; 0x5C; 0x2F; 0x62; 0x22; 0x5D; 0x20; 0x2F; 0x2A; 0x20; 0x78; 0x20; 0x2A; 0x2F; 0x32].
Definition C36_settings : settings := Settings true true true true None true.
Definition C36_events : list event := map (fun b => EvData [b]) C36_text.
Example C36_case :
  read_session C36_settings C36_events [CPeek; CSkipValue; CHasNext; CNextNumberStr] =
    [OOk (RType TArray); OOk RUnit; OOk (RBool true); OOk (RStr [0x32])] /\
  length (session_unread C36_settings C36_events [CPeek]) = 19%nat /\
  session_operations C36_settings C36_events [CPeek] = 3 /\
  session_operations C36_settings C36_events [CPeek; CSkipValue] = 30 /\
  session_operations C36_settings C36_events [CPeek; CSkipValue; CHasNext; CNextNumberStr] = 56.
Proof. vm_compute. auto. Qed.

