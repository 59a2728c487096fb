(** * Properties of the writer: buffering (C54) *)

From Coq Require Import String.
From Verif Require Import Base Utf8Model SpecJson WriterModel SpecWriter SpecBuffer BufferFinal.
Local Open Scope list_scope.


(** C54: after any successful calls, for any sink, what the sink has not yet
received of the text of the document so far are less than 1024 bytes. *)
Theorem C54_held_back_bounded : forall (cfg : wsettings) (out : sink) (cs : list wcall) (rs : list wresult) (s : wsession) (d : wdoc),
  received out = [] -> Forall valid_call cs ->
  wrun cfg cs (new_session out) = (rs, s) -> Forall2 success cs rs ->
  describes_all (multi_top_level cfg) empty_doc cs d ->
  exists text held_back, text_so_far cfg d text /\
    received (w_sink (ws_writer s)) ++ held_back = text /\ N.of_nat (length held_back) < 1024.
Proof. exact C54_held_back_bounded_holds. Qed.
Print Assumptions C54_held_back_bounded.
Definition long_text : str := repeat 0x61 (N.to_nat 1100).
Definition held_back_calls : list wcall := (* only two of three bytes of the last character have been written *)
  [CBeginArray; CNull; CStringWriter; CWriteStr long_text; CWrite [0xE2; 0x82]].
Example C54_held_back_case :
  let o := wrun default_wsettings held_back_calls (new_session (Sink [] [SAccept 1; SInterrupted; SAccept 7] [] 0)) in
  fst o = [RDone; RDone; RDone; RDone; RCount 2] /\ Forall valid_call held_back_calls /\
  received (w_sink (ws_writer (snd o))) = bytes_of_string "[null,""" ++ repeat 0x61 (N.to_nat 1017) /\
  exists acc, describes_all false empty_doc held_back_calls (Wdoc [] [OpenArr [JNull]] (Some acc)).
Proof.
  cbv zeta. unfold held_back_calls. apply conj; [vm_compute; reflexivity|]. apply conj; [|apply conj].
  - constructor; [exact I|]. constructor; [exact I|]. constructor; [exact I|]. constructor; [|repeat constructor].
    apply Forall_forall. intros x Hx. apply repeat_spec in Hx. subst x. left. reflexivity.
  - vm_compute. reflexivity.
  - eexists. econstructor; [apply D_begin_array; split; [reflexivity|left; reflexivity]|].
    econstructor; [apply D_null; split; [reflexivity|exact I]|]. econstructor; [apply D_string_writer; split; [reflexivity|exact I]|].
    econstructor; [apply D_write_str with (acc := []); [reflexivity|discriminate]|].
    econstructor; [eapply D_write; reflexivity|]. constructor.
Qed.



(** C54: a successful [flush] (of the string value writer) passes on all of the text
so far, and calls [flush] of the sink; no other call except [finish_document]
does that. *)
Theorem C54_flush_passes_on : forall (cfg : wsettings) (out : sink) (cs : list wcall) (rs : list wresult) (s s' : wsession) (d : wdoc),
  received out = [] -> Forall valid_call cs ->
  wrun cfg cs (new_session out) = (rs, s) -> Forall2 success cs rs ->
  describes_all (multi_top_level cfg) empty_doc cs d ->
  flushes (w_sink (ws_writer s)) = flushes out + N.of_nat (flush_calls cs) /\
  (wstep cfg CFlush s = (RDone, s') ->
   text_so_far cfg d (received (w_sink (ws_writer s'))) /\
   flushes (w_sink (ws_writer s')) = flushes (w_sink (ws_writer s)) + 1) /\
  (forall out', wfinish s = (RDone, out') -> flushes out' = flushes (w_sink (ws_writer s)) + 1).
Proof. exact C54_flush_passes_on_holds. Qed.
Print Assumptions C54_flush_passes_on.
Example C54_flush_case :
  let cs := [CBeginArray; CStringWriter; CWrite [0x61; 0x22; 0xE2; 0x82]] in
  let s := snd (wrun default_wsettings cs (new_session (Sink [] [] [] 0))) in
  fst (wstep default_wsettings CFlush s) = RDone /\
  received (w_sink (ws_writer (snd (wstep default_wsettings CFlush s)))) = bytes_of_string "[""a\""" /\
  flushes (w_sink (ws_writer (snd (wstep default_wsettings CFlush s)))) = 1.
Proof. vm_compute. auto. Qed.



(** C54: the writer buffers.  A sink which accepts what it is given (up to 1024
bytes) is called at most once per 1024 bytes of output, plus once per [flush] and
once by [finish_document]; whatever the calls are and whatever they return. *)
Theorem C54_number_of_writes : forall (cfg : wsettings) (cs : list wcall) (n : nat),
  let s := snd (wrun cfg cs (new_session (counting_sink n))) in
  let out := w_sink (ws_writer s) in
  let out' := snd (wfinish s) in
  N.of_nat (write_calls n out) <= N.of_nat (length (received out)) / 1024 + N.of_nat (flush_calls cs) /\
  N.of_nat (write_calls n out') <= N.of_nat (length (received out')) / 1024 + N.of_nat (flush_calls cs) + 1.
Proof. exact C54_number_of_writes_holds. Qed.
Print Assumptions C54_number_of_writes.
Example C54_writes_case : (* 3000 bytes of text in 1000 calls: two calls of [write], then the last one *)
  let s := snd (wrun default_wsettings (CBeginArray :: repeat (CBool true) (N.to_nat 600) ++ [CEndArray]) (new_session (counting_sink 10))) in
  write_calls 10 (w_sink (ws_writer s)) = 2%nat /\ write_calls 10 (snd (wfinish s)) = 3%nat /\
  length (received (snd (wfinish s))) = N.to_nat 3001.
Proof. vm_compute. auto. Qed.



(** C54: the buffer never exceeds its capacity, whatever the sink does and also after
failures. *)
Theorem C54_buffer_capacity : forall (cfg : wsettings) (out : sink) (cs : list wcall),
  N.of_nat (length (w_buf (ws_writer (snd (wrun cfg cs (new_session out)))))) <= 1024.
Proof. exact C54_buffer_capacity_holds. Qed.
Print Assumptions C54_buffer_capacity.
Example C54_capacity_case : (* the sink fails when the buffer is full *)
  let s := snd (wrun default_wsettings [CBeginArray; CString (repeat 0x61 (N.to_nat 3000)); CNull] (new_session (Sink [] [SErr 7] [] 0))) in
  length (w_buf (ws_writer s)) = N.to_nat 5.
Proof. vm_compute. auto. Qed.

