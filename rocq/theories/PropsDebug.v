(** * Properties of the [Debug] output (C55) *)

From Coq Require Import String.
From Verif Require Import Base Utf8Model SpecJson WriterModel SpecWriter SpecBuffer SourceModel ReaderModel SpecCost DebugModel SpecDebug DebugFinal.
Local Open Scope list_scope.


(** C55: formatting the reader with [{:?}] never panics, whatever the client has called
before, whatever the document is and however the source behaves (also after errors). *)
Theorem C55_reader_debug_never_panics : forall (s : settings) (evs : list event) (cs : list rcall),
  Forall is_byte (fst (supplied evs)) -> session_debug s evs cs <> None.
Proof. exact C55_reader_debug_never_panics_holds. Qed.
Print Assumptions C55_reader_debug_never_panics.
Example C55_panic_case : (* in a character of two bytes; then the source fails *)
  session_debug default_settings [EvData (bytes_of_string "[1, ""abc" ++ [0xC3]); EvErr 7] [CBeginArray; CNextNumberStr; CPeek] =
    Some (RdBuf 4 (bytes_of_string "abc...") (Some [0xC3])) /\
  session_debug default_settings [EvData (bytes_of_string "[1, ""abc" ++ [0xC3]); EvErr 7] [CBeginArray; CNextNumberStr; CNextString] =
    Some (RdBuf 0 [] None).
Proof. vm_compute. auto. Qed.


(** C55: unless the source fails, what is shown is the beginning of what the client has
not consumed: the bytes which were fetched from the source, cut off after 45
characters.  If the end of the input is shown as reached, then nothing is left. *)
Theorem C55_reader_debug_shows : forall (s : settings) (evs : list event) (cs : list rcall),
  Forall is_byte (fst (supplied evs)) -> snd (supplied evs) = TEof ->
  exists d used fetched, session_debug s evs cs = Some d /\
    fst (supplied evs) = used ++ fetched ++ session_not_fetched s evs cs /\
    session_unread s evs cs = fetched ++ session_not_fetched s evs cs /\
    reader_shows d fetched /\ (d = RdEof -> session_unread s evs cs = []).
Proof. exact C55_reader_debug_shows_holds. Qed.
Print Assumptions C55_reader_debug_shows.
Example C55_shows_case :
  session_debug default_settings [EvData (bytes_of_string "[1, tr"); EvData (bytes_of_string "ue]")] [CBeginArray; CNextNumberStr] =
    Some (RdBuf 4 (bytes_of_string ", tr") None) /\
  session_unread default_settings [EvData (bytes_of_string "[1, tr"); EvData (bytes_of_string "ue]")] [CBeginArray; CNextNumberStr] =
    bytes_of_string ", true]" /\
  session_debug default_settings [EvData (bytes_of_string "[1, tr"); EvData (bytes_of_string "ue]")]
    [CBeginArray; CNextNumberStr; CNextBool; CEndArray; CConsumeTrailingWhitespace] = Some RdEof.
Proof. vm_compute. auto. Qed.


(** C55: after a failure of the source the reader may show bytes which have been consumed
already.  Here three bytes have been supplied and read when the source fails, of which two are shown. *)
Theorem C55_reader_debug_after_failure_refuted : exists (s : settings) (evs : list event) (cs : list rcall) (p : position),
  read_session s evs cs = [OOk RUnit; OOk (RStr [0x31]); OErr (EIo (IoSource 7) p)] /\
  fst (supplied evs) = [0x5B; 0x31; 0x20] /\
  p_byte p = 3 /\
  session_debug s evs cs = Some (RdBuf 2 [0x31; 0x20] None).
Proof. exact C55_reader_debug_after_failure_refuted_holds. Qed.
Print Assumptions C55_reader_debug_after_failure_refuted.


(** C55: formatting the writer with [{:?}] never panics, whatever the client has called
before and however the sink behaves (also after errors), and shows what the writer
holds back, without the middle if it has more than 55 characters. *)
Theorem C55_writer_debug_never_panics : forall (cfg : wsettings) (out : sink) (cs : list wcall),
  let st := ws_writer (snd (wrun cfg cs (new_session out))) in
  exists dbg, debug_writer st = Some dbg /\ writer_shows dbg (w_buf st).
Proof. exact C55_writer_debug_never_panics_holds. Qed.
Print Assumptions C55_writer_debug_never_panics.
Definition split_char : list wcall := [CString (repeat 0x61 (N.to_nat 1022) ++ [0x10FFFF] ++ repeat 0x62 (N.to_nat 60))].
Example C55_writer_case : (* the first byte of a character of four bytes has been passed on *)
  debug_writer (ws_writer (snd (wrun default_wsettings split_char (new_session (Sink [] [] [] 0))))) =
    Some (WDebug 64 (Some [0x8F; 0xBF; 0xBF])
      (bytes_of_string "...bbbbbbbbbbbbbbbbbbbbbbbbb ... bbbbbbbbbbbbbbbbbbbbbbbb""")).
Proof. vm_compute. reflexivity. Qed.


(** C55: after any successful calls, for any sink, the writer shows all but at most the
first three bytes (which complete a character whose beginning has been passed on) of
what it holds back as text; all of the text so far is UTF-8. *)
Theorem C55_writer_debug_shows : forall (cfg : wsettings) (out : sink) (cs : list wcall) (rs : list wresult) (s : wsession) (d : wdoc),
  valid_wsettings cfg -> received out = [] -> Forall valid_call cs ->
  wrun cfg cs (new_session out) = (rs, s) -> Forall2 success cs rs ->
  describes_all (multi_top_level cfg) empty_doc cs d ->
  exists dbg text held_back, debug_writer (ws_writer s) = Some dbg /\
    text_so_far cfg d text /\ utf8_text text /\
    received (w_sink (ws_writer s)) ++ held_back = text /\
    writer_shows dbg held_back /\
    forall bs, wd_buf dbg = Some bs -> (length bs <= 3)%nat.
Proof. exact C55_writer_debug_shows_holds. Qed.
Print Assumptions C55_writer_debug_shows.
Example C55_writer_shows_case :
  let o := wrun default_wsettings split_char (new_session (Sink [] [SAccept 1; SInterrupted; SAccept 7] [] 0)) in
  fst o = [RDone] /\ Forall valid_call split_char /\
  describes_all false empty_doc split_char (Wdoc [JStr (repeat 0x61 (N.to_nat 1022) ++ [0x10FFFF] ++ repeat 0x62 (N.to_nat 60))] [] None).
Proof.
  cbv zeta. unfold split_char. apply conj; [vm_compute; reflexivity|]. apply conj.
  - constructor; [|constructor]. cbn [valid_call]. apply Forall_app. split; [|constructor; [right; split; [intros H; discriminate H|reflexivity]|]].
    + apply Forall_forall. intros x Hx. apply repeat_spec in Hx. subst x. left. reflexivity.
    + apply Forall_forall. intros x Hx. apply repeat_spec in Hx. subst x. left. reflexivity.
  - econstructor; [apply D_string; split; [reflexivity|left; reflexivity]|]. constructor.
Qed.

