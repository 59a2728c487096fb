(** * Specification of the cost of reading (C36)

    The steps of the reader are the operations on its buffer, see the list in
    SourceModel: peeking at a byte, consuming it, and the operations of the
    [BytesValueReader].  Each of them is a bounded amount of work, apart from the
    copying of the bytes of a value, of which there are not more than were
    consumed, and from the moving of the at most 1024 bytes of the buffer.  The
    code between two operations has no loops apart from those over the pieces of
    a path and over tokens which were peeked before. *)

From Verif Require Import Base SourceModel ReaderModel.

(** The number of operations which a program performs on the buffer, until it
    ends *)
Fixpoint operations {A : Type} (p : prog A) (c : csrc) : N :=
  match p with
  | Ret a => 0
  | DPeek k => 1 + match c_peek c with (Some r, c') => operations (k r) c' | (None, _) => 0 end
  | DSkip k => 1 + match c_skip c with Some c' => operations k c' | None => 0 end
  | DVNew k => 1 + match c_vnew c with Some c' => operations k c' | None => 0 end
  | DVPeek k => 1 + match c_vpeek c with (Some r, c') => operations (k r) c' | (None, _) => 0 end
  | DVConsume k => 1 + match c_vconsume c with Some c' => operations k c' | None => 0 end
  | DVSkipPrev k => 1 + match c_vskip_prev c with Some c' => operations k c' | None => 0 end
  | DVSkipFinal k => 1 + operations k (set_skip_final true c)
  | DVPush bs k => 1 + match c_vpush bs c with Some c' => operations k c' | None => 0 end
  | DVGet b k => 1 + match c_vget b c with Some c' => operations k c' | None => 0 end
  | DVStrPeek k => 1 + match c_vstr_peek c with Some s => operations (k s) c | None => 0 end
  | DVStr k => 1 + match c_vstr c with Some (s, c') => operations (k s) c' | None => 0 end
  | DVString k => 1 + match c_vstring c with Some (s, c') => operations (k s) c' | None => 0 end
  end.

(** The program of [read_session] *)
Definition session_program (s : settings) (evs : list event) (cs : list rcall) : prog (list outcome * session) :=
  client_calls (Env s (enough_fuel (fst (supplied evs)))) cs (session_new s).

(** The number of operations of all calls of a session *)
Definition session_operations (s : settings) (evs : list event) (cs : list rcall) : N :=
  operations (session_program s evs cs) (csrc_new evs).

(** The bytes which the reader has not consumed: those in its buffer, and those
    which the source has not yet supplied *)
Definition unread (c : csrc) : bytes :=
  skipn (c_pos c) (c_buf c) ++ (if c_eof c then [] else fst (supplied (c_events c))).

Definition session_unread (s : settings) (evs : list event) (cs : list rcall) : bytes :=
  match crun (session_program s evs cs) (csrc_new evs) with
  | Some (_, c) => unread c
  | None => []
  end.
