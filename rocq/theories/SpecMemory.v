(** * Specification of the memory used by the reader (C53)

    Apart from the stack of open arrays and objects and from the path the reader
    holds two buffers: the one filled by [read], and [value_bytes_buf], in which
    the bytes of a name, string or number are collected if they cannot be
    returned as a part of the first buffer. *)

From Verif Require Import Base SourceModel ReaderModel SpecCost.

(** [P] holds at every moment while a program runs: before its first operation
    on the buffers, between any two of them, and at the end *)
Fixpoint throughout {A : Type} (P : csrc -> Prop) (p : prog A) (c : csrc) : Prop :=
  P c /\
  match p with
  | Ret a => True
  | DPeek k => match c_peek c with (Some r, c') => throughout P (k r) c' | (None, _) => True end
  | DSkip k => match c_skip c with Some c' => throughout P k c' | None => True end
  | DVNew k => match c_vnew c with Some c' => throughout P k c' | None => True end
  | DVPeek k => match c_vpeek c with (Some r, c') => throughout P (k r) c' | (None, _) => True end
  | DVConsume k => match c_vconsume c with Some c' => throughout P k c' | None => True end
  | DVSkipPrev k => match c_vskip_prev c with Some c' => throughout P k c' | None => True end
  | DVSkipFinal k => throughout P k (set_skip_final true c)
  | DVPush bs k => match c_vpush bs c with Some c' => throughout P k c' | None => True end
  | DVGet b k => match c_vget b c with Some c' => throughout P k c' | None => True end
  | DVStrPeek k => match c_vstr_peek c with Some s => throughout P (k s) c | None => True end
  | DVStr k => match c_vstr c with Some (s, c') => throughout P (k s) c' | None => True end
  | DVString k => match c_vstring c with Some (s, c') => throughout P (k s) c' | None => True end
  end.

(** [P] holds at every moment of a session *)
Definition always (P : csrc -> Prop) (s : settings) (evs : list event) (cs : list rcall) : Prop :=
  throughout P (session_program s evs cs) (csrc_new evs).

(** The number of bytes which are collected: the content of [value_bytes_buf],
    and of the vector which has been taken out of it and not yet been returned *)
Definition collected (c : csrc) : nat :=
  length (c_vbuf c) + match c_value c with Some (CVec bs) => length bs | _ => O end.

(** The calls for which bytes have to be collected: those which return a name,
    string or number, and, if the reader keeps track of the path, those which
    skip names *)
Definition collects (s : settings) (c : rcall) : bool :=
  match c with
  | CNextName | CNextNameOwned | CNextString | CNextStr | CNextNumberStr | CNextNumberString => true
  | CSeekTo path => track_path s || existsb (fun p => match p with PName _ => true | PIndex _ => false end) path
  | CSkipName | CSkipValue | CSeekBack _ | CSkipToTopLevel => track_path s
  | _ => false
  end.

(** Consists of characters which occur in numbers *)
Definition number_text (t : bytes) : bool :=
  forallb (fun b => ((0x30 <=? b) && (b <=? 0x39)) || (b =? 0x2B) || (b =? 0x2D) || (b =? 0x2E) || (b =? 0x45) || (b =? 0x65)) t.

(** The content of a string, or the begin of it: no quote and no control
    character, except as last byte and except quotes behind a backslash *)
Fixpoint string_text (escaped : bool) (t : bytes) : bool :=
  match t with
  | [] => true
  | b :: t' =>
    if b <? 0x20 then match t' with [] => true | _ => false end
    else if escaped then string_text false t'
    else if b =? 0x5C then string_text true t'
    else if b =? 0x22 then match t' with [] => true | _ => false end
    else string_text false t'
  end.

(** Some part of the input has at least [n] bytes, and is the text of a number
    or, behind a quote, of a string. *)
Definition one_token_has (n : nat) (input : bytes) : Prop :=
  exists before token after, input = before ++ token ++ after /\ (n <= length token)%nat /\
    (number_text token = true \/
     string_text false token = true /\ exists before', before = before' ++ [0x22]).
