(** * Specification: JSON data and its textual form (RFC 8259)

    The grammar relates a data tree and a text.  It is parameterised by the two
    syntax extensions which the reader settings can enable: comments and
    trailing commas.  Nothing here refers to the model of the code; only the
    UTF-8 encoding of a character is shared. *)

From Verif Require Import Base Utf8Model SpecNumber.

(** ** Data *)

(** Object members are kept in document order, names may repeat.  A number is
    represented by its text, a string by its characters. *)
Inductive json : Type :=
| JNull
| JBool (b : bool)
| JNum (text : bytes)
| JStr (s : str)
| JArr (items : list json)
| JObj (members : list (str * json)).

(** Height of a tree in containers: [0] for a scalar. *)
Fixpoint nesting (v : json) : nat :=
  match v with
  | JArr items => S (list_max (map nesting items))
  | JObj members => S (list_max (map (fun m => nesting (snd m)) members))
  | _ => O
  end.

(** ** Syntax extensions *)

Record syntax : Type := Syntax {
  comments : bool;
  trailing_commas : bool
}.

(** RFC 8259 without extensions *)
Definition rfc8259 : syntax := Syntax false false.

(** ** Whitespace and comments *)

Definition ws_byte (b : byte) : Prop := b = 0x20 \/ b = 0x09 \/ b = 0x0A \/ b = 0x0D.

Definition line_break (b : byte) : Prop := b = 0x0A \/ b = 0x0D.

(** Characters allowed in comments: no control characters below U+0020 except
    tab and line breaks. *)
Definition comment_char (c : char) : Prop :=
  is_char c /\ (0x20 <= c \/ c = 0x09 \/ c = 0x0A \/ c = 0x0D).

(** Text of a line comment, without its end *)
Definition line_comment_body (t : bytes) : Prop :=
  exists cs, t = encode_utf8 cs /\ Forall (fun c => comment_char c /\ ~ line_break c) cs.

(** Text of a block comment: does not contain [*/] *)
Definition block_comment_body (t : bytes) : Prop :=
  (exists cs, t = encode_utf8 cs /\ Forall comment_char cs)
  /\ ~ (exists t1 t2, t = t1 ++ [0x2A; 0x2F] ++ t2).

Inductive ws_text (sx : syntax) : bytes -> Prop :=
| WS_nil : ws_text sx []
| WS_ws b t : ws_byte b -> ws_text sx t -> ws_text sx (b :: t)
| WS_line body b t : comments sx = true -> line_comment_body body -> line_break b ->
    ws_text sx t -> ws_text sx ([0x2F; 0x2F] ++ body ++ b :: t)
| WS_block body t : comments sx = true -> block_comment_body body ->
    ws_text sx t -> ws_text sx ([0x2F; 0x2A] ++ body ++ [0x2A; 0x2F] ++ t).

(** Whitespace at the end of the document; a line comment may be ended by the
    end of the document. *)
Definition final_ws_text (sx : syntax) (t : bytes) : Prop :=
  ws_text sx t \/
  exists t1 body, t = t1 ++ [0x2F; 0x2F] ++ body /\ ws_text sx t1 /\
    comments sx = true /\ line_comment_body body.

(** ** Strings *)

(** [unescaped = %x20-21 / %x23-5B / %x5D-10FFFF] *)
Definition unescaped (c : char) : Prop :=
  is_char c /\ 0x20 <= c /\ c <> 0x22 /\ c <> 0x5C.

(** Two-character escape sequences: [\] followed by [b] denotes [c]. *)
Inductive simple_escape : byte -> char -> Prop :=
| SE_quote : simple_escape 0x22 0x22
| SE_backslash : simple_escape 0x5C 0x5C
| SE_slash : simple_escape 0x2F 0x2F
| SE_b : simple_escape 0x62 0x08
| SE_f : simple_escape 0x66 0x0C
| SE_n : simple_escape 0x6E 0x0A
| SE_r : simple_escape 0x72 0x0D
| SE_t : simple_escape 0x74 0x09.

(** Value of a hexadecimal digit *)
Definition hex_value (b : byte) (v : N) : Prop :=
  (0x30 <= b <= 0x39 /\ v = b - 0x30) \/
  (0x61 <= b <= 0x66 /\ v = b - 0x61 + 10) \/
  (0x41 <= b <= 0x46 /\ v = b - 0x41 + 10).

(** Four hexadecimal digits *)
Definition hex4 (t : bytes) (v : N) : Prop :=
  exists h1 h2 h3 h4 v1 v2 v3 v4, t = [h1; h2; h3; h4] /\
    hex_value h1 v1 /\ hex_value h2 v2 /\ hex_value h3 v3 /\ hex_value h4 v4 /\
    v = v1 * 0x1000 + v2 * 0x100 + v3 * 0x10 + v4.

(** Content of a string literal and the characters it denotes *)
Inductive str_text : bytes -> str -> Prop :=
| ST_nil : str_text [] []
| ST_raw c t s : unescaped c -> str_text t s -> str_text (encode_char c ++ t) (c :: s)
| ST_esc b c t s : simple_escape b c -> str_text t s -> str_text (0x5C :: b :: t) (c :: s)
| ST_u hs v t s : hex4 hs v -> is_char v -> str_text t s ->
    str_text ([0x5C; 0x75] ++ hs ++ t) (v :: s)
| ST_pair hs1 hi hs2 lo t s : hex4 hs1 hi -> hex4 hs2 lo ->
    0xD800 <= hi <= 0xDBFF -> 0xDC00 <= lo <= 0xDFFF -> str_text t s ->
    str_text ([0x5C; 0x75] ++ hs1 ++ [0x5C; 0x75] ++ hs2 ++ t)
             ((0x10000 + (hi - 0xD800) * 0x400 + (lo - 0xDC00)) :: s).

Definition quoted (t : bytes) (s : str) : Prop :=
  exists body, t = [0x22] ++ body ++ [0x22] /\ str_text body s.

(** ** Values *)

(** [items_text sx first vs t]: [t] is the remaining text of an array, up to
    and including its end, with the remaining items [vs]; [first] tells whether
    no item precedes.  [members_text] is the same for objects. *)
Inductive value_text (sx : syntax) : json -> bytes -> Prop :=
| VT_null : value_text sx JNull lit_null
| VT_true : value_text sx (JBool true) lit_true
| VT_false : value_text sx (JBool false) lit_false
| VT_num t : number_text t -> value_text sx (JNum t) t
| VT_str t s : quoted t s -> value_text sx (JStr s) t
| VT_arr vs t : items_text sx true vs t -> value_text sx (JArr vs) ([0x5B] ++ t)
| VT_obj ms t : members_text sx true ms t -> value_text sx (JObj ms) ([0x7B] ++ t)

with items_text (sx : syntax) : bool -> list json -> bytes -> Prop :=
| IT_end first w : ws_text sx w -> items_text sx first [] (w ++ [0x5D])
| IT_trailing w1 w2 : trailing_commas sx = true -> ws_text sx w1 -> ws_text sx w2 ->
    items_text sx false [] (w1 ++ [0x2C] ++ w2 ++ [0x5D])
| IT_first w v t vs t' : ws_text sx w -> value_text sx v t -> items_text sx false vs t' ->
    items_text sx true (v :: vs) (w ++ t ++ t')
| IT_next w1 w2 v t vs t' : ws_text sx w1 -> ws_text sx w2 -> value_text sx v t ->
    items_text sx false vs t' ->
    items_text sx false (v :: vs) (w1 ++ [0x2C] ++ w2 ++ t ++ t')

with members_text (sx : syntax) : bool -> list (str * json) -> bytes -> Prop :=
| MT_end first w : ws_text sx w -> members_text sx first [] (w ++ [0x7D])
| MT_trailing w1 w2 : trailing_commas sx = true -> ws_text sx w1 -> ws_text sx w2 ->
    members_text sx false [] (w1 ++ [0x2C] ++ w2 ++ [0x7D])
| MT_first w n tn w1 w2 v t ms t' : ws_text sx w -> quoted tn n -> ws_text sx w1 -> ws_text sx w2 ->
    value_text sx v t -> members_text sx false ms t' ->
    members_text sx true ((n, v) :: ms) (w ++ tn ++ w1 ++ [0x3A] ++ w2 ++ t ++ t')
| MT_next w0 w n tn w1 w2 v t ms t' : ws_text sx w0 -> ws_text sx w -> quoted tn n ->
    ws_text sx w1 -> ws_text sx w2 -> value_text sx v t -> members_text sx false ms t' ->
    members_text sx false ((n, v) :: ms)
      (w0 ++ [0x2C] ++ w ++ tn ++ w1 ++ [0x3A] ++ w2 ++ t ++ t').

Scheme value_text_mut := Induction for value_text Sort Prop
  with items_text_mut := Induction for items_text Sort Prop
  with members_text_mut := Induction for members_text Sort Prop.
Combined Scheme value_items_members_ind from value_text_mut, items_text_mut, members_text_mut.

(** ** Documents *)

(** A document: one value, surrounded by whitespace *)
Definition document_text (sx : syntax) (v : json) (t : bytes) : Prop :=
  exists w1 tv w2, t = w1 ++ tv ++ w2 /\ ws_text sx w1 /\ value_text sx v tv /\ final_ws_text sx w2.

(** A valid JSON document according to RFC 8259, denoting [v] *)
Definition rfc8259_document : json -> bytes -> Prop := document_text rfc8259.
