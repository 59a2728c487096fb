(** * Properties of reading: documents without comments and trailing commas (C35) *)

From Verif Require Import Base Utf8Model SpecNumber SpecJson SourceModel ReaderModel SpecCursor SpecRead SpecSessions SpecStrip ReaderFinal6.


(** C35: a document with comments and trailing commas denotes the same data as the text which is left when they
  are removed; this text is a document according to RFC 8259.  [sep] is the whitespace left in place of a comment, if any. *)
Theorem C35_removed_extensions_leave_the_data : forall (sx : syntax) (sep : bytes) (v : json) (t : bytes), Forall ws_byte sep ->
  document_text sx v t -> rfc8259_document v (without_extensions sep t).
Proof. exact C35_removed_extensions_leave_the_data_holds. Qed.
Print Assumptions C35_removed_extensions_leave_the_data.
(** C35: if comments and trailing commas are enabled, every program has the same results (apart from line, column and byte
  position) as for the input without them.  If there are several top-level values, a comment may separate two of them, so that
  something must be left of it. *)
Theorem C35_same_results_without_extensions : forall (s : settings) (sep : bytes) (vs : list json) (evs evs' : list event) (cs : list rcall), Forall ws_byte sep ->
  document_input s vs evs ->
  supplied evs' = (without_extensions sep (fst (supplied evs)), TEof) ->
  allow_multiple_top_level s = false \/ sep <> [] /\ ~ In CConsumeTrailingWhitespace cs ->
  map forget (read_session s evs cs) = map forget (read_session (set_comments false (set_trailing_comma false s)) evs' cs).
Proof. exact C35_same_results_without_extensions_holds. Qed.
Print Assumptions C35_same_results_without_extensions.
(** [{"a//b": [1, /* , } */ ] , // x] and a line break, then [}] *)
Definition extended_text : bytes :=
  [0x7B; 0x22; 0x61; 0x2F; 0x2F; 0x62; 0x22; 0x3A; 0x20; 0x5B; 0x31; 0x2C; 0x20; 0x2F; 0x2A; 0x20; 0x2C; 0x20; 0x7D; 0x20; 0x2A; 0x2F; 0x20; 0x5D;
   0x20; 0x2C; 0x20; 0x2F; 0x2F; 0x20; 0x78; 0x0A; 0x7D].
Example C35_strip_case :
  without_extensions [] extended_text =
    [0x7B; 0x22; 0x61; 0x2F; 0x2F; 0x62; 0x22; 0x3A; 0x20; 0x5B; 0x31; 0x20; 0x20; 0x5D; 0x20; 0x20; 0x0A; 0x7D] /\
  exists v, document_text (Syntax true true) v extended_text.
Proof.
  split; [vm_compute; reflexivity|]. exists (JObj [([0x61; 0x2F; 0x2F; 0x62], JArr [JNum [0x31]])]).
  assert (Hspace : ws_text (Syntax true true) [0x20]) by (apply WS_ws; [left; reflexivity|constructor]).
  assert (Hraw : forall c t s, 0x20 <= c -> c < 0x80 -> c <> 0x22 -> c <> 0x5C -> str_text t s -> str_text (c :: t) (c :: s)).
  { intros c t s H1 H2 H3 H4 H. assert (He : c :: t = encode_char c ++ t) by (unfold encode_char; rewrite (proj2 (N.ltb_lt c 0x80)) by lia; reflexivity).
    rewrite He. apply ST_raw; [unfold unescaped, is_char; lia|exact H]. }
  exists [], extended_text, []. split; [rewrite app_nil_r; reflexivity|]. split; [constructor|]. split; [|left; constructor].
  change extended_text with ([0x7B] ++ [] ++ ([0x22] ++ [0x61; 0x2F; 0x2F; 0x62] ++ [0x22]) ++ [] ++ [0x3A] ++ [0x20] ++
    ([0x5B] ++ [] ++ [0x31] ++ ([] ++ [0x2C] ++ (0x20 :: [0x2F; 0x2A] ++ [0x20; 0x2C; 0x20; 0x7D; 0x20] ++ [0x2A; 0x2F] ++ [0x20]) ++ [0x5D])) ++
    [0x20] ++ [0x2C] ++ (0x20 :: [0x2F; 0x2F] ++ [0x20; 0x78] ++ 0x0A :: []) ++ [0x7D]).
  apply VT_obj, MT_first; [constructor| |constructor|exact Hspace| |].
  - exists [0x61; 0x2F; 0x2F; 0x62]. split; [reflexivity|]. repeat (apply Hraw; [lia|lia|lia|lia|]). constructor.
  - apply VT_arr, IT_first; [constructor| |].
    + apply VT_num. exists 0%nat, [], [0x31], [], []. split; [reflexivity|]. split; [left; reflexivity|].
      split; [right; exists 0x31, []; split; [reflexivity|split; [lia|constructor]]|]. split; left; auto.
    + apply IT_trailing; [reflexivity|constructor|]. apply WS_ws; [left; reflexivity|]. apply WS_block; [reflexivity| |exact Hspace].
      split.
      * exists [0x20; 0x2C; 0x20; 0x7D; 0x20]. split; [vm_compute; reflexivity|]. repeat (constructor; [unfold comment_char, is_char; lia|]). constructor.
      * intros (t1 & t2 & H). do 6 (destruct t1 as [|? t1]; [discriminate|cbn in H; try (injection H as _ H)]); try discriminate.
  - apply MT_trailing; [reflexivity|exact Hspace|]. apply WS_ws; [left; reflexivity|]. apply WS_line; [reflexivity| |left; reflexivity|constructor].
    exists [0x20; 0x78]. split; [vm_compute; reflexivity|]. repeat (constructor; [unfold comment_char, is_char, line_break; lia|]). constructor.
Qed.

