(** * Proofs of the property theorems about documents without comments and trailing commas *)

From Verif Require Import Base Utf8Model SpecNumber SpecJson SourceModel ReaderModel SpecCursor SpecRead SpecSessions SpecStrip StripProofs ReaderFinal.


Lemma C35_removed_extensions_leave_the_data_holds : forall (sx : syntax) (sep : bytes) (v : json) (t : bytes), Forall ws_byte sep ->
  document_text sx v t -> rfc8259_document v (without_extensions sep t).
Proof.
  intros sx sep v t. apply strip_document.
Qed.

Lemma C35_same_results_without_extensions_holds : forall (s : settings) (sep : bytes) (vs : list json) (evs evs' : list event) (cs : list rcall), Forall ws_byte sep ->
  document_input s vs evs ->
  supplied evs' = (without_extensions sep (fst (supplied evs)), TEof) ->
  allow_multiple_top_level s = false \/ sep <> [] /\ ~ In CConsumeTrailingWhitespace cs ->
  map forget (read_session s evs cs) = map forget (read_session (set_comments false (set_trailing_comma false s)) evs' cs).
Proof.
  intros s sep vs evs evs' cs Hsep Hd He Hm. assert (Hd0 := Hd). destruct Hd0 as (Ht & Hi & Hl).
  apply (C20_layout_is_invisible_holds s (set_comments false (set_trailing_comma false s)) vs evs evs' cs Hd); try reflexivity; [|tauto].
  assert (Hs : plain_settings s = set_comments false (set_trailing_comma false s)) by reflexivity. rewrite <- Hs.
  split; [rewrite He; reflexivity|]. split; [|exact Hl]. rewrite He. cbn [fst]. apply strip_input; auto. tauto.
Qed.
