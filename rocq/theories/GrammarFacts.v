(** * Facts about the grammar: texts consist of bytes; RFC 8259 is contained in
      the extended syntax; written documents *)

From Verif Require Import Base Utf8Model Utf8Proofs SpecNumber SpecJson SourceModel ReaderModel ReaderLex
  WriterModel SpecWriter SpecCursor.

Lemma digit_byte b : digit b -> is_byte b.
Proof. unfold digit, is_byte. lia. Qed.

Lemma digits_bytes t : Forall digit t -> Forall is_byte t.
Proof. apply Forall_impl. exact digit_byte. Qed.

Ltac blist := repeat (apply Forall_cons; [first [assumption | unfold is_byte; lia]|]); try apply Forall_nil.

Lemma number_bytes t : number_text t -> Forall is_byte t.
Proof.
  intros (n & m & i & f & e & -> & Hm & Hi & Hf & He). rewrite !Forall_app. splits.
  - destruct Hm as [->| ->]; blist.
  - destruct Hi as [->|(d & ds & -> & Hd & Hds)]; [blist|]. constructor; [unfold is_byte; lia|apply digits_bytes, Hds].
  - destruct Hf as [->|(ds & -> & _ & Hds)]; [blist|]. constructor; [unfold is_byte; lia|apply digits_bytes, Hds].
  - destruct He as [(-> & _)|(x & sg & ds & -> & Hx & Hs & (_ & Hds) & _)]; [blist|].
    constructor; [unfold is_byte; lia|]. apply Forall_app. split; [|apply digits_bytes, Hds].
    destruct Hs as [->|[->| ->]]; blist.
Qed.

Lemma hex_byte b v : hex_value b v -> is_byte b.
Proof. unfold hex_value, is_byte. lia. Qed.
Lemma hex4_bytes t v : hex4 t v -> Forall is_byte t.
Proof.
  intros (h1 & h2 & h3 & h4 & v1 & v2 & v3 & v4 & -> & H1 & H2 & H3 & H4 & _).
  repeat (constructor; [eapply hex_byte; eassumption|]). constructor.
Qed.

Lemma str_bytes t s : str_text t s -> Forall is_byte t.
Proof.
  induction 1; rewrite ?Forall_app; splits; auto; try (blist; fail).
  - apply encode_char_bytes, H.
  - constructor; [unfold is_byte; lia|]. constructor; [destruct H; unfold is_byte; lia|assumption].
  - eapply hex4_bytes; eassumption.
  - eapply hex4_bytes; eassumption.
  - eapply hex4_bytes; eassumption.
Qed.

Lemma quoted_bytes t s : quoted t s -> Forall is_byte t.
Proof. intros (b & -> & H). rewrite !Forall_app. splits; try blist. eapply str_bytes; eassumption. Qed.

Lemma comment_bytes cs P : Forall (fun c => comment_char c /\ P c) cs -> Forall is_byte (encode_utf8 cs).
Proof.
  intros H. apply encode_utf8_bytes. eapply Forall_impl; [|exact H]. intros c [[Hc _] _]. exact Hc.
Qed.
Lemma comment_bytes' cs : Forall comment_char cs -> Forall is_byte (encode_utf8 cs).
Proof.
  intros H. apply encode_utf8_bytes. eapply Forall_impl; [|exact H]. intros c [Hc _]. exact Hc.
Qed.

Lemma ws_bytes sx t : ws_text sx t -> Forall is_byte t.
Proof.
  induction 1 as [|b t Hb Ht IH|body b t Hc (cs & -> & Hcs) Hb Ht IH|body t Hc ((cs & -> & Hcs) & _) Ht IH].
  - constructor.
  - constructor; [unfold ws_byte, is_byte in *; lia|exact IH].
  - rewrite !Forall_app. splits; [blist|eapply comment_bytes; exact Hcs|]. constructor; [unfold line_break, is_byte in *; lia|exact IH].
  - rewrite !Forall_app. splits; [blist|eapply comment_bytes'; exact Hcs|blist|exact IH].
Qed.

Lemma final_ws_bytes sx t : final_ws_text sx t -> Forall is_byte t.
Proof.
  intros [H|(t1 & body & -> & H & _ & (cs & -> & Hcs))]; [eapply ws_bytes; eassumption|].
  rewrite !Forall_app. splits; [eapply ws_bytes; eassumption|blist|eapply comment_bytes; exact Hcs].
Qed.

Lemma value_bytes_all sx :
  (forall v t, value_text sx v t -> Forall is_byte t) /\
  (forall f vs t, items_text sx f vs t -> Forall is_byte t) /\
  (forall f ms t, members_text sx f ms t -> Forall is_byte t).
Proof.
  apply (value_items_members_ind sx (fun _ t _ => Forall is_byte t) (fun _ _ t _ => Forall is_byte t)
           (fun _ _ t _ => Forall is_byte t)); intros; rewrite ?Forall_app; splits;
    eauto using number_bytes, quoted_bytes, ws_bytes; try (blist; fail);
    repeat (constructor; [unfold is_byte; lia|]); try constructor; eauto using ws_bytes.
Qed.

Lemma value_bytes sx v t : value_text sx v t -> Forall is_byte t.
Proof. apply (value_bytes_all sx). Qed.

Lemma stream_bytes sx vs t : stream_text sx vs t -> Forall is_byte t.
Proof.
  induction 1; [eapply final_ws_bytes; eassumption|]. rewrite !Forall_app. splits; eauto using ws_bytes, value_bytes.
Qed.

Lemma input_bytes s vs t : input_text s vs t -> Forall is_byte t.
Proof.
  unfold input_text. destruct (allow_multiple_top_level s).
  - intros [_ H]. eapply stream_bytes; eassumption.
  - intros (v & _ & w1 & tv & w2 & -> & H1 & H2 & H3). rewrite !Forall_app.
    splits; eauto using ws_bytes, value_bytes, final_ws_bytes.
Qed.

(** ** RFC 8259 texts belong to every extension *)

Lemma ws_ext sx t : ws_text rfc8259 t -> ws_text sx t.
Proof. induction 1; try discriminate; constructor; auto. Qed.
Lemma final_ws_ext sx t : final_ws_text rfc8259 t -> final_ws_text sx t.
Proof. intros [H|(t1 & body & _ & _ & Hc & _)]; [left; apply ws_ext, H|discriminate]. Qed.

Lemma value_ext_all sx :
  (forall v t, value_text rfc8259 v t -> value_text sx v t) /\
  (forall f vs t, items_text rfc8259 f vs t -> items_text sx f vs t) /\
  (forall f ms t, members_text rfc8259 f ms t -> members_text sx f ms t).
Proof.
  apply (value_items_members_ind rfc8259 (fun v t _ => value_text sx v t) (fun f vs t _ => items_text sx f vs t)
           (fun f ms t _ => members_text sx f ms t)); intros; try discriminate;
    try (constructor; auto using ws_ext; fail).
Qed.

Lemma value_ext sx v t : value_text rfc8259 v t -> value_text sx v t.
Proof. apply (value_ext_all sx). Qed.

Lemma document_ext sx v t : rfc8259_document v t -> document_text sx v t.
Proof.
  intros (w1 & tv & w2 & -> & H1 & H2 & H3). exists w1, tv, w2. splits; auto using ws_ext, value_ext, final_ws_ext.
Qed.

(** Values joined by whitespace *)
Lemma joined_stream sx sep vs texts : sep <> [] -> Forall ws_byte sep -> vs <> [] ->
  Forall2 (value_text rfc8259) vs texts -> stream_text sx vs (join sep texts).
Proof.
  intros Hs Hw Hv H.
  assert (Hsep : ws_text sx sep).
  { clear - Hw. induction Hw; constructor; auto. }
  assert (G : forall vs texts, Forall2 (value_text rfc8259) vs texts -> vs <> [] -> forall w, ws_text sx w -> stream_text sx vs (w ++ join sep texts)).
  { clear vs texts Hv H. intros vs texts H. induction H as [|v t vs texts Hvt H IH]; [tauto|]. intros _ w Hw'.
    destruct H as [|v2 t2 vs texts Hvt2 H].
    - cbn [join]. rewrite <- (app_nil_r t). apply ST_value; auto using value_ext.
      + apply ST_end. left. constructor.
      + intros _. exact I.
    - change (join sep (t :: t2 :: texts)) with (t ++ sep ++ join sep (t2 :: texts)).
      apply ST_value; auto using value_ext.
      + apply IH; [discriminate|exact Hsep].
      + intros _. destruct sep as [|b sep]; [tauto|]. inversion Hw. cbn. auto. }
  apply (G vs texts H Hv []). constructor.
Qed.
