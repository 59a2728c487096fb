(** * Copying a value to a [JsonStreamWriter]

    Auxiliary: the calls which copy a value describe this value. *)

From Verif Require Import Base Utf8Model Utf8Proofs NumberModel SpecNumber NumberProofs SpecJson WriterModel SpecWriter WriterSession WriterMore WriterFinal
  SourceModel ReaderModel ReaderGrammar TransferModel SpecTransfer.

(** What every value of a document satisfies *)
Inductive sound : json -> Prop :=
| SoundNull : sound JNull
| SoundBool b : sound (JBool b)
| SoundNum t : number_text t -> sound (JNum t)
| SoundStr s : Forall is_char s -> sound (JStr s)
| SoundArr l : Forall sound l -> sound (JArr l)
| SoundObj l : Forall (fun m => Forall is_char (fst m)) l -> Forall sound (map snd l) -> sound (JObj l).

Lemma quoted_chars t s : quoted t s -> Forall is_char s.
Proof. intros (body & _ & H). exact (str_text_chars _ _ H). Qed.

Lemma text_sound sx :
  (forall v t, value_text sx v t -> sound v) /\
  (forall first l t, items_text sx first l t -> Forall sound l) /\
  (forall first l t, members_text sx first l t -> Forall (fun m => Forall is_char (fst m)) l /\ Forall sound (map snd l)).
Proof.
  apply (value_items_members_ind sx (fun v t _ => sound v) (fun first l t _ => Forall sound l)
    (fun first l t _ => Forall (fun m => Forall is_char (fst m)) l /\ Forall sound (map snd l))); intros; try (constructor; auto; fail).
  - constructor. eapply quoted_chars; eassumption.
  - destruct H. constructor; assumption.
  - split; constructor.
  - split; constructor.
  - destruct H0. cbn [map snd]. split; constructor; auto. cbn. eapply quoted_chars; eassumption.
  - destruct H0. cbn [map snd]. split; constructor; auto. cbn. eapply quoted_chars; eassumption.
Qed.

(** The calls of the writer; a transferred number is written like a floating
    point number with this text *)
Definition put_call (p : put) : wcall :=
  match p with
  | PutBeginArray => WriterModel.CBeginArray
  | PutEndArray => WriterModel.CEndArray
  | PutBeginObject => WriterModel.CBeginObject
  | PutEndObject => WriterModel.CEndObject
  | PutName n => CName n
  | PutStringWriter => CStringWriter
  | PutWriteStr s => CWriteStr s
  | PutFinishValue => CFinishValue
  | PutNumber n => CFloat (Some n)
  | PutBool b => CBool b
  | PutNull => CNull
  end.

Lemma ascii_chars t : Forall (fun b => b < 0x80) t -> Forall is_char t /\ encode_utf8 t = t.
Proof.
  induction 1 as [|b t Hb Ht (IH1 & IH2)]; [split; [constructor|reflexivity]|]. split.
  - constructor; [unfold is_char; lia|exact IH1].
  - rewrite encode_utf8_cons, IH2. unfold encode_char. rewrite (proj2 (N.ltb_lt b 0x80)) by lia. reflexivity.
Qed.
Lemma number_ascii t : number_text t -> Forall is_char t /\ encode_utf8 t = t.
Proof.
  intros (m & H). apply ascii_chars. eapply Forall_impl; [|exact (number_chars _ _ H)]. cbn. intros b Hb. unfold number_char, digit in Hb. lia.
Qed.


(** ** The described document *)

Definition writing (multi : bool) (v : json) (ps : list put) : Prop :=
  forall d, value_allowed multi d -> describes_all multi d (map put_call ps) (add_value v d).

Lemma describes_parts multi d parts : forall acc x, Forall is_char acc -> Forall is_char (concat parts) -> encode_utf8 acc = x -> d_string d = Some x ->
  describes_all multi d (map put_call (map PutWriteStr parts)) (Wdoc (d_top d) (d_open d) (Some (encode_utf8 (acc ++ concat parts)))).
Proof.
  revert d. induction parts as [|p parts IH]; intros d acc x Hacc Hp <- Hd; cbn [map concat].
  - rewrite app_nil_r. destruct d as [t o s]. cbn in *. subst. constructor.
  - cbn [concat] in Hp. apply Forall_app in Hp as [Hp Hps].
    econstructor.
    + cbn [put_call]. eapply D_write_str; [exact Hd|]. rewrite from_utf8_encode by exact Hacc. discriminate.
    + rewrite app_assoc. assert (Henc : encode_utf8 acc ++ encode_utf8 p = encode_utf8 (acc ++ p)) by (unfold encode_utf8; rewrite flat_map_app; reflexivity).
      rewrite Henc. apply (IH (Wdoc (d_top d) (d_open d) (Some (encode_utf8 (acc ++ p)))) (acc ++ p) (encode_utf8 (acc ++ p))); auto.
      apply Forall_app. auto.
Qed.

Lemma writing_string multi s parts : Forall is_char s -> concat parts = s ->
  writing multi (JStr s) ([PutStringWriter] ++ map PutWriteStr parts ++ [PutFinishValue]).
Proof.
  intros Hs Hc d Ha. rewrite !map_app. cbn [map put_call app]. econstructor; [constructor; exact Ha|].
  eapply describes_all_app.
  - apply (describes_parts multi (Wdoc (d_top d) (d_open d) (Some [])) parts [] []); [constructor|rewrite Hc; exact Hs|reflexivity|reflexivity].
  - cbn [d_top d_open app]. rewrite Hc. econstructor; [|constructor].
    pose proof (D_finish_value multi (Wdoc (d_top d) (d_open d) (Some (encode_utf8 s))) (encode_utf8 s) s eq_refl (from_utf8_encode s Hs)) as H.
    cbn [d_top d_open] in H. replace (add_value (JStr s) d) with (add_value (JStr s) (Wdoc (d_top d) (d_open d) None)); [exact H|].
    destruct d as [t o x]. destruct Ha as [Hx _]. cbn in *. subst. reflexivity.
Qed.

Lemma writing_items multi l : forall ps, copies_items l ps -> (forall v qs, In v l -> copies v qs -> writing multi v qs) ->
  forall t o items, describes_all multi (Wdoc t (OpenArr items :: o) None) (map put_call ps) (Wdoc t (OpenArr (items ++ l) :: o) None).
Proof.
  induction l as [|v l IH]; intros ps Hc Hw t o items; inversion Hc; subst.
  - rewrite app_nil_r. constructor.
  - rewrite map_app. eapply describes_all_app; [apply (Hw v); [left; reflexivity|assumption|split; [reflexivity|exact I]]|].
    cbn [add_value d_open d_top].
    replace (items ++ v :: l) with ((items ++ [v]) ++ l) by (rewrite <- app_assoc; reflexivity).
    apply IH; [assumption|]. intros u ws Hu. apply Hw. right. exact Hu.
Qed.

Lemma writing_members multi l : forall ps, copies_members l ps -> (forall v qs, In v (map snd l) -> copies v qs -> writing multi v qs) ->
  forall t o ms, describes_all multi (Wdoc t (OpenObj ms None :: o) None) (map put_call ps) (Wdoc t (OpenObj (ms ++ l) None :: o) None).
Proof.
  induction l as [|[n v] l IH]; intros ps Hc Hw t o ms; inversion Hc; subst.
  - rewrite app_nil_r. constructor.
  - rewrite !map_app. cbn [map put_call app]. econstructor; [eapply D_name; reflexivity|]. cbn [d_top].
    eapply describes_all_app; [apply (Hw v); [left; reflexivity|assumption|split; [reflexivity|cbn; discriminate]]|].
    cbn [add_value d_open d_top].
    replace (ms ++ (n, v) :: l) with ((ms ++ [(n, v)]) ++ l) by (rewrite <- app_assoc; reflexivity).
    apply IH; [assumption|]. intros u ws Hu. apply Hw. right. exact Hu.
Qed.

Lemma doc_same d : d_string d = None -> Wdoc (d_top d) (d_open d) None = d.
Proof. destruct d. cbn. intros ->. reflexivity. Qed.

Lemma copies_writing multi : forall v, sound v -> forall ps, copies v ps -> writing multi v ps.
Proof.
  fix IH 2. intros v Hv. destruct Hv as [|b|t Ht|s Hs|l Hl|l Hn Hl]; intros ps Hc; inversion Hc; subst.
  - intros d Ha. econstructor; [constructor; exact Ha|constructor].
  - intros d Ha. econstructor; [constructor; exact Ha|constructor].
  - intros d Ha. destruct (number_ascii t Ht) as [_ He]. econstructor; [|constructor].
    rewrite <- He at 2. apply D_float; [exact Ha|rewrite He; exact Ht].
  - eapply writing_string; eauto.
  - assert (Hall : forall v qs, In v l -> copies v qs -> writing multi v qs).
    { clear - IH Hl. induction Hl as [|x l Hx Hl IHl]; intros v qs Hin; [destruct Hin|destruct Hin as [<-|Hin]; [exact (IH _ Hx qs)|exact (IHl v qs Hin)]]. }
    intros d Ha. rewrite !map_app. cbn [map put_call app]. econstructor; [constructor; exact Ha|].
    unfold open_container_in. eapply describes_all_app; [apply (writing_items multi l ps0 ltac:(assumption) Hall (d_top d) (d_open d) [])|].
    cbn [app]. econstructor; [|constructor].
    replace (add_value (JArr l) d) with (add_value (JArr l) (Wdoc (d_top d) (d_open d) None)) by (rewrite (doc_same d (proj1 Ha)); reflexivity).
    eapply (D_end_array multi (Wdoc (d_top d) _ None)); reflexivity.
  - assert (Hall : forall v qs, In v (map snd l) -> copies v qs -> writing multi v qs).
    { clear - IH Hl. induction Hl as [|x l' Hx Hl IHl]; intros v qs Hin; [destruct Hin|destruct Hin as [<-|Hin]; [exact (IH _ Hx qs)|exact (IHl v qs Hin)]]. }
    intros d Ha. rewrite !map_app. cbn [map put_call app]. econstructor; [constructor; exact Ha|].
    unfold open_container_in. eapply describes_all_app; [apply (writing_members multi l ps0 ltac:(assumption) Hall (d_top d) (d_open d) [])|].
    cbn [app]. econstructor; [|constructor].
    replace (add_value (JObj l) d) with (add_value (JObj l) (Wdoc (d_top d) (d_open d) None)) by (rewrite (doc_same d (proj1 Ha)); reflexivity).
    eapply (D_end_object multi (Wdoc (d_top d) _ None)); reflexivity.
Qed.

(** ** The calls are valid *)

Definition good_put (p : put) : Prop :=
  match p with
  | PutName s | PutWriteStr s => Forall is_char s
  | PutNumber t => number_text t
  | _ => True
  end.

Lemma copies_good : forall v, sound v -> forall ps, copies v ps -> Forall good_put ps.
Proof.
  fix IH 2. intros v Hv. destruct Hv as [|b|t Ht|s Hs|l Hl|l Hn Hl]; intros ps Hc; inversion Hc; subst.
  - repeat constructor.
  - repeat constructor.
  - repeat constructor; auto.
  - apply Forall_app. split; [repeat constructor|]. apply Forall_app. split; [|repeat constructor].
    clear - Hs. induction parts as [|p parts IHp]; [constructor|]. cbn [concat map] in *. apply Forall_app in Hs as [H1 H2]. constructor; auto.
  - apply Forall_app. split; [repeat constructor|]. apply Forall_app. split; [|repeat constructor].
    clear - IH Hl H0. revert ps0 H0. induction Hl as [|x l Hx Hl IHl]; intros ps H; inversion H; subst; [constructor|].
    apply Forall_app. split; [apply (IH x Hx); assumption|apply IHl; assumption].
  - apply Forall_app. split; [repeat constructor|]. apply Forall_app. split; [|repeat constructor].
    clear - IH Hl H0 Hn. revert ps0 H0 Hn. remember (map snd l) as vs eqn:Evs. revert l Evs. induction Hl as [|x vs' Hx Hl IHl]; intros [|[n y] l] Evs ps H Hn; try discriminate.
    + inversion H; subst. constructor.
    + inversion H; subst. cbn in Evs. injection Evs as -> ->. inversion Hn; subst.
      constructor; [assumption|]. apply Forall_app. split; [apply (IH y Hx); assumption|]. apply (IHl l eq_refl); assumption.
Qed.

Lemma good_valid ps : Forall good_put ps -> Forall valid_call (map put_call ps).
Proof.
  intros H. rewrite Forall_map. eapply Forall_impl; [|exact H]. intros [] Hp; cbn in *; auto.
  destruct (number_ascii n Hp) as [H1 H2]. rewrite H2. auto.
Qed.

(** ** Feeding a stream writer *)

Lemma number_put cfg n s : number_text n ->
  stream_writer cfg (PutNumber n) s = match wstep cfg (CFloat (Some n)) s with
    | (RDone, s') => (Ok tt, s') | (RPanic k, s') => (Panic k, s') | (r, s') => (Err r, s') end.
Proof.
  intros Hn. unfold stream_writer. cbn [wstep]. unfold number_call, json_call, fp_number_value.
  assert (Hv : is_valid_json_number n = true) by (apply is_valid_json_number_spec; rewrite (proj2 (number_ascii n Hn)); exact Hn).
  rewrite Hv. cbn [negb]. unfold wbind, wret. destruct (number_str_value cfg (encode_utf8 n) (ws_writer s)) as [[u|e|k|] st']; cbn; try destruct e; reflexivity.
Qed.

Lemma put_step cfg p s : good_put p ->
  stream_writer cfg p s = match wstep cfg (put_call p) s with
    | (RDone, s') => (Ok tt, s') | (RPanic k, s') => (Panic k, s') | (r, s') => (Err r, s') end.
Proof. intros Hp. destruct p; try reflexivity. apply number_put. exact Hp. Qed.

Lemma put_success p r : success (put_call p) r -> r = RDone.
Proof. destruct p; exact (fun H => H). Qed.

Lemma feed_stream cfg ps : forall s rs s', Forall good_put ps -> wrun cfg (map put_call ps) s = (rs, s') ->
  Forall2 success (map put_call ps) rs -> feed (stream_writer cfg) ps s = (Ok tt, s').
Proof.
  induction ps as [|p ps IH]; intros s rs s' Hg Hr Hs; cbn [map feed] in *; [injection Hr as _ <-; reflexivity|].
  inversion Hg as [|p0 ps0 Hp Hps]; subst. rewrite (put_step cfg p s Hp).
  cbn [wrun] in Hr. destruct (wstep cfg (put_call p) s) as [r s1]. inversion Hs as [|? ? ? ? H1 H2]; subst.
  assert (Hd : r = RDone). { destruct r; try (destruct (wrun cfg (map put_call ps) s1)); injection Hr as <- _; apply (put_success p); exact H1. }
  subst r. destruct (wrun cfg (map put_call ps) s1) as [rs1 s2] eqn:E1. injection Hr as _ <- <-. exact (IH s1 rs1 s2 Hps E1 H2).
Qed.
