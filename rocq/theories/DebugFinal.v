(** * Proofs of the property theorems about the [Debug] output *)

From Verif Require Import Base Utf8Model Utf8Proofs SpecNumber SpecJson WriterModel SpecWriter WriterRun SpecBuffer BufferFinal
  SourceModel SourceProofs ReaderModel SpecCost CostFinal LookReader ReaderCursor DebugModel SpecDebug DebugProofs.


(** ** The text of the writer is UTF-8 *)

Lemma u_app a b : utf8_text a -> utf8_text b -> utf8_text (a ++ b).
Proof. intros (s & -> & Hs) (t & -> & Ht). exists (s ++ t). rewrite encode_utf8_app. split; [reflexivity|]. apply Forall_app; auto. Qed.
Lemma u_nil : utf8_text [].
Proof. exists []. split; [reflexivity|constructor]. Qed.
Lemma u_ascii bs : Forall (fun b => b < 0x80) bs -> utf8_text bs.
Proof.
  intros H. exists bs. split.
  - induction H as [|b bs Hb _ IH]; [reflexivity|]. rewrite encode_utf8_cons, <- IH. unfold encode_char.
    replace (b <? 0x80) with true by (symmetry; apply N.ltb_lt; exact Hb). reflexivity.
  - eapply Forall_impl; [|exact H]. intros b Hb. cbv beta in Hb. left. eapply N.lt_trans; [exact Hb|reflexivity].
Qed.
Lemma u_one b : b < 0x80 -> utf8_text [b].
Proof. intros. apply u_ascii. auto. Qed.
Lemma u_char c : is_char c -> utf8_text (encode_char c).
Proof. intros. exists [c]. split; [cbn; rewrite app_nil_r; reflexivity|auto]. Qed.
Lemma hex_ascii n : n < 16 -> SpecWriter.hex_digit n < 0x80.
Proof. unfold SpecWriter.hex_digit. intros. destruct (n <? 10) eqn:E; [apply N.ltb_lt in E|]; lia. Qed.
Lemma u_escape_ascii v : v < 0x10000 -> Forall (fun b => b < 0x80) (u_escape v).
Proof.
  intros H. unfold u_escape. constructor; [reflexivity|]. constructor; [reflexivity|].
  assert (Hm : forall x, SpecWriter.hex_digit (x mod 16) < 0x80) by (intros; apply hex_ascii, N.mod_lt; discriminate).
  repeat (constructor; [first [apply Hm|apply hex_ascii, N.div_lt_upper_bound; [discriminate|exact H]]|]). constructor.
Qed.
Lemma u_char_text cfg c : is_char c -> utf8_text (char_text cfg c).
Proof.
  intros Hc. unfold char_text. destruct (must_escape cfg c); [|apply u_char, Hc]. apply u_ascii. unfold escape_seq.
  repeat match goal with |- context [if ?b then _ else _] => let E := fresh "E" in destruct b eqn:E end; try (repeat constructor; fail).
  - apply u_escape_ascii. match goal with H : (c <? 0x10000) = true |- _ => apply N.ltb_lt in H; exact H end.
  - match goal with H : (c <? 0x10000) = false |- _ => apply N.ltb_ge in H; rename H into Hge end.
    assert (Hmax : c <= 0x10FFFF) by (unfold is_char in Hc; lia).
    assert (Hd : (c - 0x10000) / 0x400 < 0x400) by (apply N.div_lt_upper_bound; [discriminate|lia]).
    assert (Hr : (c - 0x10000) mod 0x400 < 0x400) by (apply N.mod_lt; discriminate).
    apply Forall_app. split; apply u_escape_ascii; lia.
Qed.
Lemma u_content cfg s : Forall is_char s -> utf8_text (string_content cfg s).
Proof. induction 1; [apply u_nil|]. cbn. apply u_app; [apply u_char_text; auto|auto]. Qed.
Lemma u_string cfg s : Forall is_char s -> utf8_text (string_text cfg s).
Proof. intros. unfold string_text. apply u_app; [apply u_one; reflexivity|]. apply u_app; [apply u_content; auto|apply u_one; reflexivity]. Qed.
Lemma u_line level : utf8_text (new_line level).
Proof.
  apply u_ascii. constructor; [reflexivity|]. induction level as [|n IH]; cbn; [constructor|].
  constructor; [reflexivity|]. constructor; [reflexivity|exact IH].
Qed.
Lemma u_before cfg first level : utf8_text (before_element cfg first level).
Proof.
  unfold before_element. apply u_app; [destruct first; [apply u_nil|apply u_one; reflexivity]|].
  destruct (pretty_print cfg); [apply u_line|apply u_nil].
Qed.
Lemma u_before_end cfg e level : utf8_text (before_end cfg e level).
Proof. unfold before_end. destruct (_ && _); [apply u_line|apply u_nil]. Qed.
Lemma u_colon cfg : utf8_text (colon cfg).
Proof. unfold colon. destruct (pretty_print cfg); apply u_ascii; repeat constructor. Qed.
Lemma number_low t : number_text t -> Forall (fun b => b < 0x80) t.
Proof.
  intros (n & minus & int & frac & exp & -> & Hm & Hi & Hf & He).
  assert (Hd : forall ds, Forall digit ds -> Forall (fun b => b < 0x80) ds).
  { intros ds. apply Forall_impl. unfold digit. intros; lia. }
  repeat (apply Forall_app; split).
  - destruct Hm as [->| ->]; repeat constructor.
  - unfold int_text in Hi. destruct Hi as [->|(d & ds & -> & H1 & H2)]; [repeat constructor|].
    constructor; [lia|auto].
  - destruct Hf as [->|(ds & -> & _ & H)]; [constructor|]. constructor; [reflexivity|auto].
  - destruct He as [[-> _]|(e & sign & ds & -> & He & Hs & [_ H] & _)]; [constructor|].
    constructor; [destruct He as [->| ->]; reflexivity|]. apply Forall_app. split; [|auto].
    destruct Hs as [->|[->| ->]]; repeat constructor.
Qed.

Lemma u_items cfg level items : Forall (fun v => forall level, utf8_text (layout cfg level v)) items ->
  forall first, utf8_text (items_text cfg level first items).
Proof. induction 1 as [|v l Hv _ IH]; intros first; cbn; [apply u_nil|]. apply u_app; [apply u_before|]. apply u_app; auto. Qed.
Lemma u_members cfg level ms : Forall (fun m : str * json => Forall is_char (fst m) /\ forall level, utf8_text (layout cfg level (snd m))) ms ->
  forall first, utf8_text (members_text cfg level first ms).
Proof.
  induction 1 as [|[n v] l [Hn Hv] _ IH]; intros first; cbn [members_text]; [apply u_nil|]. cbn [fst snd] in *.
  apply u_app; [apply u_before|]. apply u_app; [apply u_string, Hn|]. apply u_app; [apply u_colon|]. apply u_app; auto.
Qed.
Lemma u_layout cfg : forall v, wf_json v -> forall level, utf8_text (layout cfg level v).
Proof.
  induction v as [|b|t|t|items IH|ms IH] using json_nested_ind; intros Hw level.
  - apply u_ascii. repeat constructor.
  - apply u_ascii. destruct b; repeat constructor.
  - apply u_ascii, number_low, Hw.
  - apply u_string, Hw.
  - apply wf_json_arr in Hw. rewrite WriterDocProofs.layout_arr, <- items_text_body.
    apply u_app; [apply u_one; reflexivity|]. apply u_app; [apply u_items|apply u_app; [apply u_before_end|apply u_one; reflexivity]].
    rewrite Forall_forall in *. intros v Hv. apply IH; auto.
  - apply wf_json_obj in Hw. rewrite WriterDocProofs.layout_obj, <- members_text_body.
    apply u_app; [apply u_one; reflexivity|]. apply u_app; [apply u_members|apply u_app; [apply u_before_end|apply u_one; reflexivity]].
    rewrite Forall_forall in *. intros m Hm. destruct (Hw m Hm). split; auto.
Qed.
Lemma u_separator cfg : valid_wsettings cfg -> utf8_text (separator cfg).
Proof. unfold valid_wsettings, separator. destruct (multi_top_level_value_separator cfg) as [s|]; [|intros; apply u_nil]. intros H. exists s. auto. Qed.
Lemma u_documents cfg vs : valid_wsettings cfg -> Forall wf_json vs -> utf8_text (documents_layout cfg vs).
Proof.
  intros Hc. induction 1 as [|v vs Hv Hvs IH]; [apply u_nil|]. cbn. destruct vs; [apply u_layout, Hv|].
  apply u_app; [apply u_layout, Hv|]. apply u_app; [apply u_separator, Hc|exact IH].
Qed.
Lemma u_before_value cfg top o : valid_wsettings cfg -> utf8_text (before_next_value cfg top o).
Proof.
  intros Hc. destruct o as [|[items|ms p] o]; cbn; [destruct top; [apply u_nil|apply u_separator, Hc]|apply u_before|apply u_nil].
Qed.
Lemma u_open cfg top o : valid_wsettings cfg -> Forall wf_json top -> Forall wf_open o -> utf8_text (open_text_so_far cfg top o).
Proof.
  intros Hc Ht. induction 1 as [|f o Hf _ IH]; cbn [open_text_so_far]; [apply u_documents; auto|].
  apply u_app; [exact IH|]. apply u_app; [apply u_before_value, Hc|].
  destruct f as [items|ms p]; cbn in Hf.
  - apply u_app; [apply u_one; reflexivity|]. apply u_items. eapply Forall_impl; [|exact Hf]. intros v Hv. apply u_layout, Hv.
  - destruct Hf as [Hm Hp]. apply u_app; [apply u_one; reflexivity|]. apply u_app.
    + apply u_members. eapply Forall_impl; [|exact Hm]. intros m [H1 H2]. split; [exact H1|]. intros. apply u_layout, H2.
    + destruct p as [n|]; [|apply u_nil]. apply u_app; [apply u_before|]. apply u_app; [apply u_string, Hp|apply u_colon].
Qed.
Lemma u_text cfg d t : valid_wsettings cfg -> wf_wdoc d -> text_so_far cfg d t -> utf8_text t.
Proof.
  intros Hc [Ht Ho]. unfold text_so_far. destruct (d_string d) as [acc|].
  - intros (s & [Hs _] & ->). apply u_app; [apply u_open; auto|]. apply u_app; [apply u_before_value, Hc|].
    apply u_app; [apply u_one; reflexivity|apply u_content, Hs].
  - intros ->. apply u_open; auto.
Qed.

(** A suffix of UTF-8 text is text after at most three bytes *)
Lemma utf8_suffix s : Forall is_char s -> forall p q, encode_utf8 s = p ++ q ->
  exists k t, (k <= 3)%nat /\ (k <= length q)%nat /\ skipn k q = encode_utf8 t /\ Forall is_char t.
Proof.
  induction 1 as [|c s Hc Hs IH]; intros p q E.
  - cbn in E. symmetry in E. apply app_eq_nil in E as [_ ->]. exists O, []. repeat split; auto.
  - destruct p as [|b p].
    + exists O, (c :: s). cbn [skipn app] in *. repeat split; auto using Nat.le_0_l.
    + rewrite encode_utf8_cons in E.
      destruct (Nat.le_gt_cases (length (encode_char c)) (length (b :: p))) as [Hl|Hl].
      * assert (E1 : encode_utf8 s = skipn (length (encode_char c)) (b :: p) ++ q).
        { transitivity (skipn (length (encode_char c)) (encode_char c ++ encode_utf8 s)).
          - rewrite skipn_app, Nat.sub_diag, skipn_all. reflexivity.
          - rewrite E, skipn_app. replace (length (encode_char c) - length (b :: p))%nat with O by lia. reflexivity. }
        exact (IH _ _ E1).
      * exists (length (encode_char c) - length (b :: p))%nat, s.
        assert (H4 : (length (encode_char c) <= 4)%nat).
        { rewrite encode_char_length. unfold len_utf8. repeat match goal with |- context [if ?b then _ else _] => destruct b end; lia. }
        cbn [length] in *.
        assert (E1 : skipn (length (encode_char c) - S (length p)) q = encode_utf8 s).
        { transitivity (skipn (length (encode_char c)) (b :: p ++ q)).
          - change (b :: p ++ q) with ((b :: p) ++ q). rewrite skipn_app. rewrite (skipn_all2 (b :: p)) by (cbn; lia). reflexivity.
          - change (b :: p ++ q) with ((b :: p) ++ q). rewrite <- E, skipn_app, Nat.sub_diag, skipn_all. reflexivity. }
        assert (Hq : (length (encode_char c) <= S (length p) + length q)%nat).
        { apply (f_equal (@length _)) in E. rewrite !app_length in E. cbn [length] in E. lia. }
        repeat split; auto; lia.
Qed.

(** ** The reader *)
Lemma debug_run s evs cs : Forall is_byte (fst (supplied evs)) ->
  exists x c a, crun (session_program s evs cs) (csrc_new evs) = Some (x, c) /\
    arun (session_program s evs cs) (asrc_new (fst (supplied evs)) (snd (supplied evs))) = Some (x, a) /\ rel c a /\ pos_ok c.
Proof.
  intros Hb. destruct (session_runs s evs cs Hb) as (os & st & a & Hrun).
  destruct (refines_pos _ _ _ _ _ (rel_new evs) (le_n 0) Hrun) as (c & Hc & Hr & Hp). eauto 10.
Qed.


Lemma C55_reader_debug_never_panics_holds : forall (s : settings) (evs : list event) (cs : list rcall),
  Forall is_byte (fst (supplied evs)) -> session_debug s evs cs <> None.
Proof.
  intros s evs cs Hb. destruct (debug_run s evs cs Hb) as (x & c & a & Hc & _ & _ & Hp). unfold session_debug. rewrite Hc.
  destruct (debug_reader_spec c Hp) as (d & -> & _). discriminate.
Qed.

Lemma C55_reader_debug_shows_holds : forall (s : settings) (evs : list event) (cs : list rcall),
  Forall is_byte (fst (supplied evs)) -> snd (supplied evs) = TEof ->
  exists d used fetched, session_debug s evs cs = Some d /\
    fst (supplied evs) = used ++ fetched ++ session_not_fetched s evs cs /\
    session_unread s evs cs = fetched ++ session_not_fetched s evs cs /\
    reader_shows d fetched /\ (d = RdEof -> session_unread s evs cs = []).
Proof.
  intros s evs cs Hb Ht. destruct (debug_run s evs cs Hb) as (x & c & a & Hc & Ha & Hr & Hp).
  unfold session_debug, session_not_fetched, session_unread. rewrite Hc.
  destruct (debug_reader_spec c Hp) as (d & Hd & H1 & H2). rewrite Hd.
  assert (R : rel_ok c a).
  { destruct Hr as [Hf|R]; [|exact R]. rewrite (arun_no_fail _ (asrc_new (fst (supplied evs)) (snd (supplied evs))) _ _ Ht eq_refl Ha) in Hf. discriminate. }
  destruct (arun_rest _ _ _ _ Ha) as (y & Hy). cbn [a_rest asrc_new] in Hy.
  pose proof (rel_unread _ _ R) as Hu. rewrite <- Hu in Hy. unfold unread in *.
  destruct (c_eof c) eqn:Ee.
  - destruct (ro_eof _ _ R Ee) as (Hre & Hpos & _). rewrite Hre in Hu. rewrite Hu in *.
    exists d, y, []. split; [reflexivity|]. split; [exact Hy|]. split; [reflexivity|]. rewrite (H1 eq_refl). split; reflexivity.
  - destruct (H2 eq_refl) as [Hn Hs]. exists d, y, (skipn (c_pos c) (c_buf c)). repeat split; auto. intros; contradiction.
Qed.

Lemma C55_reader_debug_after_failure_refuted_holds : exists (s : settings) (evs : list event) (cs : list rcall) (p : position),
  read_session s evs cs = [OOk RUnit; OOk (RStr [0x31]); OErr (EIo (IoSource 7) p)] /\
  fst (supplied evs) = [0x5B; 0x31; 0x20] /\
  p_byte p = 3 /\
  session_debug s evs cs = Some (RdBuf 2 [0x31; 0x20] None).
Proof.
  exists default_settings, [EvData [0x5B; 0x31; 0x20]; EvErr 7], [CBeginArray; CNextNumberStr; CHasNext]. eexists.
  split; [vm_compute; reflexivity|]. split; [reflexivity|]. split; [reflexivity|vm_compute; reflexivity].
Qed.

Lemma C55_writer_debug_never_panics_holds : forall (cfg : wsettings) (out : sink) (cs : list wcall),
  let st := ws_writer (snd (wrun cfg cs (new_session out))) in
  exists dbg, debug_writer st = Some dbg /\ writer_shows dbg (w_buf st).
Proof.
  intros cfg out cs st. destruct (debug_writer_spec st) as (d & H1 & H2 & _). eauto.
Qed.

Lemma C55_writer_debug_shows_holds : forall (cfg : wsettings) (out : sink) (cs : list wcall) (rs : list wresult) (s : wsession) (d : wdoc),
  valid_wsettings cfg -> received out = [] -> Forall valid_call cs ->
  wrun cfg cs (new_session out) = (rs, s) -> Forall2 success cs rs ->
  describes_all (multi_top_level cfg) empty_doc cs d ->
  exists dbg text held_back, debug_writer (ws_writer s) = Some dbg /\
    text_so_far cfg d text /\ utf8_text text /\
    received (w_sink (ws_writer s)) ++ held_back = text /\
    writer_shows dbg held_back /\
    forall bs, wd_buf dbg = Some bs -> (length bs <= 3)%nat.
Proof.
  intros cfg out cs rs s d Hcfg Ho Hv Hr Hs Hd.
  pose proof (sess_text_so_far cfg d s (described_sess cfg out cs rs s d Ho Hv Hr Hs Hd)) as Ht.
  pose proof (u_text cfg d _ Hcfg (describes_all_wf _ _ _ _ Hd Hv empty_doc_wf) Ht) as Hu.
  destruct (debug_writer_spec (ws_writer s)) as (dbg & H1 & H2 & H3).
  exists dbg, (WriterProofs.emitted (ws_writer s)), (w_buf (ws_writer s)).
  split; [exact H1|]. split; [exact Ht|]. split; [exact Hu|]. split; [reflexivity|]. split; [exact H2|].
  intros bs Hbs. destruct Hu as (u & Hu & Huc). unfold WriterProofs.emitted in Hu. symmetry in Hu.
  destruct (utf8_suffix u Huc _ _ Hu) as (k & t & Hk & Hkl & Hsk & Htc).
  destruct (Nat.le_gt_cases (length bs) k) as [Hle|Hgt]; [lia|].
  destruct H2 as [_ H2]. rewrite Hbs in H2. destruct H2 as [Hnone _].
  destruct k as [|k].
  - cbn [skipn] in Hsk. rewrite Hsk, (from_utf8_encode t Htc) in Hnone. discriminate.
  - specialize (H3 bs Hbs (S k) ltac:(lia)). rewrite Hsk, (from_utf8_encode t Htc) in H3. discriminate.
Qed.
