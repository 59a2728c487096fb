(** * Proofs of the property theorems about the writer *)

From Verif Require Import Base Utf8Model Utf8Proofs NumberModel SpecNumber NumberProofs SpecJson
  WriterModel SpecWriter Utf8Prefix WriterProofs WriterDocProofs WriterStringProofs WriterSession WriterRun WriterSafe WriterMore.


Lemma abandoned_results cfg s c : abandoned s -> valid_call c ->
  In (fst (wstep cfg c s)) [RPanic Misuse; RInvalidNumber; RInexpressible].
Proof.
  intros [Ha Hn] Hc. destruct s as [w st]. cbn in Ha, Hn. subst st.
  assert (Hb : before_value cfg w = (Panic Misuse, w)) by (unfold before_value, wbind, wget; rewrite Ha; reflexivity).
  destruct c as [| | | |n|v|b| |z|[v|]|v| |bs|v| |]; cbn [wstep]; unfold json_call, number_call, string_call; cbn [ws_writer ws_string];
    try (right; right; left; reflexivity); try (right; left; reflexivity).
  - unfold begin_object, wbind. rewrite Hb. cbn. auto.
  - unfold end_object, wbind, wget. destruct (w_is_in_object w); cbn; auto. rewrite Ha. cbn. auto.
  - unfold begin_array, wbind. rewrite Hb. cbn. auto.
  - unfold end_array, wbind, wget. destruct (w_is_in_array w); cbn; auto. rewrite Ha. cbn. auto.
  - unfold name, wbind, wget. destruct (w_expects_member_name w); cbn; auto. rewrite Ha. cbn. auto.
  - unfold string_value, wbind. rewrite Hb. cbn. auto.
  - unfold bool_value, wbind. rewrite Hb. cbn. auto.
  - unfold null_value, wbind. rewrite Hb. cbn. auto.
  - destruct (int_to_string_spec z) as (_ & _ & E). unfold number_value, number_str_value.
    rewrite E. unfold wbind. cbn [negb]. rewrite Hb. cbn. auto.
  - unfold fp_number_value, number_str_value.
    assert (E : is_valid_json_number v = true) by (apply is_valid_json_number_spec, Hc).
    rewrite E. unfold wbind. cbn [negb]. rewrite Hb. cbn. auto.
  - unfold number_value_from_string. destruct (is_valid_json_number v); [|cbn; auto]. unfold wbind. rewrite Hb. cbn. auto.
  - unfold string_value_writer, wbind. rewrite Hb. cbn. auto.
Qed.

Lemma single_inv multi d c d' : describes multi d c d' -> multi = false ->
  ((d_open d <> [] \/ d_string d <> None -> d_top d = []) /\ (length (d_top d) <= 1)%nat) ->
  ((d_open d' <> [] \/ d_string d' <> None -> d_top d' = []) /\ (length (d_top d') <= 1)%nat).
Proof.
  intros H -> [H1 H2].
  assert (Hadd : forall v top o, (o <> [] -> top = []) -> (o = [] -> top = []) ->
    (d_open (add_value v (Wdoc top o None)) <> [] \/ d_string (add_value v (Wdoc top o None)) <> None -> d_top (add_value v (Wdoc top o None)) = []) /\
    (length (d_top (add_value v (Wdoc top o None))) <= 1)%nat).
  { intros v top o Ha Hb. destruct o as [|[items|ms [n|]] o]; cbn.
    - rewrite (Hb eq_refl). cbn. split; [|lia]. intros [|]; congruence.
    - rewrite Ha by discriminate. cbn. split; [auto|lia].
    - rewrite Ha by discriminate. cbn. split; [auto|lia].
    - rewrite Ha by discriminate. cbn. split; [auto|lia]. }
  assert (Hval : forall v, value_allowed false d ->
    (d_open (add_value v d) <> [] \/ d_string (add_value v d) <> None -> d_top (add_value v d) = []) /\ (length (d_top (add_value v d)) <= 1)%nat).
  { intros v [Hs Hv]. destruct d as [top o st]. cbn in *. subst st. apply Hadd; [tauto|]. intros ->. destruct Hv; [assumption|discriminate]. }
  assert (Hop : value_allowed false d -> d_top d = []).
  { intros [Hs Hv]. destruct (d_open d); [destruct Hv; [assumption|discriminate]|]. apply H1. left. discriminate. }
  destruct H; cbn [d_top d_open d_string open_container_in]; auto.
  - rewrite H0 in H1. assert (Htop : d_top d = []) by (apply H1; left; discriminate). apply Hadd; auto.
  - rewrite H0 in H1. assert (Htop : d_top d = []) by (apply H1; left; discriminate). apply Hadd; auto.
  - rewrite H0 in H1. assert (Htop : d_top d = []) by (apply H1; left; discriminate). rewrite Htop. cbn. split; [auto|lia].
  - rewrite H1 by (right; congruence). cbn. split; [auto|lia].
  - rewrite H1 by (right; congruence). cbn. split; [auto|lia].
  - assert (d_top d = []) as -> by (apply H1; right; congruence). apply Hadd; auto.
Qed.

Lemma single_all_inv multi cs d0 d : describes_all multi d0 cs d -> multi = false ->
  ((d_open d0 <> [] \/ d_string d0 <> None -> d_top d0 = []) /\ (length (d_top d0) <= 1)%nat) -> (length (d_top d) <= 1)%nat.
Proof. intros H Hm. induction H; intros Hd; [apply Hd|]. apply IHdescribes_all. eapply single_inv; eauto. Qed.

Lemma single_all multi cs d : describes_all multi empty_doc cs d -> multi = false -> complete d -> exists v, d_top d = [v].
Proof.
  intros H Hm (_ & _ & Ht).
  assert (Hi : (length (d_top d) <= 1)%nat) by (apply (single_all_inv _ _ _ _ H Hm); split; [reflexivity|cbn; lia]).
  destruct (d_top d) as [|v [|v2 l]]; [contradiction|eauto|]. cbn in Hi. lia.
Qed.

Lemma all_success_sess cfg out cs rs s : received out = [] -> Forall valid_call cs ->
  wrun cfg cs (new_session out) = (rs, s) -> Forall2 success cs rs ->
  abandoned s \/ exists d, describes_all (multi_top_level cfg) empty_doc cs d /\ sess_ok cfg d s.
Proof. intros Ho Hv Hr Hs. eapply run_sound; eauto using new_session_ok. Qed.

Lemma finished_run cfg out cs rs s out' : received out = [] -> Forall valid_call cs ->
  wrun cfg cs (new_session out) = (rs, s) -> Forall2 success cs rs -> wfinish s = (RDone, out') ->
  exists d, describes_all (multi_top_level cfg) empty_doc cs d /\ complete d /\ Forall wf_json (d_top d) /\
    received out' = documents_layout cfg (d_top d) /\ flushes out' > 0.
Proof.
  intros Ho Hv Hr Hs Hf. destruct (all_success_sess cfg out cs rs s Ho Hv Hr Hs) as [Ha|(d & Hd & Hok)].
  - exfalso. rewrite (wfinish_abandoned s Ha) in Hf. discriminate.
  - exists d. destruct (wfinish_ok cfg d s Hok) as [(Hc & [(o & E & Hl & Hfl)|(e & o & E & _)])|(_ & E)]; rewrite E in Hf; try discriminate.
    injection Hf as <-. splits; auto. apply (describes_all_wf _ _ _ _ Hd Hv empty_doc_wf).
Qed.

Lemma reliable_good out : reliable out -> sess_good (new_session out).
Proof. intros H. exact H. Qed.


Lemma fresh_value_run cfg out c d : received out = [] -> reliable out -> valid_call c ->
  describes (multi_top_level cfg) empty_doc c d -> complete d ->
  exists r s out', wrun cfg [c] (new_session out) = ([r], s) /\ success c r /\ wfinish s = (RDone, out') /\ received out' = documents_layout cfg (d_top d).
Proof.
  intros Ho Hg Hv Hd Hc.
  destruct (run_described cfg [c] _ _ d (new_session_ok cfg out Ho) (Forall_cons c Hv (Forall_nil _)) (DA_cons _ _ _ _ _ _ Hd (DA_nil _ _)) (complete_possible d Hc) (reliable_good out Hg)) as (H1 & H2 & H3).
  destruct (wrun cfg [c] (new_session out)) as [rs s]. cbn [fst snd] in *.
  inversion H1 as [|? r ? rs0 Hr Hrs]; subst. inversion Hrs; subst.
  destruct (wfinish_ok cfg _ s H2) as [(_ & [(o & E & Hl & Hfl)|(e & o & E & _ & Hb & _)])|(Hx & _)].
  - exists r, s, o. splits; auto.
  - contradiction.
  - contradiction.
Qed.


Lemma C01_number_validation_exact_holds : forall (cfg : wsettings) (s : wsession) (v : str), Forall is_char v ->
  (fst (wstep cfg (CNumberFromString v) s) = RInvalidNumber <-> ~ number_text (encode_utf8 v)).
Proof.
  intros cfg s v Hv. rewrite <- is_valid_json_number_spec. cbn [wstep]. unfold number_call, number_value_from_string.
  destruct (is_valid_json_number v).
  - split; [|intros H; contradiction H; reflexivity].
    unfold wbind. destruct (before_value cfg (ws_writer s)) as [[u|e|k|] st]; try (intros Hx; discriminate Hx).
    destruct (write_bytes (encode_utf8 v) st) as [[u2|e2|k2|] st2]; intros Hx; discriminate Hx.
  - cbn. split; [intros _ Hx; discriminate Hx|reflexivity].
Qed.

Lemma C01_number_written_verbatim_holds : forall (cfg : wsettings) (out : sink) (v : str), Forall is_char v -> received out = [] -> reliable out ->
  number_text (encode_utf8 v) ->
  exists s out', wrun cfg [CNumberFromString v] (new_session out) = ([RDone], s) /\
    wfinish s = (RDone, out') /\ received out' = encode_utf8 v.
Proof.
  intros cfg out v Hv Ho Hg Hn.
  destruct (fresh_value_run cfg out (CNumberFromString v) (add_value (JNum (encode_utf8 v)) empty_doc) Ho Hg Hv) as (r & s & out' & H1 & H2 & H3 & H4).
  - apply D_number_str; [|exact Hn]. split; [reflexivity|]. cbn. auto.
  - repeat split. discriminate.
  - destruct H2 as [[_ ->]|[Hno _]]; [|contradiction]. exists s, out'. splits; auto.
Qed.

Lemma C02_invalid_number_no_effect_holds : forall (cfg : wsettings) (s : wsession) (v : str), ~ number_text (encode_utf8 v) ->
  wstep cfg (CNumberFromString v) s = (RInvalidNumber, Wsession (ws_writer s) None).
Proof.
  intros cfg s v Hn. rewrite <- is_valid_json_number_spec in Hn. cbn [wstep]. unfold number_call, number_value_from_string.
  destruct (is_valid_json_number v); [exfalso; apply Hn; reflexivity|reflexivity].
Qed.

Lemma C02_invalid_number_skippable_holds : forall (cfg : wsettings) (s : wsession) (v : str) (cs : list wcall),
  ~ number_text (encode_utf8 v) -> ws_string s = None ->
  wrun cfg (CNumberFromString v :: cs) s = (RInvalidNumber :: fst (wrun cfg cs s), snd (wrun cfg cs s)).
Proof.
  intros cfg s v cs Hn Hs. cbn [wrun]. rewrite C02_invalid_number_no_effect_holds by exact Hn.
  replace (Wsession (ws_writer s) None) with s by (destruct s; cbn in *; subst; reflexivity).
  destruct (wrun cfg cs s); reflexivity.
Qed.

Lemma sticky_step cfg s c sv e0 : ws_string s = Some sv -> sv_error sv = Some e0 -> string_piece c ->
  exists e, wstep cfg c s = (RError e, s).
Proof.
  intros Hs He Hc. destruct s as [w st]. cbn in Hs. subst st. exists (WPrevious e0).
  assert (Ht : forall (A : Type) (m : SV A), run_with_error_tracking m sv w = (Err (WPrevious e0), sv, w)).
  { intros A m. unfold run_with_error_tracking, sv_bind, check_previous_error. rewrite He. reflexivity. }
  destruct c; try contradiction; cbn [wstep]; unfold string_call, sv_write, sv_write_str, sv_flush; cbn [ws_string ws_writer]; rewrite Ht; reflexivity.
Qed.

Lemma error_sets cfg s c e : string_piece c -> fst (wstep cfg c s) = RError e ->
  exists sv e0, ws_string (snd (wstep cfg c s)) = Some sv /\ sv_error sv = Some e0.
Proof.
  intros Hc H.
  assert (Ht : forall (A : Type) (f : A -> wresult) (m : SV A) , (forall a, f a <> RError e) ->
    fst (string_call f (run_with_error_tracking m) s) = RError e ->
    exists sv e0, ws_string (snd (string_call f (run_with_error_tracking m) s)) = Some sv /\ sv_error sv = Some e0).
  { intros A f m Hf. unfold string_call. destruct (ws_string s) as [sv|]; [|cbn; discriminate].
    unfold run_with_error_tracking, sv_bind, check_previous_error. destruct (sv_error sv) as [e1|] eqn:E1.
    - cbn. intros _. exists sv, e1. auto.
    - destruct (m sv (ws_writer s)) as [[r sv'] st']. destruct r as [a|e2|k|]; intros Hx; try discriminate Hx.
      + exfalso. exact (Hf a Hx).
      + eexists. eexists. split; reflexivity. }
  destruct c; try contradiction; cbn [wstep] in *; eapply Ht; eauto; discriminate.
Qed.

Lemma sticky_run cfg cs : forall s sv e0, ws_string s = Some sv -> sv_error sv = Some e0 -> Forall string_piece cs ->
  Forall (fun r => exists e, r = RError e) (fst (wrun cfg cs s)) /\ length (fst (wrun cfg cs s)) = length cs /\ snd (wrun cfg cs s) = s.
Proof.
  induction cs as [|c cs IH]; intros s sv e0 Hs He Hc; [cbn; auto|].
  apply Forall_cons_iff in Hc as [Hc Hcs]. destruct (sticky_step cfg s c sv e0 Hs He Hc) as [e E].
  cbn [wrun]. rewrite E. destruct (IH s sv e0 Hs He Hcs) as (H1 & H2 & H3).
  destruct (wrun cfg cs s). cbn in *. subst. splits; eauto.
Qed.


Lemma C08_string_writer_errors_sticky_holds : forall (cfg : wsettings) (s s1 : wsession) (c : wcall) (e : werr) (cs : list wcall),
  string_piece c -> wstep cfg c s = (RError e, s1) -> Forall string_piece cs ->
  exists rs, wrun cfg cs s1 = (rs, s1) /\ length rs = length cs /\ Forall (fun r => exists e', r = RError e') rs /\
  exists e', wstep cfg CFinishValue s1 = (RError e', Wsession (ws_writer s1) None).
Proof.
  intros cfg s s1 c e cs Hc E Hcs. destruct (error_sets cfg s c e Hc) as (sv & e0 & H1 & H2); [rewrite E; reflexivity|].
  rewrite E in H1. cbn [snd] in H1. destruct (sticky_run cfg cs s1 sv e0 H1 H2 Hcs) as (H3 & H4 & H5).
  exists (fst (wrun cfg cs s1)). splits; auto; [destruct (wrun cfg cs s1); cbn in *; subst; reflexivity|].
  exists (WPrevious e0). cbn [wstep]. unfold string_call. rewrite H1. unfold sv_finish_value, sv_bind, check_previous_error. rewrite H2. reflexivity.
Qed.

Lemma active_finish s : w_string_active (ws_writer s) = true -> fst (wfinish s) = RPanic Misuse.
Proof. intros H. rewrite wfinish_cases, H. reflexivity. Qed.

Lemma safe_reach cfg out cs : Forall valid_call cs -> Forall (fun r => r <> RPanic Misuse) (fst (wrun cfg cs (new_session out))) ->
  safe_session cfg (snd (wrun cfg cs (new_session out))).
Proof.
  intros Hv Hp. destruct (safe_run cfg cs _ Hv (new_session_safe cfg out)) as [_ [H|H]]; [|exact H].
  exfalso. rewrite Forall_forall in Hp. apply (Hp _ H). reflexivity.
Qed.

Lemma tracked_core cfg c s e : string_piece c -> fst (wstep cfg c s) = RError e -> valid_call c ->
  safe_session cfg s -> w_string_active (ws_writer (snd (wstep cfg c s))) = true.
Proof.
  intros Hc H Hv Hs. destruct (error_sets cfg s c e Hc H) as (sv & e0 & H1 & H2).
  destruct (safe_step cfg c s Hv Hs) as [_ [Hx|Hx]]; [rewrite Hx in H; discriminate|].
  destruct Hx as [_ Hx]. rewrite H1 in Hx. apply Hx.
Qed.


Lemma C08_failed_string_not_finished_holds : forall (cfg : wsettings) (out : sink) (cs : list wcall) (c : wcall) (e : werr) (s1 : wsession),
  Forall valid_call cs -> valid_call c -> string_piece c ->
  Forall (fun r => forall k, r <> RPanic k) (fst (wrun cfg cs (new_session out))) ->
  wstep cfg c (snd (wrun cfg cs (new_session out))) = (RError e, s1) ->
  fst (wfinish s1) = RPanic Misuse /\ fst (wfinish (snd (wstep cfg CFinishValue s1))) = RPanic Misuse.
Proof.
  intros cfg out cs c e s1 Hv Hc Hp Hn E.
  assert (Hsafe : safe_session cfg (snd (wrun cfg cs (new_session out)))).
  { apply safe_reach; [exact Hv|]. eapply Forall_impl; [|exact Hn]. auto. }
  pose proof (tracked_core cfg c _ e Hp ltac:(rewrite E; reflexivity) Hc Hsafe) as Ha. rewrite E in Ha. cbn [snd] in Ha.
  split; [apply active_finish, Ha|].
  destruct (C08_string_writer_errors_sticky_holds cfg _ s1 c e [] Hp E (Forall_nil _)) as (rs & _ & _ & _ & e' & E').
  rewrite E'. apply active_finish. exact Ha.
Qed.

Lemma C09_written_string_denotes_string_holds : forall (cfg : wsettings) (out : sink) (v : str), Forall is_char v -> received out = [] -> reliable out ->
  exists s out', wrun cfg [CString v] (new_session out) = ([RDone], s) /\ wfinish s = (RDone, out') /\
    value_text rfc8259 (JStr v) (received out').
Proof.
  intros cfg out v Hv Ho Hg.
  destruct (fresh_value_run cfg out (CString v) (add_value (JStr v) empty_doc) Ho Hg Hv) as (r & s & out' & H1 & H2 & H3 & H4).
  - apply D_string. split; [reflexivity|]. cbn. auto.
  - repeat split. discriminate.
  - cbn in H2. subst r. exists s, out'. splits; auto. rewrite H4. apply (layout_value rfc8259 cfg (JStr v) Hv 0%nat).
Qed.

Lemma char_text_verbatim cfg c : must_escape cfg c = false -> char_text cfg c = encode_char c.
Proof. intros H. unfold char_text. rewrite H. reflexivity. Qed.


Lemma C10_escape_settings_respected_holds : forall (cfg : wsettings) (out : sink) (v : str), Forall is_char v -> received out = [] -> reliable out ->
  exists s out' pieces, wrun cfg [CString v] (new_session out) = ([RDone], s) /\ wfinish s = (RDone, out') /\
    received out' = [0x22] ++ concat pieces ++ [0x22] /\
    Forall2 (fun (c : char) (piece : bytes) =>
      let needs_escape := c = 0x22 \/ c = 0x5C \/ c < 0x20 \/
          (escape_all_non_ascii cfg = true /\ 0x80 <= c) \/
          (escape_all_control_chars cfg = true /\ (c = 0x7F \/ 0x80 <= c < 0xA0)) in
      (~ needs_escape -> piece = encode_char c) /\
      (needs_escape -> exists b rest, piece = 0x5C :: b :: rest /\ Forall (fun x => 0x20 < x < 0x7F) piece /\
         (rest = [] \/ b = 0x75))) v pieces.
Proof.
  intros cfg out v Hv Ho Hg.
  destruct (fresh_value_run cfg out (CString v) (add_value (JStr v) empty_doc) Ho Hg Hv) as (r & s & out' & H1 & H2 & H3 & H4).
  - apply D_string. split; [reflexivity|]. cbn. auto.
  - repeat split. discriminate.
  - cbn in H2. subst r. exists s, out', (map (char_text cfg) v). splits; auto.
    + rewrite H4. cbn [d_top add_value empty_doc documents_layout app layout d_open]. unfold string_text, string_content. rewrite flat_map_concat_map. reflexivity.
    + clear - Hv. induction Hv as [|c v Hc Hv IH]; [constructor|]. cbn [map]. constructor; [|exact IH].
      cbv zeta. split.
      * intros Hn. apply char_text_verbatim. unfold must_escape, is_control.
        destruct (escape_all_non_ascii cfg), (escape_all_control_chars cfg); cbn [andb]; lia.
      * intros Hn. assert (E : must_escape cfg c = true).
        { unfold must_escape, is_control. destruct (escape_all_non_ascii cfg), (escape_all_control_chars cfg); cbn [andb]; lia. }
        unfold char_text. rewrite E.
        assert (Hu : forall w, w < 0x10000 -> exists b rest, u_escape w = 0x5C :: b :: rest /\ Forall (fun x => 0x20 < x < 0x7F) (u_escape w) /\ b = 0x75).
        { intros w Hw. destruct (u_escape_tail w Hw) as (hs & -> & Hh). do 2 eexists. splits; [reflexivity| |reflexivity].
          repeat (constructor; [lia|]). eapply Forall_impl; [|exact Hh]. cbn. intros; lia. }
        unfold escape_seq.
        repeat match goal with |- context[?a =? ?b] => destruct (a =? b); [do 2 eexists; splits; [reflexivity|repeat constructor|left; reflexivity]|] end.
        unfold is_char in Hc. destruct (N.ltb_spec c 0x10000).
        -- destruct (Hu c) as (b & rest & E1 & F1 & E2); [assumption|]. rewrite E1 in *. do 2 eexists. splits; [reflexivity|assumption|auto].
        -- destruct (Hu (0xD800 + (c - 0x10000) / 0x400)) as (b & rest & E1 & F1 & E2); [lia|].
           destruct (Hu (0xDC00 + (c - 0x10000) mod 0x400)) as (b' & rest' & E1' & F1' & E2'); [lia|].
           rewrite E1 in *. cbn [app]. do 2 eexists. splits; [reflexivity| |auto].
           change (0x5C :: b :: rest ++ u_escape (0xDC00 + (c - 0x10000) mod 0x400)) with ((0x5C :: b :: rest) ++ u_escape (0xDC00 + (c - 0x10000) mod 0x400)).
           apply Forall_app. auto.
Qed.

Lemma described_run_finish cfg out cs d : received out = [] -> reliable out -> Forall valid_call cs ->
  describes_all (multi_top_level cfg) empty_doc cs d -> complete d ->
  exists rs s out', wrun cfg cs (new_session out) = (rs, s) /\ Forall2 success cs rs /\ wfinish s = (RDone, out') /\
    received out' = documents_layout cfg (d_top d) /\ flushes out' > 0.
Proof.
  intros Ho Hg Hv Hd Hc.
  destruct (run_described cfg cs _ _ d (new_session_ok cfg out Ho) Hv Hd (complete_possible d Hc) (reliable_good out Hg)) as (H1 & H2 & H3).
  destruct (wrun cfg cs (new_session out)) as [rs s]. cbn [fst snd] in *.
  destruct (wfinish_ok cfg _ s H2) as [(_ & [(o & E & Hl & Hfl)|(e & o & E & _ & Hb & _)])|(Hx & _)].
  - exists rs, s, o. splits; auto.
  - contradiction.
  - contradiction.
Qed.

Lemma replace_string multi cs1 ws cs2 s d0 d : value_allowed multi d0 -> Forall string_piece ws -> write_str_between_chars ws ->
  from_utf8 (written ws) = Some s -> describes_all multi empty_doc cs1 d0 ->
  describes_all multi empty_doc (cs1 ++ [CString s] ++ cs2) d ->
  describes_all multi empty_doc (cs1 ++ (CStringWriter :: ws ++ [CFinishValue]) ++ cs2) d.
Proof.
  intros Hv Hp Hb Hw H1 H2. apply describes_all_split in H2 as (d1 & Ha & Hc). apply describes_all_split in Hc as (d2 & Hc & He).
  assert (d1 = d0) as -> by (eapply describes_all_det; eauto).
  inversion Hc as [|? ? d3 ? ? Hs Hnil]; subst. inversion Hnil; subst. inversion Hs; subst.
  eapply describes_all_app; [exact Ha|]. eapply describes_all_app; [|exact He]. apply string_writer_described; assumption.
Qed.


Lemma C11_string_writer_chunks_holds : forall (cfg : wsettings) (out1 out2 : sink) (cs1 cs2 ws : list wcall) (v : str) (d : wdoc),
  received out1 = [] -> reliable out1 -> received out2 = [] -> reliable out2 ->
  Forall valid_call cs1 -> Forall valid_call cs2 -> Forall valid_call ws ->
  Forall string_piece ws -> write_str_between_chars ws -> written ws = encode_utf8 v -> Forall is_char v ->
  describes_all (multi_top_level cfg) empty_doc (cs1 ++ [CString v] ++ cs2) d -> complete d ->
  exists rs1 rs2 s1 s2 out1' out2',
    wrun cfg (cs1 ++ [CString v] ++ cs2) (new_session out1) = (rs1, s1) /\
    wrun cfg (cs1 ++ (CStringWriter :: ws ++ [CFinishValue]) ++ cs2) (new_session out2) = (rs2, s2) /\
    Forall2 success (cs1 ++ [CString v] ++ cs2) rs1 /\
    Forall2 success (cs1 ++ (CStringWriter :: ws ++ [CFinishValue]) ++ cs2) rs2 /\
    wfinish s1 = (RDone, out1') /\ wfinish s2 = (RDone, out2') /\ received out1' = received out2'.
Proof.
  intros cfg out1 out2 cs1 cs2 ws v d Ho1 Hg1 Ho2 Hg2 Hv1 Hv2 Hvw Hp Hb Hw Hv Hd Hc.
  assert (Hd2 : describes_all (multi_top_level cfg) empty_doc (cs1 ++ (CStringWriter :: ws ++ [CFinishValue]) ++ cs2) d).
  { pose proof Hd as Hx. apply describes_all_split in Hx as (d0 & Ha & Hx). inversion Hx as [|? ? d3 ? ? Hs _]; subst. inversion Hs; subst.
    eapply replace_string; eauto. rewrite Hw. apply from_utf8_encode, Hv. }
  assert (Hva : Forall valid_call (cs1 ++ [CString v] ++ cs2)).
  { apply Forall_app. split; [exact Hv1|]. constructor; [exact Hv|exact Hv2]. }
  assert (Hvb : Forall valid_call (cs1 ++ (CStringWriter :: ws ++ [CFinishValue]) ++ cs2)).
  { apply Forall_app. split; [exact Hv1|]. cbn [app]. constructor; [exact I|]. rewrite <- app_assoc. apply Forall_app. split; [exact Hvw|].
    constructor; [exact I|exact Hv2]. }
  destruct (described_run_finish cfg out1 _ d Ho1 Hg1 Hva Hd Hc) as (rs1 & s1 & o1 & R1 & S1 & F1 & E1 & _).
  destruct (described_run_finish cfg out2 _ d Ho2 Hg2 Hvb Hd2 Hc) as (rs2 & s2 & o2 & R2 & S2 & F2 & E2 & _).
  exists rs1, rs2, s1, s2, o1, o2. splits; auto. congruence.
Qed.

Lemma C11_invalid_utf8_never_finished_holds : forall (cfg : wsettings) (out : sink) (ws : list wcall) (rs : list wresult) (s : wsession),
  received out = [] -> Forall valid_call ws -> Forall string_piece ws -> from_utf8 (written ws) = None ->
  wrun cfg (CStringWriter :: ws ++ [CFinishValue]) (new_session out) = (rs, s) ->
  ~ Forall2 success (CStringWriter :: ws ++ [CFinishValue]) rs.
Proof.
  intros cfg out ws rs s Ho Hv Hp Hu Hr Hs.
  destruct (run_sound_strings cfg (CStringWriter :: ws ++ [CFinishValue]) empty_doc (new_session out) rs s (new_session_ok cfg out Ho)) as (d & Hd & _); auto.
  - constructor; [exact I|]. apply Forall_app. split; [exact Hv|]. repeat constructor.
  - constructor; [exact I|]. apply Forall_app. split; [|repeat constructor]. eapply Forall_impl; [|exact Hp]. intros [| | | | | | | | |[]| | | | | |]; cbn; tauto.
  - destruct (string_writer_utf8 _ _ _ _ Hp Hd) as (s0 & E & _). congruence.
Qed.

Lemma value_is_document v t : value_text rfc8259 v t -> rfc8259_document v t.
Proof.
  intros H. exists [], t, []. rewrite app_nil_r. splits; auto; [constructor|left; constructor].
Qed.

Lemma layout_all cfg vs : Forall wf_json vs -> Forall2 (value_text rfc8259) vs (map (layout cfg 0) vs).
Proof. induction 1; cbn; constructor; auto. apply layout_value. assumption. Qed.


Lemma C12_finished_document_valid_holds : forall (cfg : wsettings) (out out' : sink) (cs : list wcall) (rs : list wresult) (s : wsession),
  received out = [] -> Forall valid_call cs ->
  wrun cfg cs (new_session out) = (rs, s) -> Forall2 success cs rs -> wfinish s = (RDone, out') ->
  exists d, describes_all (multi_top_level cfg) empty_doc cs d /\ complete d /\
    (exists texts, received out' = join (separator cfg) texts /\ Forall2 (value_text rfc8259) (d_top d) texts) /\
    (multi_top_level cfg = false -> exists v, d_top d = [v] /\ rfc8259_document v (received out')) /\
    flushes out' > 0.
Proof.
  intros cfg out out' cs rs s Ho Hv Hr Hs Hf.
  destruct (finished_run cfg out cs rs s out' Ho Hv Hr Hs Hf) as (d & Hd & Hc & Hwf & Hl & Hfl).
  exists d. splits; auto.
  - exists (map (layout cfg 0) (d_top d)). rewrite Hl. split; [apply documents_join|apply layout_all, Hwf].
  - intros Hm. destruct (single_all _ _ _ Hd Hm Hc) as [v Ev]. exists v. split; [exact Ev|].
    rewrite Hl, Ev. apply value_is_document. cbn [documents_layout]. apply layout_value. rewrite Ev in Hwf. apply (Forall_inv Hwf).
Qed.

Lemma C12_described_data_unique_holds : forall (multi : bool) (cs : list wcall) (d1 d2 : wdoc),
  describes_all multi empty_doc cs d1 -> describes_all multi empty_doc cs d2 -> d1 = d2.
Proof.
  intros multi cs d1 d2. apply describes_all_det.
Qed.

Lemma C13_panics_exactly_for_misuse_holds : forall (cfg : wsettings) (out : sink) (cs : list wcall) (rs : list wresult) (s : wsession) (d : wdoc) (c : wcall),
  received out = [] -> Forall valid_call cs -> valid_call c ->
  wrun cfg cs (new_session out) = (rs, s) -> Forall2 success cs rs ->
  describes_all (multi_top_level cfg) empty_doc cs d ->
  (fst (wstep cfg c s) = RPanic Misuse <-> misuse (multi_top_level cfg) d c) /\
  fst (wstep cfg c s) <> RPanic Bug /\
  (fst (wfinish s) = RPanic Misuse <-> ~ complete d).
Proof.
  intros cfg out cs rs s d c Ho Hv Hc Hr Hs Hd.
  assert (Hok : sess_ok cfg d s).
  { clear c Hc. pose proof (new_session_ok cfg out Ho) as Hok. revert Hok Hr Hd. generalize (new_session out) empty_doc. clear Ho.
    revert rs Hs. induction cs as [|c cs IH]; intros rs Hs s0 d0 Hok Hr Hd.
    - cbn in Hr. injection Hr as <- <-. inversion Hd; subst. exact Hok.
    - apply Forall_cons_iff in Hv as [Hc Hv]. inversion Hd as [|? ? d1 ? ? Hd1 Hd2]; subst.
      inversion Hs as [|? r ? rs0 Hs1 Hss]; subst. cbn [wrun] in Hr. destruct (wstep cfg c s0) as [r1 s1] eqn:E1.
      assert (Hr1 : r1 = r /\ wrun cfg cs s1 = (rs0, s)).
      { destruct (wrun cfg cs s1). destruct r1; injection Hr as E E2; try (injection E2 as E2; subst; auto); subst; auto;
          exfalso; eapply success_not_panic, Hs1. }
      destruct Hr1 as [-> Hrun].
      destruct (step_outcome cfg d0 s0 c Hok Hc) as [(d2 & Hd' & Hcall)|[(_ & E)|[(_ & e & He & _)|[(_ & _ & E)|(Hne & E & Hm)]]]].
      + rewrite E1 in Hcall. destruct Hcall as [(_ & Hok1 & _)|(e & He & _)]; [|cbn in He; subst; exfalso; eapply success_not_error, Hs1].
        assert (d1 = d2) as -> by (eapply describes_det; eauto). eapply IH; eauto.
      + rewrite E1 in E. injection E as -> _. exfalso; eapply success_not_panic, Hs1.
      + rewrite E1 in He. cbn in He. subst. exfalso; eapply success_not_error, Hs1.
      + rewrite E1 in E. injection E as -> _. exfalso; eapply success_not_inexpressible, Hs1.
      + exfalso. destruct Hd1; try contradiction; try congruence; apply Hne; apply H. }
  destruct (step_outcome cfg d s c Hok Hc) as [(d2 & Hd' & Hcall)|[(Hm & E)|[(Hm & e & He & _)|[(Hj & _ & E)|(Hne & E & Hm)]]]].
  - destruct Hcall as [(Hsc & _)|(e & He & _)].
    + splits; [split|  |].
      * intros E. rewrite E in Hsc. exfalso; eapply success_not_panic, Hsc.
      * intros Hm. exfalso. eapply describes_not_misuse; eauto.
      * intros E. rewrite E in Hsc. eapply success_not_panic, Hsc.
      * destruct (wfinish_ok cfg d s Hok) as [(Hc' & [(o & E & _)|(e & o & E & _)])|(Hc' & E)]; rewrite E; cbn; split; auto; try discriminate; contradiction.
    + rewrite He. splits; [split; [discriminate|]|discriminate|].
      * intros Hm. exfalso. eapply describes_not_misuse; eauto.
      * destruct (wfinish_ok cfg d s Hok) as [(Hc' & [(o & E & _)|(e' & o & E & _)])|(Hc' & E)]; rewrite E; cbn; split; auto; try discriminate; contradiction.
  - rewrite E. cbn. splits; [tauto|discriminate|].
    destruct (wfinish_ok cfg d s Hok) as [(Hc' & [(o & E' & _)|(e' & o & E' & _)])|(Hc' & E')]; rewrite E'; cbn; split; auto; try discriminate; contradiction.
  - rewrite He. splits; [split; [discriminate|]|discriminate|].
    + intros Hm2. exfalso. destruct Hm as (acc & _ & Hm). destruct c; contradiction.
    + destruct (wfinish_ok cfg d s Hok) as [(Hc' & [(o & E & _)|(e' & o & E & _)])|(Hc' & E)]; rewrite E; cbn; split; auto; try discriminate; contradiction.
  - rewrite E. splits; [split; [discriminate|]|discriminate|].
    + intros Hm2. exfalso. apply Hj. destruct c; cbn in *; auto.
    + destruct (wfinish_ok cfg d s Hok) as [(Hc' & [(o & E' & _)|(e' & o & E' & _)])|(Hc' & E')]; rewrite E'; cbn; split; auto; try discriminate; contradiction.
  - rewrite E. splits; [split; [discriminate|]|discriminate|].
    + intros Hm2. exfalso. destruct c as [| | | | | | | | |[]| | | | | |]; try contradiction. destruct Hm2. contradiction.
    + destruct (wfinish_ok cfg d s Hok) as [(Hc' & [(o & E' & _)|(e' & o & E' & _)])|(Hc' & E')]; rewrite E'; cbn; split; auto; try discriminate; contradiction.
Qed.

Lemma C13_correct_usage_succeeds_holds : forall (cfg : wsettings) (out : sink) (cs : list wcall) (d : wdoc),
  received out = [] -> reliable out -> Forall valid_call cs ->
  describes_all (multi_top_level cfg) empty_doc cs d -> complete d ->
  exists rs s out', wrun cfg cs (new_session out) = (rs, s) /\ Forall2 success cs rs /\ wfinish s = (RDone, out').
Proof.
  intros cfg out cs d Ho Hg Hv Hd Hc.
  destruct (described_run_finish cfg out cs d Ho Hg Hv Hd Hc) as (rs & s & o & H1 & H2 & H3 & _). eauto 8.
Qed.

Lemma C13_success_is_described_holds : forall (cfg : wsettings) (out : sink) (cs : list wcall) (rs : list wresult) (s : wsession),
  received out = [] -> Forall valid_call cs ->
  wrun cfg cs (new_session out) = (rs, s) -> Forall2 success cs rs ->
  (exists d, describes_all (multi_top_level cfg) empty_doc cs d) \/
  (fst (wfinish s) = RPanic Misuse /\
   forall c, valid_call c -> In (fst (wstep cfg c s)) [RPanic Misuse; RInvalidNumber; RInexpressible]).
Proof.
  intros cfg out cs rs s Ho Hv Hr Hs. destruct (all_success_sess cfg out cs rs s Ho Hv Hr Hs) as [Ha|(d & Hd & _)]; [right|eauto].
  split; [rewrite (wfinish_abandoned s Ha); reflexivity|]. intros c Hc.
  apply abandoned_results; assumption.
Qed.

Lemma C13_no_internal_panic_holds : forall (cfg : wsettings) (out : sink) (cs : list wcall), Forall valid_call cs ->
  Forall (fun r => r <> RPanic Bug /\ r <> RNoFuel) (fst (wrun cfg cs (new_session out))) /\
  fst (wfinish (snd (wrun cfg cs (new_session out)))) <> RPanic Bug /\
  fst (wfinish (snd (wrun cfg cs (new_session out)))) <> RNoFuel.
Proof.
  intros cfg out cs Hv. destruct (safe_run cfg cs (new_session out) Hv (new_session_safe cfg out)) as [H _].
  split; [exact H|]. apply finish_no_bug.
Qed.

Lemma C14_sink_independent_holds : forall (cfg : wsettings) (out1 out2 : sink) (cs : list wcall),
  received out1 = [] -> reliable out1 -> received out2 = [] -> reliable out2 ->
  fst (wrun cfg cs (new_session out1)) = fst (wrun cfg cs (new_session out2)) /\
  (let s1 := snd (wrun cfg cs (new_session out1)) in
   let s2 := snd (wrun cfg cs (new_session out2)) in
   fst (wfinish s1) = fst (wfinish s2) /\
   (fst (wfinish s1) = RDone -> received (snd (wfinish s1)) = received (snd (wfinish s2)))).
Proof.
  intros cfg out1 out2 cs H1 G1 H2 G2.
  destruct (same_run cfg cs (new_session out1) (new_session out2)) as [Ha Hb].
  { split; [|reflexivity]. unfold same, emitted. cbn. rewrite H1, H2. auto. }
  split; [exact Ha|]. cbv zeta. apply same_finish, Hb.
Qed.

Lemma C14_sink_failure_prefix_holds : forall (cfg : wsettings) (out : sink) (cs cs2 : list wcall) (c : wcall) (rs : list wresult) (s s1 : wsession) (e : werr) (d d2 : wdoc),
  received out = [] -> Forall valid_call cs -> valid_call c -> Forall valid_call cs2 ->
  wrun cfg cs (new_session out) = (rs, s) -> Forall2 success cs rs ->
  describes_all (multi_top_level cfg) empty_doc cs d ->
  wstep cfg c s = (RError e, s1) ->
  describes_all (multi_top_level cfg) d (c :: cs2) d2 -> complete d2 ->
  exists rest, received (w_sink (ws_writer s1)) ++ rest = documents_layout cfg (d_top d2).
Proof.
  intros cfg out cs cs2 c rs s s1 e d d2 Ho Hv Hc Hv2 Hr Hs Hd He Hd2 Hcomp.
  destruct (all_success_sess cfg out cs rs s Ho Hv Hr Hs) as [Ha|(d' & Hd' & Hok)].
  { exfalso. inversion Hd2 as [|? ? d1 ? ? Hd1 Hds]; subst.
    pose proof (abandoned_results cfg s c Ha Hc) as Hin.
    rewrite He in Hin. cbn in Hin. intuition discriminate. }
  assert (d' = d) as -> by (eapply describes_all_det; eauto).
  inversion Hd2 as [|? ? d1 ? ? Hd1 Hds]; subst.
  pose proof (describes_all_possible _ _ _ _ Hds (complete_possible d2 Hcomp)) as Hp.
  destruct (string_possible_back _ _ _ _ Hd1 Hp) as [_ Hm].
  pose proof (step_described cfg d s c d1 Hok Hc Hd1 Hm) as Hcall. rewrite He in Hcall.
  destruct Hcall as [(Hsc & _)|(e' & _ & _ & _ & rest & Ht)]; [exfalso; eapply success_not_error, Hsc|]. cbn [snd] in Ht.
  assert (Hdo : doc_ok (multi_top_level cfg) d1) by (eapply doc_ok_step; [exact Hd1|]; eapply describes_all_ok; [exact Hd|apply empty_doc_ok]).
  destruct (text_grows_all cfg cs2 d1 d2 _ Hds Hv2 Hdo Ht) as [r Hr2].
  apply text_of_complete in Hr2; [|exact Hcomp]. exists (rest ++ r). rewrite app_assoc. exact Hr2.
Qed.

Lemma C14_finish_failure_prefix_holds : forall (cfg : wsettings) (out out' : sink) (cs : list wcall) (rs : list wresult) (s : wsession) (e : werr),
  received out = [] -> Forall valid_call cs ->
  wrun cfg cs (new_session out) = (rs, s) -> Forall2 success cs rs -> wfinish s = (RError e, out') ->
  exists d rest, describes_all (multi_top_level cfg) empty_doc cs d /\ complete d /\
    received out' ++ rest = documents_layout cfg (d_top d).
Proof.
  intros cfg out out' cs rs s e Ho Hv Hr Hs Hf. destruct (all_success_sess cfg out cs rs s Ho Hv Hr Hs) as [Ha|(d & Hd & Hok)].
  - exfalso. rewrite (wfinish_abandoned s Ha) in Hf. discriminate.
  - destruct (wfinish_ok cfg d s Hok) as [(Hc & [(o & E & Hl & Hfl)|(e' & o & E & _ & _ & rest & Hrest)])|(_ & E)]; rewrite E in Hf; try discriminate.
    injection Hf as <- <-. exists d, rest. auto.
Qed.

Lemma C14_success_exact_holds : forall (cfg : wsettings) (out out' : sink) (cs : list wcall) (rs : list wresult) (s : wsession),
  received out = [] -> Forall valid_call cs ->
  wrun cfg cs (new_session out) = (rs, s) -> Forall2 success cs rs -> wfinish s = (RDone, out') ->
  exists d, describes_all (multi_top_level cfg) empty_doc cs d /\ complete d /\
    received out' = documents_layout cfg (d_top d).
Proof.
  intros cfg out out' cs rs s Ho Hv Hr Hs Hf.
  destruct (finished_run cfg out cs rs s out' Ho Hv Hr Hs Hf) as (d & Hd & Hc & _ & Hl & _). eauto.
Qed.

Lemma C16_pretty_print_only_whitespace_holds : forall (cfg1 cfg2 : wsettings) (out1 out2 out1' out2' : sink) (cs : list wcall) (rs1 rs2 : list wresult) (s1 s2 : wsession),
  cfg2 = WSettings false (escape_all_control_chars cfg1) (escape_all_non_ascii cfg1) (multi_top_level_value_separator cfg1) ->
  received out1 = [] -> received out2 = [] -> Forall valid_call cs ->
  wrun cfg1 cs (new_session out1) = (rs1, s1) -> Forall2 success cs rs1 -> wfinish s1 = (RDone, out1') ->
  wrun cfg2 cs (new_session out2) = (rs2, s2) -> Forall2 success cs rs2 -> wfinish s2 = (RDone, out2') ->
  exists values texts1 texts2,
    received out1' = join (separator cfg1) texts1 /\ received out2' = join (separator cfg1) texts2 /\
    Forall2 (value_text rfc8259) values texts1 /\ Forall2 (value_text rfc8259) values texts2 /\
    Forall2 (fun t1 t2 => strip_ws t1 = t2 /\ strip_ws t2 = t2) texts1 texts2.
Proof.
  intros cfg1 cfg2 out1 out2 out1' out2' cs rs1 rs2 s1 s2 Ec Ho1 Ho2 Hv Hr1 Hs1 Hf1 Hr2 Hs2 Hf2.
  destruct (finished_run cfg1 out1 cs rs1 s1 out1' Ho1 Hv Hr1 Hs1 Hf1) as (d1 & Hd1 & Hc1 & Hwf1 & Hl1 & _).
  destruct (finished_run cfg2 out2 cs rs2 s2 out2' Ho2 Hv Hr2 Hs2 Hf2) as (d2 & Hd2 & Hc2 & Hwf2 & Hl2 & _).
  change (cfg2 = compact cfg1) in Ec. rewrite Ec in *. clear Ec.
  assert (d2 = d1) as -> by (eapply describes_all_det; [exact Hd2|exact Hd1]).
  exists (d_top d1), (map (layout cfg1 0) (d_top d1)), (map (layout (compact cfg1) 0) (d_top d1)). splits.
  - rewrite Hl1. apply documents_join.
  - rewrite Hl2, documents_join. reflexivity.
  - apply layout_all, Hwf1.
  - apply layout_all, Hwf1.
  - clear - Hwf1. induction Hwf1 as [|v vs Hv Hvs IH]; cbn [map]; constructor; [|exact IH]. split.
    + apply (strips_layout cfg1 v 0%nat Hv).
    + apply (strips_layout (compact cfg1) v 0%nat Hv).
Qed.
