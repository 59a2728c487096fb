(** * Writer: complete runs *)

From Verif Require Import Base Utf8Model Utf8Proofs NumberModel SpecNumber NumberProofs SpecJson
  WriterModel SpecWriter Utf8Prefix WriterProofs WriterDocProofs WriterStringProofs WriterSession.

(** ** After a string value writer has been dropped without being finished *)

Definition abandoned (s : wsession) : Prop :=
  w_string_active (ws_writer s) = true /\ ws_string s = None.

Lemma abandoned_json s (m : W unit) : abandoned s -> m (ws_writer s) = (Panic Misuse, ws_writer s) ->
  json_call m s = (RPanic Misuse, s).
Proof. intros [_ H] E. unfold json_call. rewrite E. destruct s; cbn in *; subst; reflexivity. Qed.

Lemma active_before_value cfg st : w_string_active st = true -> before_value cfg st = (Panic Misuse, st).
Proof. intros H. unfold before_value, wbind, wget. rewrite H. reflexivity. Qed.

Lemma abandoned_step cfg s c : abandoned s -> valid_call c ->
  wstep cfg c s = (RPanic Misuse, s) \/ wstep cfg c s = (RInvalidNumber, s) \/ wstep cfg c s = (RInexpressible, s).
Proof.
  intros Ha Hv. pose proof Ha as [Hact Hs].
  assert (Hbv : forall B (f : unit -> W B), wbind (before_value cfg) f (ws_writer s) = (Panic Misuse, ws_writer s)).
  { intros. apply bind_panics, active_before_value, Hact. }
  assert (Hs' : Wsession (ws_writer s) None = s) by (destruct s; cbn in *; subst; reflexivity).
  destruct c as [| | | |n|v|b| |z|[v|]|v| |bs|v| |]; cbn [wstep].
  - left. apply abandoned_json; auto. apply Hbv.
  - left. apply abandoned_json; auto. unfold end_object, wbind, wget, w_is_in_object.
    destruct (w_stack (ws_writer s)) as [|[]]; cbn; rewrite ?Hact; reflexivity.
  - left. apply abandoned_json; auto. apply Hbv.
  - left. apply abandoned_json; auto. unfold end_array, wbind, wget, w_is_in_array.
    destruct (w_stack (ws_writer s)) as [|[]]; cbn; rewrite ?Hact; reflexivity.
  - left. apply abandoned_json; auto. unfold name, wbind, wget.
    destruct (w_expects_member_name (ws_writer s)); cbn; rewrite ?Hact; reflexivity.
  - left. apply abandoned_json; auto. apply Hbv.
  - left. apply abandoned_json; auto. apply Hbv.
  - left. apply abandoned_json; auto. apply Hbv.
  - left. apply abandoned_json; auto. unfold number_value. destruct (int_to_string_spec z) as (_ & _ & ->). apply Hbv.
  - left. unfold number_call, fp_number_value. destruct Hv as [_ Hv]. apply is_valid_json_number_spec in Hv. rewrite Hv. cbn [negb].
    unfold number_str_value. rewrite bind_panics by apply Hbv. cbn. rewrite Hs'. reflexivity.
  - right; left. cbn. rewrite Hs'. reflexivity.
  - unfold number_call, number_value_from_string. destruct (is_valid_json_number v).
    + left. rewrite Hbv. cbn. rewrite Hs'. reflexivity.
    + right; left. cbn. rewrite Hs'. reflexivity.
  - left. unfold string_value_writer. rewrite Hbv, Hs'. reflexivity.
  - right; right. unfold string_call. rewrite Hs. reflexivity.
  - right; right. unfold string_call. rewrite Hs. reflexivity.
  - right; right. unfold string_call. rewrite Hs. reflexivity.
  - right; right. unfold string_call. rewrite Hs. cbn. rewrite Hs'. reflexivity.
Qed.

Lemma wrun_abandoned cfg cs : forall s rs s', abandoned s -> Forall valid_call cs ->
  wrun cfg cs s = (rs, s') -> s' = s.
Proof.
  induction cs as [|c cs IH]; intros s rs s' Ha Hv H; cbn in H; [congruence|].
  apply Forall_cons_iff in Hv as [Hc Hv].
  destruct (abandoned_step cfg s c Ha Hc) as [E|[E|E]]; rewrite E in H; [congruence| |];
    (destruct (wrun cfg cs s) as [rs2 s2] eqn:E2; injection H as <- <-; eapply IH; eauto).
Qed.

(** ** Successful runs describe a document *)

Lemma success_not_panic c k : ~ success c (RPanic k).
Proof. destruct c as [| | | | | | | | |[]| | | | | |]; cbn; try discriminate. intros [[_ H]|[_ H]]; discriminate. Qed.
Lemma success_not_error c e : ~ success c (RError e).
Proof. destruct c as [| | | | | | | | |[]| | | | | |]; cbn; try discriminate. intros [[_ H]|[_ H]]; discriminate. Qed.
Lemma success_not_inexpressible c : ~ success c RInexpressible.
Proof. destruct c as [| | | | | | | | |[]| | | | | |]; cbn; try discriminate. intros [[_ H]|[_ H]]; discriminate. Qed.

Lemma wrun_cons cfg c cs s : (forall k, fst (wstep cfg c s) <> RPanic k) ->
  wrun cfg (c :: cs) s = (fst (wstep cfg c s) :: fst (wrun cfg cs (snd (wstep cfg c s))),
                          snd (wrun cfg cs (snd (wstep cfg c s)))).
Proof.
  intros H. cbn [wrun]. destruct (wstep cfg c s) as [r s1]. cbn [fst snd] in *.
  destruct (wrun cfg cs s1) as [rs s2]. destruct r; try reflexivity. exfalso. eapply H; reflexivity.
Qed.

Lemma run_sound cfg cs : forall d s rs s', sess_ok cfg d s -> Forall valid_call cs ->
  wrun cfg cs s = (rs, s') -> Forall2 success cs rs ->
  abandoned s' \/ exists d', describes_all (multi_top_level cfg) d cs d' /\ sess_ok cfg d' s'.
Proof.
  induction cs as [|c cs IH]; intros d s rs s' Hok Hv Hrun Hsucc.
  - cbn in Hrun. injection Hrun as <- <-. right. exists d. split; [constructor|exact Hok].
  - apply Forall_cons_iff in Hv as [Hc Hv].
    assert (Hr : rs = fst (wstep cfg c s) :: tl rs /\ success c (fst (wstep cfg c s)) /\ Forall2 success cs (tl rs)).
    { inversion Hsucc as [|? r0 ? rs0 Hs0 Hss]; subst. cbn in Hrun.
      destruct (wstep cfg c s) as [r1 s1]. cbn [fst]. destruct (wrun cfg cs s1) as [rs2 s2].
      destruct r1 as [| | | |k| |]; injection Hrun as E; subst; auto; exfalso; eapply success_not_panic, Hs0. }
    destruct Hr as (Hr & Hs1 & Hss).
    assert (Hnp : forall k, fst (wstep cfg c s) <> RPanic k).
    { intros k E. rewrite E in Hs1. eapply success_not_panic, Hs1. }
    rewrite wrun_cons in Hrun by exact Hnp. injection Hrun as Hrs Hs'.
    assert (Hrun' : wrun cfg cs (snd (wstep cfg c s)) = (tl rs, s')).
    { rewrite <- Hrs. cbn [tl]. rewrite <- Hs'. destruct (wrun cfg cs _); reflexivity. }
    destruct (step_outcome cfg d s c Hok Hc) as [(d' & Hd & [(_ & Hok' & _)|(e & He & _)])|[(_ & E)|[(_ & e & He & _)|[(_ & _ & E)|(Hne & E & _)]]]].
    + destruct (IH d' _ _ _ Hok' Hv Hrun' Hss) as [Ha|(d'' & Hds & Hok'')]; [left; exact Ha|].
      right. exists d''. split; [econstructor; eauto|exact Hok''].
    + exfalso. rewrite He in Hs1. eapply success_not_error, Hs1.
    + exfalso. rewrite E in Hs1. eapply success_not_panic, Hs1.
    + exfalso. rewrite He in Hs1. eapply success_not_error, Hs1.
    + exfalso. rewrite E in Hs1. eapply success_not_inexpressible, Hs1.
    + left. rewrite E in Hrun'. cbn [snd] in Hrun'.
      assert (Ha : abandoned (Wsession (ws_writer s) None)).
      { destruct Hok as (_ & _ & Hok). destruct (d_string d) as [acc|]; [|contradiction].
        destruct Hok as (_ & Hk & _). split; [|reflexivity]. apply (f_equal k_active) in Hk. exact Hk. }
      rewrite (wrun_abandoned _ _ _ _ _ Ha Hv Hrun'). exact Ha.
Qed.

(** ** Finishing *)

Lemma wfinish_abandoned s : abandoned s -> wfinish s = (RPanic Misuse, w_sink (ws_writer s)).
Proof.
  intros [H _]. unfold wfinish, finish_document, wbind, wget. rewrite H. reflexivity.
Qed.

Lemma wfinish_cases s : wfinish s =
  (if w_string_active (ws_writer s) then (RPanic Misuse, w_sink (ws_writer s))
   else if w_expects_member_name (ws_writer s) then (RPanic Misuse, w_sink (ws_writer s))
   else match w_stack (ws_writer s) with
        | [] => if w_is_empty (ws_writer s) then (RPanic Misuse, w_sink (ws_writer s))
                else let (r, st') := flush (ws_writer s) in (wresult_of (fun _ => RDone) r, w_sink st')
        | _ :: _ => (RPanic Misuse, w_sink (ws_writer s))
        end).
Proof.
  unfold wfinish, finish_document, wbind, wget.
  destruct (w_string_active (ws_writer s)), (w_expects_member_name (ws_writer s)), (w_stack (ws_writer s)),
    (w_is_empty (ws_writer s)); reflexivity.
Qed.

Lemma wfinish_ok cfg d s : sess_ok cfg d s ->
  (complete d /\
   ((exists out, wfinish s = (RDone, out) /\ received out = documents_layout cfg (d_top d) /\ flushes out > 0) \/
    (exists e out, wfinish s = (RError e, out) /\ sink_error e /\ ~ sess_good s /\
       exists rest, received out ++ rest = documents_layout cfg (d_top d)))) \/
  (~ complete d /\ wfinish s = (RPanic Misuse, w_sink (ws_writer s))).
Proof.
  intros (_ & _ & Hok). rewrite wfinish_cases. unfold complete.
  destruct (d_string d) as [acc|].
  - right. split; [intros (_ & H & _); discriminate|]. destruct Hok as (_ & Hk & _).
    apply (f_equal k_active) in Hk. cbn in Hk. rewrite Hk. reflexivity.
  - destruct Hok as (_ & Hk & He). unfold core_of, core_for in Hk. injection Hk as H1 H2 H3 H4 H5.
    rewrite H4, H2, H3, H1. destruct (d_open d) as [|f o] eqn:Eo.
    + cbn [map]. destruct (d_top d) as [|v top] eqn:Et; cbn [is_nil].
      * right. split; [intros (_ & _ & H); contradiction|reflexivity].
      * left. split; [splits; auto; discriminate|].
        assert (Hdoc : emitted (ws_writer s) = documents_layout cfg (v :: top)).
        { rewrite He. unfold doc_text. rewrite Eo, Et. reflexivity. }
        rewrite <- Hdoc. unfold emitted.
        unfold flush. destruct (write_all (w_sink (ws_writer s)) (w_buf (ws_writer s))) as [r s1] eqn:Ew.
        apply write_all_spec in Ew as (Hg & Hfr & Hfl & [[-> Hr]|(e & p & q & -> & Hse & Hr & Hpq & Hbad)]).
        -- unfold sink_flush. destruct (flush_resps s1) as [|[e|] l] eqn:Efr.
           ++ left. eexists. cbn. splits; [reflexivity|cbn; exact Hr|cbn; lia].
           ++ right. exists (WSink e). eexists. cbn. splits; [reflexivity|exact I| |exists []; cbn; rewrite app_nil_r; exact Hr].
              intros [_ H]. rewrite <- Hfr in H. apply Forall_inv in H. discriminate.
           ++ left. eexists. cbn. splits; [reflexivity|cbn; exact Hr|cbn; lia].
        -- right. exists e. eexists. cbn. splits; [reflexivity|exact Hse|exact Hbad|]. exists q. cbn. rewrite Hr, <- app_assoc, <- Hpq. reflexivity.
    + right. split; [intros (H & _); discriminate|]. cbn. destruct f as [|ms [n|]]; reflexivity.
Qed.

(** ** The layout is JSON *)

Fixpoint wf_json (v : json) : Prop :=
  match v with
  | JNum t => number_text t
  | JStr s => Forall is_char s
  | JArr items => (fix go l := match l with [] => True | x :: l' => wf_json x /\ go l' end) items
  | JObj ms => (fix go (l : list (str * json)) := match l with [] => True | (n, x) :: l' => (Forall is_char n /\ wf_json x) /\ go l' end) ms
  | _ => True
  end.

Lemma wf_json_arr items : wf_json (JArr items) <-> Forall wf_json items.
Proof.
  cbn. induction items as [|x l IH]; [split; auto|].
  rewrite Forall_cons_iff. rewrite <- IH. reflexivity.
Qed.
Definition wf_member (m : str * json) : Prop := Forall is_char (fst m) /\ wf_json (snd m).
Lemma wf_json_obj ms : wf_json (JObj ms) <-> Forall wf_member ms.
Proof.
  cbn. induction ms as [|[n x] l IH]; [split; auto|].
  rewrite Forall_cons_iff. rewrite <- IH. reflexivity.
Qed.

(** Induction over trees *)
Fixpoint json_tree_ind (P : json -> Prop) (Hnull : P JNull) (Hbool : forall b, P (JBool b))
  (Hnum : forall t, P (JNum t)) (Hstr : forall s, P (JStr s))
  (Harr : forall items, Forall P items -> P (JArr items))
  (Hobj : forall ms, Forall (fun m => P (snd m)) ms -> P (JObj ms)) (v : json) : P v :=
  let rec := json_tree_ind P Hnull Hbool Hnum Hstr Harr Hobj in
  match v with
  | JNull => Hnull
  | JBool b => Hbool b
  | JNum t => Hnum t
  | JStr s => Hstr s
  | JArr items => Harr items ((fix go l : Forall P l :=
      match l with [] => Forall_nil _ | x :: l' => Forall_cons _ (rec x) (go l') end) items)
  | JObj ms => Hobj ms ((fix go l : Forall (fun m => P (snd m)) l :=
      match l with [] => Forall_nil _ | m :: l' => Forall_cons _ (rec (snd m)) (go l') end) ms)
  end.

(** Strings *)
Lemma hex_digit_value n : n < 16 -> hex_value (hex_digit n) n.
Proof.
  intros H. unfold hex_value, hex_digit. destruct (N.ltb_spec n 10); [left|right; right]; lia.
Qed.

Lemma u_escape_hex4 v : v < 0x10000 -> exists hs, u_escape v = [0x5C; 0x75] ++ hs /\ hex4 hs v.
Proof.
  intros H. eexists. split; [reflexivity|]. unfold hex4.
  exists (hex_digit (v / 0x1000)), (hex_digit ((v / 0x100) mod 16)), (hex_digit ((v / 0x10) mod 16)), (hex_digit (v mod 16)),
    (v / 0x1000), ((v / 0x100) mod 16), ((v / 0x10) mod 16), (v mod 16).
  splits; try reflexivity; try (apply hex_digit_value; lia). lia.
Qed.

Lemma escape_seq_text c t s : is_char c -> str_text t s -> str_text (escape_seq c ++ t) (c :: s).
Proof.
  intros Hc Ht. unfold escape_seq.
  repeat match goal with |- context[?a =? ?b] =>
    destruct (N.eqb_spec a b) as [->|]; [apply ST_esc; [constructor|exact Ht]|] end.
  destruct (N.ltb_spec c 0x10000) as [Hlt|Hge].
  - destruct (u_escape_hex4 c Hlt) as (hs & -> & Hh). rewrite <- app_assoc. eapply ST_u; eauto.
  - unfold is_char in Hc. rewrite <- app_assoc.
    assert (Hh : 0xD800 + (c - 0x10000) / 0x400 < 0x10000 /\ 0xD800 <= 0xD800 + (c - 0x10000) / 0x400 <= 0xDBFF) by lia.
    assert (Hl : 0xDC00 + (c - 0x10000) mod 0x400 < 0x10000 /\ 0xDC00 <= 0xDC00 + (c - 0x10000) mod 0x400 <= 0xDFFF) by lia.
    destruct (u_escape_hex4 _ (proj1 Hh)) as (hs1 & -> & Hh1).
    destruct (u_escape_hex4 _ (proj1 Hl)) as (hs2 & -> & Hh2).
    replace (c :: s) with ((0x10000 + (0xD800 + (c - 0x10000) / 0x400 - 0xD800) * 0x400 + (0xDC00 + (c - 0x10000) mod 0x400 - 0xDC00)) :: s) by (f_equal; lia).
    rewrite <- !app_assoc. eapply ST_pair; eauto; [apply Hh|apply Hl].
Qed.

Lemma string_content_text cfg s : Forall is_char s -> str_text (string_content cfg s) s.
Proof.
  induction 1 as [|c s Hc Hs IH]; [constructor|].
  unfold string_content. cbn [flat_map]. fold (string_content cfg s). unfold char_text.
  destruct (must_escape cfg c) eqn:E; [apply escape_seq_text; assumption|].
  apply ST_raw; [|exact IH]. unfold must_escape in E. rewrite !orb_false_iff in E.
  destruct E as [[[[E1 E2] E3] _] _]. apply N.eqb_neq in E1, E2. apply N.ltb_ge in E3.
  unfold unescaped. auto.
Qed.

Lemma string_text_quoted cfg s : Forall is_char s -> quoted (string_text cfg s) s.
Proof. intros H. exists (string_content cfg s). split; [reflexivity|apply string_content_text, H]. Qed.

(** Whitespace *)
Lemma ws_spaces sx n : ws_text sx (concat (repeat [0x20; 0x20] n)).
Proof.
  induction n as [|n IH]; cbn [repeat concat app]; [constructor|].
  constructor; [left; reflexivity|]. constructor; [left; reflexivity|exact IH].
Qed.
Lemma ws_new_line sx n : ws_text sx (new_line n).
Proof. constructor; [right; right; left; reflexivity|apply ws_spaces]. Qed.

Definition elem_ws (cfg : wsettings) (level : nat) : bytes := if pretty_print cfg then new_line level else [].
Lemma ws_elem sx cfg level : ws_text sx (elem_ws cfg level).
Proof. unfold elem_ws. destruct (pretty_print cfg); [apply ws_new_line|constructor]. Qed.
Lemma ws_end sx cfg e level : ws_text sx (before_end cfg e level).
Proof. unfold before_end. destruct (pretty_print cfg && negb e); [apply ws_new_line|constructor]. Qed.

Lemma colon_split cfg : exists w, colon cfg = [] ++ [0x3A] ++ w /\ forall sx, ws_text sx w.
Proof.
  unfold colon. destruct (pretty_print cfg); [exists [0x20]|exists []]; (split; [reflexivity|]); intros; repeat constructor.
Qed.

Lemma layout_value sx cfg v : wf_json v -> forall level, value_text sx v (layout cfg level v).
Proof.
  induction v as [|b|t|s|items IH|ms IH] using json_tree_ind; intros Hwf level.
  - constructor.
  - destruct b; constructor.
  - constructor. exact Hwf.
  - constructor. apply string_text_quoted, Hwf.
  - rewrite layout_arr. constructor. apply wf_json_arr in Hwf.
    assert (Hgo : forall l, (forall x, In x l -> In x items) -> forall first e,
      items_text sx first l (items_body cfg level first l ++ before_end cfg e level ++ [0x5D])).
    { induction l as [|x l IHl]; intros Hin first e.
      - apply IT_end, ws_end.
      - assert (Hx : value_text sx x (layout cfg (S level) x)).
        { rewrite Forall_forall in IH, Hwf. apply IH; [apply Hin; left; reflexivity|]. apply Hwf, Hin. left; reflexivity. }
        cbn [items_body]. unfold before_element. fold (elem_ws cfg (S level)). rewrite <- !app_assoc.
        destruct first; cbn [app].
        + apply IT_first; [apply ws_elem|exact Hx|]. apply IHl. intros y Hy. apply Hin. right; exact Hy.
        + change (0x2C :: ?l) with ([] ++ [0x2C] ++ l).
          apply IT_next; [constructor|apply ws_elem|exact Hx|]. apply IHl. intros y Hy. apply Hin. right; exact Hy. }
    apply Hgo. auto.
  - rewrite layout_obj. constructor. apply wf_json_obj in Hwf.
    destruct (colon_split cfg) as (cw & Ecw & Hcw).
    assert (Hgo : forall l, (forall x, In x l -> In x ms) -> forall first e,
      members_text sx first l (members_body cfg level first l ++ before_end cfg e level ++ [0x7D])).
    { induction l as [|[n x] l IHl]; intros Hin first e.
      - apply MT_end, ws_end.
      - assert (Hx : Forall is_char n /\ value_text sx x (layout cfg (S level) x)).
        { rewrite Forall_forall in IH, Hwf. specialize (Hwf (n, x) ltac:(apply Hin; left; reflexivity)) as [H1 H2].
          split; [exact H1|]. apply (IH (n, x)); [apply Hin; left; reflexivity|exact H2]. }
        destruct Hx as [Hn Hx].
        cbn [members_body]. unfold before_element. fold (elem_ws cfg (S level)). rewrite Ecw, <- !app_assoc.
        destruct first.
        + cbn [app]. change (0x3A :: ?l) with ([] ++ [0x3A] ++ l).
          apply MT_first; auto; try constructor; [apply ws_elem|apply string_text_quoted, Hn|].
          apply IHl. intros y Hy. apply Hin. right; exact Hy.
        + change ([0x2C] ++ ?l) with ([] ++ [0x2C] ++ l).
          apply MT_next; auto; try constructor; [apply ws_elem|apply string_text_quoted, Hn|].
          apply IHl. intros y Hy. apply Hin. right; exact Hy. }
    apply Hgo. auto.
Qed.

(** ** Described documents are well-formed *)

Definition wf_open (f : open_container) : Prop :=
  match f with
  | OpenArr items => Forall wf_json items
  | OpenObj ms p => Forall wf_member ms /\ match p with Some n => Forall is_char n | None => True end
  end.
Definition wf_wdoc (d : wdoc) : Prop := Forall wf_json (d_top d) /\ Forall wf_open (d_open d).

Lemma wf_add v d : wf_json v -> wf_wdoc d -> wf_wdoc (add_value v d).
Proof.
  intros Hv [Ht Ho]. unfold add_value. destruct (d_open d) as [|[items|ms [n|]] o] eqn:E; unfold wf_wdoc; cbn [d_top d_open].
  - split; [apply Forall_app; auto|constructor].
  - apply Forall_cons_iff in Ho as [H1 H2]. split; auto. constructor; auto. cbn in *. apply Forall_app; auto.
  - apply Forall_cons_iff in Ho as [[H1 Hn] H2]. split; auto. constructor; auto. cbn in *. split; auto. apply Forall_app; split; auto.
    constructor; [split; assumption|constructor].
  - rewrite E. auto.
Qed.

Lemma decimal_number z t : decimal_text z t -> number_text t.
Proof.
  intros [[H _]|(ds & -> & H & _)]; apply int_text_number, H.
Qed.

Lemma describes_wf multi d c d' : describes multi d c d' -> valid_call c -> wf_wdoc d -> wf_wdoc d'.
Proof.
  intros H Hv Hd. pose proof Hd as [Ht Ho].
  destruct H; cbn in Hv; auto; try (apply wf_add; auto; cbn; auto; fail).
  - apply wf_add; auto. cbn. eapply decimal_number; eauto.
  - split; cbn; auto. constructor; auto. cbn. auto.
  - split; cbn; auto. constructor; auto. cbn. auto.
  - rewrite H0 in Ho. apply Forall_cons_iff in Ho as [H1 H2]. apply wf_add; [|split; auto].
    apply wf_json_arr. exact H1.
  - rewrite H0 in Ho. apply Forall_cons_iff in Ho as [H1 H2]. apply wf_add; [|split; auto].
    apply wf_json_obj. apply H1.
  - rewrite H0 in Ho. apply Forall_cons_iff in Ho as [[H1 _] H2]. split; cbn; auto. constructor; auto. cbn. auto.
  - apply wf_add; [|split; auto]. cbn. eapply from_utf8_sound; eauto.
Qed.

Lemma describes_all_wf multi cs : forall d d', describes_all multi d cs d' -> Forall valid_call cs -> wf_wdoc d -> wf_wdoc d'.
Proof.
  intros d d' H. induction H as [d|d c d' cs d'' H1 H2 IH]; intros Hv Hd; [exact Hd|].
  apply Forall_cons_iff in Hv as [Hc Hv]. apply IH; auto. eapply describes_wf; eauto.
Qed.

Lemma empty_doc_wf : wf_wdoc empty_doc.
Proof. split; constructor. Qed.
