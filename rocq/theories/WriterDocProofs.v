(** * Writer: the calls build the layout of the described document *)

From Verif Require Import Base Utf8Model Utf8Proofs NumberModel SpecNumber NumberProofs SpecJson
  WriterModel SpecWriter WriterProofs.

(** ** Text of an unfinished document *)

Fixpoint items_body (cfg : wsettings) (level : nat) (first : bool) (l : list json) : bytes :=
  match l with
  | [] => []
  | x :: l' => before_element cfg first (S level) ++ layout cfg (S level) x ++ items_body cfg level false l'
  end.
Fixpoint members_body (cfg : wsettings) (level : nat) (first : bool) (l : list (str * json)) : bytes :=
  match l with
  | [] => []
  | (n, x) :: l' =>
    before_element cfg first (S level) ++ string_text cfg n ++ colon cfg
    ++ layout cfg (S level) x ++ members_body cfg level false l'
  end.

Lemma layout_arr cfg level items : layout cfg level (JArr items) =
  [0x5B] ++ items_body cfg level true items ++ before_end cfg (is_nil items) level ++ [0x5D].
Proof.
  cbn [layout]. f_equal. f_equal. generalize true as first.
  induction items as [|x l IH]; intros first; [reflexivity|]. cbn [items_body]. rewrite <- IH. reflexivity.
Qed.
Lemma layout_obj cfg level members : layout cfg level (JObj members) =
  [0x7B] ++ members_body cfg level true members ++ before_end cfg (is_nil members) level ++ [0x7D].
Proof.
  cbn [layout]. f_equal. f_equal. generalize true as first.
  induction members as [|[n x] l IH]; intros first; [reflexivity|]. cbn [members_body]. rewrite <- IH. reflexivity.
Qed.

Lemma items_body_app cfg level x : forall l first, items_body cfg level first (l ++ [x]) =
  items_body cfg level first l ++ before_element cfg (first && is_nil l) (S level) ++ layout cfg (S level) x.
Proof.
  induction l as [|y l IH]; intros first; cbn [app items_body is_nil].
  - rewrite andb_true_r, app_nil_r. reflexivity.
  - rewrite IH, andb_false_r, !app_assoc. reflexivity.
Qed.
Lemma members_body_app cfg level n x : forall l first, members_body cfg level first (l ++ [(n, x)]) =
  members_body cfg level first l ++ before_element cfg (first && is_nil l) (S level) ++ string_text cfg n
    ++ colon cfg ++ layout cfg (S level) x.
Proof.
  induction l as [|[m y] l IH]; intros first; cbn [app members_body is_nil].
  - rewrite andb_true_r, app_nil_r. reflexivity.
  - rewrite IH, andb_false_r, !app_assoc. reflexivity.
Qed.

Definition frame_open (cfg : wsettings) (level : nat) (f : open_container) : bytes :=
  match f with
  | OpenArr items => [0x5B] ++ items_body cfg level true items
  | OpenObj ms None => [0x7B] ++ members_body cfg level true ms
  | OpenObj ms (Some n) => [0x7B] ++ members_body cfg level true ms
      ++ before_element cfg (is_nil ms) (S level) ++ string_text cfg n ++ colon cfg
  end.

(** What is written before the next value *)
Definition child_sep (cfg : wsettings) (top : list json) (o : list open_container) : bytes :=
  match o with
  | [] => if is_nil top then [] else separator cfg
  | OpenArr items :: o' => before_element cfg (is_nil items) (S (length o'))
  | OpenObj _ _ :: _ => []
  end.

Fixpoint open_text (cfg : wsettings) (top : list json) (o : list open_container) : bytes :=
  match o with
  | [] => documents_layout cfg top
  | f :: o' => (open_text cfg top o' ++ child_sep cfg top o') ++ frame_open cfg (length o') f
  end.

Lemma documents_layout_app cfg v vs : documents_layout cfg (vs ++ [v]) =
  documents_layout cfg vs ++ (if is_nil vs then [] else separator cfg) ++ layout cfg 0 v.
Proof.
  induction vs as [|x vs IH]; [reflexivity|].
  destruct vs as [|y vs]; [reflexivity|].
  cbn [app] in IH |- *. cbn [documents_layout]. cbn [documents_layout] in IH. rewrite IH. cbn [is_nil].
  rewrite <- !app_assoc. reflexivity.
Qed.

(** Outer objects have a pending name *)
Definition pending_frame (f : open_container) : Prop :=
  match f with OpenArr _ => True | OpenObj _ p => p <> None end.
Definition wf_doc (d : wdoc) : Prop := Forall pending_frame (tl (d_open d)).

Lemma add_value_text cfg v top o : Forall pending_frame (firstn 1 o) ->
  let d := add_value v (Wdoc top o None) in
  open_text cfg (d_top d) (d_open d) =
  open_text cfg top o ++ child_sep cfg top o ++ layout cfg (length o) v.
Proof.
  intros Hp. destruct o as [|f o']; [apply documents_layout_app|].
  apply Forall_inv in Hp.
  destruct f as [items|ms [n|]]; cbn [add_value d_open d_top open_text child_sep frame_open length].
  - rewrite items_body_app, <- !app_assoc. reflexivity.
  - rewrite members_body_app, <- !app_assoc. reflexivity.
  - contradiction.
Qed.

(** ** The other fields *)

Definition kind_of (f : open_container) : stack_value :=
  match f with OpenArr _ => SvArray | OpenObj _ _ => SvObject end.

Definition core_for (cfg : wsettings) (d : wdoc) : core :=
  Core
    (match d_open d with
     | [] => is_nil (d_top d)
     | OpenArr items :: _ => is_nil items
     | OpenObj ms _ :: _ => is_nil ms
     end)
    (match d_open d with OpenObj _ None :: _ => true | _ => false end)
    (map kind_of (d_open d))
    false
    (if pretty_print cfg then
       match d_open d with
       | [] => O
       | OpenArr items :: o => if is_nil items then length o else S (length o)
       | OpenObj ms p :: o => match ms, p with [], None => length o | _, _ => S (length o) end
       end
     else O).

Definition with_active (k : core) : core :=
  Core (k_empty k) (k_expects k) (k_stack k) true (k_indent k).

Lemma is_nil_app {A} (l : list A) x : is_nil (l ++ [x]) = false.
Proof. destruct l; reflexivity. Qed.

Lemma core_for_add_any cfg v v' d : core_for cfg (add_value v d) = core_for cfg (add_value v' d).
Proof.
  unfold core_for, add_value. destruct (d_open d) as [|[items|ms [n|]] o]; cbn [d_open d_top map kind_of];
    rewrite ?is_nil_app; try reflexivity.
  destruct (ms ++ [(n, v)]) eqn:E; [apply app_eq_nil in E as [_ E]; discriminate|].
  destruct (ms ++ [(n, v')]) eqn:E'; [apply app_eq_nil in E' as [_ E']; discriminate|].
  reflexivity.
Qed.

(** After a value: indentation is the number of open containers *)
Lemma core_for_add cfg v top o : Forall pending_frame (firstn 1 o) ->
  core_for cfg (add_value v (Wdoc top o None)) =
  Core false (match o with OpenObj _ _ :: _ => true | _ => false end) (map kind_of o) false
    (if pretty_print cfg then length o else O).
Proof.
  intros Hp. unfold core_for, add_value. destruct o as [|[items|ms [n|]] o]; cbn [d_open d_top map kind_of length].
  - rewrite is_nil_app. reflexivity.
  - rewrite is_nil_app. reflexivity.
  - rewrite is_nil_app. destruct (ms ++ [(n, v)]) eqn:E; [apply app_eq_nil in E as [_ E]; discriminate|]. reflexivity.
  - apply Forall_inv in Hp. contradiction.
Qed.

Lemma core_for_open cfg c top o : c = OpenArr [] \/ c = OpenObj [] None ->
  core_for cfg (Wdoc top (c :: o) None) =
  Core true (match c with OpenObj _ _ => true | _ => false end) (kind_of c :: map kind_of o) false
    (if pretty_print cfg then length o else O).
Proof. intros [->| ->]; reflexivity. Qed.

Lemma value_allowed_pending multi top o : value_allowed multi (Wdoc top o None) -> Forall pending_frame (firstn 1 o).
Proof.
  intros [_ H]. destruct o as [|f o]; [constructor|]. constructor; [|constructor].
  destruct f; cbn in *; auto.
Qed.

(** ** Stepping through the model *)

Definition wr {A} (m : W A) (k : core) (t : bytes) (a : A) (k' : core) : Prop :=
  forall st, core_of st = k -> writes m st t a k'.

Lemma wr_ret {A} (a : A) k : wr (wret a) k [] a k.
Proof. intros st <-. apply writes_ret. Qed.
Lemma wr_bytes bs k : wr (write_bytes bs) k bs tt k.
Proof. intros st <-. apply writes_bytes. Qed.
Lemma wr_string cfg s k : Forall is_char s -> wr (write_string_value cfg s) k (string_text cfg s) tt k.
Proof. intros Hs st <-. apply writes_string, Hs. Qed.
Lemma wr_bind {A B} (m : W A) (f : A -> W B) k t1 a k1 t2 b k2 :
  wr m k t1 a k1 -> wr (f a) k1 t2 b k2 -> wr (wbind m f) k (t1 ++ t2) b k2.
Proof. intros Hm Hf st Hk. eapply writes_bind; [apply Hm, Hk|]. intros st1 H1. apply Hf, H1. Qed.
Lemma wr_bind0 {A B} (m : W A) (f : A -> W B) k a k1 t b k2 :
  wr m k [] a k1 -> wr (f a) k1 t b k2 -> wr (wbind m f) k t b k2.
Proof. apply wr_bind. Qed.
Lemma wr_bind_r {A B} (m : W A) (f : A -> W B) k t a k1 b k2 :
  wr m k t a k1 -> wr (f a) k1 [] b k2 -> wr (wbind m f) k t b k2.
Proof. rewrite <- (app_nil_r t) at 2. apply wr_bind. Qed.
Lemma wr_get {A B} (g : wst -> A) (h : core -> A) (f : A -> W B) k t b k2 :
  (forall st, g st = h (core_of st)) -> wr (f (h k)) k t b k2 -> wr (wbind (wget g) f) k t b k2.
Proof.
  intros Hg Hf st Hk. eapply writes_bind0; [apply writes_get|]. intros st1 H1. rewrite Hg, Hk.
  apply Hf. congruence.
Qed.
Lemma wr_modify f h k : 
  (forall st, w_sink (f st) = w_sink st /\ w_buf (f st) = w_buf st /\ core_of (f st) = h (core_of st)) ->
  wr (wmodify f) k [] tt (h k).
Proof.
  intros Hf st <-. apply writes_modify; [|apply Hf]. intros st0. split; apply Hf.
Qed.

Definition k_in_array (k : core) : bool := match k_stack k with SvArray :: _ => true | _ => false end.
Definition k_in_object (k : core) : bool := match k_stack k with SvObject :: _ => true | _ => false end.
Definition k_set_empty b k := Core b (k_expects k) (k_stack k) (k_active k) (k_indent k).
Definition k_set_expects b k := Core (k_empty k) b (k_stack k) (k_active k) (k_indent k).
Definition k_set_stack s k := Core (k_empty k) (k_expects k) s (k_active k) (k_indent k).
Definition k_set_active b k := Core (k_empty k) (k_expects k) (k_stack k) b (k_indent k).

Ltac kred := cbn [k_empty k_expects k_stack k_active k_indent k_in_array k_in_object
  k_set_empty k_set_expects k_set_stack k_set_active map kind_of tl negb andb length].

Ltac get_step h := eapply (wr_get _ h); [intros; reflexivity|]; kred.
Ltac mod_step h := eapply (wr_bind0 (wmodify _) _); [apply (wr_modify _ h); intros; repeat split; reflexivity|]; kred.
Ltac mod_last h := apply (wr_modify _ h); intros; repeat split; reflexivity.

Lemma wr_before_element cfg (e : bool) x s a n : pretty_print cfg = true \/ n = O ->
  let n' := if e then indent_add cfg n else n in
  wr (before_container_element cfg) (Core e x s a n) (before_element cfg e n') tt (Core e x s a n').
Proof.
  intros Hi n' st Hk. unfold core_of in Hk. injection Hk as <- <- <- <- <-. apply writes_before_element, Hi.
Qed.

Lemma wr_before_value cfg d v : value_allowed (multi_top_level cfg) d ->
  wr (before_value cfg) (core_for cfg d) (child_sep cfg (d_top d) (d_open d)) tt (core_for cfg (add_value v d)).
Proof.
  intros Hv. destruct d as [top o string].
  assert (string = None) as -> by apply Hv.
  pose proof (value_allowed_pending _ _ _ Hv) as Hp. rewrite core_for_add by exact Hp.
  destruct Hv as [_ Hv]. unfold core_for. cbn [d_open d_top] in *.
  unfold before_value.
  get_step k_active. get_step k_expects.
  replace (match o with [] => false | OpenArr _ :: _ => false | OpenObj _ (Some _) :: _ => false | OpenObj _ None :: _ => true end)
    with false by (destruct o as [|[|ms []]]; try reflexivity; contradiction).
  get_step (fun k : core => negb (k_empty k) && match k_stack k with [] => true | _ => false end).
  get_step k_in_array.
  assert (Hfinal : forall e, wr (wmodify (set_empty false) ;;! in_object <-! wget w_is_in_object;;
             if in_object then wmodify (set_expects_name true) else wret tt)
      (Core e false (map kind_of o) false (if pretty_print cfg then length o else O)) [] tt
       (Core false (match o with OpenObj _ _ :: _ => true | _ => false end) (map kind_of o) false
          (if pretty_print cfg then length o else O))).
  { intros e. mod_step (k_set_empty false). get_step k_in_object.
    destruct o as [|[items|ms p] o']; kred; try apply wr_ret. mod_last (k_set_expects true). }
  eapply wr_bind_r; [|apply (Hfinal (match o with [] => is_nil top | OpenArr items :: _ => is_nil items | OpenObj ms _ :: _ => is_nil ms end))].
  destruct o as [|[items|ms p] o']; kred; cbn [child_sep].
  - destruct (is_nil top) eqn:Et; kred.
    + apply wr_ret.
    + destruct Hv as [->|Hm]; [discriminate|]. unfold multi_top_level in Hm. unfold separator.
      destruct (multi_top_level_value_separator cfg) as [sep|]; [|discriminate].
      apply wr_bytes.
  - rewrite andb_false_r.
    assert (Hn : before_element cfg (is_nil items) (S (length o')) = before_element cfg (is_nil items) (if pretty_print cfg then S (length o') else O)).
    { unfold before_element. destruct (pretty_print cfg); reflexivity. }
    rewrite Hn. clear Hn.
    assert (Hn : (if pretty_print cfg then S (length o') else O) = if is_nil items
       then indent_add cfg (if pretty_print cfg then if is_nil items then length o' else S (length o') else O)
       else (if pretty_print cfg then if is_nil items then length o' else S (length o') else O)).
    { unfold indent_add. destruct (pretty_print cfg), (is_nil items); reflexivity. }
    rewrite Hn. apply wr_before_element. destruct (pretty_print cfg); auto.
  - rewrite andb_false_r.
    replace (if pretty_print cfg then match ms, p with [], None => _ | _, _ => _ end else O) with (if pretty_print cfg then S (length o') else O)
     by (destruct ms, p; try reflexivity; contradiction).
    apply wr_ret.
Qed.

Lemma core_for_false_expects cfg d : value_allowed (multi_top_level cfg) d -> k_expects (core_for cfg d) = false.
Proof.
  intros [_ H]. unfold core_for. cbn. destruct (d_open d) as [|[|ms []]]; try reflexivity. contradiction.
Qed.

(** [d] after adding a value, in terms of text *)
Definition doc_text (cfg : wsettings) (d : wdoc) : bytes := open_text cfg (d_top d) (d_open d).

Lemma doc_text_add cfg v d : value_allowed (multi_top_level cfg) d ->
  doc_text cfg (add_value v d) =
  doc_text cfg d ++ child_sep cfg (d_top d) (d_open d) ++ layout cfg (length (d_open d)) v.
Proof.
  intros Hv. destruct d as [top o string]. assert (string = None) as -> by apply Hv.
  apply add_value_text. eapply value_allowed_pending, Hv.
Qed.

(** A call of the JSON writer which turns [d] into [d'] *)
Definition doc_step (cfg : wsettings) {A} (m : W A) (a : A) (d d' : wdoc) : Prop :=
  exists t, doc_text cfg d' = doc_text cfg d ++ t /\ wr m (core_for cfg d) t a (core_for cfg d').

Lemma value_step cfg d v m : value_allowed (multi_top_level cfg) d ->
  (forall k, wr m k (layout cfg (length (d_open d)) v) tt k) ->
  doc_step cfg (wbind (before_value cfg) (fun _ => m)) tt d (add_value v d).
Proof.
  intros Hv Hm. eexists. split; [apply doc_text_add, Hv|].
  eapply wr_bind; [apply wr_before_value, Hv|apply Hm].
Qed.

Lemma begin_step cfg d c b : value_allowed (multi_top_level cfg) d ->
  (c = OpenArr [] /\ b = begin_array cfg) \/ (c = OpenObj [] None /\ b = begin_object cfg) ->
  doc_step cfg b tt d (open_container_in c d).
Proof.
  intros Hv Hc. exists (child_sep cfg (d_top d) (d_open d) ++ frame_open cfg (length (d_open d)) c). split.
  - unfold doc_text, open_container_in. cbn [d_top d_open open_text]. rewrite <- app_assoc. reflexivity.
  - pose proof (wr_before_value cfg d JNull Hv) as Hb.
    destruct d as [top o string]. assert (string = None) as -> by apply Hv.
    rewrite core_for_add in Hb by (eapply value_allowed_pending, Hv).
    unfold open_container_in. cbn [d_top d_open] in *. rewrite core_for_open by (destruct Hc as [[-> _]|[-> _]]; auto).
    destruct Hc as [[-> ->]|[-> ->]].
    + unfold begin_array. eapply wr_bind; [exact Hb|].
      mod_step (fun k : core => k_set_stack (SvArray :: k_stack k) k). mod_step (k_set_empty true).
      mod_step (k_set_expects false). apply wr_bytes.
    + unfold begin_object. eapply wr_bind; [exact Hb|].
      mod_step (fun k : core => k_set_stack (SvObject :: k_stack k) k). mod_step (k_set_empty true).
      mod_step (k_set_expects true). apply wr_bytes.
Qed.

Lemma name_step cfg n top ms o : Forall is_char n ->
  doc_step cfg (name cfg n) tt (Wdoc top (OpenObj ms None :: o) None) (Wdoc top (OpenObj ms (Some n) :: o) None).
Proof.
  intros Hn. exists (before_element cfg (is_nil ms) (S (length o)) ++ string_text cfg n ++ colon cfg). split.
  - unfold doc_text. cbn [d_top d_open open_text frame_open]. rewrite <- !app_assoc. reflexivity.
  - unfold name, core_for. cbn [d_open d_top]. kred.
    get_step k_expects. get_step k_active.
    assert (Hb : before_element cfg (is_nil ms) (S (length o)) = before_element cfg (is_nil ms) (if pretty_print cfg then S (length o) else O)).
    { unfold before_element. destruct (pretty_print cfg); reflexivity. }
    rewrite Hb.
    assert (Hi : (if pretty_print cfg then S (length o) else O) = if is_nil ms
       then indent_add cfg (if pretty_print cfg then match ms with [] => length o | _ => S (length o) end else O)
       else (if pretty_print cfg then match ms with [] => length o | _ => S (length o) end else O)).
    { unfold indent_add. destruct (pretty_print cfg), ms; reflexivity. }
    replace (if pretty_print cfg then match ms with [] => S (length o) | _ => S (length o) end else O) with
      (if pretty_print cfg then S (length o) else O) by (destruct ms; reflexivity).
    eapply wr_bind; [rewrite Hi; apply wr_before_element; destruct (pretty_print cfg); auto|].
    rewrite <- Hi.
    eapply wr_bind; [apply wr_string, Hn|].
    eapply wr_bind_r; [apply wr_bytes|]. mod_last (k_set_expects false).
Qed.

Lemma wr_indentation e x s a n : wr write_indentation (Core e x s a n) (concat (repeat [0x20; 0x20] n)) tt (Core e x s a n).
Proof. intros st Hk. unfold core_of in Hk. injection Hk as <- <- <- <- <-. apply writes_indentation. Qed.

Lemma wr_decrease e x s a n : wr decrease_indentation (Core e x s a (S n)) [] tt (Core e x s a n).
Proof.
  intros st Hk. unfold core_of in Hk. injection Hk as H1 H2 H3 H4 H5. intros Hb.
  unfold decrease_indentation. rewrite H5. left.
  splits; auto; [unfold emitted; cbn; rewrite app_nil_r; reflexivity|].
  unfold core_of. cbn. congruence.
Qed.

Lemma wr_container_end cfg (e : bool) x kind o n : n = (if pretty_print cfg then if e then length o else S (length o) else O) ->
  wr (on_container_end cfg) (Core e x (kind :: map kind_of o) false n) (before_end cfg e (length o)) tt
    (Core false (match o with OpenObj _ _ :: _ => true | _ => false end) (map kind_of o) false
       (if pretty_print cfg then length o else O)).
Proof.
  intros ->. unfold on_container_end. mod_step (fun k : core => k_set_stack (tl (k_stack k)) k). get_step k_empty.
  eapply (wr_bind_r _ _ _ _ tt (Core e x (map kind_of o) false (if pretty_print cfg then length o else O))).
  2:{ mod_step (k_set_empty false).
      replace (Core false (match o with OpenObj _ _ :: _ => _ | _ => _ end) (map kind_of o) false _) with
        ((fun k => k_set_expects (k_in_object k) k) (Core false x (map kind_of o) false (if pretty_print cfg then length o else O))).
      - mod_last (fun k : core => k_set_expects (k_in_object k) k).
      - cbn. f_equal. destruct o as [|[|]]; reflexivity. }
  unfold before_end. rewrite (andb_comm (pretty_print cfg)).
  destruct e, (pretty_print cfg); kred; try apply wr_ret.
  unfold new_line. change (10 :: ?l) with ([10] ++ l).
  eapply wr_bind; [apply wr_bytes|]. eapply wr_bind0; [apply wr_decrease|]. apply wr_indentation.
Qed.

Lemma end_array_step cfg top items o : Forall pending_frame o ->
  doc_step cfg (end_array cfg) tt (Wdoc top (OpenArr items :: o) None) (add_value (JArr items) (Wdoc top o None)).
Proof.
  intros Hp. assert (Hp1 : Forall pending_frame (firstn 1 o)) by (destruct Hp; repeat constructor; auto).
  exists (before_end cfg (is_nil items) (length o) ++ [0x5D]). split.
  - unfold doc_text. rewrite add_value_text by exact Hp1. cbn [d_open d_top open_text frame_open].
    rewrite layout_arr, <- !app_assoc. reflexivity.
  - rewrite core_for_add by exact Hp1. unfold end_array, core_for. cbn [d_open d_top]. kred.
    get_step k_in_array. get_step k_active.
    eapply wr_bind; [apply wr_container_end; destruct (is_nil items); reflexivity|]. apply wr_bytes.
Qed.

Lemma end_object_step cfg top ms o : Forall pending_frame o ->
  doc_step cfg (end_object cfg) tt (Wdoc top (OpenObj ms None :: o) None) (add_value (JObj ms) (Wdoc top o None)).
Proof.
  intros Hp. assert (Hp1 : Forall pending_frame (firstn 1 o)) by (destruct Hp; repeat constructor; auto).
  exists (before_end cfg (is_nil ms) (length o) ++ [0x7D]). split.
  - unfold doc_text. rewrite add_value_text by exact Hp1. cbn [d_open d_top open_text frame_open].
    rewrite layout_obj, <- !app_assoc. reflexivity.
  - rewrite core_for_add by exact Hp1. unfold end_object, core_for. cbn [d_open d_top]. kred.
    get_step k_in_object. get_step k_active. get_step k_expects.
    eapply wr_bind; [apply wr_container_end; destruct ms; reflexivity|]. apply wr_bytes.
Qed.
