(** * Serde serializer: what is written *)

From Verif Require Import Base Utf8Model Utf8Proofs NumberModel SpecNumber SpecJson WriterModel SpecWriter NumberProofs Utf8Prefix WriterSession WriterRun
  WriterMore WClientModel SerModel SpecSer.

Lemma ser_run_bind {A B} cfg (m : prog A) (f : A -> prog B) : forall s,
  ser_run cfg (pbind m f) s = ser_run cfg (f (fst (ser_run cfg m s))) (snd (ser_run cfg m s)).
Proof.
  induction m as [a|c k IH]; intros s; [reflexivity|]. cbn [pbind ser_run]. destruct (wstep cfg c s) as [r s']. apply IH.
Qed.

(** ** Outcome of a program *)

Definition errs (cfg : wsettings) (m : ser unit) (s : wsession) : Prop := exists e s', ser_run cfg m s = (ERet (SrErr e), s').

Definition hit {A} (cfg : wsettings) (m : ser unit) (s : wsession) (o : outcome A) (D : A -> wdoc) : Prop :=
  match o with
  | Gives a => exists s', ser_run cfg m s = (ERet (SrOk tt), s') /\ sess_ok cfg (D a) s' /\ (sess_good s -> sess_good s')
  | Fails e => exists s', ser_run cfg m s = (ERet (SrErr e), s')
  | Panics => exists s', ser_run cfg m s = (EPanic Misuse, s')
  end \/ (~ sess_good s /\ errs cfg m s).

Lemma hit_map {A B} cfg m s (f : A -> B) o D D' : hit cfg m s o D -> (forall a, D a = D' (f a)) -> hit cfg m s (map_outcome f o) D'.
Proof.
  intros [H|H] HD; [left|right; exact H]. destruct o as [a|e|]; cbn; auto. rewrite <- HD. exact H.
Qed.
Lemma hit_fail {A} cfg e s (D : A -> wdoc) : hit cfg (sfail e) s (Fails e) D.
Proof. left. exists s. reflexivity. Qed.
Lemma hit_panic {A} cfg s (D : A -> wdoc) : hit cfg spanic s Panics D.
Proof. left. exists s. reflexivity. Qed.

Lemma not_malformed d c : d_string d = None -> ~ malformed d c.
Proof. intros E (acc & E2 & _). congruence. Qed.

Lemma hit_wuse {A} cfg c d s (a : A) (D : A -> wdoc) : sess_ok cfg d s -> valid_call c -> d_string d = None ->
  describes (multi_top_level cfg) d c (D a) -> (forall r, success c r -> r = RDone) -> hit cfg (wuse c) s (Gives a) D.
Proof.
  intros Hok Hv Hn Hd Hs. pose proof (step_described cfg d s c (D a) Hok Hv Hd (not_malformed _ _ Hn)) as H.
  unfold hit, errs, wuse. cbn [ser_run]. destruct (wstep cfg c s) as [r s']. cbn [fst snd] in H.
  destruct H as [(H1 & H2 & H3)|(e & H1 & _ & H2 & _)]; cbn [fst snd] in *.
  - left. rewrite (Hs _ H1). exists s'. auto.
  - right. split; [exact H2|]. rewrite H1. exists (SeIo e), s'. reflexivity.
Qed.
Lemma hit_not_finite {A} cfg d s (D : A -> wdoc) : sess_ok cfg d s -> d_string d = None -> hit cfg (wuse (CFloat None)) s (Fails SeInvalidNumber) D.
Proof.
  intros Hok Hn. pose proof (step_described cfg d s (CFloat None) d Hok I (D_float_invalid _ _ Hn) (not_malformed _ _ Hn)) as H.
  unfold hit, errs, wuse. cbn [ser_run number_method]. destruct (wstep cfg (CFloat None) s) as [r s']. cbn [fst snd] in H.
  destruct H as [(H1 & H2 & H3)|(e & H1 & _ & H2 & _)]; cbn [fst snd success] in *.
  - left. rewrite H1. exists s'. auto.
  - right. split; [exact H2|]. rewrite H1. exists (SeIo e), s'. reflexivity.
Qed.

(** After [m] *)
Lemma hit_then {A B} cfg m (f : sres unit -> ser unit) s (a : A) D (o : outcome B) D' : hit cfg m s (Gives a) D ->
  (forall s', sess_ok cfg (D a) s' -> (sess_good s -> sess_good s') -> hit cfg (f (SrOk tt)) s' o D') ->
  (~ sess_good s -> forall e s', errs cfg (f (SrErr e)) s') ->
  hit cfg (sthen m f) s o D'.
Proof.
  intros [(s' & E & Hok & Hg)|(Hg & e & s' & E)] H He; unfold hit, errs, sthen in *; rewrite ser_run_bind, E; cbn [fst snd].
  - destruct (H s' Hok Hg) as [H'|(Hg' & H')]; [left|right; split; [tauto|exact H']].
    destruct o as [b|e|]; auto. destruct H' as (s2 & E2 & Hok2 & Hg2). exists s2. auto.
  - right. split; [exact Hg|]. apply He, Hg.
Qed.
Lemma hit_then_fails {A B} cfg m (f : sres unit -> ser unit) s e (D : A -> wdoc) e' (D' : B -> wdoc) : hit cfg m s (Fails e) D ->
  f (SrErr e) = sfail e' -> (~ sess_good s -> forall e s', errs cfg (f (SrErr e)) s') ->
  hit cfg (sthen m f) s (Fails e') D'.
Proof.
  intros [(s' & E)|(Hg & e1 & s' & E)] H He; unfold hit, errs, sthen in *; rewrite ser_run_bind, E; cbn [fst snd].
  - left. rewrite H. exists s'. reflexivity.
  - right. split; [exact Hg|]. apply He, Hg.
Qed.
Lemma hit_then_panics {A B} cfg m (f : sres unit -> ser unit) s (D : A -> wdoc) (D' : B -> wdoc) : hit cfg m s Panics D ->
  (~ sess_good s -> forall e s', errs cfg (f (SrErr e)) s') ->
  hit cfg (sthen m f) s Panics D'.
Proof.
  intros [(s' & E)|(Hg & e1 & s' & E)] He; unfold hit, errs, sthen in *; rewrite ser_run_bind, E; cbn [fst snd ser_run].
  - left. exists s'. reflexivity.
  - right. split; [exact Hg|]. apply He, Hg.
Qed.

Lemma errs_fail cfg e s : errs cfg (sfail e) s.
Proof. exists e, s. reflexivity. Qed.

(** The operator [?] *)
Lemma hit_bind {A B} cfg m (f : unit -> ser unit) s (o : outcome A) D (o' : outcome B) D' : hit cfg m s o D ->
  (forall a, o = Gives a -> forall s', sess_ok cfg (D a) s' -> (sess_good s -> sess_good s') -> hit cfg (f tt) s' o' D') ->
  (forall e, o = Fails e -> o' = Fails e) -> (o = Panics -> o' = Panics) ->
  hit cfg (sbind m f) s o' D'.
Proof.
  intros H Hf He Hp. unfold sbind.
  assert (Hx : ~ sess_good s -> forall e s', errs cfg (sfail e) s') by (intros; apply errs_fail).
  destruct o as [a|e|].
  - eapply hit_then; [exact H| |exact Hx]. intros s' Hs Hg. eapply Hf; eauto.
  - rewrite (He e eq_refl). eapply hit_then_fails; [exact H|reflexivity|exact Hx].
  - rewrite (Hp eq_refl). eapply hit_then_panics; [exact H|exact Hx].
Qed.
Lemma hit_bind1 {A B} cfg m (f : unit -> ser unit) s (a : A) D (o' : outcome B) D' : hit cfg m s (Gives a) D ->
  (forall s', sess_ok cfg (D a) s' -> (sess_good s -> sess_good s') -> hit cfg (f tt) s' o' D') -> hit cfg (sbind m f) s o' D'.
Proof. intros H Hf. eapply hit_bind; [exact H| | |]; try discriminate. intros a' E. injection E as <-. exact Hf. Qed.

Lemma hit_own {A} cfg m f s (o o' : outcome A) D : hit cfg m s o D -> own_error f o o' -> hit cfg (sthen m (then_own_error f)) s o' D.
Proof.
  intros H Ho.
  assert (Hx : ~ sess_good s -> forall e s', errs cfg (then_own_error f (SrErr e)) s').
  { intros _ e s'. unfold then_own_error. destruct (f (seen (SrErr e))) as [n|]; [apply errs_fail|exists e, s'; reflexivity]. }
  destruct Ho as [a Ef|a n Ef|e Ef|e n Ef|].
  - eapply hit_then; [exact H| |exact Hx]. intros s' Hs Hg. unfold then_own_error. cbn [seen]. rewrite Ef. left. exists s'. cbn. auto.
  - eapply hit_then; [exact H| |exact Hx]. intros s' Hs Hg. unfold then_own_error. cbn [seen]. rewrite Ef. apply hit_fail.
  - eapply hit_then_fails; [exact H| |exact Hx]. unfold then_own_error. cbn [seen]. rewrite Ef. reflexivity.
  - eapply hit_then_fails; [exact H| |exact Hx]. unfold then_own_error. cbn [seen]. rewrite Ef. reflexivity.
  - eapply hit_then_panics; [exact H|exact Hx].
Qed.

(** ** Keys *)

Lemma decimal_chars z t : decimal_text z t -> Forall is_char t.
Proof.
  intros H. assert (Ha : Forall (fun b => b < 0x80) t).
  { destruct H as [[H _]|(ds & -> & H & _)]; [apply int_text_ascii, H|constructor; [reflexivity|apply int_text_ascii, H]]. }
  eapply Forall_impl; [|exact Ha]. intros b Hb. cbv beta in Hb. left. eapply N.lt_trans; [exact Hb|reflexivity].
Qed.

Lemma run_key cfg v o : key_means v o -> valid_sval v -> forall top ms os s, sess_ok cfg (Wdoc top (OpenObj ms None :: os) None) s ->
  hit cfg (ser_key v) s o (fun n => Wdoc top (OpenObj ms (Some n) :: os) None).
Proof.
  assert (Hname : forall n top ms os s, Forall is_char n -> sess_ok cfg (Wdoc top (OpenObj ms None :: os) None) s ->
    hit cfg (wuse (CName n)) s (Gives n) (fun n => Wdoc top (OpenObj ms (Some n) :: os) None)).
  { intros n top ms os s Hn Hs. eapply hit_wuse; [exact Hs|exact Hn|reflexivity| |auto].
    apply (D_name _ (Wdoc top (OpenObj ms None :: os) None) n ms os); reflexivity. }
  induction 1; intros Hv top ms os st Hs; cbn [ser_key]; cbn [valid_sval] in Hv; try apply hit_fail.
  - apply Hname; [|exact Hs]. destruct b; repeat (apply Forall_cons; [left; reflexivity|]); apply Forall_nil.
  - destruct (int_to_string_spec z) as (H1 & H2 & H3). rewrite H3. cbn [negb].
    rewrite (decimal_inj z t (int_to_string z)); auto. apply Hname; [eapply decimal_chars, H1|exact Hs].
  - destruct Hv as [H1 H2]. rewrite (proj2 (is_valid_json_number_spec t) H2). cbn [negb]. apply Hname; auto.
  - apply Hname; [|exact Hs]. constructor; [exact Hv|constructor].
  - apply Hname; auto.
  - apply IHkey_means; auto.
  - apply Hname; auto.
  - apply IHkey_means; auto.
  - eapply hit_own; [apply IHkey_means; auto|exact H0].
Qed.

(** ** Values *)

Scheme vm_ind2 := Minimality for value_means Sort Prop
  with em_ind2 := Minimality for elems_mean Sort Prop
  with nm_ind2 := Minimality for entries_mean Sort Prop
  with nv_ind2 := Minimality for entry_means Sort Prop
  with fm_ind2 := Minimality for fields_mean Sort Prop.
Combined Scheme means_ind from vm_ind2, em_ind2, nm_ind2, nv_ind2, fm_ind2.

(** The state of the counter of the serializer *)
Definition counted (len : option N) (i n : N) : Prop := match len with Some _ => n = i | None => True end.

Lemma count_more len i n : more_allowed len i -> counted len i n -> exists n', count_element len n = SrOk n' /\ counted len (i + 1) n'.
Proof.
  intros Hm Hc. destruct len as [m|]; cbn in *.
  - subst n. specialize (Hm m eq_refl). rewrite (proj2 (N.leb_gt m i) Hm). eauto.
  - eauto.
Qed.
Lemma count_many m i n : m <= i -> counted (Some m) i n -> count_element (Some m) n = SrErr (SeCount m (i + 1)).
Proof. intros Hm Hc. cbn in *. subst n. rewrite (proj2 (N.leb_le m i) Hm). reflexivity. Qed.
Lemma check_enough len i n : enough len i -> counted len i n -> check_count len n = sret tt.
Proof.
  intros Hm Hc. destruct len as [m|]; cbn in *; [|reflexivity].
  subst n. specialize (Hm m eq_refl). rewrite (proj2 (N.ltb_ge i m) Hm). reflexivity.
Qed.
Lemma check_few m i n : i < m -> counted (Some m) i n -> check_count (Some m) n = sfail (SeCount m i).
Proof. intros Hm Hc. cbn in *. subst n. rewrite (proj2 (N.ltb_lt i m) Hm). reflexivity. Qed.

Lemma sbind_ret (f : unit -> ser unit) : sbind (sret tt) f = f tt.
Proof. reflexivity. Qed.
Lemma sbind_fail (f : unit -> ser unit) e : sbind (sfail e) f = sfail e.
Proof. reflexivity. Qed.

Lemma hit_bytes cfg bs ts : Forall2 (fun b t => decimal_text (Z.of_N b) t) bs ts -> forall top items os s,
  sess_ok cfg (Wdoc top (OpenArr items :: os) None) s ->
  hit cfg (ser_bytes bs) s (Gives tt) (fun _ => Wdoc top (OpenArr (items ++ map JNum ts) :: os) None).
Proof.
  induction 1 as [|b t bs ts Hb _ IH]; intros top items os s Hs; cbn [ser_bytes map].
  - left. exists s. rewrite app_nil_r. cbn. auto.
  - eapply (hit_bind1 cfg _ _ s tt (fun _ => Wdoc top (OpenArr (items ++ [JNum t]) :: os) None)).
    + eapply hit_wuse; [exact Hs|exact I|reflexivity| |auto].
      apply (D_number _ (Wdoc top (OpenArr items :: os) None)); [split; [reflexivity|exact I]|exact Hb].
    + intros s1 Hs1 _. specialize (IH top (items ++ [JNum t]) os s1 Hs1). rewrite <- app_assoc in IH. exact IH.
Qed.

(** A method which writes a single value *)
Lemma hit_single cfg c d s j : sess_ok cfg d s -> valid_call c -> value_allowed (multi_top_level cfg) d ->
  describes (multi_top_level cfg) d c (add_value j d) -> (forall r, success c r -> r = RDone) -> hit cfg (wuse c) s (Gives j) (fun j => add_value j d).
Proof. intros Hs Hv [Ha Ha'] Hd Hr. eapply hit_wuse; eauto. Qed.

Lemma hit_begin_array cfg d s : sess_ok cfg d s -> value_allowed (multi_top_level cfg) d ->
  hit cfg (wuse CBeginArray) s (Gives tt) (fun _ => Wdoc (d_top d) (OpenArr [] :: d_open d) None).
Proof. intros Hs Ha. eapply hit_wuse; [exact Hs|exact I|apply Ha|apply (D_begin_array _ d Ha)|auto]. Qed.
Lemma hit_begin_object cfg d s : sess_ok cfg d s -> value_allowed (multi_top_level cfg) d ->
  hit cfg (wuse CBeginObject) s (Gives tt) (fun _ => Wdoc (d_top d) (OpenObj [] None :: d_open d) None).
Proof. intros Hs Ha. eapply hit_wuse; [exact Hs|exact I|apply Ha|apply (D_begin_object _ d Ha)|auto]. Qed.
Lemma hit_name cfg n top ms os s : sess_ok cfg (Wdoc top (OpenObj ms None :: os) None) s -> Forall is_char n ->
  hit cfg (wuse (CName n)) s (Gives tt) (fun _ => Wdoc top (OpenObj ms (Some n) :: os) None).
Proof.
  intros Hs Hn. eapply hit_wuse; [exact Hs|exact Hn|reflexivity| |auto].
  apply (D_name _ (Wdoc top (OpenObj ms None :: os) None) n ms os); reflexivity.
Qed.
Lemma hit_end_array cfg items top os s : sess_ok cfg (Wdoc top (OpenArr items :: os) None) s ->
  hit cfg (wuse CEndArray) s (Gives items) (fun js => add_value (JArr js) (Wdoc top os None)).
Proof. intros Hs. eapply hit_wuse; [exact Hs|exact I|reflexivity|apply (D_end_array _ (Wdoc top (OpenArr items :: os) None)); reflexivity|auto]. Qed.
Lemma hit_end_object cfg ms top os s : sess_ok cfg (Wdoc top (OpenObj ms None :: os) None) s ->
  hit cfg (wuse CEndObject) s (Gives ms) (fun ms => add_value (JObj ms) (Wdoc top os None)).
Proof. intros Hs. eapply hit_wuse; [exact Hs|exact I|reflexivity|apply (D_end_object _ (Wdoc top (OpenObj ms None :: os) None)); reflexivity|auto]. Qed.

Lemma doc_eta d : d_string d = None -> d = Wdoc (d_top d) (d_open d) None.
Proof. destruct d; cbn. intros ->. reflexivity. Qed.

Lemma hit_rename {A B} cfg m s (a : A) (b : B) D D' : hit cfg m s (Gives a) D -> D a = D' b -> hit cfg m s (Gives b) D'.
Proof. intros H E. unfold hit in *. rewrite <- E. exact H. Qed.

Lemma hit_array cfg m d s o : sess_ok cfg d s -> value_allowed (multi_top_level cfg) d ->
  (forall s', sess_ok cfg (Wdoc (d_top d) (OpenArr [] :: d_open d) None) s' -> (sess_good s -> sess_good s') ->
    hit cfg m s' o (fun js => add_value (JArr js) (Wdoc (d_top d) (d_open d) None))) ->
  hit cfg (sbind (wuse CBeginArray) (fun _ => m)) s (map_outcome JArr o) (fun j => add_value j d).
Proof.
  intros Hs Ha H. eapply hit_bind1; [apply hit_begin_array; eauto|]. intros s1 Hs1 Hg1. eapply hit_map; [apply H; auto|].
  intros js. rewrite <- doc_eta; [reflexivity|apply Ha].
Qed.

Lemma elems_errs cfg (P : Prop) len n close k s : (P /\ careful_elems (k None) /\ forall e, exists e', k (Some e) = ElAbort e') \/ sess_good s ->
  ~ sess_good s -> forall e s', errs cfg (ser_elems len n close (k (seen (SrErr e)))) s'.
Proof. intros [(_ & _ & H)|H] Hg e s'; [|contradiction]. cbn [seen]. destruct (H e) as (e' & ->). apply errs_fail. Qed.
Lemma entries_errs cfg (P : Prop) len n x k s : (P /\ careful_entries (k None) /\ forall e, exists e', k (Some e) = EnAbort e') \/ sess_good s ->
  ~ sess_good s -> forall e s', errs cfg (ser_entries len n x (k (seen (SrErr e)))) s'.
Proof. intros [(_ & _ & H)|H] Hg e s'; [|contradiction]. cbn [seen]. destruct (H e) as (e' & ->). apply errs_fail. Qed.
Lemma fields_errs cfg (P : Prop) len n close k s : (P /\ careful_fields (k None) /\ forall e, exists e', k (Some e) = FiAbort e') \/ sess_good s ->
  ~ sess_good s -> forall e s', errs cfg (ser_fields len n close (k (seen (SrErr e)))) s'.
Proof. intros [(_ & _ & H)|H] Hg e s'; [|contradiction]. cbn [seen]. destruct (H e) as (e' & ->). apply errs_fail. Qed.

Lemma count_one m i : i < m -> count_element (Some m) i = SrOk (i + 1).
Proof. intros H. cbn. rewrite (proj2 (N.leb_gt m i) H). reflexivity. Qed.

(** A member with its name *)
Lemma hit_field cfg key v top ms os s o : Forall is_char key -> sess_ok cfg (Wdoc top (OpenObj ms None :: os) None) s ->
  (forall d s', value_allowed (multi_top_level cfg) d -> sess_ok cfg d s' -> careful v \/ sess_good s' -> hit cfg (ser_value v) s' o (fun j => add_value j d)) ->
  careful v \/ sess_good s ->
  hit cfg (sbind (wuse (CName key)) (fun _ => ser_value v)) s o (fun j => Wdoc top (OpenObj (ms ++ [(key, j)]) None :: os) None).
Proof.
  intros Hk Hs IH Hc. eapply hit_bind1; [apply hit_name; eauto|]. intros s1 Hs1 Hg1.
  apply (IH (Wdoc top (OpenObj ms (Some key) :: os) None) s1); [split; [reflexivity|discriminate]|exact Hs1|tauto].
Qed.

Lemma run_means cfg :
  (forall v o, value_means v o -> valid_sval v -> forall d s, value_allowed (multi_top_level cfg) d -> sess_ok cfg d s -> careful v \/ sess_good s ->
    hit cfg (ser_value v) s o (fun j => add_value j d)) /\
  (forall len i b o, elems_mean len i b o -> valid_elems b -> forall n close D top items os s,
    counted len i n -> (forall items s, sess_ok cfg (Wdoc top (OpenArr items :: os) None) s -> hit cfg close s (Gives items) D) ->
    sess_ok cfg (Wdoc top (OpenArr items :: os) None) s -> careful_elems b \/ sess_good s ->
    hit cfg (ser_elems len n close b) s o (fun js => D (items ++ js))) /\
  (forall len i b o, entries_mean len i b o -> valid_entries b -> forall n top ms os s,
    counted len i n -> sess_ok cfg (Wdoc top (OpenObj ms None :: os) None) s -> careful_entries b \/ sess_good s ->
    hit cfg (ser_entries len n false b) s o (fun ms' => add_value (JObj (ms ++ ms')) (Wdoc top os None))) /\
  (forall len i nm b o, entry_means len i nm b o -> valid_entries b -> forall n top ms os s,
    counted len (i + 1) n -> sess_ok cfg (Wdoc top (OpenObj ms (Some nm) :: os) None) s -> careful_entries b \/ sess_good s ->
    hit cfg (ser_entries len n true b) s o (fun ms' => add_value (JObj (ms ++ ms')) (Wdoc top os None))) /\
  (forall len i b o, fields_mean len i b o -> valid_fields b -> forall close D top ms os s,
    (forall ms s, sess_ok cfg (Wdoc top (OpenObj ms None :: os) None) s -> hit cfg close s (Gives ms) D) ->
    sess_ok cfg (Wdoc top (OpenObj ms None :: os) None) s -> careful_fields b \/ sess_good s ->
    hit cfg (ser_fields len i close b) s o (fun ms' => D (ms ++ ms'))).
Proof.
  apply means_ind.
  - intros b _ d s Ha Hs _. eapply hit_single; [exact Hs|exact I|exact Ha|apply D_bool, Ha|auto].
  - intros z t Hz _ d s Ha Hs _. eapply hit_single; [exact Hs|exact I|exact Ha|apply D_number; auto|auto].
  - intros t [Hv1 Hv2] d s Ha Hs _. eapply hit_single; [exact Hs|split; assumption|exact Ha|apply D_float; auto|auto].
  - intros _ d s Ha Hs _. eapply hit_not_finite; [exact Hs|apply Ha].
  - intros c Hv d s Ha Hs _. eapply hit_single; [exact Hs|constructor; [exact Hv|constructor]|exact Ha|apply D_string; auto|auto].
  - intros t Hv d s Ha Hs _. eapply hit_single; [exact Hs|exact Hv|exact Ha|apply D_string; auto|auto].
  - intros bs ts H Hv d s Ha Hs _. cbn [ser_value]. eapply hit_bind1; [apply hit_begin_array; eauto|]. intros s1 Hs1 _.
    eapply hit_bind1; [eapply hit_bytes; eauto|]. intros s2 Hs2 _. cbn [app] in Hs2.
    apply (hit_map cfg _ _ JArr (Gives (map JNum ts)) (fun js => add_value (JArr js) (Wdoc (d_top d) (d_open d) None))).
    + apply hit_end_array, Hs2.
    + intros js. rewrite <- doc_eta; [reflexivity|apply Ha].
  - intros _ d s Ha Hs _. eapply hit_single; [exact Hs|exact I|exact Ha|apply D_null, Ha|auto].
  - intros v o _ IH Hv d s Ha Hs Hc. apply IH; auto.
  - intros _ d s Ha Hs _. eapply hit_single; [exact Hs|exact I|exact Ha|apply D_null, Ha|auto].
  - intros name _ d s Ha Hs _. eapply hit_single; [exact Hs|exact I|exact Ha|apply D_null, Ha|auto].
  - intros name i variant Hv d s Ha Hs _. eapply hit_single; [exact Hs|exact Hv|exact Ha|apply D_string; auto|auto].
  - intros name v o _ IH Hv d s Ha Hs Hc. apply IH; auto.
  - intros name i variant v o _ IH [Hn Hv] d s Ha Hs Hc. cbn [ser_value careful] in *.
    eapply hit_bind1; [apply hit_begin_object; eauto|]. intros s1 Hs1 Hg1.
    eapply hit_bind1; [apply hit_name; eauto|]. intros s2 Hs2 Hg2.
    eapply hit_bind; [eapply IH; [exact Hv| |exact Hs2|tauto]; split; [reflexivity|discriminate]| | |].
    + intros j -> s3 Hs3 _. cbn [map_outcome].
      apply (hit_map cfg _ _ JObj (Gives [(variant, j)]) (fun ms => add_value (JObj ms) (Wdoc (d_top d) (d_open d) None))).
      * apply hit_end_object, Hs3.
      * intros ms. rewrite <- doc_eta; [reflexivity|apply Ha].
    + intros e ->. reflexivity.
    + intros ->. reflexivity.
  - intros len b o _ IH Hv d s Ha Hs Hc. cbn [ser_value careful] in *. eapply hit_array; [exact Hs|exact Ha|].
    intros s1 Hs1 Hg1. eapply (IH Hv 0 _ (fun js => add_value (JArr js) (Wdoc (d_top d) (d_open d) None)) _ []); [destruct len; [reflexivity|exact I]|intros ? ? ?; apply hit_end_array; eassumption|exact Hs1|tauto].
  - intros len b o _ IH Hv d s Ha Hs Hc. cbn [ser_value careful] in *. eapply hit_array; [exact Hs|exact Ha|].
    intros s1 Hs1 Hg1. eapply (IH Hv 0 _ (fun js => add_value (JArr js) (Wdoc (d_top d) (d_open d) None)) _ []); [reflexivity|intros ? ? ?; apply hit_end_array; eassumption|exact Hs1|tauto].
  - intros name len b o _ IH Hv d s Ha Hs Hc. cbn [ser_value careful] in *. eapply hit_array; [exact Hs|exact Ha|].
    intros s1 Hs1 Hg1. eapply (IH Hv 0 _ (fun js => add_value (JArr js) (Wdoc (d_top d) (d_open d) None)) _ []); [reflexivity|intros ? ? ?; apply hit_end_array; eassumption|exact Hs1|tauto].
  - intros name i variant len b o _ IH [Hn Hv] d s Ha Hs Hc. cbn [ser_value careful] in *.
    eapply hit_bind1; [apply hit_begin_object; eauto|]. intros s1 Hs1 Hg1.
    eapply hit_bind1; [apply hit_name; eauto|]. intros s2 Hs2 Hg2.
    eapply hit_bind1; [eapply hit_begin_array; [exact Hs2|split; [reflexivity|discriminate]]|]. intros s3 Hs3 Hg3.
    eapply hit_map.
    + eapply (IH Hv 0 _ (fun js => add_value (JObj [(variant, JArr js)]) d) _ []); [reflexivity| |exact Hs3|tauto].
      intros items s4 Hs4. eapply hit_bind1; [apply hit_end_array, Hs4|]. intros s5 Hs5 _.
      apply (hit_rename cfg _ _ [(variant, JArr items)] items (fun ms => add_value (JObj ms) (Wdoc (d_top d) (d_open d) None))).
      * apply hit_end_object, Hs5.
      * rewrite <- doc_eta; [reflexivity|apply Ha].
    + reflexivity.
  - intros len b o _ IH Hv d s Ha Hs Hc. cbn [ser_value careful] in *.
    eapply hit_bind1; [apply hit_begin_object; eauto|]. intros s1 Hs1 Hg1. eapply hit_map.
    + eapply (IH Hv 0 _ [] _ s1); [destruct len; [reflexivity|exact I]|exact Hs1|tauto].
    + intros ms. rewrite <- doc_eta; [reflexivity|apply Ha].
  - intros name len b o _ IH Hv d s Ha Hs Hc. cbn [ser_value careful] in *.
    eapply hit_bind1; [apply hit_begin_object; eauto|]. intros s1 Hs1 Hg1. eapply hit_map.
    + eapply (IH Hv _ (fun ms => add_value (JObj ms) (Wdoc (d_top d) (d_open d) None)) _ [] _ s1); [intros ? ? ?; apply hit_end_object; eassumption|exact Hs1|tauto].
    + intros ms. rewrite <- doc_eta; [reflexivity|apply Ha].
  - intros name i variant len b o _ IH [Hn Hv] d s Ha Hs Hc. cbn [ser_value careful] in *.
    eapply hit_bind1; [apply hit_begin_object; eauto|]. intros s1 Hs1 Hg1.
    eapply hit_bind1; [apply hit_name; eauto|]. intros s2 Hs2 Hg2.
    eapply hit_bind1; [eapply hit_begin_object; [exact Hs2|split; [reflexivity|discriminate]]|]. intros s3 Hs3 Hg3.
    eapply hit_map.
    + eapply (IH Hv _ (fun ms => add_value (JObj [(variant, JObj ms)]) d) _ [] _ s3); [|exact Hs3|tauto].
      intros ms s4 Hs4. eapply hit_bind1; [apply hit_end_object, Hs4|]. intros s5 Hs5 _.
      apply (hit_rename cfg _ _ [(variant, JObj ms)] ms (fun ms => add_value (JObj ms) (Wdoc (d_top d) (d_open d) None))).
      * apply hit_end_object, Hs5.
      * rewrite <- doc_eta; [reflexivity|apply Ha].
    + reflexivity.
  - intros n _ d s Ha Hs _. apply hit_fail.
  - intros v f o o' _ IH Ho Hv d s Ha Hs Hc. eapply hit_own; [apply IH; auto|exact Ho].
  (* elements *)
  - intros len i He _ n close D top items os s Hn Hcl Hs _. cbn [ser_elems]. rewrite (check_enough _ _ _ He Hn), sbind_ret.
    eapply hit_rename; [apply Hcl, Hs|]. rewrite app_nil_r. reflexivity.
  - intros m i Hi _ n close D top items os s Hn Hcl Hs _. cbn [ser_elems]. rewrite (check_few _ _ _ Hi Hn), sbind_fail. apply hit_fail.
  - intros m i v k e Hi Hk _ n close D top items os s Hn Hcl Hs _. cbn [ser_elems]. rewrite (count_many _ _ _ Hi Hn), Hk. apply hit_fail.
  - intros len i e _ n close D top items os s Hn Hcl Hs _. apply hit_fail.
  - intros len i v k j o Hm _ IHv _ IHk [Hv Hk] n close D top items os s Hn Hcl Hs Hc. cbn [ser_elems careful_elems] in *.
    destruct (count_more _ _ _ Hm Hn) as (n' & -> & Hn').
    eapply hit_then; [eapply IHv; [exact Hv| |exact Hs|tauto]; split; [reflexivity|exact I]| |eapply elems_errs; exact Hc].
    intros s1 Hs1 Hg1. cbn [seen]. eapply hit_map; [eapply IHk; [apply Hk|exact Hn'|exact Hcl|exact Hs1|tauto]|].
    intros js. cbv beta. rewrite <- app_assoc. reflexivity.
  - intros len i v k e e' Hm _ IHv Hk' [Hv Hk] n close D top items os s Hn Hcl Hs Hc. cbn [ser_elems careful_elems] in *.
    destruct (count_more _ _ _ Hm Hn) as (n' & -> & Hn').
    eapply hit_then_fails; [eapply IHv; [exact Hv| |exact Hs|tauto]; split; [reflexivity|exact I]| |eapply elems_errs; exact Hc].
    cbn [seen]. rewrite Hk'. reflexivity.
  - intros len i v k Hm _ IHv [Hv Hk] n close D top items os s Hn Hcl Hs Hc. cbn [ser_elems careful_elems] in *.
    destruct (count_more _ _ _ Hm Hn) as (n' & -> & Hn').
    eapply hit_then_panics; [eapply IHv; [exact Hv| |exact Hs|tauto]; split; [reflexivity|exact I]|eapply elems_errs; exact Hc].
  (* entries *)
  - intros len i He _ n top ms os s Hn Hs _. cbn [ser_entries]. rewrite (check_enough _ _ _ He Hn), sbind_ret.
    eapply hit_rename; [apply hit_end_object, Hs|]. rewrite app_nil_r. reflexivity.
  - intros m i Hi _ n top ms os s Hn Hs _. cbn [ser_entries]. rewrite (check_few _ _ _ Hi Hn), sbind_fail. apply hit_fail.
  - intros m i v k e Hi Hk _ n top ms os s Hn Hs _. cbn [ser_entries]. rewrite (count_many _ _ _ Hi Hn), Hk. apply hit_fail.
  - intros len i e _ n top ms os s Hn Hs _. apply hit_fail.
  - intros len i v k _ n top ms os s Hn Hs _. apply hit_panic.
  - intros len i v k e e' Hm Hkey Hk' [Hv Hk] n top ms os s Hn Hs Hc. cbn [ser_entries careful_entries] in *.
    destruct (count_more _ _ _ Hm Hn) as (n' & -> & Hn').
    eapply hit_then_fails; [eapply run_key; eauto| |eapply entries_errs; exact Hc]. cbn [seen]. rewrite Hk'. reflexivity.
  - intros len i v k nm o Hm Hkey _ IHk [Hv Hk] n top ms os s Hn Hs Hc. cbn [ser_entries careful_entries] in *.
    destruct (count_more _ _ _ Hm Hn) as (n' & -> & Hn').
    eapply hit_then; [eapply run_key; eauto| |eapply entries_errs; exact Hc]. intros s1 Hs1 Hg1. cbn [seen].
    eapply IHk; [apply Hk|exact Hn'|exact Hs1|tauto].
  - intros len i nm _ n top ms os s Hn Hs _. apply hit_panic.
  - intros len i nm v k _ n top ms os s Hn Hs _. apply hit_panic.
  - intros len i nm e _ n top ms os s Hn Hs _. apply hit_fail.
  - intros len i nm v k j o _ IHv _ IHk [Hv Hk] n top ms os s Hn Hs Hc. cbn [ser_entries careful_entries negb] in *.
    eapply hit_then; [eapply IHv; [exact Hv| |exact Hs|tauto]; split; [reflexivity|discriminate]| |eapply entries_errs; exact Hc].
    intros s1 Hs1 Hg1. cbn [seen]. eapply hit_map; [eapply IHk; [apply Hk|exact Hn|exact Hs1|tauto]|].
    intros js. cbv beta. rewrite <- app_assoc. reflexivity.
  - intros len i nm v k e e' _ IHv Hk' [Hv Hk] n top ms os s Hn Hs Hc. cbn [ser_entries careful_entries negb] in *.
    eapply hit_then_fails; [eapply IHv; [exact Hv| |exact Hs|tauto]; split; [reflexivity|discriminate]| |eapply entries_errs; exact Hc].
    cbn [seen]. rewrite Hk'. reflexivity.
  - intros len i nm v k _ IHv [Hv Hk] n top ms os s Hn Hs Hc. cbn [ser_entries careful_entries negb] in *.
    eapply hit_then_panics; [eapply IHv; [exact Hv| |exact Hs|tauto]; split; [reflexivity|discriminate]|eapply entries_errs; exact Hc].
  (* fields *)
  - intros m i He _ close D top ms os s Hcl Hs _. cbn [ser_fields]. rewrite (check_enough (Some m) i i); [|intros n E; injection E as <-; exact He|reflexivity].
    rewrite sbind_ret. eapply hit_rename; [apply Hcl, Hs|]. rewrite app_nil_r. reflexivity.
  - intros m i Hi _ close D top ms os s Hcl Hs _. cbn [ser_fields]. rewrite (check_few m i i Hi eq_refl), sbind_fail. apply hit_fail.
  - intros m i key v k e Hi Hk _ close D top ms os s Hcl Hs _. cbn [ser_fields]. rewrite (count_many m i i Hi eq_refl), Hk. apply hit_fail.
  - intros m i e _ close D top ms os s Hcl Hs _. apply hit_fail.
  - intros m i key v k j o Hm _ IHv _ IHk (Hkey & Hv & Hk) close D top ms os s Hcl Hs Hc. cbn [ser_fields careful_fields] in *.
    rewrite (count_one m i Hm).
    eapply hit_then; [eapply (hit_field cfg key v top ms os s (Gives j)); eauto; tauto| |eapply fields_errs; exact Hc].
    intros s1 Hs1 Hg1. cbn [seen]. eapply hit_map; [eapply IHk; [apply Hk|exact Hcl|exact Hs1|tauto]|].
    intros js. cbv beta. rewrite <- app_assoc. reflexivity.
  - intros m i key v k e e' Hm _ IHv Hk' (Hkey & Hv & Hk) close D top ms os s Hcl Hs Hc. cbn [ser_fields careful_fields] in *.
    rewrite (count_one m i Hm).
    eapply hit_then_fails; [eapply (hit_field cfg key v top ms os s (Fails e)); eauto; tauto| |eapply fields_errs; exact Hc].
    cbn [seen]. rewrite Hk'. reflexivity.
  - intros m i key v k Hm _ IHv (Hkey & Hv & Hk) close D top ms os s Hcl Hs Hc. cbn [ser_fields careful_fields] in *.
    rewrite (count_one m i Hm).
    eapply hit_then_panics; [eapply (hit_field cfg key v top ms os s Panics); eauto; tauto|eapply fields_errs; exact Hc].
Qed.

(** ** Totality *)

Lemma own_error_total {A} f (o : outcome A) : exists o', own_error f o o'.
Proof.
  destruct o as [a|e|].
  - destruct (f None) as [n|] eqn:E; eauto using @own_error.
  - destruct (f (Some e)) as [n|] eqn:E; eauto using @own_error.
  - eauto using @own_error.
Qed.
Lemma key_total v : exists o, key_means v o /\ o <> Panics.
Proof.
  induction v; try solve [eexists; split; [constructor|discriminate]].
  - eexists; split; [constructor; apply (proj1 (int_to_string_spec z))|discriminate].
  - destruct v as [t|]; (eexists; split; [constructor|discriminate]).
  - destruct IHv as (o & H & Ho). exists o. split; [constructor; exact H|exact Ho].
  - destruct IHv as (o & H & Ho). exists o. split; [constructor; exact H|exact Ho].
  - destruct IHv as (o & H & Ho). destruct (own_error_total f o) as (o' & Ho'). exists o'. split; [econstructor; eauto|].
    intros ->. inversion Ho'; subst. contradiction.
Qed.

Scheme sval_ind2 := Induction for sval Sort Prop
  with elems_ind2 := Induction for elems Sort Prop
  with entries_ind2 := Induction for entries Sort Prop
  with fields_ind2 := Induction for fields Sort Prop.
Combined Scheme sval_all_ind from sval_ind2, elems_ind2, entries_ind2, fields_ind2.

Lemma length_cases (len : option N) i : more_allowed len i \/ exists n, len = Some n /\ n <= i.
Proof.
  destruct len as [n|]; [|left; discriminate].
  destruct (N.lt_ge_cases i n) as [H|H]; [left; intros m E; injection E as <-; exact H|right; eauto].
Qed.
Lemma end_cases (len : option N) i : enough len i \/ exists n, len = Some n /\ i < n.
Proof.
  destruct len as [n|]; [|left; discriminate].
  destruct (N.lt_ge_cases i n) as [H|H]; [right; eauto|left; intros m E; injection E as <-; exact H].
Qed.

Lemma means_total :
  (forall v, careful v -> exists o, value_means v o) /\
  (forall b, careful_elems b -> forall len i, exists o, elems_mean len i b o) /\
  (forall b, careful_entries b -> forall len i, (exists o, entries_mean len i b o) /\ forall n, exists o, entry_means len i n b o) /\
  (forall b, careful_fields b -> forall len i, exists o, fields_mean len i b o).
Proof.
  apply sval_all_ind; cbn [careful careful_elems careful_entries careful_fields].
  - eauto using value_means.
  - intros z _. eexists. constructor. apply (proj1 (int_to_string_spec z)).
  - intros [t|] _; eauto using value_means.
  - eauto using value_means.
  - eauto using value_means.
  - intros bs _. assert (H : exists ts, Forall2 (fun b t => decimal_text (Z.of_N b) t) bs ts).
    { induction bs as [|b bs (ts & IH)]; [eauto|]. exists (int_to_string (Z.of_N b) :: ts). constructor; [apply int_to_string_spec|exact IH]. }
    destruct H as (ts & H). eauto using value_means.
  - eauto using value_means.
  - intros v IH Hc. destruct (IH Hc) as (o & H). eauto using value_means.
  - eauto using value_means.
  - eauto using value_means.
  - eauto using value_means.
  - intros name v IH Hc. destruct (IH Hc) as (o & H). eauto using value_means.
  - intros name i variant v IH Hc. destruct (IH Hc) as (o & H). eauto using value_means.
  - intros len b IH Hc. destruct (IH Hc len 0) as (o & H). eauto using value_means.
  - intros len b IH Hc. destruct (IH Hc (Some len) 0) as (o & H). eauto using value_means.
  - intros name len b IH Hc. destruct (IH Hc (Some len) 0) as (o & H). eauto using value_means.
  - intros name i variant len b IH Hc. destruct (IH Hc (Some len) 0) as (o & H). eauto using value_means.
  - intros len b IH Hc. destruct (IH Hc len 0) as ((o & H) & _). eauto using value_means.
  - intros name len b IH Hc. destruct (IH Hc len 0) as (o & H). eauto using value_means.
  - intros name i variant len b IH Hc. destruct (IH Hc len 0) as (o & H). eauto using value_means.
  - eauto using value_means.
  - intros v IH f Hc. destruct (IH Hc) as (o & H). destruct (own_error_total f o). eauto using value_means.
  - intros _ len i. destruct (end_cases len i) as [H|(n & -> & H)]; eauto using elems_mean.
  - eauto using elems_mean.
  - intros v IHv k IHk (Hv & Hk & Ha) len i. destruct (length_cases len i) as [H|(n & -> & H)].
    + destruct (IHv Hv) as ([j|e|] & Ho).
      * destruct (IHk None Hk len (i + 1)) as (o & Hk'). eauto using elems_mean.
      * destruct (Ha e) as (e' & He). eauto using elems_mean.
      * eauto using elems_mean.
    + destruct (Ha (SeCount n (i + 1))) as (e' & He). eauto using elems_mean.
  - intros _ len i. split; [|eauto using entry_means]. destruct (end_cases len i) as [H|(n & -> & H)]; eauto using entries_mean.
  - intros e _ len i. split; eauto using entries_mean, entry_means.
  - intros v IHv k IHk (Hv & Hk & Ha) len i. split; [|eauto using entry_means].
    destruct (length_cases len i) as [H|(n & -> & H)].
    + destruct (key_total v) as ([n|e|] & Ho & Hp); [| |contradiction].
      * destruct (proj2 (IHk None Hk len i) n) as (o & Hk'). eauto using entries_mean.
      * destruct (Ha e) as (e' & He). eauto using entries_mean.
    + destruct (Ha (SeCount n (i + 1))) as (e' & He). eauto using entries_mean.
  - intros v IHv k IHk (Hv & Hk & Ha) len i. split; [eauto using entries_mean|]. intros n.
    destruct (IHv Hv) as ([j|e|] & Ho).
    + destruct (proj1 (IHk None Hk len (i + 1))) as (o & Hk'). eauto using entry_means.
    + destruct (Ha e) as (e' & He). eauto using entry_means.
    + eauto using entry_means.
  - intros _ n i. destruct (N.lt_ge_cases i n); eauto using fields_mean.
  - eauto using fields_mean.
  - intros key v IHv k IHk (Hv & Hk & Ha) n i. destruct (N.lt_ge_cases i n) as [H|H].
    + destruct (IHv Hv) as ([j|e|] & Ho).
      * destruct (IHk None Hk n (i + 1)) as (o & Hk'). eauto using fields_mean.
      * destruct (Ha e) as (e' & He). eauto using fields_mean.
      * eauto using fields_mean.
    + destruct (Ha (SeCount n (i + 1))) as (e' & He). eauto using fields_mean.
Qed.

(** ** Where no value is allowed *)

(** Calls which begin a value *)
Definition begins_value (c : wcall) : Prop :=
  match c with
  | CNull | CBool _ | CString _ | CNumber _ | CFloat _ | CBeginArray | CBeginObject => True
  | _ => False
  end.
Definition blocked (cfg : wsettings) (s : wsession) : Prop :=
  forall c, valid_call c -> begins_value c -> fst (wstep cfg c s) <> RDone.

Definition not_done (x : wend (sres unit)) : Prop := x <> ERet (SrOk tt).

Lemma not_done_then cfg m f s : not_done (fst (ser_run cfg m s)) -> (forall e s', not_done (fst (ser_run cfg (f (SrErr e)) s'))) ->
  not_done (fst (ser_run cfg (sthen m f) s)).
Proof.
  intros H Hf. unfold sthen. rewrite ser_run_bind. destruct (ser_run cfg m s) as [x s']. cbn [fst snd] in *.
  destruct x as [[[]|e]|k| |]; cbn; [contradiction H; reflexivity|apply Hf| | |]; discriminate.
Qed.
Lemma not_done_bind cfg m f s : not_done (fst (ser_run cfg m s)) -> not_done (fst (ser_run cfg (sbind m f) s)).
Proof. intros H. apply not_done_then; [exact H|]. intros e s'. discriminate. Qed.
Lemma not_done_wuse cfg c s : blocked cfg s -> valid_call c -> begins_value c -> not_done (fst (ser_run cfg (wuse c) s)).
Proof.
  intros Hb Hv Hc. specialize (Hb c Hv Hc). unfold wuse. cbn [ser_run]. destruct (wstep cfg c s) as [r s']. cbn [fst] in Hb.
  destruct r; try contradiction; try discriminate. destruct (number_method c); discriminate.
Qed.

Lemma blocked_not_done cfg v : valid_sval v -> forall s, blocked cfg s -> not_done (fst (ser_run cfg (ser_value v) s)).
Proof.
  induction v; intros Hv st Hs; cbn [ser_value valid_sval] in *; try (apply not_done_wuse; [exact Hs|first [exact I|exact Hv|constructor; [exact Hv|constructor]]|exact I]);
    try (apply not_done_bind, not_done_wuse; [exact Hs|exact I|exact I]); auto.
  - discriminate.
  - apply not_done_then; [auto|]. intros e s'. unfold then_own_error. destruct (f _); discriminate.
Qed.

Lemma abandoned_blocked cfg s : abandoned s -> blocked cfg s.
Proof.
  intros Ha c Hv Hc. destruct (abandoned_step cfg s c Ha Hv) as [E|[E|E]]; rewrite E; discriminate.
Qed.
Lemma not_allowed_blocked cfg d s : sess_ok cfg d s -> ~ value_allowed (multi_top_level cfg) d -> blocked cfg s.
Proof.
  intros Hs Ha c Hv Hc. destruct c as [| | | |n|v|b| |z|[v|]|v| |bs|v| |]; try contradiction;
    try (rewrite (misuse_panics cfg d s _ Hs Hv); [discriminate|exact Ha]).
  cbn [wstep]. unfold number_call. cbn. destruct (ws_string s); discriminate.
Qed.

Lemma value_allowed_dec multi d : value_allowed multi d \/ ~ value_allowed multi d.
Proof.
  unfold value_allowed. destruct (d_string d); [right; intros [E _]; discriminate|].
  destruct (d_open d) as [|[items|ms [n|]] o].
  - destruct (d_top d); [auto|]. destruct multi; [auto|]. right. intros [_ [E|E]]; discriminate.
  - auto.
  - left. split; [reflexivity|discriminate].
  - right. intros [_ E]. contradiction.
Qed.
