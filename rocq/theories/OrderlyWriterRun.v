(** * Orderly closures of the simple writer do not cause a panic *)

From Verif Require Import Base Utf8Model SpecNumber SpecJson WriterModel SpecWriter WriterSession WriterRun
  SimpleWriterModel SpecSimpleWriter SimpleWriterErrors SimpleWriterRun SpecOrderlyWriter.
From Verif Require SerModel SpecSer SerRun.

(** ** [Serialize] implementations *)

Lemma own_error_panics {A} f (o o' : SpecSer.outcome A) : SpecSer.own_error f o o' -> o <> SpecSer.Panics -> o' <> SpecSer.Panics.
Proof. intros H Hn. destruct H; try discriminate. contradiction Hn. reflexivity. Qed.
Lemma map_panics {A B} (f : A -> B) o : o <> SpecSer.Panics -> SpecSer.map_outcome f o <> SpecSer.Panics.
Proof. intros H. destruct o; cbn; try discriminate. contradiction H. reflexivity. Qed.

Lemma alternates_never_panics :
  (forall v o, SpecSer.value_means v o -> alternates v -> o <> SpecSer.Panics) /\
  (forall len i b o, SpecSer.elems_mean len i b o -> alternates_elems b -> o <> SpecSer.Panics) /\
  (forall len i b o, SpecSer.entries_mean len i b o -> alternates_entries true b -> o <> SpecSer.Panics) /\
  (forall len i n b o, SpecSer.entry_means len i n b o -> alternates_entries false b -> o <> SpecSer.Panics) /\
  (forall len i b o, SpecSer.fields_mean len i b o -> alternates_fields b -> o <> SpecSer.Panics).
Proof.
  apply SerRun.means_ind; intros; cbn [alternates alternates_elems alternates_entries alternates_fields] in *;
    repeat match goal with H : _ /\ _ |- _ => destruct H end; try discriminate;
    try (eapply own_error_panics; [eassumption|auto]); try apply map_panics; auto;
    match goal with H : alternates ?v, H' : alternates ?v -> _ |- _ => contradiction (H' H); reflexivity end.
Qed.

(** ** Programs *)

(** The code does not panic; if it has ended without stored error, then [Q] *)
Definition pwp {A} (cfg : wsettings) (m : sw A) (s : wsession) (Q : A -> wsession -> Prop) : Prop :=
  match prog_run cfg (m None) s with
  | (ERet a, None, s') => Q a s'
  | (ERet a, Some _, s') => True
  | _ => False
  end.

Lemma pwp_ret {A} cfg (a : A) s (Q : A -> wsession -> Prop) : Q a s -> pwp cfg (swret a) s Q.
Proof. intros H. exact H. Qed.
Lemma pwp_bind {A B} cfg (m : sw A) (f : A -> sw B) s (Q : B -> wsession -> Prop) : (forall a, quiet anything (f a)) ->
  pwp cfg m s (fun a s' => pwp cfg (f a) s' Q) -> pwp cfg (swbind m f) s Q.
Proof.
  intros Hq H. unfold pwp, swbind in *. rewrite prog_run_bind. destruct (prog_run cfg (m None) s) as [[x err] s']. cbn [fst snd].
  destruct x as [a| | |]; try contradiction. destruct err as [e|].
  - destruct (Hq a e) as (b & E & _). rewrite E. exact I.
  - exact H.
Qed.
Lemma pwp_mono {A} cfg (m : sw A) s (Q Q' : A -> wsession -> Prop) : pwp cfg m s Q -> (forall a s', Q a s' -> Q' a s') -> pwp cfg m s Q'.
Proof. unfold pwp. destruct (prog_run cfg (m None) s) as [[[a| | |] [e|]] s']; auto. Qed.

(** A call which is not misuse, and which is expressible *)
Lemma pwp_delegate cfg c d s (Q : wresulting -> wsession -> Prop) : sess_ok cfg d s -> valid_call c ->
  ~ misuse (multi_top_level cfg) d c -> (forall bs, c <> CWrite bs) -> (json_writer_call c \/ d_string d <> None) ->
  (forall d' s', describes (multi_top_level cfg) d c d' -> success c RDone -> sess_ok cfg d' s' -> Q None s') ->
  pwp cfg (delegate c) s Q.
Proof.
  intros Hok Hv Hm Hw Hj H. unfold pwp, delegate. cbn [prog_run]. pose proof (step_outcome cfg d s c Hok Hv) as Ho.
  destruct (wstep cfg c s) as [r s'].
  destruct Ho as [(d' & Hd & [(Hs & Hk & _)|(e & He & _)])|[(Hm' & _)|[(_ & e & He & _)|[(Hn & Hds & _)|(_ & Ho & Hc)]]]].
  - cbn [fst snd] in *. destruct c as [| | | |n|v|b| |z|[v|]|v| |bs|v| |]; cbn in Hs; try (subst r; cbn; eapply H; eauto; reflexivity).
    + subst r. exact I.
    + destruct Hs as [[Hn ->]|[Hn ->]]; cbn; [|exact I]. eapply H; eauto. left. auto.
    + contradiction (Hw bs). reflexivity.
  - cbn in He. subst r. exact I.
  - contradiction.
  - cbn in He. subst r. exact I.
  - destruct Hj; contradiction.
  - injection Ho as -> ->. destruct c as [| | | |n|v|b| |z|[v|]|v| |bs|v| |]; try contradiction; exact I.
Qed.
Lemma pwp_delegate_write cfg bs d s (Q : swerr + nat -> wsession -> Prop) : sess_ok cfg d s -> Forall is_byte bs -> d_string d <> None ->
  (forall d' s', describes (multi_top_level cfg) d (CWrite bs) d' -> sess_ok cfg d' s' -> Q (inr (length bs)) s') ->
  pwp cfg (delegate_write bs) s Q.
Proof.
  intros Hok Hv Hds H. unfold pwp, delegate_write. cbn [prog_run]. pose proof (step_outcome cfg d s (CWrite bs) Hok Hv) as Ho.
  destruct (wstep cfg (CWrite bs) s) as [r s'].
  destruct Ho as [(d' & Hd & [(Hs & Hk & _)|(e & He & _)])|[(Hm' & _)|[(_ & e & He & _)|[(Hn & Hds' & _)|(_ & Ho & Hc)]]]]; try contradiction.
  - cbn in Hs. subst r. cbn. eapply H; eauto.
  - cbn in He. subst r. exact I.
  - cbn in He. subst r. exact I.
Qed.

(** ** Methods *)

(** After a method for a value: it is there; or a closure has ended with an error of its own *)
Definition written {X} (cfg : wsettings) (own : Prop) (d : wdoc) (x : X * wresulting) (s : wsession) : Prop :=
  (snd x = None /\ exists v, sess_ok cfg (add_value v d) s) \/ (snd x <> None /\ ~ own).

(** What is known about a call which writes a value *)
Definition value_call (c : wcall) : Prop :=
  match c with
  | CNull | CBool _ | CString _ | CNumber _ | CFloat _ | CNumberFromString _ => True
  | _ => False
  end.

Lemma pwp_simple {R} cfg c d s (own : Prop) : sess_ok cfg d s -> valid_call c -> value_allowed (multi_top_level cfg) d ->
  value_call c -> pwp cfg (@write_simple R c) s (written cfg own d).
Proof.
  intros Hok Hv Ha Hc. unfold write_simple. apply pwp_bind; [intros; apply quiet_ret; exact I|].
  eapply pwp_delegate; [exact Hok|exact Hv| | | |].
  - destruct c as [| | | |n|v|b| |z|[v|]|v| |bs|v| |]; cbn; try contradiction; tauto.
  - intros bs ->. exact Hc.
  - left. destruct c; cbn in *; try contradiction; exact I.
  - intros d' s' Hd Hs Hok'. apply pwp_ret. left. split; [reflexivity|].
    inversion Hd; subst; try contradiction; eauto.
    + destruct Hs as [[Hn _]|[_ E]]; [contradiction|discriminate].
    + discriminate Hs.
Qed.

Lemma pwp_sbody {R} cfg top o (f : sbody R) : forall acc s, valid_sbody f -> sess_ok cfg (Wdoc top o (Some acc)) s ->
  pwp cfg (run_sbody f) s (fun x s' =>
    (snd x = None \/ ~ no_own_error_string f) /\ exists acc', sess_ok cfg (Wdoc top o (Some acc')) s').
Proof.
  induction f as [r e|bs k IH|t k IH|k IH]; intros acc s Hv Hok; cbn [run_sbody].
  - apply pwp_ret. split; [|eauto]. cbn. destruct e; [right; discriminate|left; reflexivity].
  - destruct Hv as [Hb Hv]. apply pwp_bind; [intros; apply quiet_sbody|]. eapply pwp_delegate_write; [exact Hok|exact Hb|discriminate|].
    intros d' s' Hd Hok'. inversion Hd; subst. cbn in *. injection H0 as <-.
    eapply pwp_mono; [apply (IH (inr (length bs)) (acc ++ bs)); [apply Hv|exact Hok']|]. intros x s2 ([Hx|Hx] & Hx2); split; auto.
  - destruct Hv as [Hb Hv]. apply pwp_bind; [intros; apply quiet_sbody|].
    eapply pwp_delegate; [exact Hok|exact Hb|intros H; exact H|discriminate|right; discriminate|].
    intros d' s' Hd _ Hok'. inversion Hd; subst. cbn in *. injection H0 as <-.
    eapply pwp_mono; [eapply IH; [apply Hv|exact Hok']|]. intros x s2 ([Hx|Hx] & Hx2); split; auto.
  - apply pwp_bind; [intros; apply quiet_sbody|].
    eapply pwp_delegate; [exact Hok|exact I|intros H; exact H|discriminate|right; discriminate|].
    intros d' s' Hd _ Hok'. inversion Hd; subst. cbn in *.
    eapply pwp_mono; [eapply IH; [apply Hv|exact Hok']|]. intros x s2 ([Hx|Hx] & Hx2); split; auto.
Qed.

Lemma pwp_string_with {R} cfg (f : sbody R) d s : valid_sbody f -> sess_ok cfg d s -> value_allowed (multi_top_level cfg) d ->
  pwp cfg (write_string_with f) s (written cfg (no_own_error_string f) d).
Proof.
  intros Hv Hok Ha. unfold write_string_with. apply pwp_bind.
  { intros [e|]; [apply quiet_ret; exact I|]. eapply quiet_bind; [apply quiet_sbody|]. intros. quiets. }
  eapply pwp_delegate; [exact Hok|exact I|cbn; tauto|discriminate|left; exact I|].
  intros d' s' Hd _ Hok'. inversion Hd; subst. apply pwp_bind; [intros; quiets|].
  eapply pwp_mono; [eapply pwp_sbody; eauto|]. intros [r e] s2 (Hx & acc & Hok2). cbn [fst snd] in *.
  destruct e as [e|].
  - apply pwp_ret. right. split; [discriminate|]. destruct Hx as [Hx|Hx]; [discriminate|exact Hx].
  - apply pwp_bind; [intros; quiets|]. unfold pwp at 1. cbn [not_propagated prog_run].
    apply pwp_bind; [intros; quiets|].
    eapply pwp_delegate; [exact Hok2|exact I|intros H'; exact H'|discriminate|right; discriminate|].
    intros d3 s3 Hd3 _ Hok3. apply pwp_ret. left. split; [reflexivity|]. inversion Hd3; subst. cbn in *.
    exists (JStr s0). rewrite (SerRun.doc_eta d) by apply Ha. exact Hok3.
Qed.

Lemma pwp_serialize cfg v d s (Q : wresulting -> wsession -> Prop) : SpecSer.valid_sval v -> orderly_value v -> sess_ok cfg d s ->
  value_allowed (multi_top_level cfg) d ->
  (forall j s', sess_ok cfg (add_value j d) s' -> Q None s') -> pwp cfg (delegate_serialize v) s Q.
Proof.
  intros Hv [Hal Hc] Hok Ha H. unfold pwp, delegate_serialize. rewrite prog_run_bind, (prog_run_ser cfg (SerModel.ser_value v)).
  destruct (proj1 SerRun.means_total v Hc) as (o & Ho). pose proof (proj1 alternates_never_panics v o Ho Hal) as Hp.
  destruct (proj1 (SerRun.run_means cfg) v o Ho Hv d s Ha Hok (or_introl Hc)) as [Hit|(_ & e & s' & E)].
  - destruct o as [j|e|].
    + destruct Hit as (s' & E & Hok' & _). rewrite E. cbn [fst snd prog_run]. eapply H; eauto.
    + destruct Hit as (s' & E). rewrite E. exact I.
    + contradiction Hp. reflexivity.
  - rewrite E. exact I.
Qed.

(** [write_array] and [write_object] *)
Lemma pwp_array {R} cfg (m : sw (R * wresulting)) (own : Prop) d s : quiet anything m -> sess_ok cfg d s -> value_allowed (multi_top_level cfg) d ->
  (forall s', sess_ok cfg (Wdoc (d_top d) (OpenArr [] :: d_open d) None) s' ->
     pwp cfg m s' (fun x s2 => (snd x = None /\ exists items, sess_ok cfg (Wdoc (d_top d) (OpenArr items :: d_open d) None) s2) \/
                               (snd x <> None /\ ~ own))) ->
  pwp cfg (write_container CBeginArray CEndArray m) s (written cfg own d).
Proof.
  intros Hm Hok Ha H. unfold write_container. apply pwp_bind.
  { intros [e|]; [apply quiet_ret; exact I|]. eapply quiet_bind; [exact Hm|]. intros. quiets. }
  eapply pwp_delegate; [exact Hok|exact I|cbn; tauto|discriminate|left; exact I|].
  intros d' s' Hd _ Hok'. inversion Hd; subst. apply pwp_bind; [intros; quiets|].
  eapply pwp_mono; [apply H, Hok'|]. intros [r e] s2 [(Hx & items & Hok2)|(Hx & Hn)]; cbn [fst snd] in *.
  - subst e. apply pwp_bind; [intros; quiets|].
    eapply pwp_delegate; [exact Hok2|exact I| |discriminate|left; exact I|].
    + cbn. intros [Hf|Hf]; [apply Hf; reflexivity|apply Hf; eauto].
    + intros d3 s3 Hd3 _ Hok3. apply pwp_ret. left. split; [reflexivity|]. inversion Hd3; subst. cbn in *.
      match goal with E : _ :: _ = _ :: _ |- _ => injection E as <- <- end. exists (JArr items). rewrite (SerRun.doc_eta d) by apply Ha. exact Hok3.
  - destruct e as [e|]; [|contradiction Hx; reflexivity]. apply pwp_ret. right. auto.
Qed.
Lemma pwp_object {R} cfg (m : sw (R * wresulting)) (own : Prop) d s : quiet anything m -> sess_ok cfg d s -> value_allowed (multi_top_level cfg) d ->
  (forall s', sess_ok cfg (Wdoc (d_top d) (OpenObj [] None :: d_open d) None) s' ->
     pwp cfg m s' (fun x s2 => (snd x = None /\ exists ms, sess_ok cfg (Wdoc (d_top d) (OpenObj ms None :: d_open d) None) s2) \/
                               (snd x <> None /\ ~ own))) ->
  pwp cfg (write_container CBeginObject CEndObject m) s (written cfg own d).
Proof.
  intros Hm Hok Ha H. unfold write_container. apply pwp_bind.
  { intros [e|]; [apply quiet_ret; exact I|]. eapply quiet_bind; [exact Hm|]. intros. quiets. }
  eapply pwp_delegate; [exact Hok|exact I|cbn; tauto|discriminate|left; exact I|].
  intros d' s' Hd _ Hok'. inversion Hd; subst. apply pwp_bind; [intros; quiets|].
  eapply pwp_mono; [apply H, Hok'|]. intros [r e] s2 [(Hx & ms & Hok2)|(Hx & Hn)]; cbn [fst snd] in *.
  - subst e. apply pwp_bind; [intros; quiets|].
    eapply pwp_delegate; [exact Hok2|exact I| |discriminate|left; exact I|].
    + cbn. intros [Hf|Hf]; [apply Hf; reflexivity|apply Hf; eauto].
    + intros d3 s3 Hd3 _ Hok3. apply pwp_ret. left. split; [reflexivity|]. inversion Hd3; subst. cbn in *.
      match goal with E : _ :: _ = _ :: _ |- _ => injection E as <- <- end. exists (JObj ms). rewrite (SerRun.doc_eta d) by apply Ha. exact Hok3.
  - destruct e as [e|]; [|contradiction Hx; reflexivity]. apply pwp_ret. right. auto.
Qed.

Lemma quiet_member {R} (m : member R) : quiet anything (run_member m).
Proof.
  destruct m as [n o|n f]; cbn [run_member]; (eapply quiet_bind; [apply delegate_strict|]); intros [e|] _; try (apply quiet_ret; exact I).
  - apply quiet_wop.
  - eapply (quiet_bind anything).
    + destruct f as [r e|o k]; cbn [run_mbody]; [apply quiet_ret; exact I|].
      eapply quiet_bind; [apply quiet_wop|]. intros. apply quiet_ret. exact I.
    + intros. quiets.
Qed.

Lemma run_orderly R cfg :
  (forall o : wop R, valid_wop o -> orderly_write o -> forall d s, sess_ok cfg d s -> value_allowed (multi_top_level cfg) d ->
     pwp cfg (run_wop o) s (written cfg (no_own_error o) d)) /\
  (forall b : abody R, valid_abody b -> orderly_array b -> forall top items o s, sess_ok cfg (Wdoc top (OpenArr items :: o) None) s ->
     pwp cfg (run_abody b) s (fun x s' => (snd x = None /\ exists items', sess_ok cfg (Wdoc top (OpenArr items' :: o) None) s') \/
       (snd x <> None /\ ~ no_own_error_array b))) /\
  (forall b : obody R, valid_obody b -> orderly_object b -> forall top ms o s, sess_ok cfg (Wdoc top (OpenObj ms None :: o) None) s ->
     pwp cfg (run_obody b) s (fun x s' => (snd x = None /\ exists ms', sess_ok cfg (Wdoc top (OpenObj ms' None :: o) None) s') \/
       (snd x <> None /\ ~ no_own_error_object b))) /\
  (forall m : member R, valid_member m -> orderly_member m -> forall top ms o s, sess_ok cfg (Wdoc top (OpenObj ms None :: o) None) s ->
     pwp cfg (run_member m) s (fun x s' => (snd x = None /\ exists ms', sess_ok cfg (Wdoc top (OpenObj ms' None :: o) None) s') \/
       (snd x <> None /\ ~ no_own_error_member m))) /\
  (forall b : mbody R, valid_mbody b -> orderly_member_value b -> forall n top ms o s, sess_ok cfg (Wdoc top (OpenObj ms (Some n) :: o) None) s ->
     pwp cfg (run_mbody b) s (fun x s' =>
       (snd (fst x) = None /\ snd x = false /\ sess_ok cfg (Wdoc top (OpenObj ms (Some n) :: o) None) s') \/
       (snd (fst x) = None /\ snd x = true /\ exists v, sess_ok cfg (Wdoc top (OpenObj (ms ++ [(n, v)]) None :: o) None) s') \/
       (snd (fst x) <> None /\ ~ no_own_error_value b))).
Proof.
  apply wop_all_ind.
  - intros _ _ d s Hok Ha. apply pwp_simple; auto; exact I.
  - intros b _ _ d s Hok Ha. apply pwp_simple; auto; exact I.
  - intros t Hv _ d s Hok Ha. apply pwp_simple; auto; exact I.
  - intros z _ _ d s Hok Ha. apply pwp_simple; auto; exact I.
  - intros [v|] Hv _ d s Hok Ha; apply pwp_simple; auto; exact I.
  - intros t Hv _ d s Hok Ha. apply pwp_simple; auto; exact I.
  - intros f Hv _ d s Hok Ha. apply pwp_string_with; auto.
  - intros f IH Hv Ho d s Hok Ha. cbn [run_wop]. apply pwp_array; auto; [apply quiet_abody|].
    intros s' Hok'. apply (IH Hv Ho _ []), Hok'.
  - intros f IH Hv Ho d s Hok Ha. cbn [run_wop]. apply pwp_object; auto; [apply quiet_obody|].
    intros s' Hok'. apply (IH Hv Ho _ []), Hok'.
  - intros v Hv Ho d s Hok Ha. cbn [run_wop]. apply pwp_bind; [intros; apply quiet_ret; exact I|].
    eapply pwp_serialize; eauto. intros j s' Hok'. apply pwp_ret. left. split; [reflexivity|eauto].
  - intros r e _ _ top items o s Hok. apply pwp_ret. cbn. destruct e; [right; split; discriminate|left; split; eauto].
  - intros w IHw k IHk [Hv1 Hv2] (Ho1 & Ho2 & Ho3) top items o s Hok. cbn [run_abody]. apply pwp_bind; [intros; apply quiet_abody|].
    eapply pwp_mono; [apply (IHw Hv1 Ho1 _ s Hok); split; [reflexivity|exact I]|].
    intros [x e] s' [(E & v & Hok')|(E & Hn)]; cbn [fst snd] in *.
    + subst e. eapply pwp_mono; [apply (IHk x None (Hv2 _ _) (Ho2 x) top (items ++ [v])); exact Hok'|].
      intros y s2 [H|(H1 & H2)]; [left; exact H|right; split; [exact H1|]]. intros [_ Hx]. apply H2, Hx.
    + destruct e as [e|]; [|contradiction E; reflexivity]. destruct Ho3 as [Ho3|Ho3]; [contradiction|].
      destruct (Ho3 x e) as (r & e' & ->). apply pwp_ret. right. split; [discriminate|]. intros [Hx _]. contradiction.
  - intros r e _ _ top ms o s Hok. apply pwp_ret. cbn. destruct e; [right; split; discriminate|left; split; eauto].
  - intros m IHm k IHk [Hv1 Hv2] (Ho1 & Ho2 & Ho3) top ms o s Hok. cbn [run_obody]. apply pwp_bind; [intros; apply quiet_obody|].
    eapply pwp_mono; [apply (IHm Hv1 Ho1 top ms o s Hok)|].
    intros [x e] s' [(E & ms' & Hok')|(E & Hn)]; cbn [fst snd] in *.
    + subst e. eapply pwp_mono; [apply (IHk x None (Hv2 _ _) (Ho2 x) top ms'); exact Hok'|].
      intros y s2 [H|(H1 & H2)]; [left; exact H|right; split; [exact H1|]]. intros [_ Hx]. apply H2, Hx.
    + destruct e as [e|]; [|contradiction E; reflexivity]. destruct Ho3 as [Ho3|Ho3]; [contradiction|].
      destruct (Ho3 x e) as (r & e' & ->). apply pwp_ret. right. split; [discriminate|]. intros [Hx _]. contradiction.
  - intros n w IHw [Hv1 Hv2] Ho top ms o s Hok. cbn [run_member]. apply pwp_bind.
    { intros [e|]; [apply quiet_ret; exact I|]. apply quiet_wop. }
    eapply pwp_delegate; [exact Hok|exact Hv1| |discriminate|left; exact I|].
    + cbn. intros [Hf|Hf]; [apply Hf; reflexivity|apply Hf; eauto].
    + intros d' s' Hd _ Hok'. inversion Hd; subst. cbn in *. match goal with E : _ :: _ = _ :: _ |- _ => injection E as <- <- end.
      eapply pwp_mono; [apply (IHw Hv2 Ho _ s' Hok'); split; [reflexivity|discriminate]|].
      intros x s2 [(E & v & Hok2)|H]; [left; split; [exact E|]|right; exact H]. eexists. exact Hok2.
  - intros n f IHf [Hv1 Hv2] Ho top ms o s Hok. pose proof (quiet_member (MMember n f)) as Hq. cbn [run_member] in *. apply pwp_bind.
    { intros [e|]; [apply quiet_ret; exact I|].
      eapply (quiet_bind anything).
      - destruct f as [r e|w k]; cbn [run_mbody]; [apply quiet_ret; exact I|].
        eapply quiet_bind; [apply quiet_wop|]. intros. apply quiet_ret. exact I.
      - intros. quiets. }
    eapply pwp_delegate; [exact Hok|exact Hv1| |discriminate|left; exact I|].
    + cbn. intros [Hf|Hf]; [apply Hf; reflexivity|apply Hf; eauto].
    + intros d' s' Hd _ Hok'. inversion Hd; subst. cbn in *. match goal with E : _ :: _ = _ :: _ |- _ => injection E as <- <- end.
      apply pwp_bind; [intros; quiets|].
      eapply pwp_mono; [apply (IHf Hv2 Ho n top ms o s' Hok')|].
      intros [[r e] b] s2 [(E & Eb & Hok2)|[(E & Eb & v & Hok2)|(E & Hn)]]; cbn [fst snd] in *.
      * subst e b. cbn [negb]. apply pwp_bind; [intros; quiets|].
        eapply pwp_delegate; [exact Hok2|exact I| |discriminate|left; exact I|].
        -- cbn. intros Hf. apply Hf. split; [reflexivity|discriminate].
        -- intros d3 s3 Hd3 _ Hok3. apply pwp_ret. left. split; [reflexivity|]. inversion Hd3; subst. eexists. exact Hok3.
      * subst e b. apply pwp_ret. left. split; [reflexivity|eauto].
      * destruct e as [e|]; [|contradiction E; reflexivity]. apply pwp_ret. right. split; [discriminate|exact Hn].
  - intros r e _ _ n top ms o s Hok. apply pwp_ret. cbn. destruct e; [right; right; split; discriminate|left; auto].
  - intros w IHw k Hv [Ho1 Ho2] n top ms o s Hok. cbn [run_mbody]. apply pwp_bind; [intros; apply quiet_ret; exact I|].
    eapply pwp_mono; [apply (IHw Hv Ho1 _ s Hok); split; [reflexivity|discriminate]|].
    intros [x e] s' [(E & v & Hok')|(E & Hn)]; cbn [fst snd] in *; apply pwp_ret; cbn [fst snd].
    + subst e. destruct (snd (k x None)) eqn:Ek.
      * right; right. split; [discriminate|]. intros [_ Hx]. rewrite Hx in Ek. discriminate.
      * right; left. splits; auto. eexists. exact Hok'.
    + destruct e as [e|]; [|contradiction E; reflexivity]. right; right. destruct Ho2 as [Ho2|Ho2]; [contradiction|].
      split; [apply Ho2|]. intros [Hx _]. contradiction.
Qed.

Lemma orderly_returns {R} cfg out (o : wop R) : received out = [] -> valid_wop o -> orderly_write o ->
  exists x, fst (simple_write cfg out o) = ERet x.
Proof.
  intros Ho Hv Hor. unfold simple_write, simple_writer. rewrite run_then_finish.
  pose proof (proj1 (run_orderly R cfg) o Hv Hor empty_doc (new_session out) (new_session_ok cfg out Ho)) as H.
  assert (Ha : value_allowed (multi_top_level cfg) empty_doc) by (split; [reflexivity|left; reflexivity]).
  specialize (H Ha). unfold pwp in H.
  destruct (prog_run cfg (run_wop o None) (new_session out)) as [[y err] s']. cbn [fst snd].
  destruct y as [[z e]| | |]; try contradiction.
  destruct e as [e|]; [cbn; eauto|]. destruct err as [e|]; [cbn; eauto|].
  destruct H as [(_ & v & Hok)|(H & _)]; [|contradiction H; reflexivity].
  cbn [then_finish wclient_run].
  destruct (wfinish_ok cfg _ s' Hok) as [(_ & [(o2 & E2 & _)|(e & o2 & E2 & _)])|(Hc & _)].
  - rewrite E2. cbn. eauto.
  - rewrite E2. cbn. eauto.
  - contradiction Hc. split; [reflexivity|]. split; [reflexivity|discriminate].
Qed.
