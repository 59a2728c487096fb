(** * Looking ahead does not change what follows; errors after which the client
      may continue leave the reader as looking ahead does *)

From Verif Require Import Base Utf8Model NumberModel SourceModel SourceProofs ReaderModel ReaderScan ReaderLex
  ReaderMid ReaderAgree ReaderSess ReaderSafe ReaderOut SpecSessions.

(** ** Sessions and sources which can occur *)

Definition live (E : env) (inp : bytes) (t : tail_end) (st : session) (a : asrc) : Prop :=
  exists d, srel t st a d /\ dinv E inp d.

Lemma live_start s inp t : Forall is_byte inp ->
  live (Env s (enough_fuel inp)) inp t (session_new s) (asrc_new inp t).
Proof.
  intros H. exists (DRun (rstate_new s) None inp). split.
  - cbn. splits; [reflexivity| |exact I]. exists false. reflexivity.
  - cbn. split; [|exact I]. apply inv_start. exact H.
Qed.

Lemma live_call E inp t c st a : (length inp < fuel E)%nat -> live E inp t st a ->
  exists o st' a', arun (client_call E c st) a = Some ((o, st'), a') /\ sane o /\ live E inp t st' a'.
Proof.
  intros Hf (d & Hs & Hd).
  pose proof (call_good E inp t c d Hf Hd) as Hg.
  assert (Hf0 : (0 < fuel E)%nat) by lia.
  pose proof (client_call_agree E t c st a d Hf0 Hs) as Hc. unfold call_ok in Hc.
  pose proof (d_call_sane E t c d) as Hsane.
  destruct (d_call E t c d) as [o d1]. cbn [fst snd] in *.
  assert (Hb : d1 <> DBug) by (intros ->; exact Hg).
  destruct (Hc Hb) as (o1 & st1 & a1 & Hrun & Hm & Hr).
  exists o1, st1, a1. split; [exact Hrun|]. split; [apply (matches_sane _ _ Hm Hsane)|].
  exists d1. auto.
Qed.

Lemma live_calls E inp t cs : (length inp < fuel E)%nat -> forall st a, live E inp t st a ->
  exists os st' a', arun (client_calls E cs st) a = Some ((os, st'), a') /\ length os = length cs /\
    Forall sane os /\ live E inp t st' a'.
Proof.
  intros Hf. induction cs as [|c cs IH]; intros st a Hl; cbn [client_calls].
  - exists [], st, a. splits; auto.
  - destruct (live_call E inp t c st a Hf Hl) as (o & st1 & a1 & H1 & H2 & H3).
    destruct (IH st1 a1 H3) as (os & st2 & a2 & H4 & H5 & H6 & H7).
    exists (o :: os), st2, a2. rewrite arun_bind, H1. cbn [fst snd]. rewrite arun_bind, H4. cbn. splits; auto.
Qed.

Lemma calls_app E cs1 cs2 : forall st a,
  arun (client_calls E (cs1 ++ cs2) st) a =
  match arun (client_calls E cs1 st) a with
  | Some ((os1, st1), a1) =>
    match arun (client_calls E cs2 st1) a1 with
    | Some ((os2, st2), a2) => Some ((os1 ++ os2, st2), a2)
    | None => None
    end
  | None => None
  end.
Proof.
  induction cs1 as [|c cs1 IH]; intros st a; cbn [client_calls app].
  - cbn [arun]. destruct (arun (client_calls E cs2 st) a) as [[[os st1] a1]|]; reflexivity.
  - rewrite !arun_bind. destruct (arun (client_call E c st) a) as [[[o st1] a1]|]; [|reflexivity].
    cbn [fst snd]. rewrite !arun_bind, IH.
    destruct (arun (client_calls E cs1 st1) a1) as [[[os1 st2] a2]|]; [|reflexivity]. cbn [arun fst snd].
    destruct (arun (client_calls E cs2 st2) a2) as [[[os2 st3] a3]|]; reflexivity.
Qed.

(** The session of a program as a run *)
Definition fenv (s : settings) (evs : list event) : env := Env s (enough_fuel (fst (supplied evs))).
Lemma session_run s evs cs : Forall is_byte (fst (supplied evs)) ->
  exists st a, arun (client_calls (fenv s evs) cs (session_new s)) (asrc_new (fst (supplied evs)) (snd (supplied evs))) =
    Some ((read_session s evs cs, st), a) /\ live (fenv s evs) (fst (supplied evs)) (snd (supplied evs)) st a.
Proof.
  intros H.
  destruct (live_calls (fenv s evs) (fst (supplied evs)) (snd (supplied evs)) cs
    ltac:(cbn; unfold enough_fuel; lia) _ _ (live_start s _ _ H)) as (os & st & a & Hr & _ & _ & Hl).
  exists st, a. split; [|exact Hl]. unfold read_session.
  destruct (refines _ _ _ _ _ (rel_new evs) Hr) as (c' & Hc & _). unfold fenv in *. rewrite Hc. exact Hr.
Qed.

Lemma xget {B} (f : rstate -> M B) s a : exec (bind get_state f) s a = exec (f s) s a.
Proof. reflexivity. Qed.
Lemma xret {A B} (x : A) (f : A -> M B) s a : exec (bind (ret x) f) s a = exec (f x) s a.
Proof. reflexivity. Qed.
Lemma xmisuse {B} c (f : unit -> M B) s a : exec (bind (misuse_if c) f) s a =
  if c then Some ((Panic Misuse, s), a) else exec (f tt) s a.
Proof. destruct c; reflexivity. Qed.
Lemma xupdate {B} g (f : unit -> M B) s a : exec (bind (update g) f) s a = exec (f tt) (g s) a.
Proof. reflexivity. Qed.

(** ** Looking ahead *)

Definition peeks_to (E : env) (s : rstate) (a : asrc) (s' : rstate) (a' : asrc) : Prop :=
  exists op, exec (peek_internal_optional E) s a = Some ((Ok op, s'), a') /\
    (op = None -> expects_member_value s' = false).

Definition looked (E : env) (s : rstate) (a : asrc) (s' : rstate) (a' : asrc) : Prop :=
  exists op, exec (peek_internal_optional E) s a = Some ((Ok op, s'), a') /\ same s s' /\
    exec (peek_internal_optional E) s' a' = Some ((Ok op, s'), a').

Lemma ws_known E k : forall f s a s' a', exec (skip_whitespace_loop E f k) s a = Some ((Ok None, s'), a') ->
  a_known a' = true /\ a_rest a' = [] /\ a_tail a' = TEof.
Proof.
  induction f as [|f IH]; intros s a s' a' H; cbn [skip_whitespace_loop] in H; [discriminate|].
  rewrite exec_bind in H. destruct (exec (skip_to E _ None) s a) as [[[[x|e|p|] s1] a1]|]; try discriminate.
  rewrite exec_bind in H. unfold exec at 1, peek_byte in H. cbn [arun] in H.
  destruct (a_peek a1) as [[r a2]|] eqn:Ep; [|discriminate].
  destruct r as [e| |b]; cbn [from_peek arun] in H; [discriminate| |].
  - assert (Hk : a_known a2 = true /\ a_rest a2 = [] /\ a_tail a2 = TEof).
    { unfold a_peek in Ep. destruct (a_failed a1); [discriminate|]. unfold a_peek_res in Ep. destruct (a_mode a1).
      - destruct (a_rest a1) eqn:Er; [|discriminate]. destruct (a_tail a1) eqn:Et; [|discriminate].
        injection Ep as <-. auto.
      - discriminate.
      - destruct (a_known a1) eqn:Ek; [|discriminate]. destruct (a_rest a1) eqn:Er; [|discriminate].
        destruct (a_tail a1) eqn:Et; [|discriminate]. injection Ep as <-. auto. }
    rewrite exec_bind in H. destruct k; cbn in H; [discriminate|]. injection H as <- <-. exact Hk.
  - destruct (b =? B_SLASH); [|discriminate]. destruct (negb _); [discriminate|].
    rewrite !exec_bind in H. destruct (exec skip_peeked_byte s1 a2) as [[[[x2|e|p|] s2] a3]|]; try discriminate.
    rewrite exec_bind in H. destruct (exec (update _) s2 a3) as [[[[x3|e|p|] s3] a4]|]; try discriminate.
    rewrite exec_bind in H. destruct (exec (read_byte _) s3 a4) as [[[[b2|e|p|] s4] a5]|]; try discriminate.
    destruct (b2 =? B_STAR).
    + rewrite exec_bind in H. destruct (exec (update _) s4 a5) as [[[[x4|e|p|] s5] a6]|]; try discriminate.
      rewrite exec_bind in H. destruct (exec (skip_to_block_comment_end E) s5 a6) as [[[[x5|e|p|] s6] a7]|]; try discriminate.
      exact (IH _ _ _ _ H).
    + destruct (b2 =? B_SLASH); [|discriminate].
      rewrite exec_bind in H. destruct (exec (update _) s4 a5) as [[[[x4|e|p|] s5] a6]|]; try discriminate.
      rewrite exec_bind in H. destruct (exec (skip_to_line_comment_end E k) s5 a6) as [[[[x5|e|p|] s6] a7]|]; try discriminate.
      exact (IH _ _ _ _ H).
Qed.

(** At the end of the input *)
Lemma ws_at_end E s : (0 < fuel E)%nat ->
  exec (skip_whitespace E None) s (At [] TEof true) = Some ((Ok None, s), At [] TEof true).
Proof.
  intros Hf. unfold skip_whitespace. destruct E as [c f]. cbn [fuel] in *. destruct f as [|f]; [lia|].
  cbn [skip_whitespace_loop]. rewrite exec_bind. unfold skip_to. cbn [fuel skip_to_loop]. rewrite exec_bind. reflexivity.
Qed.

Lemma peek_optional_looked E inp t s r kn s' a' : (length inp < fuel E)%nat -> inv E inp s r ->
  peeks_to E s (At r t kn) s' a' -> looked E s (At r t kn) s' a'.
Proof.
  intros Hf Hinv (op & H & Hn). exists op. split; [exact H|].
  pose proof (agree_peek_optional E t s r kn) as Ha. pose proof (peek_optional_good E inp t s r Hf Hinv) as Hg.
  destruct (d_peek_optional E t s r) as [x s1 r1|e s1 r1|[n|]| |] eqn:Ed; cbn [does good] in *.
  - destruct Ha as (kn' & Ha). rewrite Ha in H. injection H as Hx1 Hx2 Hx3. subst x s1 a'.
    destruct Hg as (Hinv1 & Hs & Hact & Hmu & Hp). split; [exact Hs|].
    assert (Hact' : string_reader_active s' = false) by (destruct Hs as (_ & _ & _ & -> & _); exact Hact).
    unfold peek_internal_optional. rewrite xget, xmisuse, Hact', Hp.
    destruct op as [p|]; [reflexivity|].
    specialize (Hn eq_refl).
    (* the end of the input *)
    assert (Hx : exists s0 a0, exec (skip_whitespace E None) s0 a0 = Some ((Ok None, s'), At r1 t kn') /\
                   is_behind_top_level s' && negb (allow_multiple_top_level (cfg E)) = false).
    { assert (Hb : is_behind_top_level s' = is_behind_top_level s)
        by (unfold is_behind_top_level; destruct Hs as (-> & _ & -> & _); reflexivity).
      rewrite Hb. unfold peek_internal_optional in Ha. rewrite xget, xmisuse, Hact in Ha.
      destruct (peeked s) as [p|]; [cbn in Ha; congruence|].
      rewrite xmisuse in Ha.
      destruct (is_behind_top_level s && negb (allow_multiple_top_level (cfg E))); [discriminate|].
      rewrite exec_bind in Ha.
      destruct (exec (if expects_member_value s then after_name E else ret tt) s (At r t kn)) as [[[[y|e|k|] s2] a2]|]; try discriminate.
      rewrite exec_bind in Ha.
      destruct (exec (skip_whitespace E None) s2 a2) as [[[[[b|]|e|k|] s3] a3]|] eqn:Ew; try discriminate.
      - unfold peek_after_ws in Ha. exfalso. revert Ha. rewrite xget.
        assert (Hfin : forall c m p b s4 a4 s5 a5, exec (finish_peek E c m p b) s4 a4 <> Some ((Ok None, s5), a5)).
        { intros c m p b0 s4 a4 s5 a5 Hc. unfold finish_peek in Hc. rewrite exec_bind in Hc.
          destruct (exec _ s4 a4) as [[[[y2|e|k|] s6] a6]|]; try discriminate.
          rewrite exec_bind in Hc. destruct (exec _ s6 a6) as [[[[y3|e|k|] s7] a7]|]; try discriminate. }
        destruct (b =? B_COMMA).
        + destruct (negb _); [discriminate|]. rewrite exec_bind.
          destruct (exec skip_peeked_byte s3 a3) as [[[[y2|e|k|] s6] a6]|]; try discriminate.
          rewrite exec_bind. destruct (exec (update _) s6 a6) as [[[[y3|e|k|] s7] a7]|]; try discriminate.
          rewrite exec_bind. destruct (exec (skip_whitespace_no_eof E _) s7 a7) as [[[[y4|e|k|] s8] a8]|]; try discriminate.
          rewrite exec_bind. destruct (exec (peek_token s3 _) s8 a8) as [[[[y5|e|k|] s9] a9]|]; try discriminate.
          apply Hfin.
        + rewrite exec_bind. destruct (exec (peek_token s3 _) s3 a3) as [[[[y5|e|k|] s9] a9]|]; try discriminate.
          apply Hfin.
      - injection Ha as -> ->. eauto. }
    destruct Hx as (s0 & a0 & Hx & Hb). pose proof (ws_known E None _ _ _ _ _ Hx) as (Hk & Hr & Ht). cbn in Hk, Hr, Ht. subst kn' r1 t.
    rewrite xmisuse, Hb, Hn, xret, exec_bind, ws_at_end; [reflexivity|lia].
  - destruct Ha as (Hr & kn' & Ha). congruence.
  - destruct Ha as (l & s2 & a2 & Ha). congruence.
  - destruct Ha as (e & s2 & a2 & Ha & _). congruence.
  - destruct Ha as (s2 & a2 & Ha). congruence.
  - destruct Hg.
Qed.

(** ** Functions which look ahead first *)

Definition alike {A : Type} (x y : option (res reader_error A * rstate * asrc)) : Prop :=
  x = y \/ exists s a s' a', x = Some ((Panic Misuse, s), a) /\ y = Some ((Panic Misuse, s'), a').
Definition absorb {A : Type} (E : env) (m : M A) : Prop := forall s a s' a', looked E s a s' a' ->
  alike (exec m s a) (exec m s' a').

Lemma absorb_peek_optional E : absorb E (peek_internal_optional E).
Proof. intros s a s' a' (op & H1 & _ & H2). left. congruence. Qed.
Lemma absorb_bind {A B} E (m : M A) (f : A -> M B) : absorb E m -> absorb E (bind m f).
Proof.
  intros H s a s' a' Hl. rewrite !exec_bind. destruct (H _ _ _ _ Hl) as [->|(s1 & a1 & s2 & a2 & -> & ->)].
  - left. reflexivity.
  - right. eauto 6.
Qed.
Lemma absorb_get {B} E (f : rstate -> M B) : (forall s s', same s s' -> f s = f s') -> (forall s, absorb E (f s)) ->
  absorb E (bind get_state f).
Proof.
  intros Hs Hf s a s' a' Hl. rewrite !xget. assert (Hss : same s s') by (destruct Hl as (? & _ & ? & _); assumption).
  rewrite <- (Hs _ _ Hss). apply Hf. exact Hl.
Qed.
Lemma absorb_misuse {B} E c (f : unit -> M B) : absorb E (f tt) -> absorb E (bind (misuse_if c) f).
Proof.
  intros H s a s' a' Hl. rewrite !xmisuse. destruct c; [right; eauto 6|]. apply H. exact Hl.
Qed.
Lemma absorb_ret {A B} E (x : A) (f : A -> M B) : absorb E (f x) -> absorb E (bind (ret x) f).
Proof. intros H s a s' a' Hl. rewrite !xret. apply H. exact Hl. Qed.
Lemma absorb_assoc {A B C} E (m : M A) (f : A -> M B) (g : B -> M C) :
  absorb E (bind m (fun x => bind (f x) g)) -> absorb E (bind (bind m f) g).
Proof.
  intros H s a s' a' Hl. specialize (H _ _ _ _ Hl).
  rewrite !exec_bind in *. destruct (exec m s a) as [[[[x|e|k|] s1] a1]|], (exec m s' a') as [[[[x'|e'|k'|] s1'] a1']|];
    rewrite ?exec_bind in *; exact H.
Qed.

Ltac by_same := let s := fresh in let s' := fresh in let H := fresh in intros s s' H;
  unfold is_in_array, expects_member_value, is_behind_top_level, is_in_object;
  let H1 := fresh in let H2 := fresh in let H3 := fresh in let H4 := fresh in let H5 := fresh in
  destruct H as (H1 & H2 & H3 & H4 & H5); rewrite ?H1, ?H2, ?H3, ?H4, ?H5; reflexivity.

Lemma absorb_peek_internal E : absorb E (peek_internal E).
Proof. apply absorb_bind, absorb_peek_optional. Qed.
Lemma absorb_peek E : absorb E (peek E).
Proof. apply absorb_get; [by_same|]. intros s0. apply absorb_misuse, absorb_bind, absorb_peek_internal. Qed.
Lemma absorb_start E t d : absorb E (start_expected_value_type E t d).
Proof. apply absorb_get; [by_same|]. intros s0. apply absorb_misuse, absorb_bind, absorb_peek_internal. Qed.
Lemma absorb_begin_array E : absorb E (begin_array E).
Proof. apply absorb_bind, absorb_bind, absorb_start. Qed.
Lemma absorb_begin_object E : absorb E (begin_object E).
Proof. apply absorb_bind, absorb_bind, absorb_start. Qed.
Lemma absorb_end_array E : absorb E (end_array E).
Proof. apply absorb_get; [by_same|]. intros s0. apply absorb_misuse, absorb_bind, absorb_peek_internal. Qed.
Lemma absorb_end_object E : absorb E (end_object E).
Proof. apply absorb_get; [by_same|]. intros s0. apply absorb_misuse, absorb_misuse, absorb_bind, absorb_peek_internal. Qed.
Lemma absorb_has_next E : absorb E (has_next E).
Proof.
  apply absorb_get; [by_same|]. intros s0. apply absorb_misuse. destruct (stack s0).
  - apply absorb_assoc, absorb_misuse, absorb_assoc, absorb_misuse, absorb_bind, absorb_peek_optional.
  - apply absorb_bind, absorb_bind, absorb_peek_internal.
Qed.
Lemma absorb_before_name E : absorb E (before_name E).
Proof. apply absorb_get; [by_same|]. intros s0. apply absorb_misuse, absorb_misuse, absorb_bind, absorb_has_next. Qed.
Lemma absorb_next_name E : absorb E (next_name E).
Proof. apply absorb_bind, absorb_before_name. Qed.
Lemma absorb_next_name_owned E : absorb E (next_name_owned E).
Proof. apply absorb_bind, absorb_before_name. Qed.
Lemma absorb_skip_name E : absorb E (skip_name E).
Proof. apply absorb_bind, absorb_before_name. Qed.
Lemma absorb_next_bool E : absorb E (next_bool E).
Proof. apply absorb_bind, absorb_start. Qed.
Lemma absorb_next_null E : absorb E (next_null E).
Proof. apply absorb_bind, absorb_start. Qed.
Lemma absorb_next_string E : absorb E (next_string E).
Proof. apply absorb_bind, absorb_start. Qed.
Lemma absorb_next_str E : absorb E (next_str E).
Proof. apply absorb_bind, absorb_start. Qed.
Lemma absorb_next_string_reader E : absorb E (next_string_reader E).
Proof. apply absorb_bind, absorb_start. Qed.
Lemma absorb_number_bytes E r : absorb E (read_number_bytes E r).
Proof. apply absorb_bind, absorb_bind, absorb_start. Qed.
Lemma absorb_number_str E : absorb E (next_number_as_str E).
Proof. apply absorb_bind, absorb_number_bytes. Qed.
Lemma absorb_number_string E : absorb E (next_number_as_string E).
Proof. apply absorb_bind, absorb_number_bytes. Qed.
Lemma absorb_skip_value_start E : absorb E (skip_value_start E).
Proof. apply absorb_bind, absorb_peek. Qed.
Lemma absorb_skip_value E : (0 < fuel E)%nat -> absorb E (skip_value E).
Proof.
  intros Hf. apply absorb_get; [by_same|]. intros s0. apply absorb_misuse.
  destruct (fuel E) as [|f]; [lia|]. cbn [skip_value_loop]. apply absorb_ret, absorb_bind. cbn [negb].
  apply absorb_get; [by_same|]. intros s1. destruct (expects_member_name s1).
  - apply absorb_bind, absorb_skip_name.
  - apply absorb_ret, absorb_bind, absorb_skip_value_start.
Qed.
Lemma absorb_skip_items E : (0 < fuel E)%nat -> absorb E (skip_items E (fuel E)).
Proof. intros Hf. destruct (fuel E) as [|f]; [lia|]. apply absorb_bind, absorb_has_next. Qed.
Lemma absorb_skip_members E : (0 < fuel E)%nat -> absorb E (skip_members E (fuel E)).
Proof. intros Hf. destruct (fuel E) as [|f]; [lia|]. apply absorb_bind, absorb_has_next. Qed.
Lemma absorb_seek_to E p : absorb E (seek_to E p).
Proof. apply absorb_bind, absorb_peek. Qed.
Lemma absorb_seek_back E p : (0 < fuel E)%nat -> p <> [] -> absorb E (seek_back E p).
Proof.
  intros Hf Hp. unfold seek_back. assert (Hr : rev p <> []).
  { intros H. apply Hp. rewrite <- (rev_involutive p), H. reflexivity. }
  destruct (rev p) as [|[i|n] q]; [congruence| |]; cbn [seek_back_pieces]; apply absorb_bind;
    [apply absorb_skip_items|apply absorb_skip_members]; exact Hf.
Qed.
Lemma absorb_skip_to_top E s a s' a' : (0 < fuel E)%nat -> looked E s a s' a' -> stack s <> [] ->
  alike (exec (skip_to_top_level E) s a) (exec (skip_to_top_level E) s' a').
Proof.
  intros Hf Hl Hst. assert (Hs : same s s') by (destruct Hl as (? & _ & ? & _); assumption).
  unfold skip_to_top_level. rewrite !xget, !xmisuse.
  assert (Ha : string_reader_active s' = string_reader_active s) by apply Hs.
  assert (He : expects_member_value s' = expects_member_value s).
  { unfold expects_member_value, is_in_object. destruct Hs as (_ & -> & -> & _). reflexivity. }
  rewrite Ha, He. destruct (string_reader_active s); [right; eauto 6|].
  destruct (expects_member_value s).
  - refine (absorb_bind E (skip_value E) _ _ s a s' a' Hl). apply absorb_skip_value. exact Hf.
  - rewrite !xret. destruct (fuel E) as [|f] eqn:Ef; [lia|]. cbn [skip_to_top_level_loop]. rewrite !xget.
    assert (Hk : stack s' = stack s) by apply Hs. rewrite Hk, <- Ef in *. assert (Hf' : (0 < fuel E)%nat) by lia.
    destruct (stack s) as [|[]]; [congruence| |]; refine (absorb_bind E _ _ _ s a s' a' Hl);
      [apply absorb_skip_items|apply absorb_skip_members]; exact Hf'.
Qed.
Lemma skip_to_top_at_top E s a : (0 < fuel E)%nat -> stack s = [] -> string_reader_active s = false ->
  exec (skip_to_top_level E) s a = Some ((Ok tt, s), a).
Proof.
  intros Hf Hst Ha. unfold skip_to_top_level. rewrite xget, xmisuse, Ha.
  assert (He : expects_member_value s = false) by (unfold expects_member_value, is_in_object; rewrite Hst; reflexivity).
  rewrite He, xret. destruct (fuel E) as [|f]; [lia|]. cbn [skip_to_top_level_loop]. rewrite xget, Hst. reflexivity.
Qed.

Lemma looked_inactive E s a s' a' : looked E s a s' a' -> string_reader_active s = false.
Proof.
  intros (op & H & _). unfold peek_internal_optional in H. rewrite xget, xmisuse in H.
  destruct (string_reader_active s); [discriminate|reflexivity].
Qed.
Lemma looked_again E s a s' a' : looked E s a s' a' -> looked E s' a' s' a'.
Proof. intros (op & _ & _ & H). exists op. splits; auto using same_refl. Qed.

(** Nothing can be peeked behind the only value *)
Lemma looked_single E s a s' a' : allow_multiple_top_level (cfg E) = false -> looked E s a s' a' ->
  (s' = s /\ a' = a) \/ is_behind_top_level s = false.
Proof.
  intros Hm (op & H & _). unfold peek_internal_optional in H. rewrite xget, xmisuse in H.
  destruct (string_reader_active s); [discriminate|]. destruct (peeked s) as [p|].
  - cbn in H. left. split; congruence.
  - rewrite xmisuse, Hm in H. cbn [negb] in H. rewrite andb_true_r in H.
    destruct (is_behind_top_level s); [discriminate|]. right. reflexivity.
Qed.
Lemma consume_not_behind E s a : is_behind_top_level s = false ->
  exec (consume_trailing_whitespace E) s a = Some ((Panic Misuse, s), a).
Proof.
  intros H. unfold consume_trailing_whitespace. rewrite xget, xmisuse.
  destruct (string_reader_active s); [reflexivity|]. unfold is_behind_top_level in H.
  destruct (stack s); [|reflexivity]. rewrite andb_true_r in H. apply negb_false_iff in H. rewrite H. reflexivity.
Qed.

(** ** Sessions *)


Definition same_session (st : session) (a : asrc) (st' : session) (a' : asrc) : Prop :=
  (st = st' /\ a = a') \/ (s_phase st = s_phase st' /\ s_phase st <> Running).
Definition session_ahead (E : env) (st : session) (a : asrc) (st' : session) (a' : asrc) : Prop :=
  exists rd, st = Session (s_state st) rd Running /\ st' = Session (s_state st') None Running /\
    looked E (s_state st) a (s_state st') a'.

Lemma alike_call {A} (m : M A) val st a st' a' o st1 a1 o' st1' a1' :
  alike (exec m (s_state st) a) (exec m (s_state st') a') ->
  arun (call m val st) a = Some ((o, st1), a1) -> arun (call m val st') a' = Some ((o', st1'), a1') ->
  o = o' /\ same_session st1 a1 st1' a1'.
Proof.
  unfold call. rewrite !arun_bind. unfold exec. intros [->|(s2 & a2 & s3 & a3 & -> & ->)].
  - destruct (arun (m (s_state st')) a') as [[[[x|e|k|] s2] a2]|]; cbn; intros H1 H2; try discriminate;
      injection H1 as <- <- <-; injection H2 as <- <- <-; (split; [reflexivity|left; auto]).
  - cbn. intros H1 H2. injection H1 as <- <- <-; injection H2 as <- <- <-. split; [reflexivity|].
    right. cbn. split; [reflexivity|discriminate].
Qed.

Definition not_read (c : rcall) : Prop := match c with CRead _ => False | _ => True end.

Lemma ahead_call E c st a st' a' o st1 a1 o' st1' a1' : (0 < fuel E)%nat -> session_ahead E st a st' a' ->
  (not_read c \/ s_reader st = None) ->
  (allow_multiple_top_level (cfg E) = false \/ c <> CConsumeTrailingWhitespace) ->
  arun (client_call E c st) a = Some ((o, st1), a1) -> arun (client_call E c st') a' = Some ((o', st1'), a1') ->
  same_result o o' /\
  (same_session st1 a1 st1' a1' \/ (session_ahead E st1 a1 st1' a1' /\ s_reader st1 = None)).
Proof.
  intros Hf (rd & Est & Est' & Hl) Hrd Hcons H1 H2. unfold client_call in *.
  assert (Hp1 : s_phase st = Running) by (rewrite Est; reflexivity).
  assert (Hp2 : s_phase st' = Running) by (rewrite Est'; reflexivity).
  rewrite Hp1 in H1. rewrite Hp2 in H2.
  assert (Hgo : forall A (m : M A) val, absorb E m ->
    arun (call m val st) a = Some ((o, st1), a1) -> arun (call m val st') a' = Some ((o', st1'), a1') ->
    same_result o o' /\ (same_session st1 a1 st1' a1' \/ (session_ahead E st1 a1 st1' a1' /\ s_reader st1 = None))).
  { intros A m val Hm Hc1 Hc2. destruct (alike_call m val st a st' a' o st1 a1 o' st1' a1' (Hm _ _ _ _ Hl) Hc1 Hc2) as [-> Hs].
    split; [left; reflexivity|left; exact Hs]. }
  assert (Hstay : forall A (m : M A) (val : A -> rvalue) x y,
    exec m (s_state st) a = Some ((Ok x, s_state st), a) -> exec m (s_state st') a' = Some ((Ok y, s_state st'), a') ->
    arun (call m val st) a = Some ((o, st1), a1) -> arun (call m val st') a' = Some ((o', st1'), a1') ->
    o = OOk (val x) /\ o' = OOk (val y) /\
    (same_session st1 a1 st1' a1' \/ (session_ahead E st1 a1 st1' a1' /\ s_reader st1 = None))).
  { intros A m val x y Hx Hy. unfold call. rewrite !arun_bind. unfold exec in Hx, Hy. rewrite Hx, Hy. cbn.
    intros Hc1 Hc2. injection Hc1 as <- <- <-; injection Hc2 as <- <- <-. splits; auto. right. split; [|reflexivity].
    exists None. cbn. auto. }
  destruct c; try (refine (Hgo _ _ _ _ H1 H2);
    first [ apply absorb_peek | apply absorb_has_next | apply absorb_begin_array | apply absorb_begin_object
          | apply absorb_end_array | apply absorb_end_object | apply absorb_next_name | apply absorb_next_name_owned
          | apply absorb_skip_name | apply absorb_next_string | apply absorb_next_str | apply absorb_number_str
          | apply absorb_number_string | apply absorb_next_bool | apply absorb_next_null
          | apply absorb_skip_value; exact Hf | apply absorb_seek_to ]).
  - (* string reader *)
    unfold call_string_reader in *. rewrite arun_bind in H1, H2.
    destruct (absorb_next_string_reader E _ _ _ _ Hl) as [Heq|(s2 & a2 & s3 & a3 & Hx & Hy)]; unfold exec in *.
    + rewrite Heq in H1. destruct (arun (next_string_reader E (s_state st')) a') as [[[[x|e|k|] s2] a2]|]; cbn in H1, H2;
        try discriminate; injection H1 as <- <- <-; injection H2 as <- <- <-;
        (split; [left; reflexivity|left; left; auto]).
    + rewrite Hx in H1. rewrite Hy in H2. cbn in H1, H2. injection H1 as <- <- <-; injection H2 as <- <- <-.
      split; [left; reflexivity|]. left. right. cbn. split; [reflexivity|discriminate].
  - (* read *)
    destruct Hrd as [[]|Hrd]. unfold call_read in *. rewrite Hrd in H1. rewrite Est' in H2. cbn in H1, H2.
    injection H1 as <- <- <-. injection H2 as <- <- <-. split; [left; reflexivity|]. right. split; [|exact Hrd].
    exists rd. rewrite <- Est'. auto.
  - (* seek_back *)
    destruct path as [|p0 path]; [|refine (Hgo _ _ _ _ H1 H2); apply absorb_seek_back; [exact Hf|discriminate]].
    destruct (Hstay _ (seek_back E []) _ tt tt eq_refl eq_refl H1 H2) as (-> & -> & H). split; [left; reflexivity|exact H].
  - (* skip_to_top_level *)
    destruct (stack (s_state st)) as [|v l] eqn:Ek.
    + assert (Hss : same (s_state st) (s_state st')) by (destruct Hl as (? & _ & ? & _); assumption).
      pose proof (looked_inactive _ _ _ _ _ Hl) as Hact.
      assert (Hact' : string_reader_active (s_state st') = false) by (destruct Hss as (_ & _ & _ & -> & _); exact Hact).
      assert (Ek' : stack (s_state st') = []) by (destruct Hss as (_ & _ & -> & _); exact Ek).
      destruct (Hstay _ _ _ tt tt (skip_to_top_at_top E _ a Hf Ek Hact) (skip_to_top_at_top E _ a' Hf Ek' Hact') H1 H2)
        as (-> & -> & H). split; [left; reflexivity|exact H].
    + assert (Hne : stack (s_state st) <> []) by congruence.
      destruct (alike_call _ _ st a st' a' o st1 a1 o' st1' a1' (absorb_skip_to_top E _ _ _ _ Hf Hl Hne) H1 H2) as [-> Hs].
      split; [left; reflexivity|left; exact Hs].
  - (* position *)
    destruct (Hstay _ (fun s => Ret (Ok (current_position include_path s), s)) _ (current_position include_path (s_state st)) (current_position include_path (s_state st'))
      eq_refl eq_refl H1 H2) as (-> & -> & H). split; [|exact H].
    right. eexists _, _. splits; [reflexivity|reflexivity|]. unfold current_position. cbn [p_path].
    destruct Hl as (op & _ & (_ & _ & _ & _ & ->) & _). reflexivity.
  - (* consume_trailing_whitespace *)
    destruct Hcons as [Hm|Hm]; [|congruence]. unfold call_consume in *. rewrite arun_bind in H1, H2.
    destruct (looked_single _ _ _ _ _ Hm Hl) as [[Hs' ->]|Hb].
    + assert (Hc : call (consume_trailing_whitespace E) to_unit st' = call (consume_trailing_whitespace E) to_unit st)
        by (unfold call; rewrite Hs'; reflexivity).
      rewrite Hc in H2. destruct (arun (call _ _ st) a) as [[[o2 st2] a2]|]; [|discriminate]. cbn in H1, H2.
      injection H1 as <- <- <-. injection H2 as <- <- <-. split; [left; reflexivity|left; left; auto].
    + assert (Hb' : is_behind_top_level (s_state st') = false).
      { destruct Hl as (op & _ & (H3 & _ & H4 & _) & _). unfold is_behind_top_level in *. rewrite H3, H4. exact Hb. }
      unfold call in *. rewrite arun_bind in H1, H2.
      pose proof (consume_not_behind E _ a Hb) as Hx. pose proof (consume_not_behind E _ a' Hb') as Hy. unfold exec in Hx, Hy.
      rewrite Hx in H1. rewrite Hy in H2. cbn in H1, H2. injection H1 as <- <- <-. injection H2 as <- <- <-.
      split; [left; reflexivity|]. left. right. cbn. split; [reflexivity|discriminate].
Qed.

Lemma same_session_call E c st a st' a' o st1 a1 o' st1' a1' : same_session st a st' a' ->
  arun (client_call E c st) a = Some ((o, st1), a1) -> arun (client_call E c st') a' = Some ((o', st1'), a1') ->
  o = o' /\ same_session st1 a1 st1' a1'.
Proof.
  intros [[-> ->]|[Hp Hr]] H1 H2.
  - rewrite H1 in H2. injection H2 as <- <- <-. split; [reflexivity|left; auto].
  - unfold client_call in *. rewrite <- Hp in H2. destruct (s_phase st) eqn:Ep; [congruence| |];
      cbn in H1, H2; injection H1 as <- <- <-; injection H2 as <- <- <-;
      (split; [reflexivity|right; split; congruence]).
Qed.

Lemma same_session_calls E : forall cs st a st' a' os st1 a1 os' st1' a1', same_session st a st' a' ->
  arun (client_calls E cs st) a = Some ((os, st1), a1) -> arun (client_calls E cs st') a' = Some ((os', st1'), a1') ->
  os = os'.
Proof.
  induction cs as [|c cs IH]; intros st a st' a' os st1 a1 os' st1' a1' Hs H1 H2; cbn [client_calls] in *.
  - cbn in H1, H2. congruence.
  - rewrite arun_bind in H1, H2.
    destruct (arun (client_call E c st) a) as [[[o st2] a2]|] eqn:E1; [|discriminate].
    destruct (arun (client_call E c st') a') as [[[o' st2'] a2']|] eqn:E2; [|discriminate].
    cbn [fst snd] in H1, H2. rewrite arun_bind in H1, H2.
    destruct (same_session_call E c _ _ _ _ _ _ _ _ _ _ Hs E1 E2) as [-> Hs'].
    destruct (arun (client_calls E cs st2) a2) as [[[os2 st3] a3]|] eqn:E3; [|discriminate].
    destruct (arun (client_calls E cs st2') a2') as [[[os2' st3'] a3']|] eqn:E4; [|discriminate].
    cbn in H1, H2. injection H1 as <- _ _. injection H2 as <- _ _. f_equal. eapply IH; eassumption.
Qed.

Definition no_consume (E : env) (cs : list rcall) : Prop :=
  allow_multiple_top_level (cfg E) = false \/ ~ In CConsumeTrailingWhitespace cs.

Lemma ahead_calls E : (0 < fuel E)%nat -> forall cs st a st' a' os st1 a1 os' st1' a1', session_ahead E st a st' a' ->
  (match cs with c :: _ => not_read c | [] => True end \/ s_reader st = None) -> no_consume E cs ->
  arun (client_calls E cs st) a = Some ((os, st1), a1) -> arun (client_calls E cs st') a' = Some ((os', st1'), a1') ->
  Forall2 same_result os os'.
Proof.
  intros Hf. induction cs as [|c cs IH]; intros st a st' a' os st1 a1 os' st1' a1' Hs Hrd Hc H1 H2; cbn [client_calls] in *.
  - cbn in H1, H2. injection H1 as <- _ _. injection H2 as <- _ _. constructor.
  - rewrite arun_bind in H1, H2.
    destruct (arun (client_call E c st) a) as [[[o st2] a2]|] eqn:E1; [|discriminate].
    destruct (arun (client_call E c st') a') as [[[o' st2'] a2']|] eqn:E2; [|discriminate].
    cbn [fst snd] in H1, H2. rewrite arun_bind in H1, H2.
    assert (Hc1 : allow_multiple_top_level (cfg E) = false \/ c <> CConsumeTrailingWhitespace).
    { destruct Hc as [Hc|Hc]; [left; exact Hc|]. right. intros ->. apply Hc. left. reflexivity. }
    destruct (ahead_call E c _ _ _ _ _ _ _ _ _ _ Hf Hs Hrd Hc1 E1 E2) as [Ho Hs'].
    destruct (arun (client_calls E cs st2) a2) as [[[os2 st3] a3]|] eqn:E3; [|discriminate].
    destruct (arun (client_calls E cs st2') a2') as [[[os2' st3'] a3']|] eqn:E4; [|discriminate].
    cbn in H1, H2. injection H1 as <- _ _. injection H2 as <- _ _. constructor; [exact Ho|].
    destruct Hs' as [Hs'|[Hs' Hr]].
    + rewrite (same_session_calls E cs _ _ _ _ _ _ _ _ _ _ Hs' E3 E4). clear.
      induction os2'; constructor; [left; reflexivity|assumption].
    + eapply (IH _ _ _ _ _ _ _ _ _ _ Hs'); [right; exact Hr| |exact E3|exact E4].
      destruct Hc as [Hc|Hc]; [left; exact Hc|]. right. intros Hin. apply Hc. right. exact Hin.
Qed.

(** ** What looks ahead *)

Lemma exec_bind_inv {A B} (m : M A) (f : A -> M B) s a r s' a' : exec (bind m f) s a = Some ((r, s'), a') ->
  (exists x s1 a1, exec m s a = Some ((Ok x, s1), a1) /\ exec (f x) s1 a1 = Some ((r, s'), a')) \/
  (exists e, exec m s a = Some ((Err e, s'), a') /\ r = Err e) \/
  (exists k, exec m s a = Some ((Panic k, s'), a') /\ r = Panic k) \/
  (exec m s a = Some ((OutOfFuel, s'), a') /\ r = OutOfFuel).
Proof.
  rewrite exec_bind. destruct (exec m s a) as [[[[x|e|k|] s1] a1]|]; intros H; try discriminate.
  - left. eauto 6.
  - injection H as <- <- <-. right; left. eauto.
  - injection H as <- <- <-. right; right; left. eauto.
  - injection H as <- <- <-. right; right; right. eauto.
Qed.
Ltac binv H x s a Hq := let e := fresh "e" in let k := fresh in let Hq2 := fresh in
  apply exec_bind_inv in H;
  destruct H as [(x & s & a & Hq & H)|[(e & Hq & Hq2)|[(k & Hq & Hq2)|(Hq & Hq2)]]]; try discriminate Hq2;
  [|try (injection Hq2 as ->) ..].

Lemma peek_internal_ok E s a p s' a' : exec (peek_internal E) s a = Some ((Ok p, s'), a') ->
  exec (peek_internal_optional E) s a = Some ((Ok (Some p), s'), a').
Proof.
  unfold peek_internal. intros H. binv H op s1 a1 Hq. destruct op as [q|].
  - cbn in H. injection H as <- <- <-. exact Hq.
  - rewrite xget in H. destruct (_ && _); discriminate.
Qed.

Lemma peek_ok_peeks E s a v s' a' : exec (peek E) s a = Some ((Ok v, s'), a') -> peeks_to E s a s' a'.
Proof.
  unfold peek. rewrite xget, xmisuse. destruct (expects_member_name s); [discriminate|].
  intros H. binv H p s1 a1 Hq. exists (Some p). split; [|discriminate].
  assert (H' : s1 = s' /\ a1 = a') by (destruct p; cbn in H; try discriminate; injection H; auto).
  destruct H' as [-> ->]. apply peek_internal_ok. exact Hq.
Qed.

Lemma emv_top s : stack s = [] -> expects_member_value s = false.
Proof. intros H. unfold expects_member_value, is_in_object. rewrite H. reflexivity. Qed.

(** A function of a [bind] whose second part does not change anything *)
Lemma has_next_peeks E s a r s' a' : exec (has_next E) s a = Some ((r, s'), a') ->
  (forall e, r = Err e -> recoverable e = true) -> r <> OutOfFuel -> (forall k, r <> Panic k) ->
  (forall s0 a0 e s1 a1, exec (peek_internal_optional E) s0 a0 = Some ((Err e, s1), a1) -> recoverable e = false) ->
  (forall op s1 a1, exec (peek_internal_optional E) s a = Some ((Ok op, s1), a1) -> same s s1) ->
  peeks_to E s a s' a'.
Proof.
  intros H Hrec Hfuel Hpan Hhard Hsame. unfold has_next in H. rewrite xget, xmisuse in H.
  destruct (expects_member_value s) eqn:Hemv; [injection H as <- _ _; destruct (Hpan Misuse); reflexivity|].
  assert (Hend : forall op s1 a1,
    exec (peek_internal_optional E) s a = Some ((Ok op, s1), a1) -> (op = None -> stack s = []) ->
    exec (match op with
      | None => ret false
      | Some p => s <- get_state ;;
        if negb (expects_member_name s) || match p with PkNameStart | PkObjectEnd => true | _ => false end
        then ret (negb (is_end_token p)) else panics Bug end)%rm s1 a1 = Some ((r, s'), a') -> peeks_to E s a s' a').
  { intros op s1 a1 Hp Hn He. exists op.
    assert (Hx : s1 = s' /\ a1 = a').
    { destruct op as [p|]; [|cbn in He; injection He; auto]. rewrite xget in He. destruct (_ || _); cbn in He; injection He; auto. }
    destruct Hx as [<- <-]. split; [exact Hp|]. intros ->.
    destruct (Hsame _ _ _ Hp) as (_ & H2 & H3 & _). unfold expects_member_value, is_in_object in *. rewrite H2, H3. exact Hemv. }
  destruct (stack s) as [|v l] eqn:Ek.
  - apply exec_bind_inv in H. rewrite !xmisuse in H.
    destruct (is_empty s); [|destruct (negb _)].
    1,2: destruct H as [(x & s1 & a1 & Hq & H)|[(e & Hq & H)|[(k & Hq & H)|(Hq & H)]]]; try discriminate;
         destruct (Hpan k H).
    destruct H as [(x & s1 & a1 & Hq & H)|[(e & Hq & H)|[(k & Hq & H)|(Hq & H)]]].
    + eapply Hend; [exact Hq|auto|exact H].
    + specialize (Hrec _ H). rewrite (Hhard _ _ _ _ _ Hq) in Hrec. discriminate.
    + destruct (Hpan k H).
    + congruence.
  - apply exec_bind_inv in H. destruct H as [(x & s1 & a1 & Hq & H)|[(e & Hq & H)|[(k & Hq & H)|(Hq & H)]]].
    + binv Hq p s2 a2 Hq1. cbn in Hq. injection Hq as <- <- <-.
      eapply Hend; [apply peek_internal_ok; exact Hq1|discriminate|exact H].
    + subst r. binv Hq p s2 a2 Hq1; [discriminate|]. unfold peek_internal in Hq1. binv Hq1 op s2 a2 Hq2.
      * destruct op; [discriminate|]. rewrite xget in Hq1.
        assert (Hb : is_behind_top_level s2 = false).
        { destruct (Hsame _ _ _ Hq2) as (H1 & H2 & H3 & _). unfold is_behind_top_level. rewrite H3, Ek. apply andb_false_r. }
        rewrite Hb in Hq1. cbn in Hq1. injection Hq1 as <- <- <-. specialize (Hrec _ eq_refl). discriminate.
      * specialize (Hrec _ eq_refl). rewrite (Hhard _ _ _ _ _ Hq2) in Hrec. discriminate.
    + destruct (Hpan k H).
    + congruence.
Qed.

(** ** Errors after which the client must stop *)

Definition hard {A : Type} (m : M A) : Prop := forall s a e s' a', exec m s a = Some ((Err e, s'), a') ->
  recoverable e = false.

Lemma hard_bind {A B} (m : M A) (f : A -> M B) : hard m -> (forall x, hard (f x)) -> hard (bind m f).
Proof.
  intros Hm Hf s a e s' a' H. binv H x s1 a1 Hq; [apply (Hf _ _ _ _ _ _ H)|apply (Hm _ _ _ _ _ Hq)].
Qed.
Lemma hard_pure {A} (m : M A) : (forall s, exists r, m s = Ret r /\ forall e s', r = (Err e, s') -> recoverable e = false) -> hard m.
Proof. intros H s a e s' a' He. unfold exec in He. destruct (H s) as (r & Hr & Hx). rewrite Hr in He. cbn in He. injection He as He _. exact (Hx _ _ He). Qed.
Lemma hard_ret {A} (x : A) : hard (ret x).
Proof. apply hard_pure. intros s. eexists. split; [reflexivity|]. intros; discriminate. Qed.
Lemma hard_get : hard get_state.
Proof. apply hard_pure. intros s. eexists. split; [reflexivity|]. intros; discriminate. Qed.
Lemma hard_update f : hard (update f).
Proof. apply hard_pure. intros s. eexists. split; [reflexivity|]. intros; discriminate. Qed.
Lemma hard_panics {A} k : hard (@panics A k).
Proof. apply hard_pure. intros s. eexists. split; [reflexivity|]. intros; discriminate. Qed.
Lemma hard_no_fuel {A} : hard (@no_fuel A).
Proof. apply hard_pure. intros s. eexists. split; [reflexivity|]. intros; discriminate. Qed.
Lemma hard_misuse_if c : hard (misuse_if c).
Proof. destruct c; [apply hard_panics|apply hard_ret]. Qed.
Lemma hard_syntax {A} k : hard (@syntax_err A k).
Proof. apply hard_pure. intros s. eexists. split; [reflexivity|]. intros ? ? H; injection H as <- _; reflexivity. Qed.
Lemma hard_io {A} k : hard (@fail A (EIo k)).
Proof. apply hard_pure. intros s. eexists. split; [reflexivity|]. intros ? ? H; injection H as <- _; reflexivity. Qed.
Lemma hard_number {A} n : hard (@fail A (EUnsupportedNumber n)).
Proof. apply hard_pure. intros s. eexists. split; [reflexivity|]. intros ? ? H; injection H as <- _; reflexivity. Qed.
Ltac hard_op := let H := fresh "H" in intros ? ? ? ? ? H; cbn in H;
  repeat match type of H with
  | match ?x with _ => _ end = _ => destruct x; try discriminate; cbn in H
  | arun (from_peek _ ?r) _ = _ => destruct r; cbn in H
  end; try discriminate; injection H as <- _ _; reflexivity.
Lemma hard_peek_byte : hard peek_byte. Proof. hard_op. Qed.
Lemma hard_value_peek : hard value_peek. Proof. hard_op. Qed.
Lemma hard_skip : hard skip_peeked_byte. Proof. hard_op. Qed.
Lemma hard_vnew : hard value_reader_new. Proof. hard_op. Qed.
Lemma hard_vconsume : hard value_consume. Proof. hard_op. Qed.
Lemma hard_vskip_prev : hard value_skip_previous. Proof. hard_op. Qed.
Lemma hard_vskip_final : hard value_skip_final. Proof. hard_op. Qed.
Lemma hard_vpush bs : hard (value_push bs). Proof. hard_op. Qed.
Lemma hard_vget b : hard (value_get b). Proof. hard_op. Qed.
Lemma hard_vstr_peek : hard value_str_peek. Proof. hard_op. Qed.
Lemma hard_vstr : hard value_str. Proof. hard_op. Qed.
Lemma hard_vstring : hard value_string. Proof. hard_op. Qed.

Create HintDb hard discriminated.
#[export] Hint Resolve hard_ret hard_get hard_update hard_panics hard_no_fuel hard_misuse_if hard_syntax hard_io hard_number
  hard_peek_byte hard_value_peek hard_skip hard_vnew hard_vconsume hard_vskip_prev hard_vskip_final hard_vpush hard_vget
  hard_vstr_peek hard_vstr hard_vstring : hard.
Ltac hd1 :=
  lazymatch goal with
  | |- hard (bind _ _) => apply hard_bind; [|intro]
  | |- hard (if ?c then _ else _) => destruct c
  | |- hard (match ?c with _ => _ end) => destruct c
  | |- hard _ => solve [auto 4 with hard]
  end.
Ltac hds := repeat hd1.

Lemma hard_read_byte k : hard (read_byte k). Proof. unfold read_byte. hds. Qed.
Lemma hard_value_read_byte k : hard (value_read_byte k). Proof. unfold value_read_byte. hds. Qed.
#[export] Hint Resolve hard_read_byte hard_value_read_byte : hard.
Lemma hard_value_read_skipped k : hard (value_read_skipped_byte k). Proof. unfold value_read_skipped_byte. hds. Qed.
#[export] Hint Resolve hard_value_read_skipped : hard.
Lemma hard_multibyte rb b : (forall k, hard (rb k)) -> hard (read_utf8_multibyte rb b).
Proof. intros H. unfold read_utf8_multibyte. hds. Qed.
Lemma hard_eof k : hard (eof_result k). Proof. unfold eof_result. hds. Qed.
#[export] Hint Resolve hard_multibyte hard_eof : hard.
Lemma hard_skip_to_loop st k : forall f c, hard (skip_to_loop f st k c).
Proof. induction f as [|f IH]; intros c; cbn [skip_to_loop]; hds. Qed.
Lemma hard_skip_to E st k : hard (skip_to E st k). Proof. apply hard_skip_to_loop. Qed.
#[export] Hint Resolve hard_skip_to : hard.
Lemma hard_line E k : hard (skip_to_line_comment_end E k). Proof. unfold skip_to_line_comment_end. hds. Qed.
Lemma hard_block_loop E : forall f, hard (skip_to_block_comment_end_loop E f).
Proof. induction f as [|f IH]; cbn [skip_to_block_comment_end_loop]; hds. Qed.
Lemma hard_block E : hard (skip_to_block_comment_end E). Proof. apply hard_block_loop. Qed.
#[export] Hint Resolve hard_line hard_block : hard.
Lemma hard_ws_loop E k : forall f, hard (skip_whitespace_loop E f k).
Proof. induction f as [|f IH]; cbn [skip_whitespace_loop]; hds. Qed.
Lemma hard_ws E k : hard (skip_whitespace E k). Proof. apply hard_ws_loop. Qed.
#[export] Hint Resolve hard_ws : hard.
Lemma hard_ws_no_eof E k : hard (skip_whitespace_no_eof E k). Proof. unfold skip_whitespace_no_eof. hds. Qed.
Lemma hard_verify b k : hard (verify_value_separator b k). Proof. unfold verify_value_separator. hds. Qed.
#[export] Hint Resolve hard_ws_no_eof hard_verify : hard.
Lemma hard_verify_next k : hard (verify_next_separator k). Proof. unfold verify_next_separator. hds. Qed.
#[export] Hint Resolve hard_verify_next : hard.
Lemma hard_literal l : hard (consume_literal l). Proof. induction l; cbn [consume_literal]; hds. Qed.
#[export] Hint Resolve hard_literal : hard.
Lemma hard_after_name E : hard (after_name E). Proof. unfold after_name. hds. Qed.
Lemma hard_token s b : hard (peek_token s b). Proof. unfold peek_token. hds. Qed.
Lemma hard_finish E c m p b : hard (finish_peek E c m p b). Proof. unfold finish_peek. hds. Qed.
#[export] Hint Resolve hard_after_name hard_token hard_finish : hard.
Lemma hard_after_ws E b : hard (peek_after_ws E b). Proof. unfold peek_after_ws. hds. Qed.
#[export] Hint Resolve hard_after_ws : hard.
Lemma hard_peek_optional E : hard (peek_internal_optional E). Proof. unfold peek_internal_optional. hds. Qed.
Lemma hard_value_end : hard on_value_end. Proof. unfold on_value_end. hds. Qed.
Lemma hard_consume_peeked : hard consume_peeked. Proof. unfold consume_peeked. hds. Qed.
Lemma hard_path_name n : hard (set_path_name n). Proof. unfold set_path_name. hds. Qed.
#[export] Hint Resolve hard_peek_optional hard_value_end hard_consume_peeked hard_path_name : hard.
Lemma hard_container_end : hard on_container_end. Proof. unfold on_container_end. hds. Qed.
Lemma hard_unicode rb : (forall k, hard (rb k)) -> hard (read_unicode_escape rb).
Proof. intros H. unfold read_unicode_escape, read_hex_byte. hds. Qed.
#[export] Hint Resolve hard_container_end hard_unicode : hard.
Lemma hard_unicode_char rb : (forall k, hard (rb k)) -> hard (read_unicode_escape_char rb).
Proof. intros H. unfold read_unicode_escape_char, char_from_u32. hds. Qed.
#[export] Hint Resolve hard_unicode_char : hard.
Lemma hard_escape : hard read_string_escape. Proof. unfold read_string_escape. hds. Qed.
#[export] Hint Resolve hard_escape : hard.
Lemma hard_string_loop b : forall f, hard (read_string_loop f b).
Proof. induction f as [|f IH]; cbn [read_string_loop]; hds. Qed.
#[export] Hint Resolve hard_string_loop : hard.
Lemma hard_read_string E b : hard (read_string E b). Proof. unfold read_string. hds. Qed.
Lemma hard_string_bytes : hard read_string_bytes. Proof. unfold read_string_bytes. hds. Qed.
#[export] Hint Resolve hard_read_string hard_string_bytes : hard.
Lemma hard_skip_string_loop : forall f, hard (skip_all_string_bytes_loop f).
Proof. induction f as [|f IH]; cbn [skip_all_string_bytes_loop]; hds. Qed.
Lemma hard_skip_string E : hard (skip_all_string_bytes E). Proof. apply hard_skip_string_loop. Qed.
Lemma hard_run_number next : hard next -> forall p n, hard (run_number next p n).
Proof. intros H. induction p as [r|k IH|]; intros n; cbn [run_number]; hds. Qed.
Lemma hard_number_next : hard number_next. Proof. unfold number_next. hds. Qed.
Lemma hard_number_checks n : hard (number_end_checks n). Proof. unfold number_end_checks. hds. Qed.
#[export] Hint Resolve hard_skip_string hard_run_number hard_number_next hard_number_checks : hard.

(** ** Errors which leave the reader as looking ahead does *)

Definition leaves {A : Type} (E : env) (m : M A) : Prop := forall s a e s' a',
  (forall op s1 a1, exec (peek_internal_optional E) s a = Some ((Ok op, s1), a1) -> same s s1) ->
  exec m s a = Some ((Err e, s'), a') -> recoverable e = true -> peeks_to E s a s' a'.

Lemma leaves_bind {A B} E (m : M A) (f : A -> M B) : leaves E m -> (forall x, hard (f x)) -> leaves E (bind m f).
Proof.
  intros Hm Hf s a e s' a' Hs H Hr. binv H x s1 a1 Hq.
  - rewrite (Hf _ _ _ _ _ _ H) in Hr. discriminate.
  - apply (Hm _ _ _ _ _ Hs Hq Hr).
Qed.
Lemma leaves_get {B} E (f : rstate -> M B) : (forall s, leaves E (f s)) -> leaves E (bind get_state f).
Proof. intros H s a e s' a' Hs. rewrite xget. apply H. exact Hs. Qed.
Lemma leaves_misuse {B} E c (f : unit -> M B) : leaves E (f tt) -> leaves E (bind (misuse_if c) f).
Proof. intros H s a e s' a' Hs. rewrite xmisuse. destruct c; [discriminate|]. apply H. exact Hs. Qed.
Lemma leaves_peek_internal E : leaves E (peek_internal E).
Proof.
  intros s a e s' a' Hs H Hr. unfold peek_internal in H. binv H op s1 a1 Hq.
  - destruct op as [p|]; [discriminate|]. rewrite xget in H. exists None.
    destruct (is_behind_top_level s1 && allow_multiple_top_level (cfg E)) eqn:Eb.
    + cbn in H. injection H as <- <- <-. split; [exact Hq|]. intros _. apply emv_top.
      unfold is_behind_top_level in Eb. destruct (stack s1); [reflexivity|]. rewrite andb_false_r in Eb. discriminate.
    + cbn in H. injection H as <- <- <-. discriminate.
  - rewrite (hard_peek_optional _ _ _ _ _ _ Hq) in Hr. discriminate.
Qed.
(** The check of the peeked token comes next *)
Lemma leaves_peek_then {B} E (f : peeked_value -> M B) :
  (forall p s a e s' a', exec (f p) s a = Some ((Err e, s'), a') -> recoverable e = true -> s' = s /\ a' = a) ->
  leaves E (bind (peek_internal E) f).
Proof.
  intros Hf s a e s' a' Hs H Hr. binv H p s1 a1 Hq.
  - destruct (Hf _ _ _ _ _ _ H Hr) as [-> ->]. exists (Some p). split; [|discriminate].
    apply peek_internal_ok. exact Hq.
  - exact (leaves_peek_internal E _ _ _ _ _ Hs Hq Hr).
Qed.

Lemma map_peeked_err p s a e s' a' : exec (map_peeked p) s a = Some ((Err e, s'), a') -> s' = s /\ a' = a.
Proof. destruct p; cbn; intros H; try discriminate. injection H as <- <- <-. auto. Qed.
Lemma leaves_peek E : leaves E (peek E).
Proof.
  apply leaves_get. intros s0. apply leaves_misuse, leaves_peek_then. intros p s a e s' a' H _.
  exact (map_peeked_err _ _ _ _ _ _ H).
Qed.
Lemma leaves_start E t d : leaves E (start_expected_value_type E t d).
Proof.
  apply leaves_get. intros s0. apply leaves_misuse, leaves_peek_then. intros p s a e s' a' H Hr.
  binv H v s1 a1 Hq; [|exact (map_peeked_err _ _ _ _ _ _ Hq)].
  assert (Hx : s1 = s /\ a1 = a) by (destruct p; cbn in Hq; try discriminate; injection Hq as <- <- <-; auto).
  destruct Hx as [-> ->]. destruct (value_type_eqb v t).
  - rewrite xget in H. destruct (if d then depth_exceeded E s else None).
    + cbn in H. injection H as <- <- <-. auto.
    + assert (Hh : hard (consume_peeked ;; ret p)%rm) by hds. rewrite (Hh _ _ _ _ _ H) in Hr. discriminate.
  - cbn in H. injection H as <- <- <-. auto.
Qed.
Lemma leaves_has_next E : leaves E (has_next E).
Proof.
  intros s a e s' a' Hs H Hr. apply (has_next_peeks E s a (Err e) s' a' H); [congruence|discriminate|discriminate| |exact Hs].
  intros. eapply hard_peek_optional. eassumption.
Qed.
Lemma leaves_before_name E : leaves E (before_name E).
Proof.
  apply leaves_get. intros s0. apply leaves_misuse, leaves_misuse. intros s a e s' a' Hs H Hr.
  binv H h s1 a1 Hq; [|exact (leaves_has_next E _ _ _ _ _ Hs Hq Hr)].
  destruct (negb h).
  - cbn in H. injection H as <- <- <-.
    apply (has_next_peeks E s a (Ok h) s1 a1 Hq); try discriminate; [|exact Hs].
    intros. eapply hard_peek_optional. eassumption.
  - assert (Hh : hard (update (set_expects_name false) ;; consume_peeked)%rm) by hds.
    rewrite (Hh _ _ _ _ _ H) in Hr. discriminate.
Qed.
Lemma leaves_begin_array E : leaves E (begin_array E).
Proof. apply leaves_bind; [|intro; hds]. apply leaves_bind; [|intro; hds]. apply leaves_start. Qed.
Lemma leaves_begin_object E : leaves E (begin_object E).
Proof. apply leaves_bind; [|intro; hds]. apply leaves_bind; [|intro; hds]. apply leaves_start. Qed.
Lemma leaves_end_array E : leaves E (end_array E).
Proof.
  apply leaves_get. intros s0. apply leaves_misuse, leaves_peek_then. intros p s a e s' a' H Hr.
  assert (Hh : hard (consume_peeked ;; on_container_end)%rm) by hds.
  destruct p; try (cbn in H; injection H as <- <- <-; auto; fail). rewrite (Hh _ _ _ _ _ H) in Hr. discriminate.
Qed.
Lemma leaves_end_object E : leaves E (end_object E).
Proof.
  apply leaves_get. intros s0. apply leaves_misuse, leaves_misuse, leaves_peek_then. intros p s a e s' a' H Hr.
  assert (Hh : hard (consume_peeked ;; update (set_expects_name false) ;; on_container_end)%rm) by hds.
  destruct p; try (cbn in H; injection H as <- <- <-; auto; fail). rewrite (Hh _ _ _ _ _ H) in Hr. discriminate.
Qed.
Lemma leaves_next_name E : leaves E (next_name E).
Proof. apply leaves_bind; [apply leaves_before_name|]. intro; hds. Qed.
Lemma leaves_next_name_owned E : leaves E (next_name_owned E).
Proof. apply leaves_bind; [apply leaves_before_name|]. intro; hds. Qed.
Lemma leaves_skip_name E : leaves E (skip_name E).
Proof. apply leaves_bind; [apply leaves_before_name|]. intro; hds. Qed.
Lemma leaves_next_bool E : leaves E (next_bool E).
Proof. apply leaves_bind; [apply leaves_start|]. intro; hds. Qed.
Lemma leaves_next_null E : leaves E (next_null E).
Proof. apply leaves_bind; [apply leaves_start|]. intro; hds. Qed.
Lemma leaves_next_string E : leaves E (next_string E).
Proof. apply leaves_bind; [apply leaves_start|]. intro; hds. Qed.
Lemma leaves_next_str E : leaves E (next_str E).
Proof. apply leaves_bind; [apply leaves_start|]. intro; hds. Qed.
Lemma leaves_next_string_reader E : leaves E (next_string_reader E).
Proof. apply leaves_bind; [apply leaves_start|]. intro; hds. Qed.
Lemma leaves_number_start E : leaves E (ReaderModel.number_start E).
Proof. apply leaves_bind; [apply leaves_start|]. intro; hds. Qed.
Lemma leaves_number_bytes E b : leaves E (ReaderModel.read_number_bytes E b).
Proof. apply leaves_bind; [apply leaves_number_start|]. intro; hds. Qed.
Lemma leaves_number_str E : leaves E (next_number_as_str E).
Proof. apply leaves_bind; [apply leaves_number_bytes|]. intro; hds. Qed.
Lemma leaves_number_string E : leaves E (next_number_as_string E).
Proof. apply leaves_bind; [apply leaves_number_bytes|]. intro; hds. Qed.

(** ** The effect on the session *)



Lemma call_leaves {A} E (m : M A) val st a o st' a' e :
  (forall op s1 a1, exec (peek_internal_optional E) (s_state st) a = Some ((Ok op, s1), a1) -> same (s_state st) s1) ->
  leaves E m -> arun (call m val st) a = Some ((o, st'), a') -> o = OErr e -> recoverable e = true ->
  st' = Session (s_state st') None Running /\ peeks_to E (s_state st) a (s_state st') a'.
Proof.
  intros Hs Hm H -> Hr. unfold call in H. rewrite arun_bind in H.
  destruct (arun (m (s_state st)) a) as [[[[x|e1|k|] s1] a1]|] eqn:Ex; cbn in H; try discriminate.
  injection H as -> <- <-. rewrite Hr. split; [reflexivity|]. exact (Hm _ _ _ _ _ Hs Ex Hr).
Qed.
Lemma call_ok_inv {A} (m : M A) val st a v st' a' :
  arun (call m val st) a = Some ((OOk v, st'), a') ->
  exists x, st' = Session (s_state st') None Running /\ exec m (s_state st) a = Some ((Ok x, s_state st'), a').
Proof.
  intros H. unfold call in H. rewrite arun_bind in H.
  destruct (arun (m (s_state st)) a) as [[[[x|e1|k|] s1] a1]|] eqn:Ex; cbn in H; try discriminate.
  injection H as <- <- <-. exists x. split; [reflexivity|exact Ex].
Qed.

Lemma call_hard {A} (m : M A) val st a e st' a' : hard m -> arun (call m val st) a = Some ((OErr e, st'), a') ->
  recoverable e = false.
Proof.
  intros Hm H. unfold call in H. rewrite arun_bind in H.
  destruct (arun (m (s_state st)) a) as [[[[x|e1|k|] s1] a1]|] eqn:Ex; cbn in H; try discriminate.
  injection H as <- _ _. exact (Hm _ _ _ _ _ Ex).
Qed.
Lemma hard_consume E : hard (consume_trailing_whitespace E).
Proof. unfold consume_trailing_whitespace. hds. Qed.

Lemma call_looks E inp t c st a o st' a' : (length inp < fuel E)%nat -> live E inp t st a ->
  arun (client_call E c st) a = Some ((o, st'), a') -> looks c o -> session_ahead E st a st' a'.
Proof.
  intros Hf (d & Hsr & Hd) H Hl. destruct d as [s rd r|held| | |]; cbn [srel dinv] in *.
  - destruct Hsr as (-> & (kn & ->) & Hrd). destruct Hd as [Hinv _].
    exists rd. split; [reflexivity|]. cbn [s_state].
    assert (Hs : forall op s1 a1, exec (peek_internal_optional E) s (At r t kn) = Some ((Ok op, s1), a1) -> same s s1).
    { intros op s1 a1 Hp. pose proof (agree_peek_optional E t s r kn) as Ha.
      pose proof (peek_optional_good E inp t s r Hf Hinv) as Hg.
      destruct (d_peek_optional E t s r) as [x s2 r1|e s2 r1|[n|]| |] eqn:Ed; cbn [does good] in *.
      - destruct Ha as (kn' & Ha). rewrite Ha in Hp. injection Hp as _ <- _. apply Hg.
      - destruct Ha as (_ & kn' & Ha). rewrite Ha in Hp. discriminate.
      - destruct Ha as (? & ? & ? & Ha). rewrite Ha in Hp. discriminate.
      - destruct Ha as (? & ? & ? & Ha & _). rewrite Ha in Hp. discriminate.
      - destruct Ha as (? & ? & Ha). rewrite Ha in Hp. discriminate.
      - contradiction. }
    enough (Hx : st' = Session (s_state st') None Running /\ peeks_to E s (At r t kn) (s_state st') a').
    { destruct Hx as [Hx1 Hx2]. split; [exact Hx1|]. apply (peek_optional_looked E inp t s r kn _ _ Hf Hinv Hx2). }
    unfold client_call in H. cbn [s_phase] in H.
    destruct Hl as [([-> | ->] & v & ->)|(Hc & e & -> & Hr)].
    + destruct (call_ok_inv _ _ _ _ _ _ _ H) as (x & Hx & Hy). split; [exact Hx|]. exact (peek_ok_peeks _ _ _ _ _ _ Hy).
    + destruct (call_ok_inv _ _ _ _ _ _ _ H) as (x & Hx & Hy). split; [exact Hx|].
      apply (has_next_peeks _ _ _ _ _ _ Hy); try discriminate; [|exact Hs].
      intros. eapply hard_peek_optional. eassumption.
    + assert (HL : forall A (m : M A) val, leaves E m -> arun (call m val (Session s rd Running)) (At r t kn) = Some ((OErr e, st'), a') ->
        st' = Session (s_state st') None Running /\ peeks_to E s (At r t kn) (s_state st') a').
      { intros A m val Hm Hm2. exact (call_leaves E m val (Session s rd Running) _ _ _ _ e Hs Hm Hm2 eq_refl Hr). }
      destruct c; try (destruct (Hc I)).
      * exact (HL _ _ _ (leaves_peek E) H).
      * exact (HL _ _ _ (leaves_has_next E) H).
      * exact (HL _ _ _ (leaves_begin_array E) H).
      * exact (HL _ _ _ (leaves_end_array E) H).
      * exact (HL _ _ _ (leaves_begin_object E) H).
      * exact (HL _ _ _ (leaves_end_object E) H).
      * exact (HL _ _ _ (leaves_next_name E) H).
      * exact (HL _ _ _ (leaves_next_name_owned E) H).
      * exact (HL _ _ _ (leaves_skip_name E) H).
      * exact (HL _ _ _ (leaves_next_string E) H).
      * exact (HL _ _ _ (leaves_next_str E) H).
      * apply (HL _ (next_string_reader E) (fun _ => RUnit) (leaves_next_string_reader E)).
        unfold call_string_reader in H. unfold call. rewrite arun_bind in *.
        destruct (arun (next_string_reader E _) _) as [[[[x|e1|k|] s1] a1]|]; cbn in *; try discriminate. exact H.
      * unfold call_read in H. cbn [s_reader] in H. destruct rd; [|discriminate]. rewrite arun_bind in H.
        destruct (arun (sv_read E len _ _) _) as [[[[[[x|x] y]|e1|k|] s1] a1]|]; cbn in H; try discriminate.
      * exact (HL _ _ _ (leaves_number_str E) H).
      * exact (HL _ _ _ (leaves_number_string E) H).
      * exact (HL _ _ _ (leaves_next_bool E) H).
      * exact (HL _ _ _ (leaves_next_null E) H).
      * cbn in H. discriminate.
      * exfalso. unfold call_consume in H. rewrite arun_bind in H.
        destruct (arun (call _ _ _) _) as [[[o1 st1] a1]|] eqn:Ec; [|discriminate]. cbn in H. injection H as -> _ _.
        rewrite (call_hard _ _ _ _ _ _ _ (hard_consume E) Ec) in Hr. discriminate.
  - exfalso. assert (Hf0 : (0 < fuel E)%nat) by lia.
    assert (Hm : matches o (fst (d_call_dead c held))).
    { pose proof (client_call_agree E t c st a (DDead held) Hf0 Hsr) as Hc. unfold call_ok in Hc. cbn [d_call] in Hc.
      destruct Hc as (o1 & st1 & a1 & Hc & Hm & _); [destruct c, held; cbn; try discriminate; match goal with |- context [match ?x with _ => _ end] => destruct x end; discriminate|].
      rewrite H in Hc. injection Hc as <- _ _. exact Hm. }
    destruct Hl as [([-> | ->] & v & ->)|(Hc & e & -> & Hr)]; cbn in Hm; try discriminate.
    destruct c; try (destruct (Hc I)); destruct held; cbn in Hm; try discriminate.
    all: try (destruct Hm as (? & Hm & _); discriminate Hm). all: try (destruct Hm as (? & Hm); discriminate Hm).
  - unfold client_call in H. rewrite Hsr in H. cbn in H. injection H as <- _ _.
    destruct Hl as [(_ & v & Hl)|(_ & e & Hl & _)]; discriminate.
  - unfold client_call in H. rewrite Hsr in H. cbn in H. injection H as <- _ _.
    destruct Hl as [(_ & v & Hl)|(_ & e & Hl & _)]; discriminate.
  - contradiction.
Qed.

(** ** Sessions *)


Lemma session_insert s evs cs1 c cs2 : Forall is_byte (fst (supplied evs)) -> first_not_read cs2 ->
  allow_multiple_top_level s = false \/ ~ In CConsumeTrailingWhitespace cs2 ->
  exists os1 o os2 os2',
    read_session s evs (cs1 ++ c :: cs2) = os1 ++ o :: os2 /\ length os1 = length cs1 /\
    read_session s evs (cs1 ++ cs2) = os1 ++ os2' /\
    (looks c o -> Forall2 same_result os2' os2).
Proof.
  intros Hb Hfst Hc.
  destruct (session_run s evs (cs1 ++ c :: cs2) Hb) as (st1 & a1 & H1 & _).
  destruct (session_run s evs (cs1 ++ cs2) Hb) as (st2 & a2 & H2 & _).
  set (E := fenv s evs) in *. set (inp := fst (supplied evs)) in *. set (t := snd (supplied evs)) in *.
  assert (Hf : (length inp < fuel E)%nat) by (cbn; unfold enough_fuel, inp; lia).
  assert (Hf0 : (0 < fuel E)%nat) by lia.
  destruct (live_calls E inp t cs1 Hf _ _ (live_start s inp t Hb)) as (os1 & st3 & a3 & Hr & Hlen & _ & Hl).
  rewrite calls_app, Hr in H1, H2.
  destruct (live_call E inp t c st3 a3 Hf Hl) as (o & st4 & a4 & Hr4 & _ & Hl4).
  destruct (live_calls E inp t cs2 Hf _ _ Hl4) as (os2 & st5 & a5 & Hr5 & _ & _ & _).
  destruct (live_calls E inp t cs2 Hf _ _ Hl) as (os2' & st6 & a6 & Hr6 & _ & _ & _).
  cbn [client_calls] in H1. rewrite arun_bind, Hr4 in H1. cbn [fst snd] in H1. rewrite arun_bind, Hr5 in H1. cbn in H1.
  rewrite Hr6 in H2. injection H1 as H1 _ _. injection H2 as H2 _ _.
  exists os1, o, os2, os2'. split; [symmetry; exact H1|]. split; [exact Hlen|]. split; [symmetry; exact H2|].
  intros Hlk. pose proof (call_looks E inp t c _ _ _ _ _ Hf Hl Hr4 Hlk) as Ha.
  apply (ahead_calls E Hf0 cs2 _ _ _ _ _ _ _ _ _ _ Ha) with (3 := Hr6) (4 := Hr5).
  - left. destruct cs2 as [|[]]; cbn in *; auto.
  - exact Hc.
Qed.
