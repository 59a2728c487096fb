(** * Proofs of the property theorems about integers *)

From Coq Require Import String.
From Verif Require Import Base Utf8Model NumberModel SpecNumber SpecJson WriterModel SpecWriter WriterProofs WriterFinal SourceModel ReaderModel SpecCursor SpecRead
  ReaderWalk ReaderOut ReaderFits ReaderFinal ReaderFinal2 GrammarFacts DeModel SpecDe DeRun WriterSession SerRun RoundTrip IntegersModel SpecIntegers.
Local Open Scope list_scope.


Lemma minus_cons (A : Type) (a b : A) (c : N) : c <> 0x2D -> match c with 0x2D => a | _ => b end = b.
Proof. intros Hc. repeat (destruct c as [|c]; try reflexivity; try congruence; repeat (destruct c as [c|c|]; try reflexivity; try congruence)). Qed.

Lemma limit_iff t x z : (if ((min_int t <=? x) && (x <=? max_int t))%Z then Some x else None) = Some z <-> z = x /\ int_fits t x.
Proof.
  unfold int_fits. destruct (Z.leb_spec (min_int t) x); destruct (Z.leb_spec x (max_int t)); cbn; split; try discriminate; try lia.
  - intros [= <-]. lia.
  - intros (-> & _). reflexivity.
Qed.

Lemma decimal_some ds n : decimal ds = Some n -> Forall digit ds.
Proof.
  revert n. induction ds as [|d ds IH]; intros n H; [constructor|]. cbn [decimal] in H.
  destruct (N.leb_spec 0x30 d); [|discriminate]. destruct (N.leb_spec d 0x39); [|discriminate]. cbn [andb] in H.
  destruct (decimal ds) as [m|] eqn:E; [|discriminate]. constructor; [unfold digit; lia|exact (IH m eq_refl)].
Qed.

(** A number without fraction and exponent *)
Lemma digits_number text : number_text text -> Forall digit text -> int_text text.
Proof.
  intros Hn Hd. destruct Hn as (m & minus & i & f & e & -> & Hm & Hi & Hf & He).
  destruct Hm as [-> | ->]; [|inversion Hd as [|? ? Hx]; unfold digit in Hx; lia].
  cbn [app] in *. apply Forall_app in Hd as (_ & Hd). apply Forall_app in Hd as (Hdf & Hde).
  assert (f = []) as ->.
  { destruct Hf as [->|(x & -> & _)]; [reflexivity|]. inversion Hdf as [|? ? Hx]; unfold digit in Hx; lia. }
  assert (e = []) as ->.
  { destruct He as [(-> & _)|(c & sg & ds & -> & Hc & _)]; [reflexivity|]. inversion Hde as [|? ? Hx]; unfold digit in Hx. destruct Hc; lia. }
  rewrite !app_nil_r. exact Hi.
Qed.

Lemma minus_number ds : number_text (0x2D :: ds) -> Forall digit ds -> int_text ds.
Proof.
  intros Hn Hd. destruct Hn as (m & minus & i & f & e & E & Hm & Hi & Hf & He).
  destruct Hm as [-> | ->].
  - exfalso. cbn [app] in E. destruct (int_text_digits _ Hi) as (_ & c & r & -> & Hc). injection E as <- _. unfold digit in Hc. lia.
  - injection E as ->. apply digits_number; [|exact Hd]. exists m, [], i, f, e. split; [reflexivity|]. auto.
Qed.

Lemma integer_iff t text z : number_text text -> (integer t text = Some z <-> integer_text t text z /\ int_fits t z).
Proof.
  intros Hn. assert (Hne : text <> []).
  { intros ->. destruct Hn as (m & minus & i & f & e & E & Hm & Hi & _). destruct (int_text_digits _ Hi) as (_ & c & r & -> & _). destruct Hm as [-> | ->]; discriminate. }
  destruct text as [|c ds]; [congruence|]. unfold integer.
  destruct (N.eq_dec c 0x2D) as [->|Hc].
  - unfold integer_text. split.
    + unfold signed. destruct (Z.ltb_spec (min_int t) 0) as [Hs|]; [|discriminate].
      destruct (decimal ds) as [n|] eqn:E; [|discriminate]. intros Hl. apply limit_iff in Hl as (-> & Hl). split; [|exact Hl].
      pose proof (decimal_some _ _ E) as Hd. rewrite (decimal_value _ Hd) in E. injection E as <-.
      right. exists ds. split; [reflexivity|]. split; [apply minus_number; assumption|]. auto.
    + intros ([(Hi & _)|(ds' & E & Hi & -> & Hs)] & Hf).
      * destruct (int_text_digits _ Hi) as (_ & c & r & E & Hc). injection E as <- _. unfold digit in Hc. lia.
      * injection E as <-. unfold signed. rewrite (proj2 (Z.ltb_lt _ _) Hs). destruct (int_text_digits _ Hi) as (Hd & _).
        rewrite (decimal_value _ Hd). apply limit_iff. auto.
  - rewrite (minus_cons _ _ _ c Hc). unfold integer_text. split.
    + destruct (decimal (c :: ds)) as [n|] eqn:E; [|discriminate]. intros Hl. apply limit_iff in Hl as (-> & Hl). split; [|exact Hl].
      pose proof (decimal_some _ _ E) as Hd. rewrite (decimal_value _ Hd) in E. injection E as <-.
      left. split; [apply digits_number; assumption|reflexivity].
    + intros ([(Hi & ->)|(ds' & E & _)] & Hf); [|congruence].
      destruct (int_text_digits _ Hi) as (Hd & _). rewrite (decimal_value _ Hd). apply limit_iff. auto.
Qed.

Lemma combine_forall2 A B (R : A -> B -> Prop) l l' : Forall2 R l l' -> forall x, In x (combine l l') -> R (fst x) (snd x).
Proof. induction 1; cbn; [intros _ []|]. intros x0 [<-|Hx]; auto. Qed.


Lemma C57_next_number_is_exact_holds : forall (s : settings) (evs : list event) (cs1 cs2 : list icall) (t : int_type),
  Forall is_byte (fst (supplied evs)) ->
  exists os1 os2 o, integer_session s evs (cs1 ++ INextNumber t :: cs2) = os1 ++ o :: os2 /\ length os1 = length cs1 /\
    match o with
    | IParsed r => exists text, number_text text /\
        nth_error (read_session s evs (map reader_call (cs1 ++ INextNumber t :: cs2))) (length cs1) = Some (OOk (RStr text)) /\
        forall z, r = Some z <-> integer_text t text z /\ int_fits t z
    | IOut o' => forall v, o' <> OOk v
    end.
Proof.
  intros s evs cs1 cs2 t Hb. pose proof (session_fits s evs (map reader_call (cs1 ++ INextNumber t :: cs2)) Hb) as Hf.
  unfold integer_session. rewrite map_app in *. cbn [map reader_call] in *.
  destruct (Forall2_app_inv_l _ _ Hf) as (l1 & l2 & H1 & H2 & E). rewrite E. inversion H2 as [|? o ? l2' Ho H2']; subst. clear H2.
  pose proof (forall2_length _ _ _ H1) as Hl. rewrite map_length in Hl.
  assert (Ec : forall (a : list icall) (b : list outcome) a' b', length a = length b -> combine (a ++ a') (b ++ b') = combine a b ++ combine a' b').
  { clear. induction a as [|x a IH]; intros [|y b] a' b' H; try discriminate; [reflexivity|]. cbn. f_equal. apply IH. cbn in H. congruence. }
  rewrite (Ec _ _ _ _ Hl), map_app. cbn [combine map fst snd].
  eexists _, _, _. split; [reflexivity|]. split; [rewrite map_length, combine_length; lia|].
  unfold parse_result. destruct o as [v| | | | | |]; try (intros v; discriminate).
  cbn in Ho. destruct Ho as (text & -> & Hn). exists text. split; [exact Hn|]. split.
  - rewrite nth_error_app2 by lia. replace (length cs1 - length l1)%nat with 0%nat by lia. reflexivity.
  - intros z. rewrite (parse_int_integer _ _ Hn). apply integer_iff. exact Hn.
Qed.

Lemma C57_integers_of_a_document_holds : forall (s : settings) (vs : list json) (evs : list event) (cs : list icall), document_input s vs evs ->
  Forall2 (is_integer_result s) (combine cs (fst (walk_calls s (map reader_call cs) (AtCursor (cursor_start vs))))) (integer_session s evs cs).
Proof.
  intros s vs evs cs Hd.
  assert (Hb : Forall is_byte (fst (supplied evs))) by (destruct Hd as (Ht & Hi & Hl); eapply input_bytes; eassumption).
  pose proof (session_fits s evs (map reader_call cs) Hb) as Hf. pose proof (doc_session s vs evs (map reader_call cs) Hd) as Hw.
  unfold integer_session. clear Hd Hb. remember (fst (walk_calls s (map reader_call cs) (AtCursor (cursor_start vs)))) as xs eqn:Ex.
  remember (read_session s evs (map reader_call cs)) as os eqn:Eo. clear Ex Eo.
  revert xs os Hf Hw. induction cs as [|c cs IH]; intros xs os Hf Hw; cbn [map] in Hf; inversion Hf as [|? o ? os' Ho Hos]; subst;
    inversion Hw as [|x ? xs' ? Hx Hxs]; subst; cbn [combine map fst snd]; [constructor|]. constructor; [|apply IH; assumption].
  destruct c as [c|t]; cbn [reader_call parse_result is_integer_result].
  - destruct x; cbn [is_integer_result]; try exact I; eauto.
  - destruct x as [v| | | | | | | |]; cbn [is_result] in Hx; cbn [is_integer_result]; try exact I.
    + subst o. cbn in Ho. destruct Ho as (text & -> & Hn). eexists. split; [reflexivity|].
      intros z. rewrite (parse_int_integer _ _ Hn). apply integer_iff. exact Hn.
    + destruct Hx as (p & -> & _). cbn in Ho. destruct Ho as (? & ? & _). discriminate.
    + destruct Hx as (p & -> & Hp). eexists. split; [reflexivity|]. cbn. eauto.
    + destruct Hx as (p & -> & Hp). eexists. split; [reflexivity|]. cbn. eauto.
    + destruct Hx as (p & ->). eexists. split; [reflexivity|]. cbn. eauto.
    + subst o. eexists. split; [reflexivity|]. reflexivity.
    + subst o. eexists. split; [reflexivity|]. reflexivity.
    + subst o. eexists. split; [reflexivity|]. reflexivity.
Qed.

Lemma decimal_number z t : decimal_text z t -> number_text t.
Proof.
  intros [(Hi & _)|(ds & -> & Hi & _)].
  - exists 0%nat, [], t, [], []. rewrite !app_nil_r. repeat split; auto; left; auto.
  - exists 0%nat, [0x2D], ds, [], []. rewrite !app_nil_r. repeat split; auto; left; auto.
Qed.

Lemma decimal_integer_text t z text : decimal_text z text -> int_fits t z -> integer_text t text z.
Proof.
  unfold int_fits. intros [(Hi & Hz)|(ds & -> & Hi & Hne & Hz)] Hf; [left; auto|]. right. exists ds. repeat split; auto. lia.
Qed.

Lemma integer_decimal t z z' text : decimal_text z text -> integer_text t text z' -> z' = z.
Proof.
  intros Hd Hi. assert (Hh : forall ds, int_text (0x2D :: ds) -> False).
  { intros ds H. destruct (int_text_digits _ H) as (_ & c & r & E & Hc). injection E as <- _. unfold digit in Hc. lia. }
  destruct Hd as [(H1 & ->)|(ds & -> & H1 & _ & ->)]; destruct Hi as [(H2 & ->)|(ds' & E & H2 & -> & _)].
  - reflexivity.
  - subst text. destruct (Hh _ H1).
  - destruct (Hh _ H2).
  - injection E as <-. reflexivity.
Qed.

Lemma flat_map_single A B (f : A -> B) (g : A -> list B) l : (forall a, g a = [f a]) -> flat_map g l = map f l.
Proof. intros H. induction l as [|a l IH]; [reflexivity|]. cbn. rewrite H, IH. reflexivity. Qed.

Lemma describes_numbers multi zs : forall items o, (forall z, In z zs -> True) ->
  describes_all multi (Wdoc [] (OpenArr items :: o) None) (map CNumber zs) (Wdoc [] (OpenArr (items ++ map (fun z => JNum (int_to_string z)) zs) :: o) None).
Proof.
  induction zs as [|z zs IH]; intros items o H; cbn [map]; [rewrite app_nil_r; constructor|].
  eapply DA_cons; [apply (D_number _ _ z (int_to_string z)); [split; [reflexivity|exact I]|apply int_to_string_spec]|].
  cbn [add_value d_open d_top]. replace (items ++ JNum (int_to_string z) :: map (fun z => JNum (int_to_string z)) zs)
    with ((items ++ [JNum (int_to_string z)]) ++ map (fun z => JNum (int_to_string z)) zs) by (rewrite <- app_assoc; reflexivity).
  apply IH. auto.
Qed.

Lemma describes_all_app' multi d cs1 d1 cs2 d2 : describes_all multi d cs1 d1 -> describes_all multi d1 cs2 d2 -> describes_all multi d (cs1 ++ cs2) d2.
Proof. induction 1; cbn; [auto|]. intros. eapply DA_cons; eauto. Qed.

Definition array_value (zs : list Z) : json := JArr (map (fun z => JNum (int_to_string z)) zs).

Lemma describes_array multi zs :
  describes_all multi empty_doc ([WriterModel.CBeginArray] ++ map CNumber zs ++ [WriterModel.CEndArray]) (Wdoc [array_value zs] [] None).
Proof.
  eapply DA_cons; [apply D_begin_array; split; [reflexivity|left; reflexivity]|].
  eapply describes_all_app'; [apply (describes_numbers multi zs []); auto|].
  eapply DA_cons; [eapply D_end_array; reflexivity|]. constructor.
Qed.

Lemma C57_written_integers_read_back_holds : forall (cfg : wsettings) (out : sink) (zs : list Z) (ts : list int_type) (s : settings) (evs : list event),
  Forall (fun z => exists t, int_fits t z) zs -> length ts = length zs ->
  received out = [] -> reliable out -> multi_top_level cfg = false -> allow_multiple_top_level s = false ->
  within_limit s [JArr []] ->
  exists rs ws out', wrun cfg ([WriterModel.CBeginArray] ++ map CNumber zs ++ [WriterModel.CEndArray]) (new_session out) = (rs, ws) /\
    Forall (eq RDone) rs /\ wfinish ws = (RDone, out') /\
    (supplied evs = (received out', TEof) ->
     exists rs', integer_session s evs ([IRead ReaderModel.CBeginArray] ++ map INextNumber ts ++ [IRead ReaderModel.CEndArray; IRead CConsumeTrailingWhitespace]) =
         [IOut (OOk RUnit)] ++ map IParsed rs' ++ [IOut (OOk RUnit); IOut (OOk RUnit)] /\
       Forall2 (fun tz r => forall z, r = Some z <-> z = snd tz /\ int_fits (fst tz) z) (combine ts zs) rs').
Proof.
  intros cfg out zs ts s evs Hz Hlen Ho Hr Hm Hs Hl.
  set (cs := [WriterModel.CBeginArray] ++ map CNumber zs ++ [WriterModel.CEndArray]).
  assert (Hv : Forall valid_call cs).
  { unfold cs. apply Forall_app. split; [repeat constructor|]. apply Forall_app. split; [|repeat constructor].
    apply Forall_map, Forall_forall. intros z _. exact I. }
  pose proof (describes_array (multi_top_level cfg) zs) as Hd. fold cs in Hd.
  destruct (C13_correct_usage_succeeds_holds cfg out cs _ Ho Hr Hv Hd) as (rs & ws & out' & H1 & H2 & H3).
  { repeat split. discriminate. }
  exists rs, ws, out'. split; [exact H1|]. split.
  { apply Forall_forall. intros r Hin. destruct (In_nth_error _ _ Hin) as (i & Hi).
    assert (Hc : forall c r, In c cs -> success c r -> RDone = r).
    { intros c r0 Hc Hx. unfold cs in Hc. apply in_app_iff in Hc as [[<-|[]]|Hc]; [symmetry; exact Hx|].
      apply in_app_iff in Hc as [Hc|[<-|[]]]; [|symmetry; exact Hx]. apply in_map_iff in Hc as (z & <- & _). symmetry. exact Hx. }
    clear -H2 Hin Hc. induction H2 as [|c r0 cs' rs' Hx H2 IH]; [destruct Hin|]. destruct Hin as [<-|Hin].
    - apply (Hc c); [left; reflexivity|exact Hx].
    - apply IH; [exact Hin|]. intros c0 r1 H0 Hy. apply (Hc c0); [right; exact H0|exact Hy]. }
  split; [exact H3|]. intros He. rewrite Hm in Hd.
  assert (Hw : within_limit s [array_value zs]).
  { unfold within_limit in *. destruct (max_nesting_depth s); [|exact I]. inversion Hl as [|? ? Hn _]; subst. constructor; [|constructor].
    unfold array_value. cbn [nesting map list_max] in *. rewrite map_map. cbn [nesting].
    assert (E : forall l : list Z, list_max (map (fun _ => 0%nat) l) = 0%nat) by (induction l; cbn; auto). rewrite E. exact Hn. }
  pose proof (written_input s (array_value zs) cfg out out' cs rs ws Ho Hv H1 H2 H3 Hd Hm evs He Hs Hw) as Hdoc.
  assert (Hrd : readable s (array_value zs)).
  { intros _. unfold array_value. cbn [numbers]. rewrite flat_map_concat_map, map_map. cbn [numbers].
    apply Forall_concat, Forall_map. eapply Forall_impl; [|exact Hz]. intros z (t & Ht). constructor; [|constructor].
    eapply decimal_supported; [apply int_to_string_spec|exact Ht]. }
  pose proof (read_document s _ evs Hdoc Hrd) as Hread.
  assert (Hcalls : map reader_call ([IRead ReaderModel.CBeginArray] ++ map INextNumber ts ++ [IRead ReaderModel.CEndArray; IRead CConsumeTrailingWhitespace]) =
    read_calls (array_value zs) ++ [CConsumeTrailingWhitespace]).
  { unfold array_value. cbn [map app reader_call read_calls]. f_equal. rewrite map_app, map_map. cbn [map reader_call].
    rewrite <- app_assoc. cbn [app]. f_equal. clear -Hlen. revert zs Hlen.
    induction ts as [|t ts IH]; intros [|z zs] Hlen; try discriminate; [reflexivity|]. cbn. f_equal. apply IH. cbn in Hlen. congruence. }
  exists (map (fun tz => parse_int (fst tz) (int_to_string (snd tz))) (combine ts zs)). split.
  - unfold integer_session. rewrite Hcalls, Hread. unfold array_value. cbn [map app combine fst snd read_values parse_result]. f_equal.
    clear -Hlen. revert zs Hlen.
    induction ts as [|t ts IH]; intros [|z zs] Hlen; try discriminate; [reflexivity|]. cbn [map app combine flat_map read_values fst snd parse_result]. f_equal.
    apply IH. cbn in Hlen. congruence.
  - clear -Hz Hlen. revert zs Hz Hlen. induction ts as [|t ts IH]; intros [|z zs] Hz Hlen; try discriminate; [constructor|].
    cbn [combine map fst snd]. inversion Hz as [|? ? (ty & Hty) Hz']; subst. constructor; [|apply IH; [exact Hz'|cbn in Hlen; congruence]].
    cbn [fst snd]. intros z'. destruct (int_to_string_spec z) as (Hd & _).
    assert (Hn : number_text (int_to_string z)) by (eapply decimal_number; exact Hd).
    rewrite (parse_int_integer _ _ Hn), (integer_iff _ _ _ Hn). split.
    + intros (Hi & Hf). split; [|exact Hf]. eapply integer_decimal; eassumption.
    + intros (-> & Hf). split; [|exact Hf]. eapply decimal_integer_text; eassumption.
Qed.

Lemma C57_conversions_are_exact_holds : forall z z' : Z,
  (as_u64 z = Some z' <-> z' = z /\ 0 <= z < 2 ^ 64)%Z /\
  (as_i64 z = Some z' <-> z' = z /\ - 2 ^ 63 <= z < 2 ^ 63)%Z.
Proof.
  intros z z'. unfold as_u64, as_i64, in_range. cbn [int_signed int_bits].
  change (2 ^ (64 - 1))%Z with 9223372036854775808%Z. change (2 ^ 63)%Z with 9223372036854775808%Z. change (2 ^ 64)%Z with 18446744073709551616%Z. change (- (9223372036854775808))%Z with (-9223372036854775808)%Z.
  split.
  - destruct (Z.leb_spec 0 z); destruct (Z.ltb_spec z 18446744073709551616); cbn [andb]; split; try discriminate; try lia.
    + intros E. injection E as E. lia.
    + intros (-> & _). reflexivity.
  - destruct (Z.leb_spec (-9223372036854775808) z); destruct (Z.ltb_spec z 9223372036854775808); cbn [andb]; split; try discriminate; try lia.
    + intros E. injection E as E. lia.
    + intros (-> & _). reflexivity.
Qed.
