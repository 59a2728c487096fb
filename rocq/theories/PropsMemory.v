(** * Properties of reading: the memory (C53) *)

From Coq Require Import String.
From Verif Require Import Base Utf8Model SourceModel ReaderModel SpecCost SpecMemory MemSource MemFinal.
Local Open Scope list_scope.


(** C53: the first buffer never holds more than its capacity (1024 bytes), whatever
the source supplies and however long the document, its strings and its numbers
are. *)
Theorem C53_buffer_is_bounded : forall (s : settings) (evs : list event) (cs : list rcall),
  always (fun c => (length (c_buf c) <= 1024)%nat) s evs cs.
Proof. exact C53_buffer_is_bounded_holds. Qed.
Print Assumptions C53_buffer_is_bounded.
(** more than the capacity is supplied at once; the buffer is filled completely *)
Example C53_buffer_case :
  let evs := [EvData ([0x5B; 0x5D] ++ repeat 0x20 1500)] in
  read_session default_settings evs [CBeginArray; CEndArray] = [OOk RUnit; OOk RUnit] /\
  ~ always (fun c => (length (c_buf c) < 1024)%nat) default_settings evs [CBeginArray; CEndArray].
Proof.
  split; [vm_compute; reflexivity|]. intros H.
  eapply (throughout_weak _ (fun c => (length (c_buf c) <? 1024)%nat = true)) in H; [|intros c Hc; apply Nat.ltb_lt, Hc].
  vm_compute in H. repeat match type of H with _ /\ _ => destruct H as [H0 H]; first [discriminate H0|clear H0] end.
Qed.


(** C53: the second buffer, in which names, strings and numbers are collected, grows
only during calls which return a name, a string or a number and, if the path is
tracked, during calls which skip names.  Peeking, opening and closing arrays and
objects, string readers and skipping collect nothing: from then on there is not
more in it than there was ([n]). *)
Theorem C53_skipping_collects_nothing : forall (s : settings) (evs : list event) (cs1 cs2 : list rcall) (n : nat),
  forallb (fun c => negb (collects s c)) cs2 = true ->
  always (fun c => (collected c <= n)%nat) s evs cs1 ->
  always (fun c => (collected c <= n)%nat) s evs (cs1 ++ cs2).
Proof. exact C53_skipping_collects_nothing_holds. Qed.
Print Assumptions C53_skipping_collects_nothing.
(** [["a\nb","c\nde",{"f\ng":["h\ni",12]}]]: the first string is returned, everything else is skipped.  At most the three bytes of the
    first string are collected; they are three bytes at some moment; and reading the second string would collect four *)
Definition escapes : list event :=
  [EvData (bytes_of_string "[""a\nb"",""c\nde"",{""f\ng"":["); EvData (bytes_of_string """h\ni"",12]}]")].
Definition untracked_settings : settings := Settings false false false false (Some 128) true.
Example C53_skipping_case :
  let cs1 := [CBeginArray; CNextString] in
  let cs2 := [CSkipValue; CHasNext; CBeginObject; CSkipName; CBeginArray; CNextStringReader; CRead 2; CRead 2; CRead 2; CSkipValue; CEndArray; CEndObject; CEndArray] in
  forallb (fun c => negb (collects untracked_settings c)) cs2 = true /\
  always (fun c => (collected c <= 3)%nat) untracked_settings escapes cs1 /\
  ~ always (fun c => (collected c <= 2)%nat) untracked_settings escapes cs1 /\
  ~ always (fun c => (collected c <= 3)%nat) untracked_settings escapes (cs1 ++ [CNextString]) /\
  read_session untracked_settings escapes (cs1 ++ cs2) =
    [OOk RUnit; OOk (RStr (bytes_of_string "a" ++ [0x0A] ++ bytes_of_string "b")); OOk RUnit; OOk (RBool true); OOk RUnit; OOk RUnit; OOk RUnit; OOk RUnit;
     OOk (RBytes (bytes_of_string "h" ++ [0x0A])); OOk (RBytes (bytes_of_string "i")); OOk (RBytes []); OOk RUnit; OOk RUnit; OOk RUnit; OOk RUnit].
Proof.
  assert (Hno : forall n cs, always (fun c => (collected c <= n)%nat) untracked_settings escapes cs ->
    always (fun c => (collected c <=? n)%nat = true) untracked_settings escapes cs).
  { intros n cs H. eapply throughout_weak; [|exact H]. intros c Hc. apply Nat.leb_le, Hc. }
  split; [reflexivity|]. split; [|split; [|split]].
  - apply (throughout_weak (fun c => (collected c <=? 3)%nat = true)); [intros c Hc; apply Nat.leb_le, Hc|]. vm_compute. repeat split.
  - intros H. apply Hno in H. vm_compute in H. repeat match type of H with _ /\ _ => destruct H as [H0 H]; first [discriminate H0|clear H0] end.
  - intros H. apply Hno in H. vm_compute in H. repeat match type of H with _ /\ _ => destruct H as [H0 H]; first [discriminate H0|clear H0] end.
  - vm_compute. reflexivity.
Qed.


(** C53: whatever is called, the collected bytes are never more than the text of one
string, name or number of the input: there is a part of the input which has at
least as many bytes as are collected, and which consists of characters of
numbers, or follows a quote and contains neither a control character nor a quote
which is not escaped, except as last byte.  So the memory for collecting does
not depend on the length of the document, but on the longest of its strings,
names and numbers; this holds for malformed input too. *)
Theorem C53_collected_bytes_are_one_token : forall (s : settings) (evs : list event) (cs : list rcall), Forall is_byte (fst (supplied evs)) ->
  always (fun c => one_token_has (collected c) (fst (supplied evs))) s evs cs.
Proof. exact C53_collected_bytes_are_one_token_holds. Qed.
Print Assumptions C53_collected_bytes_are_one_token.
(** the longest string of this input has five characters in its text, [c\nde]; four bytes are collected for it, and no token of the input
    has more than six bytes (those of [c\nde], with the closing quote) *)
Example C53_token_case :
  Forall is_byte (fst (supplied escapes)) /\
  always (fun c => (collected c <= 4)%nat) default_settings escapes
    [CBeginArray; CNextString; CNextString; CBeginObject; CNextName; CBeginArray; CNextString; CNextNumberString; CEndArray; CEndObject; CEndArray] /\
  one_token_has 4 (fst (supplied escapes)) /\ ~ one_token_has 4 (bytes_of_string "[""ab"",""cd"",""ef"",1]").
Proof.
  split; [repeat constructor|]. split; [|split].
  - apply (throughout_weak (fun c => (collected c <=? 4)%nat = true)); [intros c Hc; apply Nat.leb_le, Hc|]. vm_compute. repeat split.
  - exists (bytes_of_string "[""a\nb"","""), (bytes_of_string "c\nde"), (bytes_of_string """,{""f\ng"":[""h\ni"",12]}]").
    split; [reflexivity|]. split; [cbn; lia|]. right. split; [reflexivity|]. exists (bytes_of_string "[""a\nb"","). reflexivity.
  - intros (before & token & after & He & Hn & Ht).
    set (t := bytes_of_string _) in He.
    assert (Hlen : length t = 18%nat) by reflexivity.
    assert (Hb : (length before < 19)%nat) by (apply (f_equal (@length _)) in He; rewrite !app_length in He; lia).
    assert (Hsub : exists x, skipn (length before) t = firstn 4 token ++ x).
    { exists (skipn 4 token ++ after). rewrite He, skipn_app, skipn_all, Nat.sub_diag, app_assoc, firstn_skipn. reflexivity. }
    assert (Hfour : firstn 4 (skipn (length before) t) = firstn 4 token).
    { destruct Hsub as [x ->]. rewrite firstn_app, firstn_firstn. replace (4 - length (firstn 4 token))%nat with O by (rewrite firstn_length; lia).
      rewrite app_nil_r. reflexivity. }
    assert (Hbef : before = firstn (length before) t) by (rewrite He, firstn_app, firstn_all, Nat.sub_diag, app_nil_r; reflexivity).
    destruct token as [|t1 [|t2 [|t3 [|t4 tl]]]]; cbn in Hn; try lia. cbn [firstn] in Hfour.
    remember (length before) as n eqn:En. clear En He Hsub Hlen Hn.
    destruct Ht as [Ht|[Ht [before' Hq]]].
    + do 19 (destruct n as [|n]; [vm_compute in Hfour; first [discriminate Hfour|injection Hfour as <- <- <- <-; vm_compute in Ht; discriminate Ht]|]). lia.
    + do 19 (destruct n as [|n]; [vm_compute in Hfour; first [discriminate Hfour|injection Hfour as <- <- <- <-; vm_compute in Hbef; rewrite Hbef in Hq; apply (f_equal (@rev _)) in Hq; rewrite rev_app_distr in Hq; cbn in Hq; first [discriminate Hq|cbn [string_text] in Ht; vm_compute in Ht; discriminate Ht]]|]). lia.
Qed.

