(** C56: quoting text for the log (compat/vis.c [strnvis]) *)
From Verif Require Import Base BaseLemmas Vis VisSpec Vis_Proofs.
Local Open Scope N_scope.

Lemma cstr_pre : forall o r, nonul o -> cstr (o ++ 0 :: r) = Some o.
Proof.
  induction o as [|c o IH]; intros r H; [reflexivity|]. inversion H; subst. cbn [app cstr].
  replace (c =? 0) with false by lia. rewrite IH by auto. reflexivity.
Qed.

Lemma printing_nonul o : Forall printing o -> nonul o.
Proof. intro H. eapply Forall_impl; [|exact H]. unfold printing. intros; lia. Qed.

(** Encoding the string [s] for the log into a buffer of [siz] bytes never
    touches a byte outside it and leaves a C string [out] of printing,
    non-blank characters; [out] is the encoding of a prefix of [s] and reading
    it back gives that prefix and nothing else; the prefix is as long as the
    buffer allows (a character takes at most four bytes); the return value is
    the length of the complete encoding, so it tells truncation. *)
Theorem c56_strnvis_partial s js dst siz : bytes s -> nonul s -> (2 <= siz <= length dst)%nat ->
  exists ret dst' out full k,
    strnvis dst (s ++ 0 :: js) siz (Z.lor VIS_WHITE VIS_DQ) = OK (ret, dst') /\
    length dst' = length dst /\ skipn siz dst' = skipn siz dst /\
    cstr dst' = Some out /\ (length out < siz)%nat /\ Forall printing out /\
    (decodes out (firstn k s) /\ forall t, decodes out t -> t = firstn k s) /\
    (k = length s \/ k < length s /\ siz <= length out + 4)%nat /\
    decodes full s /\ (exists more, full = out ++ more) /\ ret = length full /\
    (ret < siz <-> k = length s)%nat.
Proof.
  intros HB HN HS. destruct (strnvis_spec s js dst siz HB HN ltac:(lia)) as (k & Q & K1 & K2 & K3).
  assert (HBk : bytes (firstn k s)).
  { unfold bytes in *. rewrite <- (firstn_skipn k s) in HB. apply Forall_app in HB. tauto. }
  assert (HNk : nonul (firstn k s)).
  { unfold nonul in *. rewrite <- (firstn_skipn k s) in HN. apply Forall_app in HN. tauto. }
  destruct (encs_good _ HBk HNk) as (D & P & _). destruct (encs_good _ HB HN) as (DF & _ & _).
  replace (siz =? 1)%nat with false in Q by (symmetry; apply Nat.eqb_neq; lia).
  set (o := encs (firstn k s)) in *.
  assert (LEN : length (skipn (S (length o)) dst) = (length dst - S (length o))%nat) by apply skipn_length.
  assert (FULL : encs s = o ++ encs (skipn k s)) by (rewrite <- (firstn_skipn k s) at 1; apply encs_app).
  eexists _, _, o, (encs s), k. split; [exact Q|]. 
  split; [rewrite app_length; cbn [length]; lia|].
  split. { replace (o ++ 0 :: skipn (S (length o)) dst) with ((o ++ [0]) ++ skipn (S (length o)) dst) by (rewrite <- app_assoc; reflexivity).
    rewrite skipn_app, (skipn_all2 (n := siz) (o ++ [0])) by (rewrite app_length; cbn [length]; lia). rewrite app_length. cbn [length app].
    rewrite skip2. f_equal. lia. }
  split; [apply cstr_pre; apply printing_nonul; exact P|]. split; [exact K2|]. split; [exact P|].
  split. { split; [exact D|]. intros t H. eapply decodes_fun; eauto. }
  assert (HNX : (k < length s)%nat -> (1 <= length (enc (nth k s 0%N)) <= 4)%nat).
  { intro H. apply enc_good; [eapply Forall_forall in HB; [exact HB|]|eapply Forall_forall in HN; [exact HN|]]; apply nth_In; exact H. }
  split. { destruct (Nat.eq_dec k (length s)); [left; auto|right]. assert (A := K3 ltac:(lia)). specialize (HNX ltac:(lia)). lia. }
  split; [exact DF|]. split; [eexists; exact FULL|]. split; [reflexivity|].
  split; intro H.
  - destruct (Nat.eq_dec k (length s)); [auto|]. exfalso. assert (A := K3 ltac:(lia)).
    destruct (skipn k s) as [|b r] eqn:SK. { apply (f_equal (@length N)) in SK. rewrite skipn_length in SK. cbn in SK. lia. }
    assert (nth k s 0 = b). { rewrite <- (firstn_skipn k s), SK, app_nth2; rewrite firstn_length_le by lia; [|lia]. rewrite Nat.sub_diag. reflexivity. }
    rewrite FULL in H. change (encs (b :: r)) with (enc b ++ encs r) in H. rewrite !app_length in H. subst b. lia.
  - assert (EO : o = encs s) by (subst o k; rewrite firstn_all; reflexivity). rewrite <- EO. exact K2.
Qed.

(** What the log shows of a certificate whose name has a newline, a quote, a
    backslash, a control character and a byte above 127. *)
Example c56_example : exists dst',
  strnvis (repeat 7 64) (s2b "a b" ++ [10; 34; 92; 1; 200; 0]) 64 (Z.lor VIS_WHITE VIS_DQ) =
    OK (20%nat, s2b "a\040b\^J\" ++ [34] ++ s2b "\\\^A\M-H" ++ 0 :: dst').
Proof. eexists. vm_compute. reflexivity. Qed.
Example c56_example_truncated : exists ret dst',
  strnvis (repeat 7 6) (s2b "abc d" ++ [0]) 6 (Z.lor VIS_WHITE VIS_DQ) = OK (ret, dst') /\
  cstr dst' = Some (s2b "abc") /\ ret = 8%nat.
Proof. eexists _, _. vm_compute. repeat split. Qed.

(** With a buffer of one byte the return value hides the truncation. *)
Theorem c56_one_byte_refuted : exists dst', 
  strnvis [7] (s2b "abc" ++ [0]) 1 (Z.lor VIS_WHITE VIS_DQ) = OK (0%nat, dst') /\ cstr dst' = Some [].
Proof. eexists. vm_compute. repeat split. Qed.
