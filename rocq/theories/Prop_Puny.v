(** Properties C09, C10, C11 and C45: host name decoding (puny.c). *)
From Verif Require Import Base BaseLemmas Utf8Spec Compat Compat_Proofs Puny PunySpec Puny_Proofs Puny_Proofs2 Puny_Safe_Proofs.
Local Open Scope N_scope.

(** ** C45: decoding follows RFC 3492 *)
Lemma fits_ok : forall ls ws len, Forall2 label_dec ls ws -> Forall label_ok ls ->
  (length (join_dot ws) + 59 <= len)%nat -> fits len ls ws.
Proof.
  induction ls as [|l ls IH]; intros ws len HD HO HL; [destruct ws; exact I|].
  inversion HD as [|? w ? ws' D1 D2]; subst. inversion HO as [|? ? [O1 _] O2]; subst. cbn [fits].
  destruct ls as [|l2 ls].
  - inversion D2; subst. cbn [join_dot] in HL. repeat split; try lia.
  - inversion D2 as [|? w2 ? ws2 D3 D4]; subst.
    change (join_dot (w :: w2 :: ws2)) with (w ++ 46 :: join_dot (w2 :: ws2)) in HL.
    rewrite app_length in HL. cbn [length] in HL. split; [lia|]. split; [lia|]. split; [lia|].
    apply (IH (w2 :: ws2)); auto. lia.
Qed.

Lemma join_dot_len ls : ls <> [] -> (length ls <= S (length (join_dot ls)))%nat.
Proof.
  induction ls as [|l ls IH]; intros H; [congruence|]. destruct ls as [|l2 ls]; [cbn; lia|].
  change (join_dot (l :: l2 :: ls)) with (l ++ 46 :: join_dot (l2 :: ls)). rewrite app_length.
  cbn [length] in *. specialize (IH ltac:(discriminate)). lia.
Qed.

(** Every host whose labels are plain or valid Punycode is decoded to the
    labels they stand for, when the result fits with room for a label. *)
Theorem c45_decodes_rfc3492 ls ws len : ls <> [] -> Forall label_ok ls -> Forall nonul ls ->
  Forall2 label_dec ls ws -> (length (join_dot ws) + 59 <= len)%nat ->
  exists out, puny_decode (join_dot ls) len = OK (Ret true out) /\ length out = len /\ cstr out = Some (join_dot ws).
Proof.
  intros NE HO HN HD HL. unfold puny_decode.
  pose proof (puny_loop_ok ls ws (S (length (join_dot ls))) [] len NE HD HO HN (fits_ok _ _ _ HD HO HL) (join_dot_len _ NE)) as E.
  cbn [app length] in E. rewrite E. eexists. split; [reflexivity|].
  split; [rewrite app_length, repeat_length; lia|].
  destruct (len - length (join_dot ws))%nat as [|z] eqn:Ez; [lia|]. cbn [repeat]. apply cstr_nul.
  clear - HO HN HD. induction HD as [|l w ls ws D1 D2 IH]; [constructor|].
  inversion HO as [|? ? [O1 _] O2]; subst. inversion HN as [|? ? N1 N2]; subst.
  pose proof (label_dec_nonul l w N1 D1 O1) as Nw. specialize (IH O2 N2).
  cbn [join_dot]. destruct ws; [exact Nw|]. apply nonul_app. split; [exact Nw|]. apply nonul_cons. split; [discriminate|exact IH].
Qed.

(** non-vacuity: "xn--bcher-kva.example" stands for "bücher.example" *)
Example c45_case :
  puny_decode (s2b "xn--bcher-kva.example") 254 =
    OK (Ret true ([98; 195; 188] ++ s2b "cher.example" ++ repeat 0 239)) /\
  Forall2 label_dec [s2b "xn--bcher-kva"; s2b "example"] [[98; 195; 188] ++ s2b "cher"; s2b "example"].
Proof.
  split; [vm_compute; reflexivity|]. constructor; [|constructor; [|constructor]].
  - apply (ld_puny (s2b "xn--bcher-kva") [98; 252; 99; 104; 101; 114]).
    apply (lm_ext (s2b "bcher") (s2b "kva")); [discriminate| | |vm_compute; reflexivity].
    { apply Forall_forall. intros x Hx. vm_compute in Hx. intuition lia. }
    intros [H|[H|[H|[]]]]; discriminate.
  - apply ld_plain. discriminate.
Qed.

(** ** C09: hosts without Punycode *)
Definition plain (l : list N) : Prop := firstn 4 l <> s2b "xn--" /\ ~ In 46 l /\ nonul l.

Lemma plain_loop : forall ls fuel pre len, ls <> [] -> Forall plain ls -> (length ls <= fuel)%nat ->
  (length (join_dot ls) < len)%nat ->
  (Forall (fun l => (length l < 64)%nat) ls ->
     puny_loop fuel (join_dot ls) (pre ++ repeat 0 len) (length pre) len =
     OK (Ret true (pre ++ join_dot ls ++ repeat 0 (len - length (join_dot ls))))) /\
  (Exists (fun l => (64 <= length l)%nat) ls ->
     exists out, puny_loop fuel (join_dot ls) (pre ++ repeat 0 len) (length pre) len = OK (Ret false out)).
Proof.
  induction ls as [|l ls IH]; intros fuel pre len NE HP Hfu HL; [congruence|].
  inversion HP as [|? ? (P1 & P2 & P3) P4]; subst. destruct fuel as [|fuel]; [cbn in Hfu; lia|]. cbn [length] in Hfu.
  cbn [puny_loop]. destruct ls as [|l2 ls].
  - cbn [join_dot] in *. rewrite end_of_label_last by exact P2. unfold LABEL_LEN. split.
    + intros H. inversion H; subst. destruct (Nat.leb_spec 64 (length l)); [lia|].
      rewrite decode_plain by exact P1. rewrite strncpy_fits by lia. reflexivity.
    + intros H. inversion H as [? ? H1|? ? H1]; subst; [|inversion H1]. destruct (Nat.leb_spec 64 (length l)); [eauto|lia].
  - change (join_dot (l :: l2 :: ls)) with (l ++ 46 :: join_dot (l2 :: ls)) in *.
    rewrite end_of_label_ok by exact P2. rewrite app_length in HL. cbn [length] in HL.
    unfold LABEL_LEN. destruct (Nat.leb_spec 64 (length l)) as [G|G].
    { split; [intros H; inversion H; lia|eauto]. }
    rewrite decode_plain by exact P1. rewrite strncpy_fits by lia. cbn [bind].
    rewrite skipn_pre by reflexivity. rewrite firstn_pre by reflexivity.
    destruct (len - length l)%nat as [|z] eqn:Ez; [lia|]. cbn [repeat]. destruct z as [|z]; [lia|].
    assert (SC : strlcat (l ++ 0 :: repeat 0 (S z)) (s2b "." ++ [0]) len = OK ((length l + 1)%nat, l ++ 46 :: repeat 0 (S z))).
    { change (s2b ".") with [46]. rewrite strlcat_spec; auto.
      - cbn [length]. do 2 f_equal. rewrite firstn_all2 by (cbn; lia). cbn [app]. do 2 f_equal.
        replace (Nat.min (len - length l - 1) 1) with 1%nat by lia. cbn [skipn repeat]. reflexivity.
      - repeat constructor; discriminate.
      - lia.
      - rewrite app_length. cbn [length]. rewrite repeat_length. lia. }
    rewrite SC. cbn [bind]. destruct (Nat.leb_spec len (length l + 1)); [lia|].
    assert (SL : strlen (pre ++ l ++ 46 :: repeat 0 (S z)) (length pre) = OK (length l + 1)%nat).
    { replace (pre ++ l ++ 46 :: repeat 0 (S z)) with (pre ++ (l ++ [46]) ++ 0 :: repeat 0 z) by (rewrite <- !app_assoc; reflexivity).
      rewrite strlen_app; [rewrite app_length; reflexivity|reflexivity|]. apply nonul_app. split; [exact P3|]. repeat constructor; discriminate. }
    rewrite SL. cbn [bind]. destruct (Nat.leb_spec len (length l + 1)); [lia|].
    replace (pre ++ l ++ 46 :: repeat 0 (S z)) with ((pre ++ l ++ [46]) ++ repeat 0 (S z)) by (rewrite <- !app_assoc; reflexivity).
    replace (length pre + (length l + 1))%nat with (length (pre ++ l ++ [46])) by (rewrite !app_length; reflexivity).
    replace (len - (length l + 1))%nat with (S z) by lia.
    destruct (IH fuel (pre ++ l ++ [46]) (S z)) as [I1 I2]; auto; [discriminate|lia|lia|]. split.
    + intros HS. inversion HS; subst. rewrite I1 by assumption.
      rewrite <- !app_assoc. cbn [app]. do 5 f_equal. f_equal. rewrite app_length. cbn [length]. f_equal. lia.
    + intros HS. inversion HS as [? ? H1|? ? H1]; subst; [lia|]. auto.
Qed.

(** A host of plain labels that fits is returned unchanged. *)
Theorem c09_plain_partial ls len : ls <> [] -> Forall plain ls -> (length (join_dot ls) < len)%nat ->
  Forall (fun l => (length l < 64)%nat) ls ->
  exists out, puny_decode (join_dot ls) len = OK (Ret true out) /\ length out = len /\ cstr out = Some (join_dot ls).
Proof.
  intros NE HP HL H. unfold puny_decode.
  destruct (plain_loop ls (S (length (join_dot ls))) [] len NE HP (join_dot_len _ NE) HL) as [E _].
  cbn [app length] in E. rewrite E by exact H. eexists. split; [reflexivity|].
  split; [rewrite app_length, repeat_length; lia|].
  destruct (len - length (join_dot ls))%nat as [|z] eqn:Ez; [lia|]. cbn [repeat]. apply cstr_nul.
  clear - HP. induction HP as [|l ls (_ & _ & P) P4 IH]; [constructor|].
  cbn [join_dot]. destruct ls; [exact P|]. apply nonul_app. split; [exact P|]. apply nonul_cons. split; [discriminate|exact IH].
Qed.

(** A label of 64 bytes or more is refused. *)
Theorem c09_long_label_refused ls len : ls <> [] -> Forall plain ls -> (length (join_dot ls) < len)%nat ->
  Exists (fun l => (64 <= length l)%nat) ls ->
  exists out, puny_decode (join_dot ls) len = OK (Ret false out).
Proof.
  intros NE HP HL H. unfold puny_decode.
  destruct (plain_loop ls (S (length (join_dot ls))) [] len NE HP (join_dot_len _ NE) HL) as [_ E].
  cbn [app length] in E. apply E. exact H.
Qed.

Example c09_case : puny_decode (s2b "gemini.omarpolo.com") 254 = OK (Ret true (s2b "gemini.omarpolo.com" ++ repeat 0 235)).
Proof. vm_compute. reflexivity. Qed.

Definition a63 : list N := repeat 97 63.

(** The rest of C09 is false of the code: a host one byte too long for the
    buffer is reported as decoded, and the buffer holds no NUL. *)
Theorem c09_too_long_refuted :
  ~ (forall ls len, ls <> [] -> Forall plain ls -> Forall (fun l => (length l < 64)%nat) ls ->
       (len <= length (join_dot ls))%nat ->
       exists out, puny_decode (join_dot ls) len = OK (Ret false out)).
Proof.
  intros H. specialize (H [a63; a63; a63; a63] 254%nat). destruct H as (out & H); [discriminate| | | |].
  - assert (PA : plain a63). { split; [discriminate|]. split; [|repeat constructor; discriminate]. intros Q. apply repeat_spec in Q. discriminate. }
    do 4 (constructor; [exact PA|]). constructor.
  - repeat constructor; vm_compute; lia.
  - apply Nat.leb_le. vm_compute. reflexivity.
  - assert (Q : match puny_decode (join_dot [a63; a63; a63; a63]) 254 with OK (Ret b _) => b | _ => true end = true) by (vm_compute; reflexivity).
    rewrite H in Q. discriminate.
Qed.

(** ** C10: memory safety *)
Theorem c10_safe_partial host len : nonul host -> bytes host -> (4 * length host < len)%nat ->
  puny_decode host len = OK Fault \/
  (exists out, puny_decode host len = OK (Ret false out)) \/
  (exists out dom, puny_decode host len = OK (Ret true out) /\ length out = len /\ cstr out = Some dom /\
     (length dom <= 4 * length host)%nat).
Proof.
  intros Hn Hb Hl. unfold puny_decode.
  pose proof (puny_loop_safe (S (length host)) host [] len ltac:(lia) Hn Hb Hl) as G. cbn [app length] in G.
  destruct G as [G|[G|(D & k & G & G1 & G2 & G3 & G4)]]; [left; exact G|right; left; exact G|right; right].
  rewrite G. exists (D ++ repeat 0 k), D. split; [reflexivity|]. split; [rewrite app_length, repeat_length; lia|].
  split; [|exact G4]. destruct k as [|k]; [lia|]. apply cstr_nul. exact G1.
Qed.

(** The buffer gmid uses is 254 bytes (server.c:970, DOMAIN_NAME_LEN), and a
    host of 219 bytes makes the decoder write past it. *)
Definition overflow_host : list N := join_dot [a63; a63; a63; s2b "xn--3n7cbcdefghijklmnopqr"].
Theorem c10_overrun_refuted :
  ~ (forall host, nonul host -> bytes host -> puny_decode host 254 <> UB).
Proof.
  intros H. apply (H overflow_host).
  - apply Forall_forall. intros x Hx ->. assert (Q : existsb (N.eqb 0) overflow_host = false) by (vm_compute; reflexivity).
    rewrite <- not_true_iff_false in Q. apply Q. apply existsb_exists. exists 0. auto.
  - apply Forall_forall. intros x Hx. assert (Q : forallb (fun x => x <? 256) overflow_host = true) by (vm_compute; reflexivity).
    rewrite forallb_forall in Q. apply Q in Hx. lia.
  - vm_compute. reflexivity.
Qed.

(** ... and success with no NUL in the buffer, whatever follows it in memory. *)
Theorem c10_unterminated_refuted :
  ~ (forall host out, nonul host -> bytes host -> puny_decode host 254 = OK (Ret true out) -> cstr out <> None).
Proof.
  intros H. set (h := join_dot [a63; a63; a63; a63]).
  destruct (puny_decode h 254) as [[|b out]| |] eqn:E; try (vm_compute in E; discriminate).
  assert (Q : match puny_decode h 254 with OK (Ret true o) => cstr o = None | _ => False end) by (vm_compute; reflexivity).
  rewrite E in Q. destruct b; [|contradiction]. apply (H h out); auto.
  - apply Forall_forall. intros x Hx ->. assert (Q2 : existsb (N.eqb 0) h = false) by (vm_compute; reflexivity).
    rewrite <- not_true_iff_false in Q2. apply Q2. apply existsb_exists. exists 0. auto.
  - apply Forall_forall. intros x Hx. assert (Q2 : forallb (fun x => x <? 256) h = true) by (vm_compute; reflexivity).
    rewrite forallb_forall in Q2. apply Q2 in Hx. lia.
Qed.

(** ** C11: no arithmetic fault *)
Theorem c11_adapt_partial delta np first : delta < 2^31 -> 0 < np ->
  exists bias, adapt (Z.of_N delta) (Z.of_N np) first = Some (Z.of_N bias) /\ bias <= 288.
Proof. intros H1 H2. destruct (adapt_ok delta np first H1 H2) as [E L]. eauto. Qed.

(** hosts whose labels are plain or valid Punycode never fault *)
Theorem c11_valid_partial ls ws len : ls <> [] -> Forall label_ok ls -> Forall nonul ls ->
  Forall2 label_dec ls ws -> (length (join_dot ws) + 59 <= len)%nat -> puny_decode (join_dot ls) len <> OK Fault.
Proof. intros H1 H2 H3 H4 H5. destruct (c45_decodes_rfc3492 ls ws len H1 H2 H3 H4 H5) as (out & E & _). rewrite E. discriminate. Qed.

(** The full claim is false: this host divides by zero. *)
Theorem c11_div_by_zero_refuted :
  ~ (forall host, nonul host -> bytes host -> puny_decode host 254 <> OK Fault).
Proof.
  intros H. apply (H (s2b "xn--vz891716a")); [repeat constructor; discriminate|repeat constructor; reflexivity|vm_compute; reflexivity].
Qed.

Print Assumptions c45_decodes_rfc3492.
Print Assumptions c09_plain_partial.
Print Assumptions c09_long_label_refused.
Print Assumptions c09_too_long_refuted.
Print Assumptions c10_safe_partial.
Print Assumptions c10_overrun_refuted.
Print Assumptions c10_unterminated_refuted.
Print Assumptions c11_adapt_partial.
Print Assumptions c11_valid_partial.
Print Assumptions c11_div_by_zero_refuted.
