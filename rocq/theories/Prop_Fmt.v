(** Property C19: `block return' texts. *)
From Verif Require Import Base BaseLemmas IriSpec IriOut Conf Fmt FmtSpec.
Local Open Scope N_scope.

(** ** decimal numbers *)
Lemma digits_len f n : (length (digits f n) <= f)%nat.
Proof.
  revert n. induction f as [|f IH]; intros n; cbn [digits]; [cbn; lia|].
  destruct (n <? 10); [cbn; lia|]. rewrite app_length. specialize (IH (n / 10)). cbn [length]. lia.
Qed.

Lemma decimal_app a b : decimal (a ++ [b]) = 10 * decimal a + (b - 48).
Proof. unfold decimal. rewrite fold_left_app. cbn [fold_left]. lia. Qed.

Lemma digits_value f n : n < 2 ^ N.of_nat f -> decimal (digits f n) = n /\ Forall (fun c => is_digit c = true) (digits f n).
Proof.
  revert n. induction f as [|f IH]; intros n H.
  - change (2 ^ N.of_nat 0) with 1 in H. assert (n = 0) by lia. subst. split; [reflexivity|constructor].
  - cbn [digits]. rewrite Nat2N.inj_succ, N.pow_succ_r' in H. destruct (N.ltb_spec n 10).
    + split; [unfold decimal; cbn [fold_left]; lia|]. repeat constructor. unfold is_digit. lia.
    + destruct (IH (n / 10)) as [E F].
      { apply N.div_lt_upper_bound; lia. }
      split.
      * rewrite decimal_app, E. pose proof (N.div_mod n 10). lia.
      * apply Forall_app. split; [exact F|]. repeat constructor. unfold is_digit. pose proof (N.mod_lt n 10). lia.
Qed.

(** what "%d" prints for a natural number: digits whose value it is *)
Theorem dec_value n : decimal (dec n) = n /\ Forall (fun c => is_digit c = true) (dec n).
Proof.
  apply digits_value. rewrite Nat2N.inj_succ, N2Nat.id. destruct n as [|p]; [reflexivity|].
  apply N.log2_lt_pow2; lia.
Qed.

Lemma dec_short n : n < 65536 -> (length (dec n) <= 31)%nat.
Proof.
  intros H. pose proof (digits_len (S (N.to_nat (N.log2 n))) n) as L. fold (dec n) in L.
  assert (N.log2 n <= 15) by (change 15 with (N.log2 65535); apply N.log2_le_mono; lia). lia.
Qed.

(** ** expansion *)
Lemma cat_firstn len a s : cat len (firstn (len - 1) a) s = firstn (len - 1) (a ++ s).
Proof.
  unfold cat. rewrite firstn_app. f_equal. rewrite firstn_length.
  destruct (Nat.le_ge_cases (length a) (len - 1)) as [H|H].
  - f_equal. lia.
  - replace (len - 1 - Nat.min (len - 1) (length a))%nat with 0%nat by lia.
    replace (len - 1 - length a)%nat with 0%nat by lia. reflexivity.
Qed.

Lemma int16_small p : p < 32768 -> decz (int16 p) = dec p.
Proof.
  intros H. unfold int16. destruct (N.ltb_spec p 32768); [|lia]. unfold decz.
  destruct (Z.ltb_spec (Z.of_N p) 0); [lia|]. rewrite N2Z.id. reflexivity.
Qed.

Lemma fmt_loop_ok x len fmt out : x_port x < 32768 -> expands x fmt out ->
  forall a t, (length t <= 31)%nat ->
  fmt_loop x len fmt (firstn (len - 1) a) t = OK (firstn (len - 1) (a ++ t ++ out)).
Proof.
  intros Hp E. induction E as [|c fmt out Hc E IH|d v fmt out S E IH]; intros a t Ht.
  - cbn [fmt_loop]. rewrite app_nil_r. destruct t; [rewrite app_nil_r; reflexivity|]. rewrite cat_firstn. reflexivity.
  - cbn [fmt_loop]. destruct (N.eqb_spec c 37); [contradiction|]. rewrite orb_false_r. cbn [negb].
    destruct (Nat.eqb_spec (length t) 31) as [El|El].
    + rewrite cat_firstn. rewrite IH by (cbn; lia). rewrite <- !app_assoc. reflexivity.
    + rewrite IH by (rewrite app_length; cbn; lia). rewrite <- !app_assoc. reflexivity.
  - cbn [fmt_loop]. change (37 =? 37) with true. rewrite orb_true_r. cbn [negb].
    rewrite cat_firstn. destruct S.
    + change (37 =? 37) with true. cbv iota. rewrite cat_firstn, IH by (cbn; lia).
      rewrite <- !app_assoc. reflexivity.
    + change (112 =? 37) with false. change (112 =? 112) with true. cbv iota.
      assert (R : (let buf := match x_path x with 47 :: _ => firstn (len - 1) (a ++ t) | _ => cat len (firstn (len - 1) (a ++ t)) [47] end in
         cat len buf (x_path x)) = firstn (len - 1) ((a ++ t) ++ rooted (x_path x))).
      { cbv zeta. unfold rooted. destruct (x_path x) as [|b r]; [rewrite !cat_firstn, app_nil_r; reflexivity|].
        destruct (N.eq_dec b 47) as [->|Hb]; [rewrite cat_firstn; reflexivity|].
        assert (B : forall A (u v : A), match b with 47 => u | _ => v end = v).
        { intros A u v. destruct b as [|q]; [reflexivity|].
          repeat (match goal with |- context[match ?q with xI _ => _ | xO _ => _ | xH => _ end] => destruct q end; try reflexivity).
          exfalso; apply Hb; reflexivity. }
        rewrite !B, !cat_firstn, <- !app_assoc. reflexivity. }
      cbv zeta in R. rewrite R, IH by (cbn; lia). rewrite <- !app_assoc. reflexivity.
    + change (113 =? 37) with false. change (113 =? 112) with false. change (113 =? 113) with true. cbv iota.
      rewrite cat_firstn, IH by (cbn; lia). rewrite <- !app_assoc. reflexivity.
    + change (80 =? 37) with false. change (80 =? 112) with false. change (80 =? 113) with false. change (80 =? 80) with true. cbv iota.
      rewrite int16_small by assumption. rewrite (firstn_all2 (n := 31)) by (apply dec_short; lia).
      rewrite cat_firstn, IH by (cbn; lia). rewrite <- !app_assoc. reflexivity.
    + change (78 =? 37) with false. change (78 =? 112) with false. change (78 =? 113) with false. change (78 =? 80) with false.
      change (78 =? 78) with true. cbv iota.
      rewrite cat_firstn, IH by (cbn; lia). rewrite <- !app_assoc. reflexivity.
Qed.

(** For every client, every accepted format and every buffer size, the text is
    the expansion cut to the buffer; ports up to 32767. *)
Theorem c19_expansion_partial x len fmt out : x_port x < 32768 -> expands x fmt out ->
  fmtbuf x len fmt = OK (firstn (len - 1) out).
Proof.
  intros Hp E. unfold fmtbuf. pose proof (fmt_loop_ok x len fmt out Hp E [] [] ltac:(cbn; lia)) as H.
  rewrite firstn_nil in H. exact H.
Qed.

(** the larger ports are printed negative *)
Theorem c19_port_refuted :
  ~ (forall x len fmt out, x_port x < 65536 -> expands x fmt out -> fmtbuf x len fmt = OK (firstn (len - 1) out)).
Proof.
  intros H.
  specialize (H (mkFmt [] [] 40000 []) GEMINI_URL_LEN [37; 80] (dec 40000 ++ []) eq_refl).
  assert (E : expands (mkFmt [] [] 40000 []) [37; 80] (dec 40000 ++ [])) by (apply ex_spec; [apply sp_port|constructor]).
  specialize (H E). vm_compute in H. discriminate.
Qed.

(** the expansion exists, and is unique, exactly for the formats made of
    characters and known specifiers *)
Lemma spec_det x d v v' : spec x d v -> spec x d v' -> v = v'.
Proof. intros A B. destruct A; inversion B; reflexivity. Qed.

Theorem c19_expansion_unique x fmt out out' : expands x fmt out -> expands x fmt out' -> out = out'.
Proof.
  intros E. revert out'. induction E; intros out' H'; inversion H'; subst; try congruence.
  - f_equal. auto.
  - f_equal; eauto using spec_det.
Qed.

Theorem c19_wf_expands x fmt : wf_fmt fmt <-> exists out, expands x fmt out.
Proof.
  split.
  - intros W. induction W as [|c f Hc W (o & IH)|d f Hd W (o & IH)].
    + exists []. constructor.
    + exists (c :: o). constructor; auto.
    + cbn [In] in Hd. destruct Hd as [<-|[<-|[<-|[<-|[<-|[]]]]]]; eexists; (apply ex_spec; [constructor|exact IH]).
  - intros (out & E). induction E as [|c f o Hc E IH|d v f o S E IH]; [constructor|constructor; auto|apply wf_spec; auto]. destruct S; cbn; auto 6.
Qed.

(** the configuration check accepts exactly these formats; it reads past the
    end of a format that ends in a lone '%' (reporting an error) *)
Theorem c19_check_exact fmt : check_block_fmt fmt = OK true <-> wf_fmt fmt.
Proof.
  split.
  - remember (length fmt) as n eqn:En. revert fmt En. induction n as [n IH] using lt_wf_ind. intros fmt En H.
    destruct fmt as [|c r]; [constructor|]. cbn [check_block_fmt] in H.
    destruct (N.eqb_spec c 37) as [->|Hc]; cbn [negb] in H.
    + destruct r as [|d r]; [discriminate|].
      destruct (check_block_fmt r) as [b| |] eqn:E; cbn [bind] in H; try discriminate.
      inversion H as [H1]. apply andb_true_iff in H1. destruct H1 as [H1 ->].
      constructor; [|eapply IH; [|reflexivity|exact E]; subst n; cbn; lia].
      rewrite !orb_true_iff, !N.eqb_eq in H1. cbn [In]. intuition auto.
    + constructor; [exact Hc|]. eapply IH; [|reflexivity|exact H]. subst n. cbn. lia.
  - intros W. induction W; cbn [check_block_fmt].
    + reflexivity.
    + destruct (N.eqb_spec c 37); [contradiction|]. exact IHW.
    + change (negb (37 =? 37)) with false. cbv iota. rewrite IHW. cbn [bind]. rewrite andb_true_r. f_equal.
      cbn [In] in H. rewrite !orb_true_iff, !N.eqb_eq. intuition auto.
Qed.

(** codes: 10..19 and 30..69 *)
Theorem c19_check_code n : check_block_code n = true <-> (10 <= n <= 19 \/ 30 <= n <= 69)%Z.
Proof. unfold check_block_code. lia. Qed.

(** hence: for every format the configuration accepts, no undefined behaviour *)
Theorem c19_safe x len fmt : check_block_fmt fmt = OK true -> exists out, fmtbuf x len fmt = OK out.
Proof.
  intros H. apply c19_check_exact in H.
  enough (G : forall buf t, exists out, fmt_loop x len fmt buf t = OK out) by apply G.
  induction H as [|c f Hc W IH|d f Hd W IH]; intros buf t; cbn [fmt_loop].
  - eauto.
  - destruct (N.eqb_spec c 37); [contradiction|]. cbn [negb]. apply IH.
  - change (37 =? 37) with true. cbn [negb].
    repeat match goal with |- context[if ?b then _ else _] => destruct b end; apply IH.
Qed.

Theorem c19_bounded x len fmt out : (0 < len)%nat -> fmtbuf x len fmt = OK out -> (length out < len)%nat.
Proof.
  intros Hl. unfold fmtbuf.
  assert (C : forall b s, (length b < len)%nat -> (length (cat len b s) < len)%nat).
  { intros b s H. unfold cat. rewrite app_length, firstn_length. lia. }
  enough (G : forall n fmt buf t, (length fmt <= n)%nat -> (length buf < len)%nat -> fmt_loop x len fmt buf t = OK out -> (length out < len)%nat)
    by (apply (G (length fmt)); cbn; lia).
  clear fmt. induction n as [|n IH]; intros [|c r] buf t L B; cbn [fmt_loop].
  1,3: destruct t; intros H; inversion H; subst; auto. 1: cbn in L; lia.
  set (fl := _ || _). assert (B' : (length (if fl then cat len buf t else buf) < len)%nat) by (destruct fl; auto).
  cbn [length] in L.
  destruct (c =? 37); cbn [negb]; [|apply IH; auto; lia]. destruct r as [|d r]; [discriminate|]. cbn [length] in L.
  destruct (d =? 37); [apply IH; auto; lia|]. destruct (d =? 112).
  { apply IH; [lia|]. apply C. destruct (x_path x) as [|[|q] pr]; auto.
    repeat (match goal with |- context[match ?q with xI _ => _ | xO _ => _ | xH => _ end] => destruct q end; auto). }
  destruct (d =? 113); [apply IH; auto; lia|]. destruct (d =? 80); [apply IH; auto; lia|].
  destruct (d =? 78); apply IH; auto; lia.
Qed.

Example c19_case : fmtbuf (mkFmt (s2b "a/b") (s2b "q=1") 1965 (s2b "h")) GEMINI_URL_LEN (s2b "gemini://%N:%P/x%p?%q 100%% this text is longer than the temporary buffer")
  = OK (s2b "gemini://h:1965/x/a/b?q=1 100% this text is longer than the temporary buffer").
Proof. vm_compute. reflexivity. Qed.

Print Assumptions c19_expansion_partial.
Print Assumptions c19_check_exact.
