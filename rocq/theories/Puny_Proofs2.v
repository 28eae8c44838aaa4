From Verif Require Import Base BaseLemmas Utf8 Utf8Spec Utf8_Proofs Compat Compat_Proofs Prop_Compat Puny PunySpec Puny_Proofs.
Local Open Scope N_scope.

Lemma to_int_small x : (- 2^31 <= x < 2^31)%Z -> to_int x = x.
Proof. intros H. unfold to_int. rewrite Z.mod_small; lia. Qed.

Lemma utf8s_insert A c B : length (utf8s (A ++ c :: B)) = (length (utf8s A) + length (utf8_encode c) + length (utf8s B))%nat.
Proof. rewrite utf8s_app. cbn [utf8s flat_map]. fold (utf8s B). rewrite !app_length. lia. Qed.

Lemma rfc_loop_mono : forall fuel s cps n i bias final, rfc_loop fuel s cps n i bias = Some final ->
  (length (utf8s cps) <= length (utf8s final))%nat.
Proof.
  induction fuel as [|f IH]; intros s cps n i bias final H; cbn [rfc_loop] in H; [discriminate|].
  destruct s as [|c s]; [inversion H; reflexivity|].
  destruct (rfc_int (c :: s) i 1 36 bias) as [[i' r]|]; [|discriminate]. cbv zeta in H.
  set (a := N.to_nat (i' mod (N.of_nat (length cps) + 1))) in *.
  destruct ((i' <? 2^31) && scalarb _); [|discriminate]. apply IH in H. rewrite utf8s_insert in H.
  rewrite <- (firstn_skipn a cps), utf8s_app, app_length. lia.
Qed.

Lemma scalarb_ok c : scalarb c = true -> scalar c.
Proof. unfold scalarb, scalar. lia. Qed.

Lemma decode_loop_ok : forall fuel s cps n i bias final pre len,
  rfc_loop fuel s cps n i bias = Some final -> Forall okcp cps -> 128 <= n -> bias <= 288 ->
  i <= N.of_nat (length cps) -> N.of_nat (length cps) + 40 * N.of_nat (length s) < 1000000 ->
  (length (utf8s final) < len)%nat ->
  decode_loop fuel s (pre ++ utf8s cps ++ repeat 0 (len - length (utf8s cps))) (length pre) len n i bias (N.of_nat (length cps))
  = OK (Ret true (pre ++ utf8s final ++ repeat 0 (len - length (utf8s final)))) /\ Forall okcp final.
Proof.
  induction fuel as [|f IH]; intros s cps n i bias final pre len H Hc Hn Hb Hi Hs Hl; [discriminate|].
  pose proof (rfc_loop_mono _ _ _ _ _ _ _ H) as M.
  cbn [rfc_loop decode_loop] in *. destruct s as [|c s]; [inversion H; subst; split; auto|].
  destruct (rfc_int (c :: s) i 1 36 bias) as [[i' r]|] eqn:E; [|discriminate]. cbv zeta in *.
  destruct ((i' <? 2^31) && scalarb _) eqn:E2; [|discriminate]. apply andb_prop in E2. destruct E2 as [E2 E3].
  apply N.ltb_lt in E2. apply scalarb_ok in E3.
  assert (P31 : 2^31 = 2147483648) by reflexivity.
  assert (P32 : 2^32 = 4294967296) by reflexivity.
  cbn [length] in Hs.
  destruct (read_int_ok _ _ _ _ _ _ _ E E2 Hb) as (R & Rl).
  { cbn [length]. lia. }
  change (1 mod 2^32) with 1 in R. rewrite R.
  pose proof (rfc_int_mono _ _ _ _ _ _ _ E) as Mi.
  rewrite (N.mod_small i) by lia.
  rewrite to_int_small by lia.
  rewrite (to_int_small (Z.of_N (N.of_nat (length cps) + 1))) by lia.
  replace (Z.of_N i' - Z.of_N i)%Z with (Z.of_N (i' - i)) by lia.
  destruct (adapt_ok (i' - i) (N.of_nat (length cps) + 1) (i =? 0)) as (Ad & Adb); [lia|lia|].
  rewrite Ad.
  set (np := N.of_nat (length cps) + 1) in *. set (bias' := rfc_adapt (i' - i) np (i =? 0)) in *.
  replace (Z.to_N (Z.of_N bias' mod 2 ^ 32)) with bias'.
  2:{ rewrite Z.mod_small by lia. lia. }
  set (n' := n + i' / np) in *.
  assert (Hge : 128 <= n') by (unfold n'; apply N.le_trans with n; [exact Hn|apply N.le_add_r]).
  clearbody n'.
  assert (Hn' : n' <= 1114111) by (unfold scalar in E3; lia).
  rewrite (N.mod_small n') by lia. rewrite to_int_small by lia.
  assert (Hmod : i' mod np < np) by (apply N.mod_lt; unfold np; lia).
  set (a := i' mod np) in *.
  set (A := firstn (N.to_nat a) cps) in *. set (B := skipn (N.to_nat a) cps) in *.
  assert (LA : length A = N.to_nat a) by (unfold A; rewrite firstn_length; unfold np in Hmod; lia).
  assert (EA : cps = A ++ B) by (symmetry; apply firstn_skipn).
  assert (HAB : Forall okcp A /\ Forall okcp B) by (apply Forall_app; rewrite <- EA; exact Hc). destruct HAB as [HA HB].
  assert (Hcn : okcp n') by (split; [exact E3|lia]).
  pose proof (rfc_loop_mono _ _ _ _ _ _ _ H) as M2. rewrite utf8s_insert in M2.
  assert (LC : length (utf8s cps) = (length (utf8s A) + length (utf8s B))%nat) by (rewrite EA at 1; rewrite utf8s_app, app_length; reflexivity).
  assert (IN : insert (pre ++ utf8s cps ++ repeat 0 (len - length (utf8s cps))) (length pre) len (Z.of_N n') a =
     OK (true, pre ++ utf8s (A ++ n' :: B) ++ repeat 0 (len - length (utf8s (A ++ n' :: B))))).
  { rewrite EA at 1. rewrite utf8s_app, <- app_assoc.
    replace a with (N.of_nat (length A)) by lia.
    rewrite insert_ok; auto; try lia.
    f_equal. f_equal. f_equal. rewrite (utf8s_app A (n' :: B)). cbn [utf8s flat_map]. fold (utf8s B). rewrite <- !app_assoc.
    do 4 f_equal. rewrite !app_length. lia. }
  rewrite IN. cbn [bind].
  assert (LL : length (A ++ n' :: B) = S (length cps)).
  { apply (f_equal (@length N)) in EA. rewrite app_length in *. cbn [length]. lia. }
  assert (Enp : np = N.of_nat (length (A ++ n' :: B))) by (rewrite LL; unfold np; lia).
  rewrite Enp at 1.
  apply IH; auto; try lia.
  - apply Forall_app. split; [exact HA|]. constructor; auto.
  - rewrite LL. cbn [length] in Rl. lia.
Qed.

(** ** copy_label *)
Lemma last_dash_none s : ~ In 45 s -> last_dash s = None.
Proof.
  induction s as [|c s IH]; intros H; [reflexivity|]. cbn [last_dash]. rewrite IH by (intros Q; apply H; right; exact Q).
  destruct (N.eqb_spec c 45); [exfalso; apply H; left; auto|reflexivity].
Qed.
Lemma last_dash_app a b : ~ In 45 b -> last_dash (a ++ 45 :: b) = Some (length a).
Proof.
  intros H. induction a as [|c a IH]; cbn [app last_dash length].
  - rewrite last_dash_none by exact H. reflexivity.
  - rewrite IH. reflexivity.
Qed.

Lemma copy_chars_ok : forall s pre z, Forall (fun c => 0 < c <= 122) s -> (length s <= z)%nat ->
  copy_chars s (pre ++ repeat 0 z) (length pre) = OK (Some (pre ++ s ++ repeat 0 (z - length s))).
Proof.
  induction s as [|c s IH]; intros pre z Hs Hz; cbn [copy_chars].
  - cbn [app length]. rewrite Nat.sub_0_r. reflexivity.
  - inversion Hs; subst. destruct (N.ltb_spec 122 c); [lia|]. cbn [andb]. cbn [length] in Hz.
    destruct z as [|z]; [lia|]. cbn [repeat]. rewrite wr_app2 by reflexivity. cbn [bind].
    rewrite cons_snoc. replace (S (length pre)) with (length (pre ++ [c])) by (rewrite app_length; cbn; lia).
    rewrite IH by (auto; lia). rewrite <- app_assoc. reflexivity.
Qed.

Lemma utf8s_ascii b : Forall (fun c => 0 < c <= 122) b -> utf8s b = b /\ Forall okcp b.
Proof.
  induction 1 as [|c b H _ [IH1 IH2]]; [split; [reflexivity|constructor]|]. cbn [utf8s flat_map]. fold (utf8s b). rewrite IH1.
  split; [|constructor; [|exact IH2]; split; [unfold scalar; lia|lia]].
  unfold utf8_encode. destruct (N.ltb_spec c 128); [reflexivity|lia].
Qed.

Lemma is_prefix_xn r : is_prefix (s2b "xn--") (s2b "xn--" ++ r) = true.
Proof. reflexivity. Qed.

Lemma leqb_eq a : forall b, leqb a b = true <-> a = b.
Proof.
  induction a as [|x a IH]; destruct b as [|y b]; cbn; try (split; congruence). rewrite andb_true_iff, N.eqb_eq, IH. split; [intros [-> ->]; auto|intros H; inversion H; auto].
Qed.

Lemma decode_puny_ok l cps pre len : label_means l cps -> (length l < 64)%nat ->
  (length (utf8s cps) < len)%nat -> (length l <= len + 4)%nat ->
  decode l (pre ++ repeat 0 len) (length pre) len = OK (Ret true (pre ++ utf8s cps ++ repeat 0 (len - length (utf8s cps)))).
Proof.
  intros H Hl64 Hfit Hstr. unfold decode. destruct H as [ext cps Hd R|basic ext cps Hne Hb Hd R].
  - rewrite is_prefix_xn. cbn [negb]. change (skipn 4 (s2b "xn--" ++ ext)) with ext.
    rewrite last_dash_none by exact Hd. cbn [bind].
    assert (SL : strlen (pre ++ repeat 0 len) (length pre) = OK 0%nat).
    { destruct len; [lia|]. cbn [repeat]. apply (strlen_app pre [] (repeat 0 len)); [reflexivity|constructor]. }
    rewrite SL. cbn [bind]. unfold rfc_decode in R.
    rewrite app_length in Hl64. change (length (s2b "xn--")) with 4%nat in Hl64.
    destruct (decode_loop_ok _ _ [] 128 0 72 cps pre len R) as (D & _); auto; try lia; try constructor.
    { cbn [length]. lia. }
    cbn [utf8s flat_map app length] in D. rewrite Nat.sub_0_r in D. exact D.
  - rewrite is_prefix_xn. cbn [negb].
    change (skipn 4 (s2b "xn--" ++ basic ++ 45 :: ext)) with (basic ++ 45 :: ext).
    rewrite last_dash_app by exact Hd. unfold copy_label.
    rewrite app_length in Hl64, Hstr. change (length (s2b "xn--")) with 4%nat in Hl64, Hstr.
    destruct (Nat.ltb_spec len (length (basic ++ 45 :: ext))) as [Q|Q]; [lia|].
    rewrite last_dash_app by exact Hd. rewrite firstn_pre by reflexivity. rewrite skipn_pre by reflexivity.
    rewrite app_length in *. cbn [length] in *.
    rewrite copy_chars_ok by (auto; lia). cbn [bind].
    destruct (utf8s_ascii basic Hb) as [Eb Ob].
    assert (Nb : nonul basic) by (eapply Forall_impl; [|exact Hb]; cbn; intros; lia).
    assert (SL : strlen (pre ++ basic ++ repeat 0 (len - length basic)) (length pre) = OK (length basic)).
    { destruct (len - length basic)%nat eqn:EE; [lia|]. cbn [repeat]. apply strlen_app; auto. }
    rewrite SL. cbn [bind]. unfold rfc_decode in R.
    destruct (decode_loop_ok _ _ basic 128 0 72 cps pre len R) as (D & _); auto; try lia.
    rewrite Eb in D. exact D.
Qed.

Lemma strncpy_fits pre l z : (length l <= z)%nat ->
  strncpy (pre ++ repeat 0 z) (length pre) l z = OK (pre ++ l ++ repeat 0 (z - length l)).
Proof.
  intros H. unfold strncpy. rewrite app_length, repeat_length.
  destruct (Nat.leb_spec (length pre + z) (length pre + z)); [|lia].
  rewrite firstn_pre by reflexivity. rewrite skipn_all2 by (rewrite app_length, repeat_length; lia). rewrite app_nil_r.
  do 2 f_equal. rewrite firstn_app. rewrite firstn_all2 by lia. f_equal.
  replace z with ((z - length l) + length l)%nat at 2 by lia. rewrite repeat_app.
  apply firstn_pre. rewrite repeat_length. reflexivity.
Qed.

Lemma decode_plain l out o len : firstn 4 l <> s2b "xn--" -> 
  decode l out o len = let* out := strncpy out o l len in OK (Ret true out).
Proof.
  intros H. unfold decode. destruct (is_prefix (s2b "xn--") l) eqn:E; [|reflexivity].
  exfalso. apply H. unfold is_prefix in E. change (length (s2b "xn--")) with 4%nat in E. apply leqb_eq in E. auto.
Qed.

Lemma decode_label_ok l w pre len : label_dec l w -> (length l < 64)%nat -> (length w < len)%nat ->
  (firstn 4 l <> s2b "xn--" \/ length l <= len + 4)%nat ->
  decode l (pre ++ repeat 0 len) (length pre) len = OK (Ret true (pre ++ w ++ repeat 0 (len - length w))).
Proof.
  intros H H64 Hf Hs. destruct H as [l Hx|l cps Hm].
  - rewrite decode_plain by exact Hx. rewrite strncpy_fits by lia. reflexivity.
  - apply decode_puny_ok; auto. destruct Hs as [Hs|Hs]; [|exact Hs]. exfalso. apply Hs. destruct Hm; reflexivity.
Qed.

(** ** whole host *)
Lemma end_of_label_ok l r : ~ In 46 l -> end_of_label (l ++ 46 :: r) = (l, 46 :: r).
Proof.
  induction l as [|c l IH]; intros H; cbn [end_of_label app]; [reflexivity|].
  destruct (N.eqb_spec c 46); [exfalso; apply H; left; auto|]. rewrite IH by (intros Q; apply H; right; exact Q). reflexivity.
Qed.
Lemma end_of_label_last l : ~ In 46 l -> end_of_label l = (l, []).
Proof.
  induction l as [|c l IH]; intros H; cbn [end_of_label]; [reflexivity|].
  destruct (N.eqb_spec c 46); [exfalso; apply H; left; auto|]. rewrite IH by (intros Q; apply H; right; exact Q). reflexivity.
Qed.

Fixpoint fits (len : nat) (ls ws : list (list N)) : Prop :=
  match ls, ws with
  | l :: ls', w :: ws' =>
    (length w < len)%nat /\ (firstn 4 l <> s2b "xn--" \/ length l <= len + 4)%nat /\
    match ls' with [] => True | _ => (length w + 1 < len)%nat /\ fits (len - length w - 1) ls' ws' end
  | _, _ => True
  end.

Lemma label_dec_nonul l w : nonul l -> label_dec l w -> (length l < 64)%nat -> nonul w.
Proof.
  intros Hn H H64. destruct H as [l Hx|l cps Hm]; [exact Hn|].
  assert (G : Forall okcp cps).
  { destruct Hm as [ext cps Hd R|basic ext cps Hne Hb Hd R]; rewrite app_length in H64; change (length (s2b "xn--")) with 4%nat in H64.
    - destruct (decode_loop_ok _ _ [] 128 0 72 cps [] (S (length (utf8s cps))) R) as (_ & D); auto; try constructor; try lia. cbn [length]. lia.
    - rewrite app_length in H64. cbn [length] in H64. destruct (utf8s_ascii basic Hb) as [Eb Ob].
      destruct (decode_loop_ok _ _ basic 128 0 72 cps [] (S (length (utf8s cps))) R) as (_ & D); auto; lia. }
  apply utf8s_ok. exact G.
Qed.

Lemma puny_loop_ok : forall ls ws fuel pre len, ls <> [] -> Forall2 label_dec ls ws ->
  Forall label_ok ls -> Forall nonul ls -> fits len ls ws -> (length ls <= fuel)%nat ->
  puny_loop fuel (join_dot ls) (pre ++ repeat 0 len) (length pre) len =
  OK (Ret true (pre ++ join_dot ws ++ repeat 0 (len - length (join_dot ws)))).
Proof.
  induction ls as [|l ls IH]; intros ws fuel pre len NE HD HO HN HF Hfu; [congruence|].
  inversion HD as [|l0 w ls0 ws' D1 D2]; subst. inversion HO as [|? ? O1 O2]; subst. inversion HN as [|? ? N1 N2]; subst.
  destruct O1 as [O1 Odot]. destruct fuel as [|fuel]; [cbn in Hfu; lia|]. cbn [length] in Hfu.
  cbn [puny_loop]. cbn [fits] in HF. destruct HF as (F1 & F2 & F3).
  pose proof (label_dec_nonul l w N1 D1 O1) as Nw.
  destruct ls as [|l2 ls].
  - inversion D2; subst. cbn [join_dot]. rewrite end_of_label_last by exact Odot.
    unfold LABEL_LEN. destruct (Nat.leb_spec 64 (length l)); [lia|].
    rewrite (decode_label_ok l w pre len D1 O1 F1 F2). reflexivity.
  - inversion D2 as [|? w2 ? ws2 D3 D4]; subst. 
    change (join_dot (l :: l2 :: ls)) with (l ++ 46 :: join_dot (l2 :: ls)).
    change (join_dot (w :: w2 :: ws2)) with (w ++ 46 :: join_dot (w2 :: ws2)).
    rewrite end_of_label_ok by exact Odot.
    unfold LABEL_LEN. destruct (Nat.leb_spec 64 (length l)); [lia|].
    rewrite (decode_label_ok l w pre len D1 O1 F1 F2). cbn [bind].
    destruct F3 as (F3 & F4).
    rewrite skipn_pre by reflexivity. rewrite firstn_pre by reflexivity.
    destruct (len - length w)%nat as [|z] eqn:Ez; [lia|]. cbn [repeat].
    destruct z as [|z]; [lia|].
    assert (SC : strlcat (w ++ 0 :: repeat 0 (S z)) (s2b "." ++ [0]) len = OK ((length w + 1)%nat, w ++ 46 :: repeat 0 (S z))).
    { change (s2b ".") with [46]. rewrite strlcat_spec; auto.
      - cbn [length]. do 2 f_equal. rewrite firstn_all2 by (cbn; lia). cbn [app]. do 2 f_equal.
        replace (Nat.min (len - length w - 1) 1) with 1%nat by lia. cbn [skipn repeat]. reflexivity.
      - repeat constructor; discriminate.
      - rewrite app_length. cbn [length]. rewrite repeat_length. lia. }
    rewrite SC. cbn [bind]. destruct (Nat.leb_spec len (length w + 1)); [lia|].
    assert (SL : strlen (pre ++ w ++ 46 :: repeat 0 (S z)) (length pre) = OK (length w + 1)%nat).
    { replace (pre ++ w ++ 46 :: repeat 0 (S z)) with (pre ++ (w ++ [46]) ++ 0 :: repeat 0 z) by (rewrite <- !app_assoc; reflexivity).
      rewrite strlen_app; [rewrite app_length; reflexivity|reflexivity|]. apply nonul_app. split; [exact Nw|]. repeat constructor; discriminate. }
    rewrite SL. cbn [bind]. destruct (Nat.leb_spec len (length w + 1)); [lia|].
    replace (pre ++ w ++ 46 :: repeat 0 (S z)) with ((pre ++ w ++ [46]) ++ repeat 0 (S z)) by (rewrite <- !app_assoc; reflexivity).
    replace (length pre + (length w + 1))%nat with (length (pre ++ w ++ [46])) by (rewrite !app_length; reflexivity).
    replace (len - (length w + 1))%nat with (S z) by lia.
    replace (len - length w - 1)%nat with (S z) in F4 by lia.
    rewrite (IH (w2 :: ws2) fuel (pre ++ w ++ [46]) (S z)); auto; [|discriminate|lia].
    rewrite <- !app_assoc. cbn [app]. do 5 f_equal. f_equal.
    rewrite app_length. cbn [length]. f_equal. lia.
Qed.
