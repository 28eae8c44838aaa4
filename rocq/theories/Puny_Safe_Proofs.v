(** Memory safety of host decoding when the buffer is more than four times the
    host name. *)
From Verif Require Import Base BaseLemmas Utf8 Utf8Spec Utf8_Proofs Compat Compat_Proofs Puny PunySpec Puny_Proofs Puny_Proofs2.
Local Open Scope N_scope.

Lemma enc_ok c : 128 <= c -> c <= 1114111 ->
  nonul (utf8_encode c) /\ bytes (utf8_encode c) /\ (length (utf8_encode c) <= 4)%nat.
Proof.
  intros H1 H2. unfold utf8_encode. destruct (N.ltb_spec c 128); [lia|].
  assert (M : forall x, x mod 64 < 64) by (intros x; apply N.mod_lt; discriminate).
  assert (D : c / 64 < 17408 /\ c / 4096 < 273 /\ c / 262144 < 5) by (repeat split; apply N.div_lt_upper_bound; lia).
  assert (D2 : c < 2048 -> c / 64 < 32) by (intros; apply N.div_lt_upper_bound; lia).
  assert (D3 : c < 65536 -> c / 4096 < 16) by (intros; apply N.div_lt_upper_bound; lia).
  pose proof (M c); pose proof (M (c / 64)); pose proof (M (c / 4096)).
  destruct (N.ltb_spec c 2048); [|destruct (N.ltb_spec c 65536)]; (split; [|split]); repeat constructor; cbn; lia.
Qed.

Lemma nth_safe : forall s f pre post i n st cp, nonul s -> bytes s -> st <= 8 -> (length s < f)%nat ->
  exists t i' st', utf8_nth_loop f (pre ++ s ++ 0 :: post) (length pre) i n st cp = OK (t, i', st') /\
    (length pre <= t <= length pre + length s)%nat.
Proof.
  induction s as [|c s IH]; intros f pre post i n st cp Hn Hb Hs Hf; (destruct f as [|f]; [lia|]); cbn [app]; cbn [utf8_nth_loop].
  - rewrite rd_app2 by reflexivity. cbn [bind]. rewrite N.eqb_refl. cbn [orb]. do 3 eexists. split; [reflexivity|]. cbn; lia.
  - rewrite rd_app2 by reflexivity. cbn [bind]. apply nonul_cons in Hn. apply bytes_cons in Hb. destruct Hn as [Hn1 Hn2], Hb as [Hb1 Hb2].
    destruct ((c =? 0) || negb (i <? n)%nat).
    { do 3 eexists. split; [reflexivity|]. lia. }
    rewrite utf8_decode_ok by assumption. cbn [bind].
    cbn [length] in Hf.
    destruct (IH f (pre ++ [c]) post (if nexts st c =? 0 then S i else i) n (nexts st c) (utf8_cp st cp c)) as (t & i' & st' & E & Ht); auto; [apply nexts_le|lia|].
    exists t, i', st'. rewrite <- app_assoc in E. cbn [app] in E. rewrite app_length in E, Ht. cbn [length] in E, Ht.
    replace (S (length pre)) with (length pre + 1)%nat by lia. split; [exact E|]. cbn [length]. lia.
Qed.

Lemma utf8_nth_safe pre s post n : nonul s -> bytes s ->
  utf8_nth (pre ++ s ++ 0 :: post) (length pre) n = OK None \/
  exists t, utf8_nth (pre ++ s ++ 0 :: post) (length pre) n = OK (Some t) /\ (length pre <= t <= length pre + length s)%nat.
Proof.
  intros Hn Hb. unfold utf8_nth.
  destruct (nth_safe s (S (length (pre ++ s ++ 0 :: post))) pre post 0 n 0 0) as (t & i' & st' & E & Ht); auto; [lia|rewrite !app_length; lia|].
  rewrite E. cbn [bind]. destruct (negb (st' =? 0)); [left; reflexivity|]. destruct (i' =? n)%nat; [right; eauto|left; reflexivity].
Qed.

Lemma read_int_short : forall s i w k bias i' r, read_int s i w k bias = Some (i', r) ->
  exists q, s = q ++ r /\ q <> [].
Proof.
  induction s as [|c s IH]; intros i w k bias i' r H; cbn [read_int] in H; [discriminate|].
  cbv zeta in H. destruct (digit_value c <? _).
  - inversion H; subst. exists [c]. split; [reflexivity|discriminate].
  - apply IH in H. destruct H as (q & -> & Hq). exists (c :: q). split; [reflexivity|discriminate].
Qed.

(** the outcomes allowed: an arithmetic fault, a refusal, or success with the
    label followed by NULs *)
Definition good (pre : list N) (len bound : nat) (r : res dres) : Prop :=
  r = OK Fault \/ (exists o, r = OK (Ret false o)) \/
  exists D k, r = OK (Ret true (pre ++ D ++ repeat 0 k)) /\ nonul D /\ bytes D /\
    (length D + k = len)%nat /\ (length D <= bound)%nat.

Lemma insert_safe pre D k len cp i : nonul D -> bytes D -> (length D + k = len)%nat -> (length D + 4 < len)%nat ->
  (exists o, insert (pre ++ D ++ repeat 0 k) (length pre) len cp i = OK (false, o)) \/
  exists D' k', insert (pre ++ D ++ repeat 0 k) (length pre) len cp i = OK (true, pre ++ D' ++ repeat 0 k') /\
    nonul D' /\ bytes D' /\ (length D' + k' = len)%nat /\ (length D' <= length D + 4)%nat.
Proof.
  intros Hn Hb Hk Hl.
  destruct (Z.leb_spec cp 127) as [C1|C1].
  { left. eexists. unfold insert. destruct (Z.leb_spec cp 127); [reflexivity|lia]. }
  destruct (Z.ltb_spec 1114111 cp) as [C2|C2].
  { left. eexists. unfold insert. destruct (Z.leb_spec cp 127); [lia|]. destruct (Z.ltb_spec 1114111 cp); [reflexivity|lia]. }
  assert (exists c, cp = Z.of_N c /\ 128 <= c /\ c <= 1114111) as (c & -> & H1 & H2).
  { exists (Z.to_N cp). lia. }
  destruct (enc_ok c H1 H2) as (E1 & E2 & E3).
  destruct k as [|k]; [lia|].
  destruct (utf8_nth_safe pre D (repeat 0 k) (N.to_nat i) Hn Hb) as [E|(t & E & Ht)].
  - left. eexists. unfold insert. destruct (Z.leb_spec (Z.of_N c) 127); [lia|]. destruct (Z.ltb_spec 1114111 (Z.of_N c)); [lia|].
    cbv zeta. cbn [repeat]. rewrite E. cbn [bind]. reflexivity.
  - right. set (a := (t - length pre)%nat) in *.
    assert (La : length (firstn a D) = a) by (rewrite firstn_length; lia).
    pose proof (firstn_skipn a D) as FS.
    assert (LD : (length (firstn a D) + length (skipn a D) = length D)%nat) by (rewrite <- app_length, FS; reflexivity).
    rewrite <- FS in Hn, Hb. apply nonul_app in Hn. apply bytes_app in Hb.
    exists (firstn a D ++ utf8_encode c ++ skipn a D), (S k - length (utf8_encode c))%nat.
    rewrite <- FS at 1. rewrite <- !app_assoc.
    rewrite (insert_gen pre (firstn a D) (skipn a D) (S k) len c i); try lia; try tauto.
    + split; [reflexivity|]. rewrite !app_length. split; [apply nonul_app; split; [tauto|apply nonul_app; tauto]|].
      split; [apply bytes_app; split; [tauto|apply bytes_app; tauto]|]. lia.
    + rewrite (app_assoc (firstn a D)), FS. cbn [repeat]. rewrite E. do 2 f_equal. unfold a in *. lia.
Qed.

Lemma decode_loop_safe : forall fuel s pre D k len n i bias np, (length s < fuel)%nat ->
  nonul D -> bytes D -> (length D + k = len)%nat -> (length D + 4 * length s < len)%nat ->
  good pre len (length D + 4 * length s) (decode_loop fuel s (pre ++ D ++ repeat 0 k) (length pre) len n i bias np).
Proof.
  induction fuel as [|f IH]; intros s pre D k len n i bias np Hf Hn Hb Hk Hl; [lia|].
  cbn [decode_loop]. destruct s as [|c s].
  { right; right. exists D, k. cbn [length]. repeat split; auto; lia. }
  destruct (read_int (c :: s) i 1 36 bias) as [[i' r]|] eqn:E; [|right; left; eauto].
  apply read_int_short in E. destruct E as (q & E & Hq).
  assert (Hr : (length r < length (c :: s))%nat).
  { rewrite E, app_length. destruct q; [congruence|cbn; lia]. }
  cbv zeta. destruct (adapt _ _ _) as [b|]; [|left; reflexivity].
  match goal with |- context[insert _ _ _ ?cp ?ii] => destruct (insert_safe pre D k len cp ii Hn Hb Hk ltac:(lia)) as [[o I]|(D' & k' & I & N1 & B1 & L1 & L2)]; rewrite I end; cbn [bind].
  - right; left; eauto.
  - match goal with |- good _ _ _ (decode_loop _ _ _ _ _ ?n' ?i'' ?b' ?np') => pose proof (IH r pre D' k' len n' i'' b' np' ltac:(lia) N1 B1 L1 ltac:(lia)) as G end.
    destruct G as [G|[G|(D2 & k2 & G & G1 & G2 & G3 & G4)]]; [left; exact G|right; left; exact G|].
    right; right. exists D2, k2. repeat split; auto; lia.
Qed.

Lemma last_dash_lt s t : last_dash s = Some t -> (t < length s)%nat.
Proof.
  revert t. induction s as [|c s IH]; intros t H; cbn in H; [discriminate|].
  destruct (last_dash s) as [n|] eqn:E.
  - inversion H; subst. specialize (IH n eq_refl). cbn. lia.
  - destruct (c =? 45); inversion H; subst. cbn. lia.
Qed.

Lemma copy_chars_safe : forall s pre z, (length s <= z)%nat ->
  copy_chars s (pre ++ repeat 0 z) (length pre) = OK None \/
  copy_chars s (pre ++ repeat 0 z) (length pre) = OK (Some (pre ++ s ++ repeat 0 (z - length s))).
Proof.
  induction s as [|c s IH]; intros pre z Hz; cbn [copy_chars].
  - right. cbn [app length]. rewrite Nat.sub_0_r. reflexivity.
  - destruct ((122 <? c) && (c <? 128)); [left; reflexivity|]. cbn [length] in Hz.
    destruct z as [|z]; [lia|]. cbn [repeat]. rewrite wr_app2 by reflexivity. cbn [bind].
    rewrite cons_snoc. replace (S (length pre)) with (length (pre ++ [c])) by (rewrite app_length; cbn; lia).
    destruct (IH (pre ++ [c]) z ltac:(lia)) as [E|E]; rewrite E; [left; reflexivity|right].
    rewrite <- app_assoc. reflexivity.
Qed.

Lemma nonul_firstn n s : nonul s -> nonul (firstn n s).
Proof. intros H. rewrite <- (firstn_skipn n s) in H. apply nonul_app in H. tauto. Qed.
Lemma bytes_firstn n s : bytes s -> bytes (firstn n s).
Proof. intros H. rewrite <- (firstn_skipn n s) in H. apply bytes_app in H. tauto. Qed.

Lemma decode_safe l pre len : nonul l -> bytes l -> (4 * length l < len)%nat ->
  good pre len (4 * length l) (decode l (pre ++ repeat 0 len) (length pre) len).
Proof.
  intros Hn Hb Hl. unfold decode. destruct (is_prefix (s2b "xn--") l) eqn:P; cbn [negb].
  - assert (L4 : (length (skipn 4 l) + 4 = length l)%nat).
    { unfold is_prefix in P. apply leqb_eq in P. change (length (s2b "xn--")) with 4%nat in P.
      rewrite <- (firstn_skipn 4 l) at 2. rewrite <- P, app_length. change (length (s2b "xn--")) with 4%nat. lia. }
    assert (Hn' : nonul (skipn 4 l)) by (rewrite <- (firstn_skipn 4 l) in Hn; apply nonul_app in Hn; tauto).
    assert (Hb' : bytes (skipn 4 l)) by (rewrite <- (firstn_skipn 4 l) in Hb; apply bytes_app in Hb; tauto).
    cbv zeta. set (str := skipn 4 l) in *. clearbody str.
    destruct (last_dash str) as [t|] eqn:Ed.
    + unfold copy_label. destruct (Nat.ltb_spec len (length str)); [lia|]. rewrite Ed. cbv zeta.
      pose proof (last_dash_lt _ _ Ed) as Ht.
      destruct (copy_chars_safe (firstn t str) pre len) as [E|E]; [rewrite firstn_length; lia| |]; rewrite E; cbn [bind].
      * right; left; eauto.
      * set (D := firstn t str) in *. assert (LD : length D = t) by (unfold D; rewrite firstn_length; lia).
        assert (ND : nonul D) by (apply nonul_firstn; exact Hn').
        assert (BD : bytes D) by (apply bytes_firstn; exact Hb').
        assert (EX : exists s, (match skipn t str with 45 :: s' => s' | _ => skipn t str end) = s /\ (length s <= length str - t)%nat).
        { eexists. split; [reflexivity|]. pose proof (skipn_length t str) as SL. destruct (skipn t str) as [|c r]; [cbn; lia|].
          destruct (N.eqb_spec c 45) as [->|Hc]; [cbn in SL; lia|].
          assert (match c with 45 => r | _ => c :: r end = c :: r) as -> by (destruct c as [|p]; auto; do 6 (destruct p; auto); congruence).
          lia. }
        destruct EX as (s & -> & Ls).
        assert (SL : strlen (pre ++ D ++ repeat 0 (len - length D)) (length pre) = OK (length D)).
        { destruct (len - length D)%nat as [|z] eqn:Ez; [lia|]. cbn [repeat]. apply strlen_app; [reflexivity|exact ND]. }
        rewrite SL. cbn [bind].
        pose proof (decode_loop_safe (S (length s)) s pre D (len - length D) len 128 0 72 (N.of_nat (length D)) ltac:(lia) ND BD ltac:(lia) ltac:(lia)) as G.
        destruct G as [G|[G|(D2 & k2 & G & G1 & G2 & G3 & G4)]]; [left; exact G|right; left; exact G|].
        right; right. exists D2, k2. repeat split; auto; lia.
    + cbn [bind].
      assert (SL : strlen (pre ++ repeat 0 len) (length pre) = OK 0%nat).
      { destruct len; [lia|]. cbn [repeat]. apply (strlen_app pre [] (repeat 0 len)); [reflexivity|constructor]. }
      rewrite SL. cbn [bind].
      pose proof (decode_loop_safe (S (length str)) str pre [] len len 128 0 72 (N.of_nat 0) ltac:(lia) ltac:(constructor) ltac:(constructor) ltac:(cbn;lia) ltac:(cbn [length];lia)) as G.
      cbn [app] in G. destruct G as [G|[G|(D2 & k2 & G & G1 & G2 & G3 & G4)]]; [left; exact G|right; left; exact G|].
      right; right. exists D2, k2. repeat split; auto. cbn [length] in G4. lia.
  - rewrite strncpy_fits by lia. cbn [bind]. right; right. exists l, (len - length l)%nat. repeat split; auto; lia.
Qed.

Lemma end_of_label_app s : forall l r, end_of_label s = (l, r) -> s = l ++ r /\ (r = [] \/ exists r', r = 46 :: r').
Proof.
  induction s as [|c s IH]; intros l r H; cbn in H; [inversion H; subst; auto|].
  destruct (N.eqb_spec c 46) as [->|Hc]; [inversion H; subst; cbn; eauto|].
  destruct (end_of_label s) as [a b]. inversion H; subst. destruct (IH a r eq_refl) as [-> Hr]. auto.
Qed.

Lemma puny_loop_safe : forall fuel s pre len, (length s < fuel)%nat -> nonul s -> bytes s -> (4 * length s < len)%nat ->
  good pre len (4 * length s) (puny_loop fuel s (pre ++ repeat 0 len) (length pre) len).
Proof.
  induction fuel as [|f IH]; intros s pre len Hf Hn Hb Hl; [lia|].
  cbn [puny_loop]. destruct (end_of_label s) as [l r] eqn:E. apply end_of_label_app in E. destruct E as [-> Hr].
  destruct (LABEL_LEN <=? length l)%nat; [right; left; eauto|].
  apply nonul_app in Hn. apply bytes_app in Hb. destruct Hn as [Hn1 Hn2], Hb as [Hb1 Hb2]. rewrite app_length in Hf, Hl.
  pose proof (decode_safe l pre len Hn1 Hb1 ltac:(lia)) as G.
  destruct G as [G|[[o G]|(D & k & G & G1 & G2 & G3 & G4)]]; rewrite G; cbn [bind]; [left; reflexivity|right; left; eauto|].
  destruct Hr as [->|(r' & ->)].
  { right; right. exists D, k. rewrite app_length. repeat split; auto; lia. }
  cbn [length] in Hf, Hl. rewrite skipn_pre by reflexivity. rewrite firstn_pre by reflexivity.
  destruct k as [|[|z]]; [lia|lia|].
  assert (SC : strlcat (D ++ repeat 0 (S (S z))) (s2b "." ++ [0]) len = OK ((length D + 1)%nat, D ++ 46 :: repeat 0 (S z))).
  { change (s2b ".") with [46]. change (repeat 0 (S (S z))) with (0 :: repeat 0 (S z)). rewrite strlcat_spec; auto.
    - cbn [length]. do 2 f_equal. rewrite firstn_all2 by (cbn; lia). cbn [app]. do 2 f_equal.
      replace (Nat.min (len - length D - 1) 1) with 1%nat by lia. cbn [skipn repeat]. reflexivity.
    - repeat constructor; discriminate.
    - lia.
    - rewrite app_length. cbn [length]. rewrite repeat_length. lia. }
  rewrite SC. cbn [bind]. destruct (Nat.leb_spec len (length D + 1)); [lia|].
  assert (SL : strlen (pre ++ D ++ 46 :: repeat 0 (S z)) (length pre) = OK (length D + 1)%nat).
  { replace (pre ++ D ++ 46 :: repeat 0 (S z)) with (pre ++ (D ++ [46]) ++ 0 :: repeat 0 z) by (rewrite <- !app_assoc; reflexivity).
    rewrite strlen_app; [rewrite app_length; reflexivity|reflexivity|]. apply nonul_app. split; [exact G1|]. repeat constructor; discriminate. }
  rewrite SL. cbn [bind]. destruct (Nat.leb_spec len (length D + 1)); [lia|].
  replace (pre ++ D ++ 46 :: repeat 0 (S z)) with ((pre ++ D ++ [46]) ++ repeat 0 (S z)) by (rewrite <- !app_assoc; reflexivity).
  replace (length pre + (length D + 1))%nat with (length (pre ++ D ++ [46])) by (rewrite !app_length; reflexivity).
  replace (len - (length D + 1))%nat with (S z) by lia.
  apply nonul_cons in Hn2. apply bytes_cons in Hb2.
  pose proof (IH r' (pre ++ D ++ [46]) (S z) ltac:(lia) ltac:(tauto) ltac:(tauto) ltac:(lia)) as Q.
  destruct Q as [Q|[Q|(D2 & k2 & Q & Q1 & Q2 & Q3 & Q4)]]; [left; exact Q|right; left; exact Q|].
  right; right. exists (D ++ 46 :: D2), k2. rewrite Q. rewrite !app_length. cbn [length].
  split; [rewrite <- !app_assoc; reflexivity|]. split; [apply nonul_app; split; auto; apply nonul_cons; split; [discriminate|auto]|].
  split; [apply bytes_app; split; auto; apply bytes_cons; split; [lia|auto]|]. lia.
Qed.
