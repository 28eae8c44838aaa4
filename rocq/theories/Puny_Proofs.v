From Verif Require Import Base BaseLemmas Utf8 Utf8Spec Utf8_Proofs Compat Compat_Proofs Prop_Compat Puny PunySpec.
Local Open Scope N_scope.

(** ** adapt *)
Lemma adapt_loop_ok : forall f n d k, d < 456 * 35 ^ (N.of_nat n) -> (n < f)%nat ->
  adapt_loop f (Z.of_N d) (Z.of_N k) =
    Some (Z.of_N (fst (rfc_adapt_loop n d k)), Z.of_N (snd (rfc_adapt_loop n d k))) /\
  fst (rfc_adapt_loop n d k) <= 455 /\ snd (rfc_adapt_loop n d k) <= k + 36 * N.of_nat n.
Proof.
  induction f as [|f IH]; intros n d k Hd Hn; [lia|]. cbn [adapt_loop].
  destruct n as [|n].
  - cbn [rfc_adapt_loop fst snd]. change (35 ^ N.of_nat 0) with 1 in Hd.
    destruct (Z.ltb_spec 455 (Z.of_N d)); [lia|]. repeat split; lia.
  - cbn [rfc_adapt_loop]. destruct (N.ltb_spec 455 d) as [H|H].
    + destruct (Z.ltb_spec 455 (Z.of_N d)); [|lia].
      replace (Z.quot (Z.of_N d) 35) with (Z.of_N (d / 35)).
      2:{ rewrite N2Z.inj_div. rewrite Z.quot_div_nonneg by lia. reflexivity. }
      replace (Z.of_N k + 36)%Z with (Z.of_N (k + 36)) by lia.
      destruct (IH n (d / 35) (k + 36)) as (A & B & C); [|lia|].
      { apply N.div_lt_upper_bound; [lia|]. rewrite Nat2N.inj_succ, N.pow_succ_r' in Hd. lia. }
      split; [exact A|]. split; [exact B|]. lia.
    + destruct (Z.ltb_spec 455 (Z.of_N d)); [lia|]. cbn [fst snd]. repeat split; lia.
Qed.

Lemma adapt_ok delta np first : delta < 2^31 -> 0 < np ->
  adapt (Z.of_N delta) (Z.of_N np) first = Some (Z.of_N (rfc_adapt delta np first)) /\
  rfc_adapt delta np first <= 288.
Proof.
  change (2^31) with 2147483648. intros Hd Hn. unfold adapt, rfc_adapt.
  set (d0 := if first then delta / 700 else delta / 2).
  assert (E0 : (if first then Z.quot (Z.of_N delta) 700 else Z.quot (Z.of_N delta) 2) = Z.of_N d0).
  { unfold d0. destruct first; rewrite N2Z.inj_div, Z.quot_div_nonneg by lia; reflexivity. }
  rewrite E0. assert (L0 : d0 <= 1073741824).
  { unfold d0. destruct first; apply N.div_le_upper_bound; lia. }
  assert (B0 : d0 < 1073741824).
  { unfold d0. destruct first; apply N.div_lt_upper_bound; lia. }
  destruct (Z.eqb_spec (Z.of_N np) 0); [lia|].
  replace (Z.of_N d0 + Z.quot (Z.of_N d0) (Z.of_N np))%Z with (Z.of_N (d0 + d0 / np)).
  2:{ rewrite N2Z.inj_add, N2Z.inj_div, Z.quot_div_nonneg by lia. reflexivity. }
  assert (L1 : d0 / np <= d0) by (apply N.div_le_upper_bound; [lia|]; nia).
  set (d1 := d0 + d0 / np) in *.
  assert (I1 : int_ok (Z.of_N d1) = true) by (unfold int_ok, d1; lia). rewrite I1. cbn [negb].
  destruct (adapt_loop_ok 32 7 d1 0) as (A & B & C); [|lia|].
  { change (N.of_nat 7) with 7. change (35 ^ 7) with 64339296875. unfold d1. lia. }
  change (Z.of_N 0) with 0%Z in A. rewrite A. destruct (rfc_adapt_loop 7 d1 0) as [d2 k]. cbn [fst snd] in *.
  assert (I2 : int_ok (36 * Z.of_N d2) = true) by (unfold int_ok; lia). rewrite I2. cbn [negb].
  destruct (Z.eqb_spec (Z.of_N d2 + 38) 0); [lia|].
  assert (Q : Z.quot (36 * Z.of_N d2) (Z.of_N d2 + 38) = Z.of_N (36 * d2 / (d2 + 38))).
  { rewrite N2Z.inj_div, Z.quot_div_nonneg by lia. f_equal; lia. }
  rewrite Q. split; [f_equal; lia|].
  assert (36 * d2 / (d2 + 38) <= 36) by (apply N.div_le_upper_bound; lia). lia.
Qed.

(** ** integers *)
Lemma digit_ok c d : rfc_digit c = Some d -> digit_value c = d /\ d < 36 /\ c < 128 /\ c <> 0.
Proof.
  unfold rfc_digit, digit_value, is_upper, is_lower, is_digit. intros H.
  destruct ((65 <=? c) && (c <=? 90)) eqn:E1; [inversion H; lia|].
  destruct ((97 <=? c) && (c <=? 122)) eqn:E2; [inversion H; lia|].
  destruct ((48 <=? c) && (c <=? 57)) eqn:E3; inversion H; lia.
Qed.

Lemma rfc_int_mono : forall s i w k bias i' r, rfc_int s i w k bias = Some (i', r) -> i <= i'.
Proof.
  induction s as [|c s IH]; intros i w k bias i' r H; cbn [rfc_int] in H; [discriminate|].
  destruct (rfc_digit c) as [d|]; [|discriminate]. cbv zeta in H.
  destruct (d <? _); [inversion H; lia|]. apply IH in H. lia.
Qed.

Lemma read_int_ok : forall s i w k bias i' r, rfc_int s i w k bias = Some (i', r) ->
  i' < 2^31 -> bias <= 288 -> k + 36 * N.of_nat (length s) < 2^31 ->
  read_int s i (w mod 2^32) k bias = Some (i', r) /\ (length r < length s)%nat.
Proof.
  change (2^31) with 2147483648. 
  induction s as [|c s IH]; intros i w k bias i' r H Hi Hb Hk; cbn [rfc_int read_int] in *; [discriminate|].
  destruct (rfc_digit c) as [d|] eqn:Ed; [|discriminate]. cbv zeta in *.
  destruct (digit_ok c d Ed) as (-> & Hd & _).
  cbn [length] in Hk. rewrite Nat2N.inj_succ in Hk.
  set (t := if k <=? bias then 1 else if bias + 26 <=? k then 26 else k - bias) in *.
  replace ((bias + 26) mod 2^32) with (bias + 26).
  2:{ symmetry. apply N.mod_small. change (2^32) with 4294967296. lia. }
  fold t.
  assert (Hle : i + d * w <= i').
  { destruct (d <? t); [inversion H; lia|]. eapply rfc_int_mono; eauto. }
  assert (E : (i + (d * (w mod 2^32)) mod 2^32) mod 2^64 = i + d * w).
  { rewrite N.mul_mod_idemp_r by discriminate. rewrite (N.mod_small (d * w)) by (change (2^32) with 4294967296; lia).
    apply N.mod_small. change (2^64) with 18446744073709551616. lia. }
  rewrite E. destruct (d <? t) eqn:Elt.
  - inversion H; subst. split; [reflexivity|]. cbn. lia.
  - rewrite N.mul_mod_idemp_l by discriminate.
    replace ((k + 36) mod 2^32) with (k + 36).
    2:{ symmetry. apply N.mod_small. change (2^32) with 4294967296. lia. }
    destruct (IH _ _ _ _ _ _ H Hi Hb) as (A & B); [lia|]. split; [exact A|]. cbn. lia.
Qed.

(** ** utf8_nth *)
Lemma nth_char : forall a st c k v, dfa a st c = (k, 0, v) -> a <> [] -> k = (length a - 1)%nat ->
  nonul a -> bytes a -> st <= 8 ->
  forall f pre post i n c', (i < n)%nat ->
  exists c'', utf8_nth_loop (length a + f) (pre ++ a ++ post) (length pre) i n st c' =
              utf8_nth_loop f (pre ++ a ++ post) (length pre + length a) (S i) n 0 c''.
Proof.
  induction a as [|x a IH]; intros st c k v D NE K Hn Hb Hst f pre post i n c' Hi; [congruence|].
  apply nonul_cons in Hn. destruct Hn as [Hx Hn]. apply bytes_cons in Hb. destruct Hb as [Hxb Hb].
  cbn [length Nat.add utf8_nth_loop app]. rewrite rd_app2 by reflexivity. cbn [bind].
  destruct (N.eqb_spec x 0); [congruence|]. destruct (Nat.ltb_spec i n); [|lia]. cbn [orb negb].
  rewrite utf8_decode_ok by auto. cbn [bind]. cbn [dfa] in D.
  destruct (N.eqb_spec (nexts st x) 0) as [E|E].
  - assert (k = 0%nat) by congruence. destruct a; [|cbn in K; lia]. rewrite E. exists (utf8_cp st c' x). cbn [length Nat.add app].
    replace (length pre + 1)%nat with (S (length pre)) by lia. reflexivity.
  - destruct (dfa a (nexts st x) (utf8_cp st c x)) as [[k' s'] v'] eqn:D'.
    injection D as D1 D2 D3. subst s' v'.
    assert (NEa : a <> []).
    { intros ->. cbn in D'. injection D' as _ Q _. congruence. }
    destruct (IH _ _ _ _ D' NEa) with (f := f) (pre := pre ++ [x]) (post := post) (i := i) (n := n) (c' := utf8_cp st c' x) as (c'' & Q); auto.
    { cbn [length] in K. lia. } { apply nexts_le. }
    exists c''. replace (pre ++ x :: a ++ post) with ((pre ++ [x]) ++ a ++ post) by (rewrite <- app_assoc; reflexivity).
    replace (S (length pre)) with (length (pre ++ [x])) by (rewrite app_length; cbn; lia).
    rewrite Q. f_equal. rewrite app_length. cbn. lia.
Qed.

Definition okcp (cp : N) : Prop := scalar cp /\ cp <> 0.

Lemma utf8_ok cp : okcp cp -> nonul (utf8_encode cp) /\ bytes (utf8_encode cp) /\ utf8_encode cp <> [] /\ (length (utf8_encode cp) <= 4)%nat.
Proof.
  intros [Hs H0].
  assert (M : forall x, 128 + x mod 64 < 256) by (intros x; pose proof (N.mod_lt x 64); lia).
  assert (Z : forall x y, 0 < x -> x + y <> 0) by (intros; lia).
  unfold utf8_encode. destruct (N.ltb_spec cp 128). { repeat split; try discriminate; repeat constructor; lia. }
  destruct (N.ltb_spec cp 2048).
  { assert (cp / 64 < 32) by (apply N.div_lt_upper_bound; lia). split; [|split; [|split; [discriminate|cbn; lia]]]; repeat constructor; auto; lia. }
  destruct (N.ltb_spec cp 65536).
  { assert (cp / 4096 < 16) by (apply N.div_lt_upper_bound; lia). split; [|split; [|split; [discriminate|cbn; lia]]]; repeat constructor; auto; lia. }
  unfold scalar in Hs. assert (cp / 262144 < 5) by (apply N.div_lt_upper_bound; lia).
  split; [|split; [|split; [discriminate|cbn; lia]]]; repeat constructor; auto; lia.
Qed.

Lemma utf8_dfa cp : okcp cp -> exists v, dfa (utf8_encode cp) 0 0 = ((length (utf8_encode cp) - 1)%nat, 0, v).
Proof.
  intros H. pose proof (utf8_ok cp H) as (_ & Hb & _). destruct H as [Hs H0].
  pose proof (dfa_first _ Hb) as F. destruct (N.lt_ge_cases cp 128) as [L|L].
  - assert (E : utf8_encode cp = [cp]) by (unfold utf8_encode; destruct (N.ltb_spec cp 128); [reflexivity|lia]).
    rewrite E in *. destruct (N.ltb_spec cp 128); [|lia]. exists cp. exact F.
  - destruct (encode_mb_len cp [] Hs L) as [M _]. rewrite app_nil_r in M.
    destruct (utf8_encode cp) as [|a t] eqn:E.
    { unfold utf8_encode in E. repeat match type of E with (if ?b then _ else _) = _ => destruct b end; discriminate. }
    destruct (N.ltb_spec a 128) as [La|La].
    { exfalso. unfold utf8_encode in E. destruct (N.ltb_spec cp 128); [lia|].
      repeat match type of E with (if ?b then _ else _) = _ => destruct b end; injection E as E _; lia. }
    rewrite M in F. eexists. exact F.
Qed.

Lemma utf8s_app a b : utf8s (a ++ b) = utf8s a ++ utf8s b.
Proof. unfold utf8s. induction a; cbn; [reflexivity|]. rewrite IHa, app_assoc. reflexivity. Qed.

Lemma utf8s_ok cps : Forall okcp cps -> nonul (utf8s cps) /\ bytes (utf8s cps) /\ (length cps <= length (utf8s cps))%nat.
Proof.
  induction 1 as [|c cps H _ IH]; [repeat split; constructor|]. cbn [utf8s flat_map]. fold (utf8s cps).
  destruct IH as (A & B & C). destruct (utf8_ok c H) as (D & E & F & _).
  split; [apply nonul_app; auto|]. split; [apply bytes_app; auto|]. rewrite app_length. destruct (utf8_encode c); [congruence|]. cbn. lia.
Qed.

Lemma nth_chars : forall A f pre post i n c', Forall okcp A -> (i + length A <= n)%nat ->
  exists c'', utf8_nth_loop (length (utf8s A) + f) (pre ++ utf8s A ++ post) (length pre) i n 0 c' =
              utf8_nth_loop f (pre ++ utf8s A ++ post) (length pre + length (utf8s A)) (i + length A) n 0 c''.
Proof.
  induction A as [|c A IH]; intros f pre post i n c' H Hi.
  { exists c'. cbn. rewrite !Nat.add_0_r. reflexivity. }
  inversion H; subst. cbn [utf8s flat_map]. fold (utf8s A). cbn [length] in Hi.
  destruct (utf8_ok c H2) as (N1 & B1 & NE & _). destruct (utf8_dfa c H2) as (v & D).
  rewrite app_length, <- Nat.add_assoc, <- app_assoc.
  destruct (nth_char _ _ _ _ _ D NE eq_refl N1 B1 ltac:(lia) (length (utf8s A) + f) pre (utf8s A ++ post) i n c' ltac:(lia)) as (c2 & Q).
  rewrite Q. rewrite (app_assoc pre).
  destruct (IH f (pre ++ utf8_encode c) post (S i) n c2 H3 ltac:(lia)) as (c3 & Q3).
  exists c3. rewrite app_length in Q3. rewrite Q3. f_equal; cbn [length]; lia.
Qed.

Lemma utf8_nth_ok pre A post i : Forall okcp A -> length A = i -> post <> [] ->
  (forall d post', post = d :: post' -> d = 0 \/ True) ->
  utf8_nth (pre ++ utf8s A ++ post) (length pre) i = OK (Some (length pre + length (utf8s A))%nat).
Proof.
  intros H Hi HP _. unfold utf8_nth.
  assert (F : exists f, S (length (pre ++ utf8s A ++ post)) = (length (utf8s A) + S f)%nat).
  { exists (length pre + length post)%nat. rewrite !app_length. lia. }
  destruct F as (f & ->). destruct (nth_chars A (S f) pre post 0 i 0 H) as (c' & ->); [lia|].
  cbn [utf8_nth_loop Nat.add]. destruct post as [|d post]; [congruence|].
  rewrite app_assoc. rewrite rd_app2 by (rewrite app_length; reflexivity). cbn [bind].
  rewrite Hi. rewrite Nat.ltb_irrefl. cbn [negb]. rewrite orb_true_r. cbn [bind].
  change (0 =? 0) with true. cbn [negb]. rewrite Nat.eqb_refl. reflexivity.
Qed.

(** ** insert *)
Lemma memmove_shift pre T z1 z2 l : length z1 = l ->
  exists j, memmove (pre ++ T ++ z1 ++ z2) (length pre + l) (length pre) (length T) = OK (pre ++ j ++ T ++ z2) /\ length j = l.
Proof.
  intros Hl. unfold memmove. rewrite !app_length.
  destruct (Nat.leb_spec (length pre + l + length T) (length pre + (length T + (length z1 + length z2)))); [|lia].
  destruct (Nat.leb_spec (length pre + length T) (length pre + (length T + (length z1 + length z2)))); [|lia]. cbn [andb].
  rewrite (skipn_pre pre) by reflexivity. rewrite (firstn_pre T) by reflexivity.
  rewrite (firstn_app (length pre + l)). rewrite firstn_all2 by lia.
  replace (length pre + l - length pre)%nat with l by lia.
  exists (firstn l (T ++ z1 ++ z2)). split.
  - rewrite <- app_assoc. do 3 f_equal. f_equal.
    replace (pre ++ T ++ z1 ++ z2) with ((pre ++ T ++ z1) ++ z2) by (rewrite <- !app_assoc; reflexivity).
    apply skipn_pre. rewrite !app_length. lia.
  - rewrite firstn_length, !app_length. lia.
Qed.

Lemma land63 c : N.land c 63 = c mod 64.
Proof. change 63 with (N.ones 6). rewrite N.land_ones. reflexivity. Qed.
Lemma land31 c : N.land c 31 = c mod 32.
Proof. change 31 with (N.ones 5). rewrite N.land_ones. reflexivity. Qed.
Lemma land15 c : N.land c 15 = c mod 16.
Proof. change 15 with (N.ones 4). rewrite N.land_ones. reflexivity. Qed.
Lemma land7 c : N.land c 7 = c mod 8.
Proof. change 7 with (N.ones 3). rewrite N.land_ones. reflexivity. Qed.

Lemma insert_gen pre A B k len c i : nonul B -> 128 <= c -> c <= 1114111 ->
  (length A + length B + length (utf8_encode c) < len)%nat ->
  (length A + length B + k = len)%nat ->
  utf8_nth (pre ++ A ++ B ++ repeat 0 k) (length pre) (N.to_nat i) = OK (Some (length pre + length A)%nat) ->
  insert (pre ++ A ++ B ++ repeat 0 k) (length pre) len (Z.of_N c) i =
  OK (true, pre ++ A ++ utf8_encode c ++ B ++ repeat 0 (k - length (utf8_encode c))).
Proof.
  intros NB H128 Hs Hlen Hk Hnth.
  unfold insert. destruct (Z.leb_spec (Z.of_N c) 127); [lia|].
  destruct (Z.ltb_spec 1114111 (Z.of_N c)); [lia|]. rewrite N2Z.id. rewrite Hnth. cbn [bind].
  set (l := if c <=? 2047 then 2%nat else if c <=? 65535 then 3%nat else 4%nat).
  assert (El : length (utf8_encode c) = l).
  { unfold utf8_encode, l. destruct (N.ltb_spec c 128); [lia|].
    destruct (N.ltb_spec c 2048); destruct (N.leb_spec c 2047); try lia; [reflexivity|].
    destruct (N.ltb_spec c 65536); destruct (N.leb_spec c 65535); try lia; reflexivity. }
  rewrite El in *.
  set (P := pre ++ A). replace (length pre + length A)%nat with (length P) by (unfold P; rewrite app_length; reflexivity).
  destruct (Nat.leb_spec (length pre + len) (length P + l)) as [Q|Q].
  { exfalso. unfold P in Q. rewrite app_length in Q. lia. }
  rewrite (app_assoc pre). fold P.
  assert (Rk : repeat (0:N) k = repeat 0 l ++ repeat 0 (k - l)) by (rewrite <- repeat_app; f_equal; lia).
  assert (Ek : exists k', (k - l)%nat = S k') by (exists (k - l - 1)%nat; lia). destruct Ek as (k' & Ek).
  assert (SL : strlen (P ++ B ++ repeat 0 k) (length P) = OK (length B)).
  { destruct k; [lia|]. cbn [repeat]. apply strlen_app; auto. }
  rewrite SL. cbn [bind]. rewrite Rk.
  destruct (memmove_shift P B (repeat 0 l) (repeat 0 (k - l)) l (repeat_length _ _)) as (j & MM & Lj).
  rewrite MM. cbn [bind].
  replace (pre ++ A ++ utf8_encode c ++ B ++ repeat 0 (k - l)) with (P ++ utf8_encode c ++ B ++ repeat 0 (k - l))
    by (unfold P; rewrite <- app_assoc; reflexivity).
  set (T := B ++ repeat 0 (k - l)).
  clearbody T P. clear MM SL Rk Q Hlen Hk Ek k'. revert El Lj. generalize l. clear l. intros l El Lj. unfold utf8_encode in *. destruct (N.ltb_spec c 128); [lia|].
  rewrite !land63, !land31, !land15, !land7, !N.shiftr_div_pow2.
  change (2^6) with 64. change (2^12) with 4096. change (2^18) with 262144.
  destruct (N.ltb_spec c 2048); [|destruct (N.ltb_spec c 65536)].
  - cbn [length] in El. subst l. destruct j as [|j0 [|j1 [|]]]; try discriminate Lj. cbn [app].
    change (P ++ j0 :: j1 :: T) with (P ++ [j0] ++ j1 :: T). rewrite app_assoc.
    rewrite wr_app2 by (rewrite app_length; reflexivity). cbn [bind]. rewrite <- app_assoc. cbn [app].
    rewrite wr_app2 by reflexivity. cbn [bind]. do 3 f_equal.
    rewrite (N.mod_small (c / 64)) by (apply N.div_lt_upper_bound; lia). f_equal; [lia|]. f_equal. lia.
  - cbn [length] in El. subst l. destruct j as [|j0 [|j1 [|j2 [|]]]]; try discriminate Lj. cbn [app].
    change (P ++ j0 :: j1 :: j2 :: T) with (P ++ [j0; j1] ++ j2 :: T). rewrite app_assoc.
    rewrite wr_app2 by (rewrite app_length; reflexivity). cbn [bind]. rewrite <- app_assoc. cbn [app].
    match goal with |- context [P ++ j0 :: j1 :: ?R] => change (P ++ j0 :: j1 :: R) with (P ++ [j0] ++ j1 :: R) end. rewrite app_assoc.
    rewrite wr_app2 by (rewrite app_length; reflexivity). cbn [bind]. rewrite <- app_assoc. cbn [app].
    rewrite wr_app2 by reflexivity. cbn [bind]. do 3 f_equal.
    rewrite (N.mod_small (c / 4096)) by (apply N.div_lt_upper_bound; lia). f_equal; [lia|]. f_equal; [lia|]. f_equal; lia.
  - cbn [length] in El. subst l. destruct j as [|j0 [|j1 [|j2 [|j3 [|]]]]]; try discriminate Lj. cbn [app].
    change (P ++ j0 :: j1 :: j2 :: j3 :: T) with (P ++ [j0; j1; j2] ++ j3 :: T). rewrite app_assoc.
    rewrite wr_app2 by (rewrite app_length; reflexivity). cbn [bind]. rewrite <- app_assoc. cbn [app].
    match goal with |- context [P ++ j0 :: j1 :: j2 :: ?R] => change (P ++ j0 :: j1 :: j2 :: R) with (P ++ [j0; j1] ++ j2 :: R) end. rewrite app_assoc.
    rewrite wr_app2 by (rewrite app_length; reflexivity). cbn [bind]. rewrite <- app_assoc. cbn [app].
    match goal with |- context [P ++ j0 :: j1 :: ?R] => change (P ++ j0 :: j1 :: R) with (P ++ [j0] ++ j1 :: R) end. rewrite app_assoc.
    rewrite wr_app2 by (rewrite app_length; reflexivity). cbn [bind]. rewrite <- app_assoc. cbn [app].
    rewrite wr_app2 by reflexivity. cbn [bind]. do 3 f_equal.
    rewrite (N.mod_small (c / 262144)) by (apply N.div_lt_upper_bound; lia). f_equal; [lia|]. f_equal; [lia|]. f_equal; [lia|]. f_equal; lia.
Qed.

Lemma insert_ok pre A B k len c : Forall okcp A -> Forall okcp B -> okcp c -> 128 <= c ->
  (length (utf8s A) + length (utf8s B) + length (utf8_encode c) < len)%nat ->
  (length (utf8s A) + length (utf8s B) + k = len)%nat ->
  insert (pre ++ utf8s A ++ utf8s B ++ repeat 0 k) (length pre) len (Z.of_N c) (N.of_nat (length A)) =
  OK (true, pre ++ utf8s A ++ utf8_encode c ++ utf8s B ++ repeat 0 (k - length (utf8_encode c))).
Proof.
  intros HA HB Hc H128 Hlen Hk.
  destruct (utf8s_ok B HB) as (NB & BB & _).
  assert (Hs : scalar c) by apply Hc. unfold scalar in Hs.
  apply insert_gen; auto; [lia|]. rewrite Nat2N.id. apply utf8_nth_ok; auto.
  destruct (utf8s B); [|discriminate]. destruct k; [|discriminate]. exfalso. cbn [length] in *. lia.
Qed.
