(** scandir_fd as a whole, the listing, and tls_hex_string. *)
From Coq Require Import Permutation.
From Verif Require Import Base Compat Compat_Proofs Arr ArrSpec Arr_Proofs Table_Proofs Scan_Proofs.
Local Open Scope N_scope.

Lemma load_ptrs_ok m a b : forall qs2 qs1, pts m a b -> slots b (qs1 ++ qs2) -> load_ptrs m (Some a) (length qs1) (length qs2) = OK qs2.
Proof.
  induction qs2 as [|q qs2 IH]; intros qs1 P Sl; cbn [length load_ptrs]; [reflexivity|].
  rewrite (load_slot _ _ _ _ _ _ P Sl). cbn [bind].
  assert (Sl' : slots b ((qs1 ++ [q]) ++ qs2)) by (rewrite <- app_assoc; exact Sl).
  pose proof (IH (qs1 ++ [q])%list P Sl') as H. rewrite app_length in H. cbn [length] in H. rewrite Nat.add_1_r in H. rewrite H. reflexivity.
Qed.

Lemma qsort_ok E n0 m a b qs ds : (forall m l, Permutation (order E m l) l) -> dir_ok n0 m a b qs ds ->
  exists m' b' qs' ds', qsort E m (Some a) (length qs) = OK m' /\ sz m' = sz m /\ old_kept n0 m m' /\
    length qs' = length qs /\ Permutation ds' ds /\ dir_ok n0 m' a b' qs' ds'.
Proof.
  intros Ho D. unfold qsort. pose proof (load_ptrs_ok m a b qs [] (do_p _ _ _ _ _ _ D) (do_slots _ _ _ _ _ _ D)) as L. cbn [length] in L. rewrite L. cbn [bind]. clear L.
  set (qs' := order E m qs). pose proof (Ho m qs) as Pm. fold qs' in Pm. pose proof (Permutation_length Pm) as Lq.
  pose proof (slots_length _ _ (do_slots _ _ _ _ _ _ D)) as Ls.
  destruct (store_ok m a 0 (concat (map ptr qs')) b (do_p _ _ _ _ _ _ D)) as (m' & -> & C). { rewrite ptrs_length. lia. }
  change (N.to_nat 0) with 0%nat in C.
  assert (X : exists ds', Permutation ds' ds /\ Forall2 (holds m) qs' ds').
  { destruct (Permutation_Forall2 (Permutation_sym Pm) (do_holds _ _ _ _ _ _ D)) as (ds' & P1 & P2). exists ds'. split; [exact (Permutation_sym P1)|exact P2]. }
  destruct X as (ds' & Pd & H'). exists m'. do 2 eexists. exists ds'. split; [reflexivity|]. split; [exact (ch_len _ _ _ _ C)|].
  split. { intros k Hk. apply (ch_other _ _ _ _ C). pose proof (do_n0 _ _ _ _ _ _ D a (or_introl eq_refl)). lia. }
  split; [exact Lq|]. split; [exact Pd|].
  pose proof (do_nodup _ _ _ _ _ _ D) as Nd. inversion Nd as [|? ? Na Nq]; subst. split.
  - exact (ch_at _ _ _ _ C).
  - unfold slots. rewrite <- ptrs_length. apply firstn_over_0. rewrite ptrs_length. lia.
  - constructor; [intros I; apply Na; apply (Permutation_in _ Pm); exact I|]. apply (Permutation_NoDup (Permutation_sym Pm)). exact Nq.
  - apply (Forall2_keep (holds m)); [exact H'|]. intros q x I H. apply (holds_keep m); [|exact H]. apply (ch_other _ _ _ _ C). intros ->. apply Na. apply (Permutation_in _ Pm). exact I.
  - intros k I. apply (do_n0 _ _ _ _ _ _ D). destruct I as [I|I]; [left; exact I|right; apply (Permutation_in _ Pm); exact I].
  - intros k Hk I. rewrite (ch_len _ _ _ _ C) in Hk. destruct (do_dead _ _ _ _ _ _ D k Hk) as (c & Y).
    { intros J. apply I. destruct J as [J|J]; [left; exact J|right; apply (Permutation_in _ (Permutation_sym Pm)); exact J]. }
    exists c. rewrite (ch_other _ _ _ _ C); [exact Y|]. intros ->. apply I. left. reflexivity.
Qed.

Theorem scandir_ok E m st_size select es : (forall m l, Permutation (order E m l) l) -> Forall dirent_ok es ->
  exists r m', scandir_fd E m st_size select es = OK (r, m') /\
  match r with
  | None => clean (sz m) m m' /\ (generous E -> st_size < 2 ^ 50 -> N.of_nat (length es) < 2 ^ 50 -> False)
  | Some (names, n) => old_kept (sz m) m m' /\ (sz m <= sz m')%nat /\
      exists a b qs ds, names = Some a /\ n = length qs /\ dir_ok (sz m) m' a b qs ds /\ Permutation ds (filter select es)
  end.
Proof.
  intros Ho Fo. unfold scandir_fd.
  assert (F0 : forall m', blocks m' = blocks m -> exists m'', @fail (option nat * nat) m' None 0 = OK (None, m'') /\ clean (sz m) m m'').
  { intros m' B. exists m'. split; [reflexivity|]. unfold clean, old_kept, sz. rewrite B. split; [reflexivity|]. split; [lia|]. intros k Hk. lia. }
  destruct (fstat_ok E) eqn:Fs; cbn [negb].
  2: { destruct (F0 m eq_refl) as (m2 & -> & C). exists None, m2. split; [reflexivity|]. split; [exact C|]. intros (_ & G) _ _. congruence. }
  set (as_ := N.max (st_size / 24) 16).
  assert (X : SIZE_MAX / 8 = 2 ^ 61 - 1) by reflexivity. rewrite X. clear X.
  assert (As : st_size < 2 ^ 50 -> as_ < 2 ^ 50). { intros H. pose proof (N.mul_div_le st_size 24). unfold as_. lia. }
  destruct (N.ltb_spec (2 ^ 61 - 1) as_) as [Bg|Bg].
  { destruct (F0 m eq_refl) as (m2 & -> & C). exists None, m2. split; [reflexivity|]. split; [exact C|]. intros _ H _. apply As in H. lia. }
  unfold calloc. rewrite (proj2 (N.ltb_ge SIZE_MAX (as_ * 8))) by (unfold SIZE_MAX; lia).
  destruct (give_cases E m (as_ * 8) (fun _ => By 0)) as [(G & m1 & -> & G1)|(G & m1 & -> & G1)].
  2: { destruct (F0 m1 G1) as (m2 & -> & C). exists None, m2. split; [reflexivity|]. split; [exact C|]. intros (Y & _) H _. apply As in H. apply G. split; [lia|]. apply Y. lia. }
  set (b := map (fun _ => By 0) (seq 0 (N.to_nat (as_ * 8)))) in *.
  assert (Lb : length b = N.to_nat (as_ * 8)) by (unfold b; rewrite map_length, seq_length; reflexivity).
  assert (D1 : dir_ok (sz m) m1 (sz m) b [] []).
  { split.
    - exact (gr_new _ _ _ G1).
    - reflexivity.
    - constructor; [intros []|constructor].
    - constructor.
    - intros k [<-|[]]. lia.
    - intros k Hk I. rewrite (gr_len _ _ _ G1) in Hk. exfalso. apply I. left. lia. }
  assert (Ff : Forall dirent_ok (filter select es)).
  { apply Forall_forall. intros d I. apply filter_In in I as [I _]. rewrite Forall_forall in Fo. apply Fo. exact I. }
  destruct (scan_ok E (sz m) (filter select es) m1 (sz m) b [] [] as_ Ff D1) as (r & m2 & Es & R).
  { rewrite (gr_len _ _ _ G1). lia. } { lia. } { unfold as_. lia. } { lia. }
  cbn [length] in Es. rewrite Es. cbn [bind].
  assert (K1 : old_kept (sz m) m m1). { intros k Hk. apply (gr_other _ _ _ G1). exact Hk. }
  destruct r as [[names n]|].
  - destruct R as (R1 & R2 & a' & b' & qs' & -> & -> & D2). cbn [app] in D2.
    assert (K2 : old_kept (sz m) m m2). { intros k Hk. rewrite R1, K1 by exact Hk. reflexivity. }
    destruct (Nat.eqb_spec (length qs') 0) as [Z|Z]; cbn [bind].
    + eexists (Some (_, _)), m2. split; [reflexivity|]. split; [exact K2|]. split; [exact R2|]. exists a', b', qs', (filter select es). auto.
    + destruct (qsort_ok E _ _ _ _ _ _ Ho D2) as (m3 & b3 & qs3 & ds3 & -> & S3 & K3 & L3 & P3 & D3). cbn [bind].
      eexists (Some (_, _)), m3. split; [reflexivity|]. split. { intros k Hk. rewrite K3, K2 by exact Hk. reflexivity. }
      split; [lia|]. exists a', b3, qs3, ds3. auto.
  - destruct R as (R1 & R2). exists None, m2. split; [reflexivity|]. split; [apply (clean_trans _ _ m1); assumption|].
    intros Ge _ H. apply R2; [exact Ge|]. cbn [length]. assert (length (filter select es) <= length es)%nat. { clear. induction es as [|e es IH]; cbn [filter length]; [lia|]. destruct (select e); cbn [length]; lia. } lia.
Qed.

Lemma write_dir_ok a b : forall qs2 ds2 qs1 m, pts m a b -> slots b (qs1 ++ qs2) -> NoDup qs2 -> ~ In a qs2 -> Forall2 (holds m) qs2 ds2 ->
  exists m', write_dir m (Some a) (length qs1) (length qs2) = OK (map shown ds2, m') /\ freed m m' qs2.
Proof.
  induction qs2 as [|q qs2 IH]; intros ds2 qs1 m P Sl Nd Na H; inversion H as [|? d ? ds Hq Hr]; subst; cbn [length write_dir map].
  { exists m. split; [reflexivity|]. split; auto. intros q []. }
  rewrite (load_slot _ _ _ _ _ _ P Sl). cbn [bind]. destruct Hq as (eb & Pe & Cn & Ct).
  rewrite (at_pts _ _ _ Pe). cbn [bind]. change (N.to_nat NAME) with 19%nat. rewrite Cn. cbn [bind].
  rewrite (load_ok _ _ _ _ _ Pe). 2: { apply Nat.le_trans with 19%nat; [cbn; lia|]. apply nth_error_Some. intros X. apply nth_error_None in X.
    assert (length eb = 19)%nat. { assert (18 < length eb)%nat by (apply nth_error_Some; congruence). lia. } rewrite skipn_all2 in Cn by lia. discriminate Cn. }
  cbn [bind]. change (N.to_nat 18) with 18%nat. change (N.to_nat 1) with 1%nat.
  assert (Ht : firstn 1 (skipn 18 eb) = [By (d_type d)]).
  { destruct (skipn 18 eb) as [|x r] eqn:Es.
    - apply (f_equal (@length cell)) in Es. rewrite skipn_length in Es. cbn in Es. assert (18 < length eb)%nat by (apply nth_error_Some; congruence). lia.
    - pose proof (firstn_skipn 18 eb) as X. rewrite Es in X. rewrite <- X in Ct. assert (18 < length eb)%nat by (rewrite <- X; rewrite app_length, firstn_length; cbn [length]; apply (f_equal (@length cell)) in Es; rewrite skipn_length in Es; cbn [length] in Es; lia).
      rewrite nth_error_app2 in Ct by (rewrite firstn_length; lia). rewrite firstn_length in Ct. replace (18 - Nat.min 18 (length eb))%nat with 0%nat in Ct by lia. cbn [nth_error] in Ct. injection Ct as ->. reflexivity. }
  rewrite Ht. cbn [hd val].
  destruct (free_alive m q) as (m1 & -> & F1). { exists eb. exact Pe. }
  cbn [bind]. inversion Nd as [|? ? Nq Nd']; subst. cbn [In] in Na.
  assert (Sl' : slots b ((qs1 ++ [q]) ++ qs2)) by (rewrite <- app_assoc; exact Sl).
  destruct (IH ds (qs1 ++ [q])%list m1) as (m2 & Ew & F2); [|exact Sl'|exact Nd'|tauto| |].
  { unfold pts. rewrite (fr_other _ _ _ F1); [exact P|]. intros [->|[]]. tauto. }
  { apply (Forall2_keep (holds m)); [exact Hr|]. intros q' x I. apply holds_keep. apply (fr_other _ _ _ F1). intros [->|[]]. contradiction. }
  rewrite app_length in Ew. cbn [length] in Ew. rewrite Nat.add_1_r in Ew. rewrite Ew. cbn [bind]. exists m2. split; [reflexivity|].
  exact (freed_trans _ _ _ _ _ F1 F2).
Qed.

Lemma list_dir_ok n0 m a b qs ds : dir_ok n0 m a b qs ds -> (n0 <= sz m)%nat ->
  exists m', list_dir m (Some a) (length qs) = OK (map shown ds, m') /\ clean n0 m m'.
Proof.
  intros D N0. pose proof (do_nodup _ _ _ _ _ _ D) as Nd. inversion Nd as [|? ? Na Nq]; subst. unfold list_dir.
  destruct (write_dir_ok a b qs ds [] m (do_p _ _ _ _ _ _ D) (do_slots _ _ _ _ _ _ D) Nq Na (do_holds _ _ _ _ _ _ D)) as (m1 & Ew & F1).
  cbn [length] in Ew. rewrite Ew. cbn [bind].
  destruct (free_alive m1 a) as (m2 & -> & F2). { apply (freed_alive _ _ _ _ F1 Na). exists b. exact (do_p _ _ _ _ _ _ D). }
  cbn [bind]. exists m2. split; [reflexivity|]. apply (freed_clean n0 m m2 (qs ++ [a]) N0 (freed_trans _ _ _ _ _ F1 F2)).
  - intros k I. apply (do_n0 _ _ _ _ _ _ D). apply in_app_iff in I. cbn [In] in *. tauto.
  - intros k Hk I. apply (do_dead _ _ _ _ _ _ D k Hk). rewrite in_app_iff in I. cbn [In] in *. tauto.
Qed.

Lemma close_dir_ok n0 m a b qs ds : dir_ok n0 m a b qs ds ->
  exists m', close_dir m (Some a) = OK m' /\ sz m' = sz m /\ forall k, (n0 <= k < sz m')%nat -> (alive m' k <-> In k qs).
Proof.
  intros D. pose proof (do_nodup _ _ _ _ _ _ D) as Nd. inversion Nd as [|? ? Na Nq]; subst. unfold close_dir.
  destruct (free_alive m a) as (m1 & -> & F1). { exists b. exact (do_p _ _ _ _ _ _ D). }
  exists m1. split; [reflexivity|]. split; [exact (fr_len _ _ _ F1)|]. intros k Hk. rewrite (fr_len _ _ _ F1) in Hk. split.
  - intros (c & P). destruct (in_dec Nat.eq_dec k (a :: qs)) as [[<-|I]|I]; [|exact I|].
    + destruct (fr_dead _ _ _ F1 a (or_introl eq_refl)) as (c' & X). unfold pts in P. congruence.
    + destruct (do_dead _ _ _ _ _ _ D k Hk I) as (c' & X). unfold pts in P. rewrite (fr_other _ _ _ F1) in P; [congruence|]. intros [->|[]]. apply I. left. reflexivity.
  - intros I. apply (freed_alive _ _ _ _ F1). { intros [->|[]]. contradiction. } apply (dir_alive _ _ _ _ _ _ _ D). right. exact I.
Qed.

(** ** tls_hex_string *)
Lemma hexchars_length d : length (hexchars d) = (2 * length d)%nat.
Proof. unfold hexchars. induction d as [|c d IH]; cbn [map concat length app]; [reflexivity|]. rewrite IH. lia. Qed.
Lemma nibbles c : c < 256 -> N.land (N.shiftr c 4) 15 = c / 16 /\ N.land c 15 = c mod 16.
Proof.
  intros H. change 15 with (N.ones 4). rewrite !N.land_ones, N.shiftr_div_pow2. change (2 ^ 4) with 16. split; [|reflexivity].
  apply N.mod_small. apply N.div_lt_upper_bound; lia.
Qed.

Lemma put_hex_ok p : forall d m b len pre, Forall (fun c => c < 256) d -> pts m p b -> N.to_nat len = length pre -> firstn (length pre) b = map By pre ->
  (length pre + 2 * length d < length b)%nat -> N.of_nat (length b) < 2 ^ 64 ->
  exists m' b', put_hex m (Some p) len d = OK (N.of_nat (length pre + 2 * length d), m') /\ changed m m' p (mkBlk true b') /\ length b' = length b /\
    firstn (length pre + 2 * length d) b' = map By (pre ++ hexchars d).
Proof.
  induction d as [|c d IH]; intros m b len pre Fo P L Pre B B64; cbn [put_hex].
  { exists m, b. cbn [length]. replace (length pre + 2 * 0)%nat with (length pre) by lia. split; [f_equal; f_equal; lia|]. split.
    { split; auto. } split; [reflexivity|]. unfold hexchars. cbn [map concat]. rewrite app_nil_r. exact Pre. }
  inversion Fo as [|? ? Fc Fd]; subst. destruct (nibbles c Fc) as [-> ->]. cbn [length] in B.
  destruct (store_ok m p len [By (hexdigit (c / 16))] b P) as (m1 & -> & C1). { cbn [length]. lia. }
  cbn [bind]. set (b1 := over b (N.to_nat len) [By (hexdigit (c / 16))]) in *.
  assert (L1 : length b1 = length b) by (apply over_length; cbn [length]; lia).
  assert (Ad : addz len 1 = len + 1) by (unfold addz; apply N.mod_small; lia). rewrite Ad.
  destruct (store_ok m1 p (len + 1) [By (hexdigit (c mod 16))] b1 (ch_at _ _ _ _ C1)) as (m2 & -> & C2). { cbn [length]. lia. }
  cbn [bind]. set (b2 := over b1 (N.to_nat (len + 1)) [By (hexdigit (c mod 16))]) in *.
  assert (L2 : length b2 = length b) by (unfold b2; rewrite over_length; [exact L1|cbn [length]; lia]).
  assert (Ad2 : addz (len + 1) 1 = len + 2) by (unfold addz; rewrite N.mod_small; lia). rewrite Ad2.
  destruct (IH m2 b2 (len + 2) (pre ++ [hexdigit (c / 16); hexdigit (c mod 16)])%list Fd (ch_at _ _ _ _ C2)) as (m3 & b3 & E3 & C3 & L3 & F3).
  - rewrite app_length. cbn [length]. lia.
  - rewrite app_length, map_app. cbn [length map].
    assert (S1 : firstn (length pre + 1) b1 = map By pre ++ [By (hexdigit (c / 16))]).
    { unfold b1, over. rewrite L, app_assoc, firstn_app, app_length, firstn_length. cbn [length].
      rewrite firstn_all2 by (rewrite app_length, firstn_length; cbn [length]; lia). replace (length pre + 1 - (Nat.min (length pre) (length b) + 1))%nat with 0%nat by lia.
      cbn [firstn]. rewrite app_nil_r, Pre. reflexivity. }
    unfold b2, over. replace (N.to_nat (len + 1)) with (length pre + 1)%nat by lia. rewrite app_assoc, firstn_app, app_length, firstn_length. cbn [length].
    rewrite firstn_all2 by (rewrite app_length, firstn_length; cbn [length]; lia). replace (length pre + 2 - (Nat.min (length pre + 1) (length b1) + 1))%nat with 0%nat by lia.
    cbn [firstn]. rewrite app_nil_r, S1, <- app_assoc. reflexivity.
  - rewrite app_length. cbn [length]. lia.
  - lia.
  - rewrite app_length in *. cbn [length] in *. exists m3, b3. rewrite E3. split; [f_equal; f_equal; lia|]. split.
    { split. - rewrite (ch_len _ _ _ _ C3), (ch_len _ _ _ _ C2). exact (ch_len _ _ _ _ C1). - exact (ch_at _ _ _ _ C3).
      - intros k K. rewrite (ch_other _ _ _ _ C3), (ch_other _ _ _ _ C2), (ch_other _ _ _ _ C1) by exact K. reflexivity.
      - rewrite (ch_calls _ _ _ _ C3), (ch_calls _ _ _ _ C2). exact (ch_calls _ _ _ _ C1). }
    split; [lia|]. replace (length pre + 2 * S (length d))%nat with (length pre + 2 + 2 * length d)%nat by lia. rewrite F3. f_equal.
    unfold hexchars. cbn [map concat]. rewrite <- !app_assoc. reflexivity.
Qed.

Theorem hex_string_ok E m d : Forall (fun c => c < 256) d ->
  exists r m', tls_hex_string E m d = OK (r, m') /\
  match r with
  | None => blocks m' = blocks m /\ (generous E -> N.of_nat (length d) < 2 ^ 50 -> False)
  | Some (p, n) => p = Some (sz m) /\ sz m' = S (sz m) /\ old_kept (sz m) m m' /\ n = N.of_nat (2 * length d + 1) /\
      exists b, pts m' (sz m) b /\ firstn (2 * length d + 1) b = map By (hexchars d ++ [0])
  end.
Proof.
  intros Fo. unfold tls_hex_string. destruct (N.leb_spec SIZE_MAX (N.of_nat (length d))) as [B|B].
  { exists None, m. split; [reflexivity|]. split; [reflexivity|]. unfold SIZE_MAX in B. intros. lia. }
  unfold SIZE_MAX in B. assert (Ad : addz (N.of_nat (length d)) 1 = N.of_nat (length d) + 1) by (unfold addz; apply N.mod_small; lia). rewrite Ad.
  unfold reallocarray. rewrite overflows_spec by lia. destruct (N.ltb_spec SIZE_MAX ((N.of_nat (length d) + 1) * 2)) as [O|O].
  { exists None, m. split; [reflexivity|]. split; [reflexivity|]. unfold SIZE_MAX in O. intros. lia. }
  rewrite mulz_small by lia. cbn [realloc]. unfold malloc.
  destruct (give_cases E m (2 * (N.of_nat (length d) + 1)) (junk E (calls m))) as [(G & m1 & -> & G1)|(G & m1 & -> & G1)]; cbn [bind].
  2: { exists None, m1. split; [reflexivity|]. split; [exact G1|]. intros (Y & _) H. apply G. split; [lia|]. apply Y. lia. }
  set (b := map (junk E (calls m)) (seq 0 (N.to_nat (2 * (N.of_nat (length d) + 1))))) in *.
  assert (Lb : length b = (2 * length d + 2)%nat) by (unfold b; rewrite map_length, seq_length; lia).
  destruct G as [G _].
  destruct (put_hex_ok (sz m) d m1 b 0 [] Fo (gr_new _ _ _ G1)) as (m2 & b2 & -> & C2 & L2 & F2); [reflexivity|reflexivity|cbn [length]; lia|lia|].
  cbn [bind length Nat.add] in *.
  destruct (store_ok m2 (sz m) (N.of_nat (2 * length d)) [By 0] b2 (ch_at _ _ _ _ C2)) as (m3 & -> & C3). { cbn [length]. lia. }
  cbn [bind]. rewrite Nat2N.id in C3. exists (Some (Some (sz m), addz (N.of_nat (2 * length d)) 1)), m3. split; [reflexivity|]. split; [reflexivity|].
  split. { rewrite (ch_len _ _ _ _ C3), (ch_len _ _ _ _ C2). exact (gr_len _ _ _ G1). }
  split. { intros k Hk. rewrite (ch_other _ _ _ _ C3), (ch_other _ _ _ _ C2) by lia. apply (gr_other _ _ _ G1). exact Hk. }
  split. { unfold addz. rewrite N.mod_small; lia. }
  eexists. split; [exact (ch_at _ _ _ _ C3)|]. unfold over. rewrite app_assoc, firstn_app, app_length, firstn_length. cbn [length].
  rewrite firstn_all2 by (rewrite app_length, firstn_length; cbn [length]; lia). replace (2 * length d + 1 - (Nat.min (2 * length d) (length b2) + 1))%nat with 0%nat by lia.
  cbn [firstn]. rewrite app_nil_r, F2, !map_app. reflexivity.
Qed.
