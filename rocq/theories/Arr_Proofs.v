(** Memory operations of Arr.v. *)
From Verif Require Import Base Compat Compat_Proofs Arr ArrSpec.
Local Open Scope N_scope.


Lemma set_nth_length {A} (l : list A) n x : length (set_nth l n x) = length l.
Proof. revert n. induction l as [|y l IH]; intros [|n]; cbn [set_nth length]; auto. Qed.
Lemma set_nth_same {A} (l : list A) n x : (n < length l)%nat -> nth_error (set_nth l n x) n = Some x.
Proof. revert n. induction l as [|y l IH]; intros [|n] H; cbn [set_nth length nth_error] in *; try lia; auto. apply IH. lia. Qed.
Lemma set_nth_other {A} (l : list A) n x k : k <> n -> nth_error (set_nth l n x) k = nth_error l k.
Proof. revert n k. induction l as [|y l IH]; intros [|n] [|k] H; cbn [set_nth nth_error]; auto; try congruence. Qed.

Lemma pts_lt m p b : pts m p b -> (p < sz m)%nat.
Proof. intros H. apply nth_error_Some. unfold pts in H. rewrite H. discriminate. Qed.
Lemma at_pts m p b : pts m p b -> at_ m (Some p) = OK (p, b).
Proof. unfold pts, at_. intros ->. reflexivity. Qed.
Lemma pts_fun m p b b' : pts m p b -> pts m p b' -> b = b'.
Proof. unfold pts. congruence. Qed.

(** only block [p] differs: it is now [x] *)
Record changed (m m' : mem) (p : nat) (x : blk) : Prop := mkCh {
  ch_len : sz m' = sz m;
  ch_at : nth_error (blocks m') p = Some x;
  ch_other : forall k, k <> p -> nth_error (blocks m') k = nth_error (blocks m) k;
  ch_calls : calls m' = calls m }.
Lemma changed_set m p x c : (p < sz m)%nat -> c = calls m -> changed m (mkMem (set_nth (blocks m) p x) c) p x.
Proof.
  intros H ->. split; cbn [blocks calls]; auto.
  - apply set_nth_length.
  - apply set_nth_same. exact H.
  - intros k K. apply set_nth_other. exact K.
Qed.

Definition over (b : list cell) (off : nat) (d : list cell) := (firstn off b ++ d ++ skipn (off + length d) b)%list.
Lemma over_length b off d : (off + length d <= length b)%nat -> length (over b off d) = length b.
Proof. intros H. unfold over. rewrite !app_length, firstn_length, skipn_length. lia. Qed.
Lemma store_ok m p off d b : pts m p b -> (N.to_nat off + length d <= length b)%nat ->
  exists m', store m (Some p) off d = OK m' /\ changed m m' p (mkBlk true (over b (N.to_nat off) d)).
Proof.
  intros P L. unfold store. rewrite (at_pts _ _ _ P). cbn [bind].
  rewrite (proj2 (N.leb_le _ _)) by lia. eexists. split; [reflexivity|]. apply changed_set; auto. exact (pts_lt _ _ _ P).
Qed.
Lemma load_ok m p off n b : pts m p b -> (N.to_nat off + N.to_nat n <= length b)%nat ->
  load m (Some p) off n = OK (firstn (N.to_nat n) (skipn (N.to_nat off) b)).
Proof.
  intros P L. unfold load. rewrite (at_pts _ _ _ P). cbn [bind]. rewrite (proj2 (N.leb_le _ _)) by lia. reflexivity.
Qed.
Lemma free_ok m p b : pts m p b -> exists m', free m (Some p) = OK m' /\ changed m m' p (mkBlk false b).
Proof.
  intros P. unfold free. rewrite (at_pts _ _ _ P). cbn [bind]. eexists. split; [reflexivity|]. apply changed_set; auto. exact (pts_lt _ _ _ P).
Qed.

(** one block more *)
Record grown (m m' : mem) (b : list cell) : Prop := mkGr {
  gr_len : sz m' = S (sz m);
  gr_new : pts m' (sz m) b;
  gr_other : forall k, (k < sz m)%nat -> nth_error (blocks m') k = nth_error (blocks m) k }.
Lemma give_cases E m n c :
  (granted E m n /\ exists m', give E m n c = (Some (sz m), m') /\ grown m m' (map c (seq 0 (N.to_nat n)))) \/
  (~ granted E m n /\ exists m', give E m n c = (None, m') /\ blocks m' = blocks m).
Proof.
  unfold give, granted. destruct (n <? 2 ^ 57) eqn:A; destruct (yes E (calls m) n) eqn:B; cbn [andb].
  2-4: right; split; [intros [X Y]; apply N.ltb_lt in X; congruence | eexists; split; reflexivity].
  left. split. { apply N.ltb_lt in A. auto. }
  eexists. split; [reflexivity|]. split; unfold sz, pts; cbn [blocks].
  - rewrite app_length. cbn. lia.
  - rewrite nth_error_app2 by lia. rewrite Nat.sub_diag. reflexivity.
  - intros k K. apply nth_error_app1. exact K.
Qed.

Lemma over_0 b d : length d = length b -> over b 0 d = d.
Proof. intros H. unfold over. cbn [firstn app Nat.add]. rewrite H, skipn_all, app_nil_r. reflexivity. Qed.
Lemma firstn_over_0 b d : (length d <= length b)%nat -> firstn (length d) (over b 0 d) = d.
Proof. intros H. unfold over. cbn [firstn app Nat.add]. rewrite firstn_app, Nat.sub_diag, firstn_all. cbn [firstn]. apply app_nil_r. Qed.
Lemma over_before b off d n : (n <= off)%nat -> (off <= length b)%nat -> firstn n (over b off d) = firstn n b.
Proof.
  intros H K. unfold over. rewrite firstn_app, firstn_firstn, firstn_length.
  replace (Nat.min n off) with n by lia. replace (n - Nat.min off (length b))%nat with 0%nat by lia. cbn [firstn]. apply app_nil_r.
Qed.
Lemma over_at b off d : (off <= length b)%nat -> firstn (length d) (skipn off (over b off d)) = d.
Proof.
  intros H. unfold over. rewrite skipn_app, firstn_length, skipn_all2 by (rewrite firstn_length; lia).
  replace (off - Nat.min off (length b))%nat with 0%nat by lia. cbn [app skipn].
  rewrite firstn_app, Nat.sub_diag, firstn_all. cbn [firstn]. apply app_nil_r.
Qed.
(** what is elsewhere stays *)
Lemma over_elsewhere b off d i n : (off + length d <= length b)%nat -> (i + n <= off \/ off + length d <= i)%nat ->
  firstn n (skipn i (over b off d)) = firstn n (skipn i b).
Proof.
  intros L [H|H].
  - rewrite <- (firstn_skipn i (over b off d)) at 1.
    assert (X : firstn (i + n) (over b off d) = firstn (i + n) b) by (apply over_before; lia).
    apply (f_equal (skipn i)) in X. rewrite !skipn_firstn_comm in X. replace (i + n - i)%nat with n in X by lia.
    rewrite firstn_skipn. exact X.
  - unfold over. rewrite app_assoc, skipn_app.
    rewrite skipn_all2 by (rewrite app_length, firstn_length; lia). cbn [app].
    f_equal. rewrite app_length, firstn_length.
    assert (K : forall a c (l : list cell), skipn a (skipn c l) = skipn (a + c) l).
    { intros a c l. revert l. induction c as [|c IH]; intros l. { rewrite Nat.add_0_r. reflexivity. }
      rewrite Nat.add_succ_r. destruct l; cbn [skipn]. { destruct a; reflexivity. } apply IH. }
    rewrite K. f_equal. lia.
Qed.

(** ** reallocarray and recallocarray *)
Lemma overflows_spec a b : a < 2 ^ 64 -> b < 2 ^ 64 -> overflows a b = (SIZE_MAX <? a * b).
Proof.
  intros A B. unfold overflows, MUL_NO_OVERFLOW, SIZE_MAX in *.
  destruct (N.ltb_spec (2 ^ 64 - 1) (a * b)) as [H|H].
  - assert (a <> 0) by nia.
    rewrite (proj2 (N.ltb_lt 0 a)) by lia.
    assert (D : (2 ^ 64 - 1) / a < b) by (apply N.div_lt_upper_bound; lia).
    rewrite (proj2 (N.ltb_lt _ _) D).
    destruct (N.leb_spec (2 ^ 32) a); [reflexivity|]. destruct (N.leb_spec (2 ^ 32) b); [reflexivity|].
    exfalso. assert (a * b <= (2 ^ 32 - 1) * (2 ^ 32 - 1)) by (apply N.mul_le_mono; lia). lia.
  - destruct (N.ltb_spec 0 a) as [Z|Z]; [|rewrite andb_false_r; reflexivity].
    assert (D : b <= (2 ^ 64 - 1) / a) by (apply N.div_le_lower_bound; lia).
    rewrite (proj2 (N.ltb_ge _ _) D), andb_false_r. reflexivity.
Qed.
Lemma mulz_small a b : a * b <= SIZE_MAX -> mulz a b = a * b.
Proof. unfold mulz, SIZE_MAX. intros H. apply N.mod_small. lia. Qed.


Theorem reallocarray_spec E m p b nm size : nm < 2 ^ 64 -> size < 2 ^ 64 -> pts m p b ->
  exists r m', reallocarray E m (Some p) nm size = OK (r, m') /\
  match r with
  | None => blocks m' = blocks m /\ ~ (nm * size <= SIZE_MAX /\ granted E m (nm * size))
  | Some q => nm * size <= SIZE_MAX /\ granted E m (nm * size) /\ q = sz m /\ sz m' = S (sz m) /\ keep m m' [p] /\
      nth_error (blocks m') p = Some (mkBlk false b) /\
      exists b', pts m' q b' /\ N.of_nat (length b') = nm * size /\
        forall n, (n <= length b)%nat -> N.of_nat n <= nm * size -> firstn n b' = firstn n b
  end.
Proof.
  intros A B P. unfold reallocarray. rewrite overflows_spec by assumption.
  destruct (N.ltb_spec SIZE_MAX (nm * size)) as [H|H].
  { exists None, m. split; [reflexivity|]. split; [reflexivity|]. lia. }
  rewrite mulz_small by lia. rewrite (N.mul_comm size nm). unfold realloc. rewrite (at_pts _ _ _ P). cbn [bind].
  unfold malloc. destruct (give_cases E m (nm * size) (junk E (calls m))) as [(G & m1 & -> & G1)|(G & m1 & -> & G1)].
  2: { exists None, m1. split; [reflexivity|]. split; [exact G1|]. tauto. }
  set (new := map (junk E (calls m)) (seq 0 (N.to_nat (nm * size)))) in *.
  assert (Ln : length new = N.to_nat (nm * size)) by (unfold new; rewrite map_length, seq_length; reflexivity).
  pose proof (pts_lt _ _ _ P) as Pl.
  destruct (store_ok m1 (sz m) 0 (firstn (N.to_nat (nm * size)) b) new (gr_new _ _ _ G1)) as (m2 & -> & C2).
  { rewrite firstn_length, Ln. lia. }
  cbn [bind]. change (N.to_nat 0) with 0%nat in C2.
  assert (P2 : pts m2 p b).
  { unfold pts. rewrite (ch_other _ _ _ _ C2) by lia. rewrite (gr_other _ _ _ G1) by assumption. exact P. }
  destruct (free_ok m2 p b P2) as (m3 & -> & C3). cbn [bind].
  exists (Some (sz m)), m3. split; [reflexivity|]. split; [lia|]. split; [exact G|]. split; [reflexivity|].
  split. { rewrite (ch_len _ _ _ _ C3), (ch_len _ _ _ _ C2). exact (gr_len _ _ _ G1). }
  split. { intros k K1 K2. rewrite (ch_other _ _ _ _ C3) by (intros ->; apply K2; left; reflexivity).
           rewrite (ch_other _ _ _ _ C2) by lia. apply (gr_other _ _ _ G1). exact K1. }
  split. { exact (ch_at _ _ _ _ C3). }
  eexists. split. { unfold pts. rewrite (ch_other _ _ _ _ C3) by lia. exact (ch_at _ _ _ _ C2). }
  split. { rewrite over_length by (rewrite firstn_length, Ln; lia). rewrite Ln. lia. }
  intros n N1 N2. set (d := firstn (N.to_nat (nm * size)) b).
  assert (Ld : length d = Nat.min (N.to_nat (nm * size)) (length b)) by apply firstn_length.
  replace n with (Nat.min n (length d)) at 1 by lia. rewrite <- firstn_firstn, firstn_over_0 by lia.
  unfold d. rewrite firstn_firstn. f_equal. lia.
Qed.

Lemma subz_ge a b : b <= a -> subz a b = a - b.
Proof. intros H. unfold subz. rewrite (proj2 (N.leb_le _ _) H). reflexivity. Qed.

Theorem recallocarray_spec E m p b old new size : old < 2 ^ 64 -> new < 2 ^ 64 -> size < 2 ^ 64 ->
  pts m p b -> old * size <= N.of_nat (length b) -> old * size <= SIZE_MAX ->
  exists r m', recallocarray E m (Some p) old new size = OK (r, m') /\
  match r with
  | None => blocks m' = blocks m /\ ~ (new * size <= SIZE_MAX /\ granted E m (new * size))
  | Some q => keep m m' [p] /\ new * size <= SIZE_MAX /\
      (exists b', pts m' q b' /\ new * size <= N.of_nat (length b') /\ (old * size < new * size -> N.of_nat (length b') = new * size) /\
        firstn (N.to_nat (new * size)) b' =
        firstn (N.to_nat (new * size)) (firstn (N.to_nat (old * size)) b ++ zeros (N.to_nat (new * size - old * size)))%list) /\
      ((q = p /\ sz m' = sz m /\ new <= old /\
        pts m' p (firstn (N.to_nat (new * size)) b ++ zeros (N.to_nat (old * size - new * size)) ++ skipn (N.to_nat (old * size)) b)%list) \/
       (q = sz m /\ sz m' = S (sz m) /\ granted E m (new * size) /\
        nth_error (blocks m') p = Some (mkBlk false (zeros (N.to_nat (old * size)) ++ skipn (N.to_nat (old * size)) b)%list)))
  end.
Proof.
  intros A B C P Lb Lo. unfold recallocarray. rewrite !overflows_spec by assumption.
  destruct (N.ltb_spec SIZE_MAX (new * size)) as [H|H].
  { exists None, m. split; [reflexivity|]. split; [reflexivity|]. lia. }
  rewrite (proj2 (N.ltb_ge _ _) Lo). rewrite !mulz_small by lia.
  set (os := old * size) in *. set (ns := new * size) in *.
  pose proof (pts_lt _ _ _ P) as Pl.
  assert (Lz : forall n, length (zeros n) = n) by (intros n; apply repeat_length).
  destruct ((ns <=? os) && (subz os ns <? os / 2) && (subz os ns <? 4096)) eqn:Sh.
  - apply andb_prop in Sh as (Sh & _). apply andb_prop in Sh as (Sh & D2). apply N.leb_le in Sh. rewrite subz_ge in * by lia. apply N.ltb_lt in D2.
    destruct (store_ok m p ns (zeros (N.to_nat (os - ns))) b P) as (m1 & -> & C1). { rewrite Lz. lia. }
    cbn [bind]. exists (Some p), m1. split; [reflexivity|].
    assert (size <> 0). { intros ->. subst os ns. rewrite !N.mul_0_r in *. cbn in D2. lia. }
    split. { intros k K1 K2. apply (ch_other _ _ _ _ C1). intros ->. apply K2. left. reflexivity. }
    split; [lia|]. split.
    + eexists. split. { exact (ch_at _ _ _ _ C1). }
      assert (L : length (over b (N.to_nat ns) (zeros (N.to_nat (os - ns)))) = length b) by (apply over_length; rewrite Lz; lia).
      split; [lia|]. split; [lia|].
      rewrite over_before by lia. rewrite firstn_app, firstn_firstn.
      replace (Nat.min (N.to_nat ns) (N.to_nat os)) with (N.to_nat ns) by lia.
      replace (ns - os) with 0 by lia. change (zeros (N.to_nat 0)) with (@nil cell). rewrite firstn_nil, app_nil_r. reflexivity.
    + left. split; [reflexivity|]. split; [exact (ch_len _ _ _ _ C1)|]. split; [subst os ns; nia|].
      pose proof (ch_at _ _ _ _ C1) as X. unfold over in X. rewrite Lz in X. replace (N.to_nat ns + N.to_nat (os - ns))%nat with (N.to_nat os) in X by lia. exact X.
  - clear Sh. unfold malloc. destruct (give_cases E m ns (junk E (calls m))) as [(G & m1 & -> & G1)|(G & m1 & -> & G1)].
    2: { exists None, m1. split; [reflexivity|]. split; [exact G1|]. tauto. }
    set (nb := map (junk E (calls m)) (seq 0 (N.to_nat ns))) in *.
    assert (Ln : length nb = N.to_nat ns) by (unfold nb; rewrite map_length, seq_length; reflexivity).
    assert (P1 : pts m1 p b). { unfold pts. rewrite (gr_other _ _ _ G1) by assumption. exact P. }
    assert (X : exists m2 b', (if os <? ns
        then let* c := load m1 (Some p) 0 os in let* m' := store m1 (Some (sz m)) 0 c in store m' (Some (sz m)) os (zeros (N.to_nat (subz ns os)))
        else let* c := load m1 (Some p) 0 ns in store m1 (Some (sz m)) 0 c) = OK m2 /\ changed m1 m2 (sz m) (mkBlk true b') /\ length b' = N.to_nat ns /\
        b' = firstn (N.to_nat ns) (firstn (N.to_nat os) b ++ zeros (N.to_nat (ns - os)))%list).
    { destruct (N.ltb_spec os ns) as [O|O].
      - rewrite (load_ok _ _ _ _ _ P1) by lia. cbn [bind]. change (N.to_nat 0) with 0%nat. cbn [skipn].
        assert (Lc : length (firstn (N.to_nat os) b) = N.to_nat os) by (rewrite firstn_length; lia).
        destruct (store_ok m1 (sz m) 0 (firstn (N.to_nat os) b) nb (gr_new _ _ _ G1)) as (m2 & -> & C2). { rewrite Lc, Ln. lia. }
        cbn [bind]. rewrite subz_ge by lia. change (N.to_nat 0) with 0%nat in C2.
        set (b2 := over nb 0 (firstn (N.to_nat os) b)) in *.
        assert (L2 : length b2 = N.to_nat ns) by (unfold b2; rewrite over_length; lia).
        destruct (store_ok m2 (sz m) os (zeros (N.to_nat (ns - os))) b2 (ch_at _ _ _ _ C2)) as (m3 & -> & C3). { rewrite Lz, L2. lia. }
        exists m3, (over b2 (N.to_nat os) (zeros (N.to_nat (ns - os)))). split; [reflexivity|].
        assert (L3 : length (over b2 (N.to_nat os) (zeros (N.to_nat (ns - os)))) = N.to_nat ns) by (rewrite over_length; rewrite ?Lz; lia).
        split.
        { split. - rewrite (ch_len _ _ _ _ C3). exact (ch_len _ _ _ _ C2). - exact (ch_at _ _ _ _ C3).
          - intros k K. rewrite (ch_other _ _ _ _ C3), (ch_other _ _ _ _ C2) by exact K. reflexivity.
          - rewrite (ch_calls _ _ _ _ C3). exact (ch_calls _ _ _ _ C2). }
        split; [exact L3|]. rewrite (firstn_all2 (n := N.to_nat ns)) by (rewrite app_length, Lz, Lc; lia).
        unfold over. rewrite Lz. rewrite (skipn_all2 (n := (N.to_nat os + N.to_nat (ns - os))%nat)) by lia. rewrite app_nil_r. f_equal.
        unfold b2. rewrite <- Lc at 1. apply firstn_over_0. lia.
      - rewrite (load_ok _ _ _ _ _ P1) by lia. cbn [bind]. change (N.to_nat 0) with 0%nat. cbn [skipn].
        assert (Lc : length (firstn (N.to_nat ns) b) = N.to_nat ns) by (rewrite firstn_length; lia).
        destruct (store_ok m1 (sz m) 0 (firstn (N.to_nat ns) b) nb (gr_new _ _ _ G1)) as (m2 & -> & C2). { rewrite Lc, Ln. lia. }
        change (N.to_nat 0) with 0%nat in C2. rewrite over_0 in C2 by lia.
        exists m2, (firstn (N.to_nat ns) b). split; [reflexivity|]. split; [exact C2|]. split; [exact Lc|].
        replace (ns - os) with 0 by lia. change (zeros (N.to_nat 0)) with (@nil cell). rewrite app_nil_r, firstn_firstn. f_equal. lia. }
    destruct X as (m2 & b' & X & C2 & L2 & Eb).
    rewrite X. clear X. cbn [bind].
    assert (P2 : pts m2 p b). { unfold pts. rewrite (ch_other _ _ _ _ C2) by lia. exact P1. }
    destruct (store_ok m2 p 0 (zeros (N.to_nat os)) b P2) as (m3 & -> & C3). { rewrite Lz. lia. }
    cbn [bind]. change (N.to_nat 0) with 0%nat in C3.
    destruct (free_ok m3 p _ (ch_at _ _ _ _ C3)) as (m4 & -> & C4). cbn [bind].
    exists (Some (sz m)), m4. split; [reflexivity|].
    assert (Pq : nth_error (blocks m4) (sz m) = Some (mkBlk true b')).
    { rewrite (ch_other _ _ _ _ C4), (ch_other _ _ _ _ C3) by lia. exact (ch_at _ _ _ _ C2). }
    split.
    { intros k K1 K2. assert (k <> p) by (intros ->; apply K2; left; reflexivity).
      rewrite (ch_other _ _ _ _ C4), (ch_other _ _ _ _ C3), (ch_other _ _ _ _ C2) by lia. apply (gr_other _ _ _ G1). exact K1. }
    split; [lia|]. split.
    + exists b'. split; [exact Pq|]. split; [lia|]. split; [lia|].
      rewrite (firstn_all2 b') by lia. exact Eb.
    + right. split; [reflexivity|].
      split. { rewrite (ch_len _ _ _ _ C4), (ch_len _ _ _ _ C3), (ch_len _ _ _ _ C2). exact (gr_len _ _ _ G1). }
      split; [exact G|]. rewrite (ch_at _ _ _ _ C4). unfold over. rewrite Lz. cbn [firstn app Nat.add]. reflexivity.
Qed.
