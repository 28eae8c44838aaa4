(** The entries of a directory on memory. *)
From Coq Require Import Permutation.
From Verif Require Import Base Compat Compat_Proofs Arr ArrSpec Arr_Proofs Table_Proofs.
Local Open Scope N_scope.

(** block [q] holds entry [d] *)
Definition holds (m : mem) (q : nat) (d : dirent) := exists b, pts m q b /\ cstr (map val (skipn 19 b)) = Some (d_name d) /\ nth_error b 18 = Some (By (d_type d)).

Lemma le_length n v : length (le n v) = n.
Proof. revert v. induction n as [|n IH]; intros v; cbn [le length]; auto. Qed.
Lemma cstr_nul l r : nonul l -> cstr (l ++ 0 :: r) = Some l.
Proof.
  induction l as [|c l IH]; intros H; cbn [app cstr].
  - reflexivity.
  - apply Forall_cons_iff in H as [Hc H]. rewrite IH by exact H. rewrite (proj2 (N.eqb_neq c 0)) by (cbv beta in Hc; lia). reflexivity.
Qed.
Lemma skipn_over b off d : (off + length d <= length b)%nat -> skipn off (over b off d) = (d ++ skipn (off + length d) b)%list.
Proof.
  intros H. unfold over. rewrite skipn_app, skipn_all2 by (rewrite firstn_length; lia). rewrite firstn_length.
  replace (off - Nat.min off (length b))%nat with 0%nat by lia. reflexivity.
Qed.
Lemma skipn_eq {A} (l l' : list A) n : length l = length l' -> firstn (length l - n) (skipn n l) = firstn (length l - n) (skipn n l') -> skipn n l = skipn n l'.
Proof.
  intros L H. rewrite firstn_all2 in H by (rewrite skipn_length; lia). rewrite firstn_all2 in H by (rewrite skipn_length; lia). exact H.
Qed.

Lemma copy_entry_ok E m d : dirent_ok d ->
  exists r m', copy_entry E m d = OK (r, m') /\
  match r with
  | None => blocks m' = blocks m /\ exists n, n < 2 ^ 57 /\ yes E (calls m) n = false
  | Some q => q = sz m /\ sz m' = S (sz m) /\ old_kept (sz m) m m' /\ holds m' q d
  end.
Proof.
  intros (Nn & Ln & Ty). unfold copy_entry, malloc. set (nl := N.of_nat (length (d_name d))) in *.
  assert (Dl : nl + 21 <= DIRSIZ nl < 2 ^ 57).
  { unfold DIRSIZ. assert (A1 : addz nl 4 = nl + 4) by (unfold addz; apply N.mod_small; lia). rewrite A1.
    pose proof (N.mul_div_le (nl + 4) 4). pose proof (N.mul_succ_div_gt (nl + 4) 4).
    unfold addz. rewrite N.mod_small by lia. lia. }
  destruct (give_cases E m (DIRSIZ nl) (junk E (calls m))) as [(G & m1 & -> & G1)|(G & m1 & -> & G1)].
  2: { exists None, m1. split; [reflexivity|]. split; [exact G1|]. exists (DIRSIZ nl). split; [lia|].
       unfold granted in G. destruct (yes E (calls m) (DIRSIZ nl)); [exfalso; apply G; split; [lia|reflexivity]|reflexivity]. }
  set (nb := map (junk E (calls m)) (seq 0 (N.to_nat (DIRSIZ nl)))) in *.
  assert (Lb : length nb = N.to_nat (DIRSIZ nl)) by (unfold nb; rewrite map_length, seq_length; reflexivity).
  destruct (store_ok m1 (sz m) 0 (le 8 (d_ino d)) nb (gr_new _ _ _ G1)) as (m2 & -> & C2). { rewrite le_length. lia. }
  cbn [bind]. set (b2 := over nb (N.to_nat 0) (le 8 (d_ino d))) in *.
  assert (L2 : length b2 = length nb) by (apply over_length; rewrite le_length; lia).
  destruct (store_ok m2 (sz m) 18 (le 1 (d_type d)) b2 (ch_at _ _ _ _ C2)) as (m3 & -> & C3). { rewrite le_length. lia. }
  cbn [bind]. set (b3 := over b2 (N.to_nat 18) (le 1 (d_type d))) in *.
  assert (L3 : length b3 = length nb) by (unfold b3; rewrite over_length; [exact L2|rewrite le_length; lia]).
  assert (Ld : length (map By (d_name d ++ [0])) = (length (d_name d) + 1)%nat) by (rewrite map_length, app_length; reflexivity).
  destruct (store_ok m3 (sz m) NAME (map By (d_name d ++ [0])) b3 (ch_at _ _ _ _ C3)) as (m4 & -> & C4). { rewrite Ld, L3, Lb. unfold NAME. lia. }
  cbn [bind]. exists (Some (sz m)), m4. split; [reflexivity|]. split; [reflexivity|].
  split. { rewrite (ch_len _ _ _ _ C4), (ch_len _ _ _ _ C3), (ch_len _ _ _ _ C2). exact (gr_len _ _ _ G1). }
  split. { intros k Hk. rewrite (ch_other _ _ _ _ C4), (ch_other _ _ _ _ C3), (ch_other _ _ _ _ C2) by lia. apply (gr_other _ _ _ G1). exact Hk. }
  eexists. split; [exact (ch_at _ _ _ _ C4)|]. change (N.to_nat NAME) with 19%nat. split.
  - rewrite skipn_over by (rewrite Ld; lia). rewrite map_app, val_By, <- app_assoc. apply cstr_nul. exact Nn.
  - assert (X : firstn 1 (skipn 18 (over b3 19 (map By (d_name d ++ [0])))) = firstn 1 (skipn 18 b3)) by (apply over_elsewhere; [rewrite Ld; lia|left; lia]).
    change (N.to_nat 18) with 18%nat in *.
    assert (Y : firstn 1 (skipn 18 b3) = [By (d_type d)]).
    { unfold b3. rewrite skipn_over by (rewrite le_length; lia). cbn [le app firstn]. rewrite N.mod_small by assumption. reflexivity. }
    rewrite Y in X. destruct (skipn 18 (over b3 19 (map By (d_name d ++ [0])))) as [|x r] eqn:Es; [discriminate X|]. cbn [firstn] in X. injection X as ->.
    rewrite <- (firstn_skipn 18 (over b3 19 _)), Es. rewrite nth_error_app2; rewrite firstn_length, over_length by (rewrite Ld; lia).
    all: replace (Nat.min 18 (length b3)) with 18%nat by lia; auto.
Qed.

(** ** the array *)
Definition slots (b : list cell) (qs : list nat) := firstn (8 * length qs) b = concat (map ptr qs).
Lemma ptr_length q : length (ptr q) = 8%nat. Proof. reflexivity. Qed.
Lemma ptrs_length qs : length (concat (map ptr qs)) = (8 * length qs)%nat.
Proof. induction qs as [|q qs IH]; cbn [map concat length]; [reflexivity|]. rewrite app_length, ptr_length, IH. lia. Qed.
Lemma as_ptr_ptr q : as_ptr (ptr q) = Some q.
Proof. unfold ptr. cbn [seq map as_ptr forallb]. rewrite !Nat.eqb_refl. reflexivity. Qed.
Lemma slots_length b qs : slots b qs -> (8 * length qs <= length b)%nat.
Proof. intros H. apply (f_equal (@length cell)) in H. rewrite firstn_length, ptrs_length in H. lia. Qed.
Lemma slot_nth b qs1 q qs2 : slots b (qs1 ++ q :: qs2) -> firstn 8 (skipn (8 * length qs1) b) = ptr q.
Proof.
  intros H. pose proof (slots_length _ _ H) as L. rewrite app_length in L. cbn [length] in L.
  unfold slots in H. rewrite map_app, concat_app in H. cbn [map concat] in H.
  assert (X : firstn 8 (skipn (8 * length qs1) (firstn (8 * length (qs1 ++ q :: qs2)) b)) = ptr q).
  { rewrite H, skipn_app, skipn_all2 by (rewrite ptrs_length; lia). rewrite ptrs_length, Nat.sub_diag. cbn [app skipn].
    rewrite <- (ptr_length q), firstn_app, Nat.sub_diag, firstn_all. cbn [firstn]. apply app_nil_r. }
  rewrite skipn_firstn_comm, firstn_firstn in X. rewrite app_length in X. cbn [length] in X.
  replace (Nat.min 8 (8 * (length qs1 + S (length qs2)) - 8 * length qs1)) with 8%nat in X by lia. exact X.
Qed.
Lemma load_slot m a b qs1 q qs2 : pts m a b -> slots b (qs1 ++ q :: qs2) -> load_ptr m (Some a) (8 * N.of_nat (length qs1)) = OK q.
Proof.
  intros P H. unfold load_ptr. pose proof (slots_length _ _ H) as L. rewrite app_length in L. cbn [length] in L.
  rewrite (load_ok _ _ _ _ _ P) by lia. replace (N.to_nat (8 * N.of_nat (length qs1))) with (8 * length qs1)%nat by lia.
  change (N.to_nat 8) with 8%nat. cbn [bind]. rewrite (slot_nth _ _ _ _ H), as_ptr_ptr. reflexivity.
Qed.
Lemma slots_prefix b qs1 qs2 : slots b (qs1 ++ qs2) -> slots b qs1.
Proof.
  intros H. unfold slots in *. pose proof (slots_length _ _ H) as L. rewrite app_length in *.
  apply (f_equal (firstn (8 * length qs1))) in H. rewrite firstn_firstn in H.
  replace (Nat.min (8 * length qs1) (8 * (length qs1 + length qs2))) with (8 * length qs1)%nat in H by lia. rewrite H.
  rewrite map_app, concat_app, firstn_app, ptrs_length, firstn_all2 by (rewrite ptrs_length; lia).
  rewrite Nat.sub_diag. cbn [firstn]. apply app_nil_r.
Qed.

(** after freeing the blocks [qs] *)
Record freed (m m' : mem) (qs : list nat) : Prop := mkFr {
  fr_len : sz m' = sz m;
  fr_dead : forall q, In q qs -> dead m' q;
  fr_other : forall k, ~ In k qs -> nth_error (blocks m') k = nth_error (blocks m) k }.

Lemma free_alive m q : alive m q -> exists m', free m (Some q) = OK m' /\ freed m m' [q].
Proof.
  intros (b & P). destruct (free_ok m q b P) as (m' & -> & C). exists m'. split; [reflexivity|].
  split. - exact (ch_len _ _ _ _ C). - intros k [<-|[]]. exists b. exact (ch_at _ _ _ _ C).
  - intros k K. apply (ch_other _ _ _ _ C). intros ->. apply K. left. reflexivity.
Qed.
Lemma freed_trans m1 m2 m3 a b : freed m1 m2 a -> freed m2 m3 b -> freed m1 m3 (a ++ b).
Proof.
  intros A B. split.
  - rewrite (fr_len _ _ _ B). exact (fr_len _ _ _ A).
  - intros q H. destruct (in_dec Nat.eq_dec q b) as [I|I]; [exact (fr_dead _ _ _ B q I)|].
    apply in_app_iff in H. destruct H as [H|H]; [|contradiction]. destruct (fr_dead _ _ _ A q H) as (c & X). exists c. rewrite (fr_other _ _ _ B) by exact I. exact X.
  - intros k H. rewrite in_app_iff in H. rewrite (fr_other _ _ _ B), (fr_other _ _ _ A) by tauto. reflexivity.
Qed.
Lemma freed_alive m m' qs q : freed m m' qs -> ~ In q qs -> alive m q -> alive m' q.
Proof. intros F H (b & P). exists b. unfold pts. rewrite (fr_other _ _ _ F) by exact H. exact P. Qed.

Lemma free_names_ok a b : forall qs m, pts m a b -> slots b qs -> NoDup qs -> ~ In a qs -> (forall q, In q qs -> alive m q) ->
  exists m', free_names m (Some a) (length qs) = OK m' /\ freed m m' qs.
Proof.
  induction qs as [|q qs IH] using rev_ind; intros m P Sl Nd Na Al.
  { exists m. split; [reflexivity|]. split; auto. intros q []. }
  rewrite app_length. cbn [length]. rewrite Nat.add_1_r. cbn [free_names].
  rewrite (load_slot m a b qs q [] P Sl). cbn [bind].
  apply NoDup_remove in Nd as [Nd Nq]. rewrite app_nil_r in *.
  destruct (free_alive m q) as (m1 & -> & F1). { apply Al. apply in_app_iff. right. left. reflexivity. }
  cbn [bind]. rewrite in_app_iff in Na. cbn [In] in Na.
  destruct (IH m1) as (m2 & -> & F2).
  - unfold pts. rewrite (fr_other _ _ _ F1); [exact P|]. intros [->|[]]. tauto.
  - apply slots_prefix in Sl. exact Sl.
  - exact Nd.
  - tauto.
  - intros q' H. apply (freed_alive m m1 [q]); [exact F1| |apply Al; apply in_app_iff; left; exact H]. intros [->|[]]. tauto.
  - exists m2. split; [reflexivity|]. pose proof (freed_trans _ _ _ _ _ F1 F2) as F. destruct F as [f1 f2 f3]. split; [exact f1| |].
    + intros x H. apply f2. apply in_app_iff in H. apply in_app_iff. tauto.
    + intros x H. apply f3. rewrite in_app_iff in *. tauto.
Qed.

Lemma NoDup_app_intro {A} (l l' : list A) : NoDup l -> NoDup l' -> (forall x, In x l -> In x l' -> False) -> NoDup (l ++ l').
Proof.
  induction l as [|x l IH]; intros N1 N2 D; [exact N2|]. inversion N1; subst. cbn [app]. constructor.
  - rewrite in_app_iff. intros [I|I]; [contradiction|]. apply (D x); [left; reflexivity|exact I].
  - apply IH; auto. intros y I J. apply (D y); [right|]; assumption.
Qed.

(** ** scan *)
Record dir_ok (n0 : nat) (m : mem) (a : nat) (b : list cell) (qs : list nat) (ds : list dirent) : Prop := mkDok {
  do_p : pts m a b;
  do_slots : slots b qs;
  do_nodup : NoDup (a :: qs);
  do_holds : Forall2 (holds m) qs ds;
  do_n0 : forall k, In k (a :: qs) -> (n0 <= k)%nat;
  do_dead : forall k, (n0 <= k < sz m)%nat -> ~ In k (a :: qs) -> dead m k }.

Lemma holds_alive m q d : holds m q d -> alive m q.
Proof. intros (b & P & _). exists b. exact P. Qed.
Lemma holds_keep m m' q d : nth_error (blocks m') q = nth_error (blocks m) q -> holds m q d -> holds m' q d.
Proof. intros E (b & P & H). exists b. split; [|exact H]. unfold pts. rewrite E. exact P. Qed.
Lemma Forall2_In_l {A B} (R : A -> B -> Prop) l l' x : Forall2 R l l' -> In x l -> exists y, In y l' /\ R x y.
Proof. induction 1 as [|a b l l' H F IH]; intros []; [subst; exists b; split; [left|]; auto|]. destruct IH as (y & Y & Z); auto. exists y. split; [right|]; assumption. Qed.
Lemma Forall2_keep (R R' : nat -> dirent -> Prop) l l' : Forall2 R l l' -> (forall q d, In q l -> R q d -> R' q d) -> Forall2 R' l l'.
Proof. induction 1 as [|a b l l' H F IH]; intros K; constructor; [apply K; [left; reflexivity|exact H]|]. apply IH. intros q d I. apply K. right. exact I. Qed.
Lemma dir_alive n0 m a b qs ds q : dir_ok n0 m a b qs ds -> In q (a :: qs) -> alive m q.
Proof.
  intros D [<-|I]; [exists b; exact (do_p _ _ _ _ _ _ D)|]. destruct (Forall2_In_l _ _ _ _ (do_holds _ _ _ _ _ _ D) I) as (d & _ & H). exact (holds_alive _ _ _ H).
Qed.


Lemma freed_clean n0 m m' l : (n0 <= sz m)%nat -> freed m m' l -> (forall k, In k l -> (n0 <= k)%nat) ->
  (forall k, (n0 <= k < sz m)%nat -> ~ In k l -> dead m k) -> clean n0 m m'.
Proof.
  intros N0 F L D. split; [|split].
  - intros k Hk. apply (fr_other _ _ _ F). intros I. apply L in I. lia.
  - rewrite (fr_len _ _ _ F). exact N0.
  - intros k Hk. rewrite (fr_len _ _ _ F) in Hk. destruct (in_dec Nat.eq_dec k l) as [I|I]; [exact (fr_dead _ _ _ F k I)|].
    destruct (D k Hk I) as (c & X). exists c. rewrite (fr_other _ _ _ F) by exact I. exact X.
Qed.
Lemma fail_ok A n0 m a b qs ds : dir_ok n0 m a b qs ds -> (n0 <= sz m)%nat ->
  exists m', @fail A m (Some a) (length qs) = OK (None, m') /\ clean n0 m m'.
Proof.
  intros D N0. pose proof (do_nodup _ _ _ _ _ _ D) as Nd. inversion Nd as [|? ? Na Nq]; subst.
  unfold fail. destruct (free_names_ok a b qs m (do_p _ _ _ _ _ _ D) (do_slots _ _ _ _ _ _ D) Nq Na) as (m1 & -> & F1).
  { intros q I. apply (dir_alive _ _ _ _ _ _ _ D). right. exact I. }
  cbn [bind]. destruct (free_alive m1 a) as (m2 & -> & F2).
  { apply (freed_alive _ _ _ _ F1 Na). exists b. exact (do_p _ _ _ _ _ _ D). }
  cbn [bind]. exists m2. split; [reflexivity|]. apply (freed_clean n0 m m2 (qs ++ [a]) N0 (freed_trans _ _ _ _ _ F1 F2)).
  - intros k I. apply (do_n0 _ _ _ _ _ _ D). apply in_app_iff in I. cbn [In] in *. tauto.
  - intros k Hk I. apply (do_dead _ _ _ _ _ _ D k Hk). rewrite in_app_iff in I. cbn [In] in *. tauto.
Qed.


Lemma clean_trans n0 m m1 m' : old_kept n0 m m1 -> clean n0 m1 m' -> clean n0 m m'.
Proof. intros K (A & B & C). split; [|split]; auto. intros k Hk. rewrite A, K by exact Hk. reflexivity. Qed.

Lemma scan_ok E n0 : forall es m a b qs ds arraysz, Forall dirent_ok es -> dir_ok n0 m a b qs ds -> (n0 <= sz m)%nat ->
  N.of_nat (length b) = 8 * arraysz -> 16 <= arraysz -> arraysz < 2 ^ 61 ->
  exists r m', scan E m (Some a) arraysz (length qs) es = OK (r, m') /\
  match r with
  | None => clean n0 m m' /\ (generous E -> N.of_nat (length qs + length es) < 2 ^ 50 -> False)
  | Some (names, n) => old_kept n0 m m' /\ (n0 <= sz m')%nat /\
      exists a' b' qs', names = Some a' /\ n = length qs' /\ dir_ok n0 m' a' b' qs' (ds ++ es)
  end.
Proof.
  induction es as [|d es IH]; intros m a b qs ds arraysz Fo D N0 Lb A16 Amax; cbn [scan].
  { eexists (Some (_, _)), m. split; [reflexivity|]. split; [intros k _; reflexivity|]. split; [exact N0|]. exists a, b, qs. rewrite app_nil_r. auto. }
  inversion Fo as [|? ? Fd Fr]; subst.
  assert (Put : forall m a b arraysz, dir_ok n0 m a b qs ds -> (n0 <= sz m)%nat -> N.of_nat (length b) = 8 * arraysz -> 16 <= arraysz -> arraysz < 2 ^ 61 -> N.of_nat (length qs) < arraysz ->
    exists r m', (let* (p, m') := copy_entry E m d in
      match p with
      | None => fail m' (Some a) (length qs)
      | Some p => let* m'' := store m' (Some a) (8 * N.of_nat (length qs)) (ptr p) in scan E m'' (Some a) arraysz (S (length qs)) es
      end) = OK (r, m') /\
    match r with
    | None => clean n0 m m' /\ (generous E -> N.of_nat (length qs + length (d :: es)) < 2 ^ 50 -> False)
    | Some (names, n) => old_kept n0 m m' /\ (n0 <= sz m')%nat /\
        exists a' b' qs', names = Some a' /\ n = length qs' /\ dir_ok n0 m' a' b' qs' (ds ++ d :: es)
    end).
  { clear m a b arraysz D N0 Lb A16 Amax. intros m a b arraysz D N0 Lb A16 Amax Lt.
    destruct (copy_entry_ok E m d Fd) as (p & m1 & -> & Cp). cbn [bind]. destruct p as [q|].
    - destruct Cp as (-> & S1 & K1 & H1).
      pose proof (pts_lt _ _ _ (do_p _ _ _ _ _ _ D)) as La.
      assert (P1 : pts m1 a b) by (unfold pts; rewrite K1 by exact La; exact (do_p _ _ _ _ _ _ D)).
      assert (Lq : forall q, In q qs -> (q < sz m)%nat).
      { intros q I. destruct (dir_alive _ _ _ _ _ _ q D (or_intror I)) as (c & P). exact (pts_lt _ _ _ P). }
      destruct (store_ok m1 a (8 * N.of_nat (length qs)) (ptr (sz m)) b P1) as (m2 & -> & C2). { rewrite ptr_length. lia. }
      cbn [bind]. replace (N.to_nat (8 * N.of_nat (length qs))) with (8 * length qs)%nat in C2 by lia.
      set (b2 := over b (8 * length qs) (ptr (sz m))) in *.
      assert (L2 : length b2 = length b) by (apply over_length; rewrite ptr_length; lia).
      assert (D2 : dir_ok n0 m2 a b2 (qs ++ [sz m]) (ds ++ [d])).
      { pose proof (do_nodup _ _ _ _ _ _ D) as Nd. inversion Nd as [|? ? Na Nq]; subst. split.
        - exact (ch_at _ _ _ _ C2).
        - unfold slots. rewrite app_length, map_app, concat_app. cbn [length map concat]. rewrite app_nil_r.
          unfold b2, over. rewrite app_assoc, firstn_app.
          assert (Lx : length (firstn (8 * length qs) b ++ ptr (sz m)) = (8 * (length qs + 1))%nat) by (rewrite app_length, firstn_length, ptr_length; lia).
          rewrite Lx, Nat.sub_diag, firstn_all2 by lia. cbn [firstn]. rewrite app_nil_r. f_equal. exact (do_slots _ _ _ _ _ _ D).
        - constructor.
          + rewrite in_app_iff. cbn [In]. intros [I|[I|[]]]; [contradiction|lia].
          + apply NoDup_app_intro; auto. * constructor; [intros []|constructor]. * intros x I [<-|[]]. apply Lq in I. lia.
        - apply Forall2_app.
          + apply (Forall2_keep (holds m)); [exact (do_holds _ _ _ _ _ _ D)|]. intros q x I H. apply (holds_keep m); [|exact H].
            rewrite (ch_other _ _ _ _ C2) by (intros ->; contradiction). apply K1. apply Lq. exact I.
          + constructor; [|constructor]. apply (holds_keep m1); [|exact H1]. apply (ch_other _ _ _ _ C2). lia.
        - intros k I. cbn [In] in I. rewrite in_app_iff in I. cbn [In] in I. destruct I as [I|[I|[<-|[]]]]; [| |exact N0]; apply (do_n0 _ _ _ _ _ _ D); cbn [In]; auto.
        - intros k Hk I. rewrite (ch_len _ _ _ _ C2), S1 in Hk. cbn [In] in I. rewrite in_app_iff in I. cbn [In] in I.
          assert (k <> sz m) by (intros ->; apply I; right; right; left; reflexivity). destruct (do_dead _ _ _ _ _ _ D k) as (c & X); [lia|cbn [In]; tauto|]. exists c.
          rewrite (ch_other _ _ _ _ C2) by (intros ->; apply I; left; reflexivity). rewrite K1 by lia. exact X. }
      assert (K2 : old_kept n0 m m2).
      { intros k Hk. pose proof (do_n0 _ _ _ _ _ _ D a (or_introl eq_refl)). rewrite (ch_other _ _ _ _ C2) by lia. apply K1. lia. }
      destruct (IH m2 a b2 (qs ++ [sz m])%list (ds ++ [d])%list arraysz Fr D2) as (r & m3 & Es & R); [rewrite (ch_len _ _ _ _ C2); lia|lia|lia|lia|].
      rewrite app_length in Es. cbn [length] in Es. rewrite Nat.add_1_r in Es. rewrite Es. exists r, m3. split; [reflexivity|].
      destruct r as [[names n]|].
      + destruct R as (R1 & R2 & a' & b' & qs' & R3 & R4 & R5). split. { intros k Hk. rewrite R1, K2 by exact Hk. reflexivity. }
        split; [exact R2|]. exists a', b', qs'. rewrite <- app_assoc in R5. auto.
      + destruct R as (R1 & R2). split; [apply (clean_trans _ _ m2); assumption|]. intros G B. apply R2; [exact G|]. rewrite app_length. cbn [length] in *. lia.
    - destruct Cp as (B1 & n & Bn & Y).
      assert (S1 : sz m1 = sz m) by (unfold sz; rewrite B1; reflexivity).
      assert (D1 : dir_ok n0 m1 a b qs ds).
      { destruct D. split; auto.
        - unfold pts. rewrite B1. assumption.
        - apply (Forall2_keep (holds m)); [assumption|]. intros q x _. apply holds_keep. rewrite B1. reflexivity.
        - intros k Hk I. rewrite S1 in Hk. destruct (do_dead0 k Hk I) as (c & X). exists c. rewrite B1. exact X. }
      destruct (fail_ok (option nat * nat) n0 m1 a b qs ds D1) as (m2 & -> & C2); [lia|]. exists None, m2. split; [reflexivity|].
      split. { apply (clean_trans _ _ m1); [|exact C2]. intros k Hk. rewrite B1. reflexivity. }
      intros (G & _) _. rewrite G in Y by exact Bn. discriminate. }
  destruct (N.leb_spec arraysz (N.of_nat (length qs))) as [F|F].
  2: { exact (Put m a b arraysz D N0 Lb A16 Amax F). }
  assert (Fq : N.of_nat (length qs) = arraysz). { pose proof (slots_length _ _ (do_slots _ _ _ _ _ _ D)). lia. }
  destruct (fstat_ok E) eqn:Fs; cbn [negb].
  2: { destruct (fail_ok (option nat * nat) n0 m a b qs ds D N0) as (m2 & -> & C2). exists None, m2. split; [reflexivity|]. split; [exact C2|]. intros (_ & G). congruence. }
  assert (Ml : mulz arraysz 2 = arraysz * 2) by (apply mulz_small; unfold SIZE_MAX; lia). rewrite Ml.
  destruct (N.ltb_spec (SIZE_MAX / 8) (arraysz * 2)) as [Bg|Bg].
  { destruct (fail_ok (option nat * nat) n0 m a b qs ds D N0) as (m2 & -> & C2). exists None, m2. split; [reflexivity|]. split; [exact C2|].
    intros _ B. assert (X : SIZE_MAX / 8 = 2 ^ 61 - 1) by reflexivity. rewrite X in Bg. lia. }
  assert (X : SIZE_MAX / 8 = 2 ^ 61 - 1) by reflexivity. rewrite X in Bg. clear X.
  destruct (reallocarray_spec E m a b (arraysz * 2) 8) as (r & m1 & -> & R); [lia|lia|exact (do_p _ _ _ _ _ _ D)|]. cbn [bind].
  destruct r as [a1|].
  - destruct R as (_ & G & -> & S1 & K1 & De & b1 & P1 & L1 & E1).
    assert (D1 : dir_ok n0 m1 (sz m) b1 qs ds).
    { assert (La : (n0 <= a < sz m)%nat). { pose proof (do_n0 _ _ _ _ _ _ D a (or_introl eq_refl)). pose proof (pts_lt _ _ _ (do_p _ _ _ _ _ _ D)). lia. }
      assert (Lq : forall q, In q qs -> (q < sz m)%nat).
      { intros q I. destruct (dir_alive _ _ _ _ _ _ q D (or_intror I)) as (c & P). exact (pts_lt _ _ _ P). }
      pose proof (do_nodup _ _ _ _ _ _ D) as Nd. inversion Nd as [|? ? Na Nq]; subst. split.
      - exact P1.
      - unfold slots. pose proof (slots_length _ _ (do_slots _ _ _ _ _ _ D)). rewrite E1 by lia. exact (do_slots _ _ _ _ _ _ D).
      - constructor; [|exact Nq]. intros I. apply Lq in I. lia.
      - apply (Forall2_keep (holds m)); [exact (do_holds _ _ _ _ _ _ D)|]. intros q x I H. apply (holds_keep m); [|exact H].
        apply K1; [apply Lq; exact I|]. intros [->|[]]. contradiction.
      - intros k [<-|I]; [lia|]. apply (do_n0 _ _ _ _ _ _ D). right. exact I.
      - intros k Hk I. rewrite S1 in Hk. cbn [In] in I. destruct (Nat.eq_dec k a) as [->|Ka]; [exists b; exact De|].
        destruct (do_dead n0 m a b qs ds D k) as (c & Y); [lia|cbn [In]; intros [Z|Z]; [congruence|tauto]|]. exists c. rewrite K1; [exact Y|lia|intros [Z|[]]; congruence]. }
    destruct (Put m1 (sz m) b1 (arraysz * 2) D1) as (r & m2 & -> & R); [lia|lia|lia|lia|lia|].
    assert (K : old_kept n0 m m1). { intros k Hk. apply K1; [lia|]. intros [<-|[]]. pose proof (do_n0 _ _ _ _ _ _ D a (or_introl eq_refl)). lia. }
    exists r, m2. split; [reflexivity|]. destruct r as [[names n]|].
    + destruct R as (R1 & R2). split; [|exact R2]. intros k Hk. rewrite R1, K by exact Hk. reflexivity.
    + destruct R as (R1 & R2). split; [apply (clean_trans _ _ m1); assumption|exact R2].
  - destruct R as (B1 & G).
    assert (S1 : sz m1 = sz m) by (unfold sz; rewrite B1; reflexivity).
    assert (D1 : dir_ok n0 m1 a b qs ds).
    { destruct D. split; auto.
      - unfold pts. rewrite B1. assumption.
      - apply (Forall2_keep (holds m)); [assumption|]. intros q x _. apply holds_keep. rewrite B1. reflexivity.
      - intros k Hk I. rewrite S1 in Hk. destruct (do_dead0 k Hk I) as (c & X). exists c. rewrite B1. exact X. }
    destruct (fail_ok (option nat * nat) n0 m1 a b qs ds D1) as (m2 & -> & C2); [lia|]. exists None, m2. split; [reflexivity|].
    split. { apply (clean_trans _ _ m1); [|exact C2]. intros k Hk. rewrite B1. reflexivity. }
    intros (Y & _) B. apply G. split; [unfold SIZE_MAX; lia|]. split; [cbn [length] in B; lia|]. apply Y. cbn [length] in B; lia.
Qed.
