(** C85 to C88. *)
From Coq Require Import Permutation.
From Verif Require Import Base Compat Compat_Proofs Arr ArrSpec Arr_Proofs Table_Proofs Scan_Proofs List_Proofs.
Local Open Scope N_scope.

(** ** C85.  Arrays grow without losing, changing or leaking anything.  *)

(** The product of two sizes is refused exactly if it does not fit in a size_t. *)
Theorem c85_overflow : forall a b, a < 2 ^ 64 -> b < 2 ^ 64 -> (overflows a b = true <-> SIZE_MAX < a * b).
Proof. intros a b A B. rewrite overflows_spec by assumption. apply N.ltb_lt. Qed.
Print Assumptions c85_overflow.

(** reallocarray: either NULL and nothing happened, because the product is too big or the
    memory was refused; or a new block of exactly nmemb * size bytes with what was in the
    old one, which is freed. *)
Theorem c85_reallocarray : forall E m p b nm size, nm < 2 ^ 64 -> size < 2 ^ 64 -> pts m p b ->
  exists r m', reallocarray E m (Some p) nm size = OK (r, m') /\
  match r with
  | None => blocks m' = blocks m /\ ~ (nm * size <= SIZE_MAX /\ granted E m (nm * size))
  | Some q => nm * size <= SIZE_MAX /\ granted E m (nm * size) /\ q = sz m /\ sz m' = S (sz m) /\ keep m m' [p] /\
      nth_error (blocks m') p = Some (mkBlk false b) /\
      exists b', pts m' q b' /\ N.of_nat (length b') = nm * size /\
        forall n, (n <= length b)%nat -> N.of_nat n <= nm * size -> firstn n b' = firstn n b
  end.
Proof. exact reallocarray_spec. Qed.
Print Assumptions c85_reallocarray.

(** recallocarray: either NULL and nothing happened; or a block of at least new * size
    bytes with the old elements that have room, and zeros for the new ones.  If the block
    moved, the old one was wiped before it was freed; if not, what was cut off was wiped. *)
Theorem c85_recallocarray : forall E m p b old new size, old < 2 ^ 64 -> new < 2 ^ 64 -> size < 2 ^ 64 ->
  pts m p b -> old * size <= N.of_nat (length b) -> old * size <= SIZE_MAX ->
  exists r m', recallocarray E m (Some p) old new size = OK (r, m') /\
  match r with
  | None => blocks m' = blocks m /\ ~ (new * size <= SIZE_MAX /\ granted E m (new * size))
  | Some q => keep m m' [p] /\ new * size <= SIZE_MAX /\
      (exists b', pts m' q b' /\ new * size <= N.of_nat (length b') /\ (old * size < new * size -> N.of_nat (length b') = new * size) /\
        firstn (N.to_nat (new * size)) b' =
        firstn (N.to_nat (new * size)) (firstn (N.to_nat (old * size)) b ++ zeros (N.to_nat (new * size - old * size)))%list) /\
      ((q = p /\ sz m' = sz m /\ new <= old /\
        pts m' p (firstn (N.to_nat (new * size)) b ++ zeros (N.to_nat (old * size - new * size)) ++ skipn (N.to_nat (old * size)) b)%list) \/
       (q = sz m /\ sz m' = S (sz m) /\ granted E m (new * size) /\
        nth_error (blocks m') p = Some (mkBlk false (zeros (N.to_nat (old * size)) ++ skipn (N.to_nat (old * size)) b)%list)))
  end.
Proof. exact recallocarray_spec. Qed.
Print Assumptions c85_recallocarray.

(** What entry [i] of a table reads as: the C strings in its two fields. *)
Definition field (m : mem) (p : option nat) (off : N) : option (list N) :=
  match load m p off 128 with OK c => cstr (map val c) | _ => None end.
Definition entry (m : mem) (tb : table) (i : nat) : option (list N * list N) :=
  match field m (t tb) (256 * N.of_nat i), field m (t tb) (256 * N.of_nat i + 128) with
  | Some mt, Some ext => Some (mt, ext)
  | _, _ => None
  end.

Lemma field_text m p b off : pts m p b -> (off + 128 <= length b)%nat -> field m (Some p) (N.of_nat off) = text b off.
Proof.
  intros P L. unfold field, text. rewrite (load_ok _ _ _ _ _ P) by lia. rewrite Nat2N.id. reflexivity.
Qed.
Lemma entry_ok n0 m tb l p b i e : table_ok n0 m tb l p b -> nth_error l i = Some e -> entry m tb i = Some e.
Proof.
  intros T H. destruct e as [mt ext]. assert (i < length l)%nat by (apply nth_error_Some; congruence).
  pose proof (to_room _ _ _ _ _ _ T). pose proof (to_cap _ _ _ _ _ _ T). pose proof (to_len _ _ _ _ _ _ T). unfold ETM in *.
  unfold entry. rewrite (to_t _ _ _ _ _ _ T).
  replace (256 * N.of_nat i) with (N.of_nat (256 * i)) by lia. replace (N.of_nat (256 * i) + 128) with (N.of_nat (256 * i + 128)) by lia.
  rewrite !(field_text m p b) by (try exact (to_p _ _ _ _ _ _ T); lia).
  destruct (to_entries _ _ _ _ _ _ T i mt ext H) as [-> E2]. unfold FIELD in E2. rewrite E2. reflexivity.
Qed.

(** The table of media types: whatever is put into it and whatever memory is refused, it
    holds the pairs that were accepted, in order and unchanged; nothing else in memory is
    touched; and free_mime leaves nothing behind. *)
Theorem c85_table : forall E m tb m0, init_mime E m = Some (tb, m0) ->
  forall l, Forall (fun e => nonul (fst e) /\ nonul (snd e)) l ->
  exists oks tb' m', add_all E m0 tb l = OK (oks, tb', m') /\ length oks = length l /\
    tlen tb' = N.of_nat (length (accepted l oks)) /\
    (forall i e, nth_error (accepted l oks) i = Some e -> entry m' tb' i = Some e) /\
    (forall i e, nth_error l i = Some e -> nth_error oks i = Some true -> fits e = true) /\
    (generous E -> N.of_nat (length l) < 2 ^ 40 -> oks = map fits l) /\
    exists m'', free_mime m' tb' = OK m'' /\ clean (sz m) m m''.
Proof.
  intros E m tb m0 I l F. destruct (init_ok _ _ _ _ I) as (p & b & T & S & K).
  destruct (add_all_ok E (sz m) l m0 tb [] p b T S F) as (oks & tb' & m' & p' & b' & A & L & T' & K' & Y & G). cbn [app length Nat.add] in *.
  exists oks, tb', m'. split; [exact A|]. split; [exact L|]. split; [exact (to_len _ _ _ _ _ _ T')|].
  split. { intros i e H. exact (entry_ok _ _ _ _ _ _ _ _ T' H). }
  split; [exact Y|]. split. { intros [Ge _]. apply G. exact Ge. }
  unfold free_mime. rewrite (to_t _ _ _ _ _ _ T'). destruct (free_ok m' p' b' (to_p _ _ _ _ _ _ T')) as (m'' & -> & C).
  exists m''. split; [reflexivity|]. split; [|split].
  - intros k Hk. pose proof (to_n0 _ _ _ _ _ _ T'). rewrite (ch_other _ _ _ _ C) by lia. rewrite K', K by exact Hk. reflexivity.
  - rewrite (ch_len _ _ _ _ C). pose proof (to_n0 _ _ _ _ _ _ T'). pose proof (pts_lt _ _ _ (to_p _ _ _ _ _ _ T')). lia.
  - intros k Hk. rewrite (ch_len _ _ _ _ C) in Hk. destruct (Nat.eq_dec k p') as [->|Kp]; [exists b'; exact (ch_at _ _ _ _ C)|].
    destruct (to_dead _ _ _ _ _ _ T' k Hk Kp) as (c & X). exists c. rewrite (ch_other _ _ _ _ C) by exact Kp. exact X.
Qed.
Print Assumptions c85_table.

Lemma Forall2_length {A B} (R : A -> B -> Prop) l l' : Forall2 R l l' -> length l = length l'.
Proof. induction 1; cbn [length]; congruence. Qed.

(** ** C86.  The memory of a directory listing *)

(** scandir_fd never touches memory it does not own.  If it fails it leaves nothing behind,
    and it fails only if the system refused something.  Otherwise the listing shows exactly
    the entries selected, each once, and then all the memory is free again. *)
Theorem c86_listing_partial : forall E m st_size select es, (forall m l, Permutation (order E m l) l) -> Forall dirent_ok es ->
  exists r m', scandir_fd E m st_size select es = OK (r, m') /\
  match r with
  | None => clean (sz m) m m' /\ ~ (generous E /\ st_size < 2 ^ 50 /\ N.of_nat (length es) < 2 ^ 50)
  | Some (dir, n) => n = length (filter select es) /\
      exists l m'', list_dir m' dir n = OK (l, m'') /\ Permutation l (map shown (filter select es)) /\ clean (sz m) m m''
  end.
Proof.
  intros E m st_size select es Ho Fo. destruct (scandir_ok E m st_size select es Ho Fo) as (r & m' & H & R).
  exists r, m'. split; [exact H|]. destruct r as [[dir n]|].
  - destruct R as (K & S & a & b & qs & ds & -> & -> & D & Pm).
    split. { pose proof (Permutation_length Pm). pose proof (Forall2_length _ _ _ (do_holds _ _ _ _ _ _ D)). lia. }
    destruct (list_dir_ok _ _ _ _ _ _ D S) as (m'' & -> & C). exists (map shown ds), m''. split; [reflexivity|].
    split. { apply Permutation_map. exact Pm. } apply (clean_trans _ _ m'); assumption.
  - destruct R as (C & G). split; [exact C|]. intros (G1 & G2 & G3). exact (G G1 G2 G3).
Qed.
Print Assumptions c86_listing_partial.

(** If the client goes away before the listing is written, only the array is freed: the
    entries stay in memory for ever. *)
Theorem c86_leak_refuted : forall E m st_size select es, (forall m l, Permutation (order E m l) l) -> Forall dirent_ok es ->
  generous E -> st_size < 2 ^ 50 -> N.of_nat (length es) < 2 ^ 50 ->
  exists dir n m' m'', scandir_fd E m st_size select es = OK (Some (dir, n), m') /\ close_dir m' dir = OK m'' /\
    exists leaked, NoDup leaked /\ length leaked = length (filter select es) /\
      forall k, (sz m <= k < sz m'')%nat -> (alive m'' k <-> In k leaked).
Proof.
  intros E m st_size select es Ho Fo G1 G2 G3. destruct (scandir_ok E m st_size select es Ho Fo) as (r & m' & H & R).
  destruct r as [[dir n]|]. 2: { destruct R as (_ & G). destruct (G G1 G2 G3). }
  destruct R as (K & S & a & b & qs & ds & -> & -> & D & Pm).
  destruct (close_dir_ok _ _ _ _ _ _ D) as (m'' & Cl & Sz & A).
  exists (Some a), (length qs), m', m''. split; [exact H|]. split; [exact Cl|]. exists qs.
  pose proof (do_nodup _ _ _ _ _ _ D) as Nd. inversion Nd; subst. split; [assumption|].
  split; [|exact A]. pose proof (Permutation_length Pm). pose proof (Forall2_length _ _ _ (do_holds _ _ _ _ _ _ D)). lia.
Qed.
Print Assumptions c86_leak_refuted.

(** ** C87.  The hash of a client certificate *)
Lemma map_nth_seq (l : list N) : map (fun i => By (nth i l 0)) (seq 0 (length l)) = map By l.
Proof.
  apply nth_ext with (d := By 0) (d' := By 0); rewrite !map_length, ?seq_length; [reflexivity|].
  intros n H. rewrite (nth_indep _ _ (By (nth 0 l 0))) by (rewrite map_length, seq_length; exact H).
  rewrite (map_nth (fun i => By (nth i l 0)) (seq 0 (length l)) 0%nat n), seq_nth by exact H. rewrite (map_nth By l 0 n). reflexivity.
Qed.
Lemma hexdigit_spec n : n < 16 -> hexdigit n <> 0 /\ hexdigit n = if n <? 10 then 48 + n else 87 + n.
Proof.
  intros H. assert (X : In n (map N.of_nat (seq 0 16))).
  { apply in_map_iff. exists (N.to_nat n). split; [lia|]. apply in_seq. lia. }
  cbn in X. repeat (destruct X as [<-|X]; [split; [discriminate|reflexivity]|]). destruct X.
Qed.
Lemma digits c : c < 256 -> c / 16 < 16 /\ c mod 16 < 16.
Proof. intros H. split; [apply N.div_lt_upper_bound; lia|apply N.mod_lt; lia]. Qed.
Lemma hexchars_nonul d : Forall (fun c => c < 256) d -> nonul (hexchars d).
Proof.
  unfold hexchars. induction 1 as [|c d H F IH]; cbn [map concat app]; [constructor|]. destruct (digits c H) as [A B].
  constructor; [apply hexdigit_spec; exact A|]. constructor; [apply hexdigit_spec; exact B|]. exact IH.
Qed.
(** It is "SHA256:" and two lower case digits for every byte of the digest; no memory is
    lost, and it fails only if there is none. *)
Theorem c87_text : forall E m d, Forall (fun c => c < 256) d ->
  exists r m', tls_cert_hash E m d = OK (r, m') /\
  match r with
  | None => clean (sz m) m m' /\ ~ (generous E /\ N.of_nat (length d) < 2 ^ 50)
  | Some p => old_kept (sz m) m m' /\ exists q b, p = Some q /\ pts m' q b /\ cstr (map val b) = Some (s2b "SHA256:" ++ hexchars d)%list /\
      (forall k, (sz m <= k < sz m')%nat -> alive m' k -> k = q)
  end.
Proof.
  intros E m d F. unfold tls_cert_hash. destruct (hex_string_ok E m d F) as (r & m1 & -> & R). cbn [bind].
  destruct r as [[p n]|].
  2: { exists None, m1. destruct R as (B & G). split; [reflexivity|]. split; [|intros (G1 & G2); exact (G G1 G2)].
       unfold clean, old_kept, sz. rewrite B. split; [reflexivity|]. split; [lia|]. intros; lia. }
  destruct R as (-> & S1 & K1 & -> & b & P1 & Fb). rewrite (at_pts _ _ _ P1). cbn [bind].
  assert (Cs : cstr (map val b) = Some (hexchars d)).
  { rewrite <- (firstn_skipn (2 * length d + 1) b), Fb, map_app, val_By, <- app_assoc. apply cstr_nul. apply hexchars_nonul. exact F. }
  rewrite Cs. cbn [bind]. set (txt := (s2b "SHA256:" ++ hexchars d ++ [0])%list).
  assert (Lt : length txt = (2 * length d + 8)%nat) by (unfold txt; rewrite !app_length, hexchars_length; cbn; lia).
  destruct (give_cases E m1 (N.of_nat (length txt)) (fun i => By (nth i txt 0))) as [(G & m2 & -> & G2)|(G & m2 & -> & G2)].
  - rewrite Nat2N.id, map_nth_seq in G2.
    destruct (free_ok m2 (sz m) b) as (m3 & -> & C3). { unfold pts. rewrite (gr_other _ _ _ G2) by lia. exact P1. }
    cbn [bind]. exists (Some (Some (sz m1))), m3. split; [reflexivity|].
    split. { intros k Hk. rewrite (ch_other _ _ _ _ C3) by lia. rewrite (gr_other _ _ _ G2) by lia. apply K1. exact Hk. }
    exists (sz m1), (map By txt). split; [reflexivity|].
    split. { unfold pts. rewrite (ch_other _ _ _ _ C3) by lia. exact (gr_new _ _ _ G2). }
    split. { rewrite val_By. unfold txt. rewrite app_assoc. apply cstr_nul. apply Forall_app. split; [repeat constructor; discriminate|apply hexchars_nonul; exact F]. }
    intros k Hk (c & X). rewrite (ch_len _ _ _ _ C3), (gr_len _ _ _ G2), S1 in Hk.
    assert (k = sz m \/ k = S (sz m)) as [->| ->] by lia; [|lia]. unfold pts in X. rewrite (ch_at _ _ _ _ C3) in X. discriminate X.
  - destruct (free_ok m2 (sz m) b) as (m3 & -> & C3). { unfold pts. rewrite G2. exact P1. }
    cbn [bind]. exists None, m3. split; [reflexivity|]. assert (S2 : sz m2 = S (sz m)) by (unfold sz at 1; rewrite G2; exact S1). split.
    + split; [|split].
      * intros k Hk. rewrite (ch_other _ _ _ _ C3) by lia. rewrite G2. apply K1. exact Hk.
      * rewrite (ch_len _ _ _ _ C3). lia.
      * intros k Hk. rewrite (ch_len _ _ _ _ C3) in Hk. replace k with (sz m) by lia. exists b. exact (ch_at _ _ _ _ C3).
    + intros ((Y & _) & B). apply G. split; [lia|]. apply Y. lia.
Qed.
Print Assumptions c87_text.

(** Different digests have different texts. *)
Theorem c87_injective : forall d1 d2, Forall (fun c => c < 256) d1 -> Forall (fun c => c < 256) d2 -> hexchars d1 = hexchars d2 -> d1 = d2.
Proof.
  assert (I : forall a b, a < 16 -> b < 16 -> hexdigit a = hexdigit b -> a = b).
  { intros a b A B. rewrite (proj2 (hexdigit_spec a A)), (proj2 (hexdigit_spec b B)). destruct (N.ltb_spec a 10), (N.ltb_spec b 10); lia. }
  induction d1 as [|a d1 IH]; intros [|b d2] F1 F2 H; try discriminate H; [reflexivity|].
  inversion F1 as [|? ? A F1']; subst. inversion F2 as [|? ? B F2']; subst. unfold hexchars in H. cbn [map concat app] in H. injection H as H1 H2 H3.
  destruct (digits a A), (digits b B). apply I in H1; [|assumption..]. apply I in H2; [|assumption..]. f_equal; [|apply IH; assumption].
  rewrite (N.div_mod a 16), (N.div_mod b 16), H1, H2 by discriminate. reflexivity.
Qed.
Print Assumptions c87_injective.

(** ** C88.  timingsafe_memcmp orders like memcmp *)

(** memcmp(3): the first byte that differs decides *)
Inductive order_of : list N -> list N -> Z -> Prop :=
| Same : forall l, order_of l l 0
| Less : forall l a b r1 r2, a < b -> order_of (l ++ a :: r1) (l ++ b :: r2) (-1)
| More : forall l a b r1 r2, b < a -> order_of (l ++ a :: r1) (l ++ b :: r2) 1.

Lemma memcmp_done : forall p1 p2 r, memcmp_loop p1 p2 r (-1) = r.
Proof.
  induction p1 as [|a p1 IH]; intros [|b p2] r; cbn [memcmp_loop]; try reflexivity.
  change (Z.lnot (-1)) with 0%Z. rewrite Z.land_0_r, Z.lor_0_r, Z.lor_m1_l. apply IH.
Qed.
Lemma sign8 x : (-256 < x < 256)%Z -> Z.shiftr x 8 = if (x <? 0)%Z then (-1)%Z else 0%Z.
Proof.
  intros H. rewrite Z.shiftr_div_pow2 by lia. change (2 ^ 8)%Z with 256%Z. destruct (Z.ltb_spec x 0).
  - symmetry. apply (Z.div_unique x 256 (-1) (x + 256)); lia.
  - apply Z.div_small. lia.
Qed.
Theorem c88_order : forall p1 p2, length p1 = length p2 -> Forall (fun c => c < 256) p1 -> Forall (fun c => c < 256) p2 ->
  order_of p1 p2 (timingsafe_memcmp p1 p2).
Proof.
  unfold timingsafe_memcmp. induction p1 as [|a p1 IH]; intros [|b p2] L F1 F2; try discriminate L; [apply Same|].
  inversion F1 as [|? ? A F1']; subst. inversion F2 as [|? ? B F2']; subst. injection L as L. cbn [memcmp_loop].
  rewrite !sign8 by lia. change (Z.lnot 0) with (-1)%Z. rewrite Z.land_m1_r, !Z.lor_0_l.
  destruct (N.lt_trichotomy a b) as [H|[->|H]].
  - rewrite (proj2 (Z.ltb_lt _ _)) by lia. rewrite (proj2 (Z.ltb_ge _ _)) by lia.
    change (Z.lor (-1) 0) with (-1)%Z. rewrite memcmp_done. apply (Less []). exact H.
  - rewrite !(Z.sub_diag (Z.of_N b)). change (0 <? 0)%Z with false. cbv iota. change (0 - 0)%Z with 0%Z. change (Z.lor 0 0) with 0%Z. specialize (IH p2 L F1' F2').
    destruct IH as [l|l x y r1 r2 H|l x y r1 r2 H]; [apply Same|apply (Less (b :: l)); exact H|apply (More (b :: l)); exact H].
  - rewrite (proj2 (Z.ltb_ge (Z.of_N a - Z.of_N b) 0)) by lia. rewrite (proj2 (Z.ltb_lt _ _)) by lia.
    change (Z.lor 0 (-1)) with (-1)%Z. rewrite memcmp_done. apply (More []). exact H.
Qed.
Print Assumptions c88_order.
Theorem c88_equal : forall p1 p2, length p1 = length p2 -> Forall (fun c => c < 256) p1 -> Forall (fun c => c < 256) p2 ->
  (timingsafe_memcmp p1 p2 = 0%Z <-> p1 = p2).
Proof.
  intros p1 p2 L F1 F2. pose proof (c88_order p1 p2 L F1 F2) as H. split.
  - intros Z. rewrite Z in H. inversion H. reflexivity.
  - intros E. assert (X : forall z, order_of p1 p2 z -> p1 = p2 -> z = 0%Z).
    { intros z [l|l a b r1 r2 Lt|l a b r1 r2 Lt] Eq; [reflexivity| |]; exfalso; apply app_inv_head in Eq; injection Eq; lia. }
    apply (X _ H E).
Qed.
Print Assumptions c88_equal.

(** ** Cases *)
Definition big : sys := mkSys (fun _ _ => true) (fun _ i => By (N.of_nat (i mod 200) + 1)) true (fun _ l => rev l).
(** a system that refuses every third request *)
Definition poor : sys := mkSys (fun k _ => negb (Nat.eqb (k mod 3) 2)) (fun _ _ => Frag 7 7) true (fun _ l => l).
Definition m0 : mem := mkMem [mkBlk true (map By [1; 2; 3; 4; 5; 6; 7; 8; 9; 10; 11; 12])] 0.

Example c85_case :
  overflows (2 ^ 33) (2 ^ 31) = true /\ overflows (2 ^ 33) (2 ^ 31 - 1) = false /\ overflows (2 ^ 63) 2 = true /\ overflows 0 (2 ^ 63) = false /\
  reallocarray big m0 (Some 0%nat) 2 3 = OK (Some 1%nat, mkMem [mkBlk false (map By [1; 2; 3; 4; 5; 6; 7; 8; 9; 10; 11; 12]); mkBlk true (map By [1; 2; 3; 4; 5; 6])] 1) /\
  recallocarray big m0 (Some 0%nat) 4 5 3 = OK (Some 1%nat, mkMem [mkBlk false (zeros 12); mkBlk true (map By [1; 2; 3; 4; 5; 6; 7; 8; 9; 10; 11; 12; 0; 0; 0])] 1) /\
  recallocarray big m0 (Some 0%nat) 4 3 3 = OK (Some 0%nat, mkMem [mkBlk true (map By [1; 2; 3; 4; 5; 6; 7; 8; 9; 0; 0; 0])] 0) /\
  recallocarray big m0 (Some 0%nat) 4 1 3 = OK (Some 1%nat, mkMem [mkBlk false (zeros 12); mkBlk true (map By [1; 2; 3])] 1).
Proof. repeat split; vm_compute; reflexivity. Qed.

(** Forty entries: the table grows three times. *)
Definition forty : list (list N * list N) := map (fun i => (s2b "text/x-" ++ [N.of_nat i + 48], s2b "e" ++ [N.of_nat i + 48])%list) (seq 0 40).
Example c85_table_case : match init_mime big m0 with
  | Some (tb, m) => match add_all big m tb (forty ++ [(repeat 97 128, s2b "x")]) with
    | OK (oks, tb', m') => oks = repeat true 40 ++ [false] /\ tlen tb' = 40 /\ cap tb' = 54 /\ length (blocks m') = 5%nat /\ entry m' tb' 39 = nth_error forty 39
    | _ => False end
  | None => False end.
Proof. vm_compute. repeat split; reflexivity. Qed.
(** With little memory some are refused; the others are there. *)
Example c85_table_poor_case : match init_mime poor m0 with
  | Some (tb, m) => match add_all poor m tb forty with
    | OK (oks, tb', m') => nth_error oks 24 = Some false /\ nth_error oks 25 = Some true /\ tlen tb' = 39 /\ entry m' tb' 38 = nth_error forty 39
    | _ => False end
  | None => False end.
Proof. vm_compute. repeat split; reflexivity. Qed.

Definition dir20 : list dirent := mkD 1 4 (s2b ".") :: mkD 2 4 (s2b "..") :: map (fun i => mkD (N.of_nat i) 8 [N.of_nat i + 97]) (seq 0 18).
Example c86_case : match scandir_fd big m0 100 select_non_dot dir20 with
  | OK (Some (dir, n), m') => n = 19%nat /\ match list_dir m' dir n with
     | OK (l, m'') => length l = 19%nat /\ hd_error l = Some (8, s2b "r") /\ forallb (fun b => negb (live b)) (skipn 1 (blocks m'')) = true | _ => False end
     /\ match close_dir m' dir with OK m'' => length (filter live (skipn 1 (blocks m''))) = 19%nat | _ => False end
  | _ => False end.
Proof. vm_compute. repeat split; reflexivity. Qed.
Example c86_fail_case : match scandir_fd poor m0 100 select_non_dot dir20 with
  | OK (None, m') => forallb (fun b => negb (live b)) (skipn 1 (blocks m')) = true | _ => False end.
Proof. vm_compute. reflexivity. Qed.

Example c87_case : match tls_cert_hash big m0 [0; 255; 26] with
  | OK (Some (Some q), m') => match nth_error (blocks m') q with Some (mkBlk true b) => cstr (map val b) = Some (s2b "SHA256:00ff1a") | _ => False end
  | _ => False end.
Proof. vm_compute. reflexivity. Qed.
Example c88_case : timingsafe_memcmp [1; 2; 255] [1; 3; 0] = (-1)%Z /\ timingsafe_memcmp [1; 200; 0] [1; 3; 9] = 1%Z /\ timingsafe_memcmp [7; 7] [7; 7] = 0%Z.
Proof. repeat split; vm_compute; reflexivity. Qed.
