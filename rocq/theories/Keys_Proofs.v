(** Proofs for C89. *)
From Coq Require Import Permutation.
From Verif Require Import Base Arr ArrSpec Arr_Proofs Table_Proofs Keys KeysSpec.
Local Open Scope N_scope.

Lemma cell_dec (a b : cell) : {a = b} + {a <> b}.
Proof. decide equality; try apply N.eq_dec; apply Nat.eq_dec. Qed.
Lemma item_dec (a b : nat * list cell) : {a = b} + {a <> b}.
Proof. decide equality; [apply list_eq_dec; apply cell_dec | apply Nat.eq_dec]. Qed.
Ltac spl := repeat match goal with |- _ /\ _ => split end.

(** the blocks of a field *)
Definition fb (f : fld) (c : option (list N)) : list (nat * list cell) :=
  match fst f, c with Some q, Some d => [(q, map By d)] | _, _ => [] end.
Lemma fb_nil f : fb f None = [].
Proof. unfold fb. destruct (fst f); reflexivity. Qed.
Lemma fb_null n c : fb (None, n) c = [].
Proof. reflexivity. Qed.
Lemma fb_some q n d : fb (Some q, n) (Some d) = [(q, map By d)].
Proof. reflexivity. Qed.
Definition hb (p : option nat) (h : option (list N)) := fb (p, 0) h.
Lemma cons_app {A} (a : A) l : a :: l = [a] ++ l.
Proof. reflexivity. Qed.
Ltac perm := unfold hb in *; rewrite ?fb_nil, ?fb_null, ?fb_some; apply (Permutation_count_occ item_dec); intro; rewrite ?count_occ_app; cbn [count_occ]; lia.

Section Good.
Variables (E : sys) (m0 : mem) (P : list cell -> Prop).
Hypothesis Pz : forall n, P (zeros n).

Record good (m : mem) (L : list (nat * list cell)) : Prop := mkG {
  g_old : old_kept (sz m0) m0 m;
  g_n0 : (sz m0 <= sz m)%nat;
  g_nd : NoDup (map fst L);
  g_pts : Forall (fun x => (sz m0 <= fst x)%nat /\ pts m (fst x) (snd x)) L;
  g_dead : forall k, (sz m0 <= k < sz m)%nat -> In k (map fst L) \/ exists c, nth_error (blocks m) k = Some (mkBlk false c) /\ P c }.

Lemma good_perm m L L' : Permutation L L' -> good m L -> good m L'.
Proof.
  intros X G. split; try apply G.
  - eapply Permutation_NoDup; [apply Permutation_map; exact X | apply G].
  - eapply Permutation_Forall; [exact X | apply G].
  - intros k K. destruct (g_dead _ _ G k K) as [H|H]; [left|right; exact H].
    eapply Permutation_in; [apply Permutation_map; exact X | exact H].
Qed.
Lemma good_pts m q b L : good m ((q, b) :: L) -> pts m q b.
Proof. intros G. pose proof (g_pts _ _ G) as F. inversion F; subst. tauto. Qed.

Lemma good_same m m' L : blocks m' = blocks m -> good m L -> good m' L.
Proof. intros B G. destruct G as [A1 A2 A3 A4 A5]. unfold old_kept, pts, sz in *. split; unfold old_kept, pts, sz; rewrite ?B; auto. Qed.

Lemma good_change m m' q b x L : good m ((q, b) :: L) -> changed m m' q x ->
  (live x = true -> good m' ((q, body x) :: L)) /\ (live x = false -> P (body x) -> good m' L).
Proof.
  intros G C. pose proof (g_nd _ _ G) as ND. pose proof (g_pts _ _ G) as F. cbn [map fst] in ND. inversion ND as [|? ? N1 N2]; subst. inversion F as [|? ? [F1 F2] F3]; subst. cbn [fst snd] in *.
  assert (O : old_kept (sz m0) m0 m'). { intros k K. rewrite (ch_other _ _ _ _ C) by lia. apply (g_old _ _ G). exact K. }
  assert (S' : (sz m0 <= sz m')%nat) by (rewrite (ch_len _ _ _ _ C); apply G).
  assert (F' : Forall (fun x => (sz m0 <= fst x)%nat /\ pts m' (fst x) (snd x)) L).
  { rewrite Forall_forall in *. intros y Y. destruct (F3 y Y) as [Y1 Y2]. split; [exact Y1|]. unfold pts. rewrite (ch_other _ _ _ _ C); [exact Y2|].
    intros Z. apply N1. rewrite <- Z. apply in_map. exact Y. }
  assert (D : forall k, (sz m0 <= k < sz m')%nat -> k = q \/ In k (map fst L) \/ exists c, nth_error (blocks m') k = Some (mkBlk false c) /\ P c).
  { intros k K. rewrite (ch_len _ _ _ _ C) in K. destruct (g_dead _ _ G k K) as [[H|H]|(c & H & Q)]; cbn [map fst] in *; auto.
    destruct (Nat.eq_dec k q); [auto|]. right; right. exists c. rewrite (ch_other _ _ _ _ C) by assumption. auto. }
  destruct x as [lv bd]. cbn [live body]. split.
  - intros ->. split; auto.
    + constructor; [split; [exact F1 | exact (ch_at _ _ _ _ C)] | exact F'].
    + intros k K. cbn [map fst]. destruct (D k K) as [->|[H|H]]; cbn [In]; auto.
  - intros -> Q. split; auto. intros k K. destruct (D k K) as [->|[H|H]]; auto. right. exists bd. split; [exact (ch_at _ _ _ _ C) | exact Q].
Qed.
Lemma good_free m q b L : good m ((q, b) :: L) -> P b -> exists m', free m (Some q) = OK m' /\ good m' L.
Proof.
  intros G Q. destruct (free_ok m q b (good_pts _ _ _ _ G)) as (m' & -> & C). exists m'. split; [reflexivity|].
  apply (proj2 (good_change _ _ _ _ _ _ G C)); auto.
Qed.
Lemma good_store m q b d L : good m ((q, b) :: L) -> (length d <= length b)%nat ->
  exists m', store m (Some q) 0 d = OK m' /\ good m' ((q, over b 0 d) :: L).
Proof.
  intros G H. destruct (store_ok m q 0 d b (good_pts _ _ _ _ G)) as (m' & -> & C); [cbn; lia|]. exists m'. split; [reflexivity|].
  exact (proj1 (good_change _ _ _ _ _ _ G C) eq_refl).
Qed.
Lemma good_freezero m q b n L : good m ((q, b) :: L) -> N.to_nat n = length b -> exists m', freezero m (Some q) n = OK m' /\ good m' L.
Proof.
  intros G H. unfold freezero. destruct (good_store m q b (zeros (N.to_nat n)) L G) as (m1 & -> & G1).
  { unfold zeros. rewrite repeat_length. lia. }
  cbn [bind]. apply good_free with (b := over b 0 (zeros (N.to_nat n))); [exact G1|]. rewrite over_0; [apply Pz|]. unfold zeros. rewrite repeat_length. exact H.
Qed.
Lemma good_give m n c L : good m L ->
  (granted E m n /\ exists m', give E m n c = (Some (sz m), m') /\ good m' ((sz m, map c (seq 0 (N.to_nat n))) :: L)) \/
  (~ granted E m n /\ exists m', give E m n c = (None, m') /\ good m' L).
Proof.
  intros G. destruct (give_cases E m n c) as [(A & m' & B & C)|(A & m' & B & C)]; [left|right]; (split; [exact A|]); exists m'; (split; [exact B|]).
  2: eapply good_same; eauto.
  pose proof (gr_len _ _ _ C) as LN. pose proof (g_n0 _ _ G).
  assert (LT : forall x, In x L -> (fst x < sz m)%nat).
  { intros x X. pose proof (g_pts _ _ G) as F. rewrite Forall_forall in F. exact (pts_lt _ _ _ (proj2 (F x X))). }
  split.
  - intros k K. rewrite (gr_other _ _ _ C) by lia. apply (g_old _ _ G). exact K.
  - lia.
  - cbn [map fst]. constructor; [|apply G]. intros X. apply in_map_iff in X. destruct X as (x & X1 & X2). apply LT in X2. lia.
  - constructor; [split; [cbn; lia | exact (gr_new _ _ _ C)]|]. rewrite Forall_forall. intros x X. pose proof (g_pts _ _ G) as F. rewrite Forall_forall in F.
    destruct (F x X) as [Y1 Y2]. split; [exact Y1|]. unfold pts. rewrite (gr_other _ _ _ C); [exact Y2 | apply LT; exact X].
  - intros k K. rewrite LN in K. cbn [map fst In]. destruct (Nat.eq_dec k (sz m)) as [->|NE]; [auto|].
    destruct (g_dead _ _ G k ltac:(lia)) as [H'|(c' & H' & Q)]; [auto|]. right. exists c'. rewrite (gr_other _ _ _ C) by lia. auto.
Qed.

Lemma generous_granted m n : generous E -> n < 2 ^ 57 -> granted E m n.
Proof. intros [H _] L. split; [exact L | apply H; exact L]. Qed.

Lemma memdup_ok m d L : good m L -> exists p m', memdup E m d = OK (p, m') /\
  match p with
  | None => good m' L /\ ~ (generous E /\ N.of_nat (length d) < 2 ^ 57)
  | Some q => good m' ((q, map By d) :: L)
  end.
Proof.
  intros G. unfold memdup, malloc. destruct (good_give m (N.of_nat (length d)) (junk E (calls m)) L G) as [(A & m' & -> & G')|(A & m' & -> & G')].
  - destruct (good_store _ _ _ (map By d) _ G') as (m2 & -> & G2). { rewrite !map_length, seq_length. lia. }
    cbn [bind]. do 2 eexists. split; [reflexivity|]. cbv beta iota. rewrite over_0 in G2; [exact G2|]. rewrite !map_length, seq_length. lia.
  - do 2 eexists. split; [reflexivity|]. split; [exact G'|]. intros [X Y]. apply A. apply generous_granted; assumption.
Qed.

Definition fok (f : fld) (c : option (list N)) : Prop :=
  match c with None => f = (None, 0) | Some d => exists q, f = (Some q, N.of_nat (length d)) end.
Definition pub (c : option (list N)) : Prop := forall d, c = Some d -> P (map By d).

Lemma free_fld m f c L : good m (fb f c ++ L) -> fok f c -> pub c -> exists m', free m (fst f) = OK m' /\ good m' L.
Proof.
  destruct c as [d|]; cbn [fok].
  - intros G (q & ->) Q. cbn [fb fst app] in *. apply good_free with (b := map By d); auto.
  - intros G -> _. exists m. split; [reflexivity | exact G].
Qed.
Lemma freezero_fld m f c L : good m (fb f c ++ L) -> fok f c -> exists m', freezero m (fst f) (snd f) = OK m' /\ good m' L.
Proof.
  destruct c as [d|]; cbn [fok].
  - intros G (q & ->). cbn [fb fst snd app] in *. apply good_freezero with (b := map By d); [exact G|]. rewrite map_length. lia.
  - intros G ->. exists m. split; [reflexivity | exact G].
Qed.

Lemma load_file_ok m f L : good m L -> exists p len m', load_file E m f = OK (p, len, m') /\
  match content (Disk f), p with
  | Some d, Some q => good m' ((q, map By d) :: L) /\ len = N.of_nat (length d)
  | c, None => good m' L /\ len = 0 /\ ~ (c <> None /\ generous E /\ fit (Some (Disk f)))
  | None, Some _ => False
  end.
Proof.
  intros G. destruct f as [|size g]; cbn [load_file].
  { do 3 eexists. split; [reflexivity|]. cbn [content]. split; [exact G|]. split; [reflexivity | tauto]. }
  unfold malloc. destruct (good_give m size (junk E (calls m)) L G) as [(A & m' & -> & G')|(A & m' & -> & G')].
  2: { do 3 eexists. split; [reflexivity|]. destruct (content _); (split; [exact G'|]; split; [reflexivity|]); intros (X & Y & Z); apply A; apply generous_granted; assumption. }
  destruct g as [d|]; cbn [option_map content].
  2: { cbn [bind]. destruct (good_freezero m' (sz m) _ size L G') as (m2 & -> & G2). { rewrite map_length, seq_length. reflexivity. }
       cbn [bind]. do 3 eexists. split; [reflexivity|]. split; [exact G2|]. split; [reflexivity | tauto]. }
  destruct (good_store m' _ _ (map By (firstn (N.to_nat size) d)) L G') as (m2 & -> & G2).
  { rewrite !map_length, seq_length, firstn_length. lia. }
  cbn [bind]. rewrite firstn_length. destruct (N.leb_spec size (N.of_nat (length d))) as [H|H].
  - rewrite (proj2 (N.eqb_eq _ _)) by lia. do 3 eexists. split; [reflexivity|]. rewrite over_0 in G2. 2: { rewrite !map_length, seq_length, firstn_length. lia. }
    split; [exact G2|]. rewrite firstn_length. lia.
  - rewrite (proj2 (N.eqb_neq _ _)) by lia. destruct (good_freezero m2 (sz m) _ size L G2) as (m3 & -> & G3).
    { rewrite over_length; rewrite !map_length, seq_length; [reflexivity|]. rewrite firstn_length. lia. }
    cbn [bind]. do 3 eexists. split; [reflexivity|]. split; [exact G3|]. split; [reflexivity | tauto].
Qed.

Lemma set_fld_ok m f c s L : good m (fb f c ++ L) -> fok f c -> pub c ->
  exists ok f' m', set_fld E m f s = OK (ok, f', m') /\
    good m' (fb f' (if ok : bool then got s else None) ++ L) /\ fok f' (if ok then got s else None) /\
    (ok = true -> delivered s) /\ (generous E -> fine s -> ok = true).
Proof.
  intros G F Q. destruct (free_fld m f c L G F Q) as (m1 & Fr & G1). unfold set_fld, set_mem. rewrite Fr. cbn [bind].
  unfold fine, delivered. destruct s as [[d|fl]|].
  - destruct (memdup_ok m1 d L G1) as (p & m2 & -> & H). cbn [bind]. destruct p as [q|].
    + do 3 eexists. split; [reflexivity|]. cbn [got content]. split; [exact H|]. split; [eexists; reflexivity|]. split; [discriminate | reflexivity].
    + destruct H as [H X]. do 3 eexists. split; [reflexivity|]. split; [exact H|]. split; [reflexivity|]. split; [discriminate|].
      intros Y [Z _]. exfalso. apply X. split; [exact Y | exact Z].
  - destruct (load_file_ok m1 fl L G1) as (p & len & m2 & -> & H). cbn [bind]. do 3 eexists. split; [reflexivity|].
    cbn [got]. destruct (content (Disk fl)) as [d|] eqn:X; destruct p as [q|]; try contradiction.
    + destruct H as [H ->]. split; [exact H|]. split; [eexists; reflexivity|]. split; [discriminate | reflexivity].
    + destruct H as (H & -> & Y). split; [exact H|]. split; [reflexivity|]. split; [discriminate|]. intros A [B C]. exfalso. apply Y. split; [discriminate|]. split; assumption.
    + destruct H as (H & -> & Y). split; [exact H|]. split; [reflexivity|]. split; [discriminate|]. intros A [B C]. exfalso. apply C; congruence.
  - do 3 eexists. split; [reflexivity|]. cbn [got]. split; [exact G1|]. split; [reflexivity|]. split; [congruence | reflexivity].
Qed.

(** keypairs *)
Record kv := mkKv { vc : option (list N); vk : option (list N); vs : option (list N); vh : option (list N) }.
Definition kb (k : keypair) (v : kv) : list (nat * list cell) :=
  [(kp_at k, zeros 88)] ++ fb (kp_cert k) (vc v) ++ fb (kp_key k) (vk v) ++ fb (kp_staple k) (vs v) ++ hb (kp_hash k) (vh v).
Record kok (k : keypair) (v : kv) : Prop := mkKok {
  ko_c : fok (kp_cert k) (vc v); ko_k : fok (kp_key k) (vk v); ko_s : fok (kp_staple k) (vs v);
  ko_h : kp_hash k = None <-> vh v = None; ko_pc : pub (vc v); ko_ps : pub (vs v); ko_ph : pub (vh v) }.
Definition pv (v : kv) : pair := (vc v, vk v, vs v, vh v).

Lemma free_hash m p h L : good m (hb p h ++ L) -> (p = None <-> h = None) -> pub h -> exists m', free m p = OK m' /\ good m' L.
Proof.
  destruct h as [d|]; intros G I Q.
  - destruct p as [q|]; [|destruct I as [I _]; specialize (I eq_refl); discriminate]. apply good_free with (b := map By d); [exact G | auto].
  - rewrite (proj2 I eq_refl) in *. exists m. split; [reflexivity | exact G].
Qed.

Variable pubkey : list N -> option (list N).
Definition pub_hash (c : option (list N)) := forall d h, c = Some d -> pubkey d = Some h -> P (map By (h ++ [0])).

Lemma pub_none : pub None.
Proof. intros d; discriminate. Qed.

Lemma clear_key_ok m k v L : good m (kb k v ++ L) -> kok k v ->
  exists k' m', clear_key m k = OK (k', m') /\ good m' (kb k' (mkKv (vc v) None (vs v) (vh v)) ++ L) /\ kok k' (mkKv (vc v) None (vs v) (vh v)) /\
    kp_key k' = (None, 0).
Proof.
  intros G K. unfold clear_key.
  destruct (freezero_fld m (kp_key k) (vk v) ([(kp_at k, zeros 88)] ++ fb (kp_cert k) (vc v) ++ fb (kp_staple k) (vs v) ++ hb (kp_hash k) (vh v) ++ L)) as (m1 & -> & G1).
  { eapply good_perm; [|exact G]. unfold kb. perm. } { apply K. }
  cbn [bind]. do 2 eexists. split; [reflexivity|]. split; [|split; [|reflexivity]].
  - eapply good_perm; [|exact G1]. unfold kb. cbn [kp_at kp_cert kp_key kp_staple kp_hash vc vk vs vh]. perm.
  - destruct K. split; auto. reflexivity.
Qed.

Lemma set_key_ok m k v s L : good m (kb k v ++ L) -> kok k v ->
  exists ok k' m', set_key E m k s = OK (ok, k', m') /\
    let v' := mkKv (vc v) (if ok : bool then got s else None) (vs v) (vh v) in
    good m' (kb k' v' ++ L) /\ kok k' v' /\ (ok = true -> delivered s) /\ (generous E -> fine s -> ok = true).
Proof.
  intros G K. unfold set_key. destruct (clear_key_ok m k v L G K) as (k1 & m1 & -> & G1 & K1 & Z). cbn [bind].
  destruct (set_fld_ok m1 (kp_key k1) None s ([(kp_at k1, zeros 88)] ++ fb (kp_cert k1) (vc v) ++ fb (kp_staple k1) (vs v) ++ hb (kp_hash k1) (vh v) ++ L))
    as (ok & f' & m2 & -> & G2 & F2 & D2 & S2).
  { eapply good_perm; [|exact G1]. unfold kb. cbn [vc vk vs vh]. perm. } { exact Z. } { exact pub_none. }
  cbn [bind]. do 3 eexists. split; [reflexivity|]. cbv zeta. split; [|split; [|split; assumption]].
  - eapply good_perm; [|exact G2]. unfold kb. cbn [kp_at kp_cert kp_key kp_staple kp_hash vc vk vs vh]. perm.
  - destruct K1. split; auto.
Qed.
Lemma set_staple_ok m k v s L : good m (kb k v ++ L) -> kok k v -> pub (got s) ->
  exists ok k' m', set_staple E m k s = OK (ok, k', m') /\
    let v' := mkKv (vc v) (vk v) (if ok : bool then got s else None) (vh v) in
    good m' (kb k' v' ++ L) /\ kok k' v' /\ (ok = true -> delivered s) /\ (generous E -> fine s -> ok = true).
Proof.
  intros G K Q. unfold set_staple.
  destruct (set_fld_ok m (kp_staple k) (vs v) s ([(kp_at k, zeros 88)] ++ fb (kp_cert k) (vc v) ++ fb (kp_key k) (vk v) ++ hb (kp_hash k) (vh v) ++ L))
    as (ok & f' & m2 & -> & G2 & F2 & D2 & S2).
  { eapply good_perm; [|exact G]. unfold kb. perm. } { apply K. } { apply K. }
  cbn [bind]. do 3 eexists. split; [reflexivity|]. cbv zeta. split; [|split; [|split; assumption]].
  - eapply good_perm; [|exact G2]. unfold kb. cbn [kp_at kp_cert kp_key kp_staple kp_hash vc vk vs vh]. perm.
  - destruct K. split; auto. cbn [vs]. destruct ok; [exact Q | exact pub_none].
Qed.
Definition hashable (c : option (list N)) := forall d, c = Some d -> exists h, pubkey d = Some h /\ N.of_nat (length (h ++ [0])) < 2 ^ 57.
Lemma pubkey_hash_ok m k v L : good m (kb k v ++ L) -> kok k v -> pub_hash (vc v) ->
  exists ok k' m' h', pubkey_hash E pubkey m k = OK (ok, k', m') /\
    let v' := mkKv (vc v) (vk v) (vs v) h' in
    good m' (kb k' v' ++ L) /\ kok k' v' /\ h' = (if ok : bool then hashed pubkey (vc v) else None) /\ (ok = true -> hashes pubkey (vc v)) /\ (generous E -> hashable (vc v) -> ok = true).
Proof.
  intros G K Q. unfold pubkey_hash. set (R := [(kp_at k, zeros 88)] ++ fb (kp_cert k) (vc v) ++ fb (kp_key k) (vk v) ++ fb (kp_staple k) (vs v) ++ L).
  destruct (free_hash m (kp_hash k) (vh v) R) as (m1 & -> & G1).
  { eapply good_perm; [|exact G]. unfold kb, R. perm. } { apply K. } { apply K. }
  cbn [bind].
  assert (N0 : forall m (ok : bool), good m R -> None = (if ok then hashed pubkey (vc v) else None) -> (ok = true -> hashes pubkey (vc v)) -> (generous E -> hashable (vc v) -> ok = true) ->
    exists ok' k' m' h', OK (ok, mkKp (kp_at k) (kp_cert k) (kp_key k) (kp_staple k) None, m) = OK (ok', k', m') /\
    let v' := mkKv (vc v) (vk v) (vs v) h' in good m' (kb k' v' ++ L) /\ kok k' v' /\ h' = (if ok' : bool then hashed pubkey (vc v) else None) /\ (ok' = true -> hashes pubkey (vc v)) /\ (generous E -> hashable (vc v) -> ok' = true)).
  { intros m' ok G' A1 A2 A. do 3 eexists. exists None. split; [reflexivity|]. cbv zeta. split; [|split; [|split; [exact A1|split; [exact A2|exact A]]]].
    - eapply good_perm; [|exact G']. unfold kb, R. cbn [kp_at kp_cert kp_key kp_staple kp_hash vc vk vs vh]. perm.
    - destruct K. split; auto; cbn [kp_hash vh]; [tauto | exact pub_none]. }
  pose proof (ko_c _ _ K) as FC. destruct (vc v) as [d|] eqn:V; cbn [fok] in FC.
  2: { rewrite FC. cbn [fst]. rewrite FC in N0. apply N0; auto. intros _ X; congruence. }
  destruct FC as (q & FC). rewrite FC. cbn [fst snd]. rewrite FC in N0.
  assert (PT : pts m1 q (map By d)).
  { apply (good_pts _ _ _ ([(kp_at k, zeros 88)] ++ fb (kp_key k) (vk v) ++ fb (kp_staple k) (vs v) ++ L)).
    eapply good_perm; [|exact G1]. unfold R. rewrite FC. rewrite (cons_app (q, map By d)). perm. }
  rewrite (load_ok m1 q 0 _ _ PT) by (rewrite map_length; cbn; lia). cbn [bind N.to_nat skipn].
  replace (firstn (N.to_nat (N.of_nat (length d))) (map By d)) with (map By d).
  2: { rewrite firstn_all2; [reflexivity|]. rewrite map_length. lia. }
  rewrite val_By. destruct (pubkey d) as [h|] eqn:PK.
  2: { apply N0; auto; try discriminate. intros _ X. destruct (X d eq_refl) as (h & Y & _). congruence. }
  destruct (memdup_ok m1 (h ++ [0]) R G1) as (p & m2 & -> & H). cbn [bind]. destruct p as [r|].
  - do 3 eexists. exists (Some (h ++ [0])). split; [reflexivity|]. cbv zeta. unfold hashes. cbn [hashed]. rewrite PK. split; [|split; [|split; [reflexivity|split; [intros _ _; discriminate|reflexivity]]]].
    + eapply good_perm; [|exact H]. unfold kb, R. cbn [kp_at kp_cert kp_key kp_staple kp_hash vc vk vs vh]. rewrite FC. rewrite (cons_app (r, map By (h ++ [0]))). perm.
    + destruct K. split; auto; cbn [kp_cert kp_hash vc vh]; try rewrite <- V; auto.
      * rewrite V. eexists. reflexivity.
      * split; discriminate.
      * intros x X. injection X as <-. eapply Q; eauto.
  - destruct H as [H X]. apply N0; auto; try discriminate. intros A B. exfalso. apply X. split; [exact A|]. destruct (B d eq_refl) as (h' & B1 & B2). congruence.
Qed.
Lemma set_cert_ok m k v s L : good m (kb k v ++ L) -> kok k v -> pub (got s) -> pub_hash (got s) ->
  exists (ok : bool) k' m' v', set_cert E pubkey m k s = OK (ok, k', m') /\
    good m' (kb k' v' ++ L) /\ kok k' v' /\ vk v' = vk v /\ vs v' = vs v /\ In (vc v', vh v') (if ok then [(got s, hashed pubkey (got s))] else [(None, vh v); (got s, None)]) /\
    (ok = true -> delivered s /\ hashes pubkey (got s)) /\ (generous E -> fine s -> hashable (got s) -> ok = true).
Proof.
  intros G K Q QH. unfold set_cert.
  destruct (set_fld_ok m (kp_cert k) (vc v) s ([(kp_at k, zeros 88)] ++ fb (kp_key k) (vk v) ++ fb (kp_staple k) (vs v) ++ hb (kp_hash k) (vh v) ++ L))
    as (ok & f' & m2 & -> & G2 & F2 & D2 & S2).
  { eapply good_perm; [|exact G]. unfold kb. perm. } { apply K. } { apply K. }
  cbn [bind]. set (k1 := mkKp (kp_at k) f' (kp_key k) (kp_staple k) (kp_hash k)).
  set (v1 := mkKv (if ok then got s else None) (vk v) (vs v) (vh v)).
  assert (G3 : good m2 (kb k1 v1 ++ L)). { eapply good_perm; [|exact G2]. unfold kb, k1, v1. cbn [kp_at kp_cert kp_key kp_staple kp_hash vc vk vs vh]. perm. }
  assert (K3 : kok k1 v1). { destruct K. split; auto. cbn [v1 vc]. destruct ok; [exact Q | exact pub_none]. }
  destruct ok.
  - destruct (pubkey_hash_ok m2 k1 v1 L G3 K3) as (ok & k' & m' & h' & R & X1 & X2 & X3 & X4 & X5). { exact QH. }
    exists ok, k', m'. eexists. split; [exact R|]. split; [exact X1|]. split; [exact X2|]. cbn [v1 vc vk vs vh] in *. split; [reflexivity|]. split; [reflexivity|].
    split. { rewrite X3. destruct ok; cbn [In]; auto. } split; [auto|]. intros U _ W. exact (X5 U W).
  - exists false, k1, m2, v1. split; [reflexivity|]. split; [exact G3|]. split; [exact K3|]. cbn [v1 vc vk vs vh In]. split; [reflexivity|]. split; [reflexivity|].
    split; [auto|]. split; [discriminate|]. intros U V W. apply S2; assumption.
Qed.
Lemma keypair_free_ok m k v L : good m (kb k v ++ L) -> kok k v -> exists m', keypair_free m k = OK m' /\ good m' L.
Proof.
  intros G K. unfold keypair_free. destruct (clear_key_ok m k v L G K) as (k1 & m1 & C & G1 & K1 & Z). rewrite C. cbn [bind].
  destruct (free_fld m1 (kp_cert k1) (vc v) ([(kp_at k1, zeros 88)] ++ fb (kp_staple k1) (vs v) ++ hb (kp_hash k1) (vh v) ++ L)) as (m2 & -> & G2).
  { eapply good_perm; [|exact G1]. unfold kb. cbn [vc vk vs vh]. perm. } { apply K1. } { apply K. }
  cbn [bind].
  destruct (free_fld m2 (kp_staple k1) (vs v) ([(kp_at k1, zeros 88)] ++ hb (kp_hash k1) (vh v) ++ L)) as (m3 & -> & G3).
  { eapply good_perm; [|exact G2]. perm. } { apply K1. } { apply K. }
  cbn [bind].
  destruct (free_hash m3 (kp_hash k1) (vh v) ([(kp_at k1, zeros 88)] ++ L)) as (m4 & -> & G4).
  { eapply good_perm; [|exact G3]. perm. } { apply K1. } { apply K. }
  cbn [bind]. apply good_free with (b := zeros 88); auto.
Qed.
Lemma keypair_new_ok m L : good m L -> exists k m', keypair_new E m = (k, m') /\
  match k with
  | None => good m' L /\ ~ generous E
  | Some k => good m' (kb k (mkKv None None None None) ++ L) /\ kok k (mkKv None None None None)
  end.
Proof.
  intros G. unfold keypair_new, calloc. change (SIZE_MAX <? 1 * 88) with false. cbv iota. change (1 * 88) with 88.
  destruct (good_give m 88 (fun _ => By 0) L G) as [(A & m' & -> & G')|(A & m' & -> & G')]; do 2 eexists; (split; [reflexivity|]).
  - split.
    + exact G'.
    + split; cbn [kp_cert kp_key kp_staple kp_hash vc vk vs vh fok]; auto; try exact pub_none. tauto.
  - split; [exact G'|]. intros X. apply A. apply generous_granted; [exact X | reflexivity].
Qed.

(** the keypairs of a configuration *)
Fixpoint kbs (ks : list keypair) (l : list kv) : list (nat * list cell) :=
  match ks, l with k :: ks, v :: l => kb k v ++ kbs ks l | _, _ => [] end.
Lemma kbs_app ks l k v : length ks = length l -> kbs (ks ++ [k]) (l ++ [v]) = kbs ks l ++ kb k v.
Proof.
  revert l; induction ks as [|a ks IH]; intros [|b l] H; try discriminate.
  - cbn [kbs app]. apply app_nil_r.
  - cbn [kbs app]. rewrite IH by (injection H; auto). rewrite <- !app_assoc. reflexivity.
Qed.
End Good.
