(** Proofs for C89: a configuration from its creation to its end. *)
From Coq Require Import Permutation.
From Verif Require Import Base Arr ArrSpec Arr_Proofs Keys KeysSpec Keys_Proofs.
Local Open Scope N_scope.

Section Run.
Variables (E : sys) (m0 : mem) (P : list cell -> Prop).
Hypothesis Pz : forall n, P (zeros n).
Variable pubkey : list N -> option (list N).

Definition opub (o : op) := (forall s, In s (certs o ++ staples o) -> pub P (got s)) /\ (forall s, In s (certs o) -> pub_hash P pubkey (got s)).
Definition cbl (c : config) (l : list kv) := [(cf_at c, zeros 344)] ++ kbs (cf_kps c) l.
Definition cgood (c : config) (l : list kv) (m : mem) :=
  good m0 P m (cbl c l) /\ Forall2 (kok P) (cf_kps c) l /\ (1 <= cf_refs c)%nat /\ cf_kps c <> [].

Lemma first_ok m c l k v r lr : cgood c l m -> cf_kps c = k :: r -> l = v :: lr ->
  good m0 P m (kb k v ++ kbs r lr ++ [(cf_at c, zeros 344)]) /\ kok P k v.
Proof.
  intros (G & F & _) A ->. rewrite A in F. inversion F; subst. split; [|assumption]. eapply good_perm; [|exact G]. unfold cbl. rewrite A. cbn [kbs]. perm.
Qed.
Lemma with_first m c l k v r lr k' v' m' : cgood c l m -> cf_kps c = k :: r -> l = v :: lr ->
  good m0 P m' (kb k' v' ++ kbs r lr ++ [(cf_at c, zeros 344)]) -> kok P k' v' -> cgood (with_kps c (k' :: r)) (v' :: lr) m'.
Proof.
  intros (_ & F & R & _) A -> G K. rewrite A in F. inversion F; subst. split; [|split; [|split]].
  - eapply good_perm; [|exact G]. unfold cbl, with_kps. cbn [cf_at cf_kps kbs]. perm.
  - cbn [with_kps cf_kps]. constructor; assumption.
  - exact R.
  - cbn. discriminate.
Qed.
Lemma nonempty m c l : cgood c l m -> exists k v r lr, cf_kps c = k :: r /\ l = v :: lr.
Proof. intros (_ & F & _ & N). destruct F; [congruence|]. do 4 eexists. split; reflexivity. Qed.

Lemma set_cert_mem_ok m c l v lr s : cgood c l m -> l = v :: lr -> pub P (got s) -> pub_hash P pubkey (got s) ->
  exists (ok : bool) c' m' v', set_cert_mem E pubkey m c s = OK (ok, c', m') /\ cgood c' (v' :: lr) m' /\ cf_refs c' = cf_refs c /\
    vk v' = vk v /\ vs v' = vs v /\ In (vc v', vh v') (if ok then [(got s, hashed pubkey (got s))] else [(None, vh v); (got s, None)]) /\ (ok = true -> delivered s /\ hashes pubkey (got s)) /\
    (generous E -> fine s -> hashable pubkey (got s) -> ok = true).
Proof.
  intros G -> Q QH. destruct (nonempty _ _ _ G) as (k & v1 & r & lr1 & A & B). injection B as <- <-.
  destruct (first_ok _ _ _ _ _ _ _ G A eq_refl) as [G1 K1].
  destruct (set_cert_ok E m0 P Pz pubkey m k v s _ G1 K1 Q QH) as (ok & k' & m' & v' & R & X1 & X2 & X3 & X4 & X5 & X6 & X7).
  unfold set_cert_mem, on_first. rewrite A, R. cbn [bind]. do 4 eexists. split; [reflexivity|].
  split; [eapply with_first; eauto|]. split; [reflexivity|]. split; [exact X3|]. split; [exact X4|]. split; [exact X5|]. split; assumption.
Qed.
Lemma set_key_mem_ok m c l v lr s : cgood c l m -> l = v :: lr ->
  exists ok c' m' v', set_key_mem E m c s = OK (ok, c', m') /\ cgood c' (v' :: lr) m' /\ cf_refs c' = cf_refs c /\
    vc v' = vc v /\ vh v' = vh v /\ vs v' = vs v /\ vk v' = (if ok : bool then got s else None) /\ (ok = true -> delivered s) /\ (generous E -> fine s -> ok = true).
Proof.
  intros G ->. destruct (nonempty _ _ _ G) as (k & v1 & r & lr1 & A & B). injection B as <- <-.
  destruct (first_ok _ _ _ _ _ _ _ G A eq_refl) as [G1 K1].
  destruct (set_key_ok E m0 P Pz m k v s _ G1 K1) as (ok & k' & m' & R & X1 & X2 & X3 & X4).
  unfold set_key_mem, on_first. rewrite A, R. cbn [bind]. do 4 eexists. split; [reflexivity|].
  split; [eapply with_first; eauto|]. split; [reflexivity|]. cbn [vc vk vs vh]. split; [reflexivity|]. split; [reflexivity|]. split; [reflexivity|]. split; [reflexivity|]. split; assumption.
Qed.
Lemma set_staple_mem_ok m c l v lr s : cgood c l m -> l = v :: lr -> pub P (got s) ->
  exists ok c' m' v', set_staple_mem E m c s = OK (ok, c', m') /\ cgood c' (v' :: lr) m' /\ cf_refs c' = cf_refs c /\
    vc v' = vc v /\ vh v' = vh v /\ vk v' = vk v /\ vs v' = (if ok : bool then got s else None) /\ (ok = true -> delivered s) /\ (generous E -> fine s -> ok = true).
Proof.
  intros G -> Q. destruct (nonempty _ _ _ G) as (k & v1 & r & lr1 & A & B). injection B as <- <-.
  destruct (first_ok _ _ _ _ _ _ _ G A eq_refl) as [G1 K1].
  destruct (set_staple_ok E m0 P Pz m k v s _ G1 K1 Q) as (ok & k' & m' & R & X1 & X2 & X3 & X4).
  unfold set_staple_mem, on_first. rewrite A, R. cbn [bind]. do 4 eexists. split; [reflexivity|].
  split; [eapply with_first; eauto|]. split; [reflexivity|]. cbn [vc vk vs vh]. split; [reflexivity|]. split; [reflexivity|]. split; [reflexivity|]. split; [reflexivity|]. split; assumption.
Qed.

Lemma clear_all_ok : forall ks l m L, good m0 P m (kbs ks l ++ L) -> Forall2 (kok P) ks l ->
  exists ks' m', clear_all m ks = OK (ks', m') /\
    let l' := map (fun v => mkKv (vc v) None (vs v) (vh v)) l in good m0 P m' (kbs ks' l' ++ L) /\ Forall2 (kok P) ks' l' /\ length ks' = length ks.
Proof.
  induction ks as [|k ks IH]; intros l m L G F; inversion F; subst; cbn [clear_all].
  - do 2 eexists. split; [reflexivity|]. cbv zeta. split; [exact G|]. split; [constructor | reflexivity].
  - cbn [kbs] in G. rewrite <- app_assoc in G. destruct (clear_key_ok m0 P Pz m k y _ G H1) as (k' & m1 & -> & G1 & K1 & _). cbn [bind].
    destruct (IH l' m1 (kb k' (mkKv (vc y) None (vs y) (vh y)) ++ L)) as (ks' & m2 & -> & G2 & F2 & L2).
    { eapply good_perm; [|exact G1]. perm. } { assumption. }
    cbn [bind]. do 2 eexists. split; [reflexivity|]. cbv zeta. cbn [map kbs]. split; [|split].
    + eapply good_perm; [|exact G2]. perm.
    + constructor; assumption.
    + cbn [length]. congruence.
Qed.
Lemma free_all_ok : forall ks l m L, good m0 P m (kbs ks l ++ L) -> Forall2 (kok P) ks l -> exists m', free_all m ks = OK m' /\ good m0 P m' L.
Proof.
  induction ks as [|k ks IH]; intros l m L G F; inversion F; subst; cbn [free_all].
  - exists m. split; [reflexivity | exact G].
  - cbn [kbs] in G. rewrite <- app_assoc in G. destruct (keypair_free_ok m0 P Pz m k y _ G H1) as (m1 & -> & G1). cbn [bind]. exact (IH _ _ _ G1 H3).
Qed.

Lemma add_keypair_ok m c l a b t : cgood c l m -> pub P (got a) -> pub_hash P pubkey (got a) -> pub P (got t) ->
  exists ok c' m' l', add_keypair E pubkey m c a b t = OK (ok, c', m') /\ cgood c' l' m' /\ cf_refs c' = cf_refs c /\
    effect pubkey (OAdd a b t) ok (map pv l) (map pv l') /\ (generous E -> possible pubkey (OAdd a b t) -> ok = true).
Proof.
  intros G Qa Qh Qt. unfold add_keypair. destruct (keypair_new_ok E m0 P Pz m _ (proj1 G)) as (k & m1 & N & H). rewrite N.
  assert (Same : forall m, good m0 P m (cbl c l) -> cgood c l m). { intros m' X. destruct G as (_ & F & R & Y). split; auto. }
  destruct k as [k|].
  2: { destruct H as [H X]. do 3 eexists. exists l. split; [reflexivity|]. split; [apply Same; exact H|]. split; [reflexivity|]. split; [reflexivity|]. intros Y; contradiction. }
  destruct H as [G1 K1].
  destruct (set_cert_ok E m0 P Pz pubkey m1 k _ a _ G1 K1 Qa Qh) as (ok1 & k2 & m2 & v2 & -> & G2 & K2 & A1 & A2 & A3 & A4 & A5). cbn [bind].
  assert (Fail : forall k m v ok, good m0 P m (kb k v ++ cbl c l) -> kok P k v -> (generous E -> possible pubkey (OAdd a b t) -> ok = true) -> ok = false ->
    exists ok c' m' l', (let* m := keypair_free m k in OK (false, c, m)) = OK (ok, c', m') /\ cgood c' l' m' /\ cf_refs c' = cf_refs c /\
    effect pubkey (OAdd a b t) ok (map pv l) (map pv l') /\ (generous E -> possible pubkey (OAdd a b t) -> ok = true)).
  { intros k' m' v ok X Y Z ->. destruct (keypair_free_ok m0 P Pz m' k' v _ X Y) as (m'' & -> & X'). cbn [bind]. do 3 eexists. exists l.
    split; [reflexivity|]. split; [apply Same; exact X'|]. split; [reflexivity|]. split; [reflexivity|]. intros U V. specialize (Z U V). discriminate. }
  cbn [possible] in Fail |- *. 
  destruct ok1; cbn [negb].
  2: { eapply Fail; [exact G2 | exact K2 | | reflexivity]. intros U ((V1 & V2) & _). apply A5; auto. }
  destruct (A4 eq_refl) as [D1 C2]. cbv iota in A3. destruct A3 as [A3|[]]. injection A3 as A3 A3h. symmetry in A3, A3h.
  assert (Key : exists ok k' m' v', match b with None => OK (true, k2, m2) | Some _ => set_key E m2 k2 b end = OK (ok, k', m') /\
    good m0 P m' (kb k' v' ++ cbl c l) /\ kok P k' v' /\ vc v' = vc v2 /\ vh v' = vh v2 /\ vs v' = vs v2 /\ (ok = true -> delivered b /\ vk v' = got b) /\ (generous E -> fine b -> ok = true)).
  { destruct b as [b|].
    - destruct (set_key_ok E m0 P Pz m2 k2 v2 (Some b) _ G2 K2) as (ok & k' & m' & -> & X1 & X2 & X3 & X4). do 4 eexists. split; [reflexivity|].
      split; [exact X1|]. split; [exact X2|]. cbn [vc vs vk vh]. split; [reflexivity|]. split; [reflexivity|]. split; [reflexivity|]. split; [|exact X4]. intros ->. auto.
    - exists true, k2, m2, v2. split; [reflexivity|]. split; [exact G2|]. split; [exact K2|]. split; [reflexivity|]. split; [reflexivity|]. split; [reflexivity|]. split; [|auto].
      intros _. split; [intros X; congruence|]. rewrite A1. reflexivity. }
  destruct Key as (ok3 & k3 & m3 & v3 & -> & G3 & K3 & B1 & B1h & B2 & B3 & B4). cbn [bind]. destruct ok3; cbn [negb].
  2: { eapply Fail; [exact G3 | exact K3 | | reflexivity]. intros U (_ & V & _). auto. }
  destruct (B3 eq_refl) as [D2 C3].
  assert (St : exists ok k' m' v', match t with None => OK (true, k3, m3) | Some _ => set_staple E m3 k3 t end = OK (ok, k', m') /\
    good m0 P m' (kb k' v' ++ cbl c l) /\ kok P k' v' /\ vc v' = vc v3 /\ vh v' = vh v3 /\ vk v' = vk v3 /\ (ok = true -> delivered t /\ vs v' = got t) /\ (generous E -> fine t -> ok = true)).
  { destruct t as [t|].
    - destruct (set_staple_ok E m0 P Pz m3 k3 v3 (Some t) _ G3 K3 Qt) as (ok & k' & m' & -> & X1 & X2 & X3 & X4). do 4 eexists. split; [reflexivity|].
      split; [exact X1|]. split; [exact X2|]. cbn [vc vs vk vh]. split; [reflexivity|]. split; [reflexivity|]. split; [reflexivity|]. split; [|exact X4]. intros ->. auto.
    - exists true, k3, m3, v3. split; [reflexivity|]. split; [exact G3|]. split; [exact K3|]. split; [reflexivity|]. split; [reflexivity|]. split; [reflexivity|]. split; [|auto].
      intros _. split; [intros X; congruence|]. rewrite B2, A2. reflexivity. }
  destruct St as (ok4 & k4 & m4 & v4 & -> & G4 & K4 & E1 & E1h & E2 & E3 & E4). cbn [bind]. destruct ok4; cbn [negb].
  2: { eapply Fail; [exact G4 | exact K4 | | reflexivity]. intros U (_ & _ & V). auto. }
  destruct (E3 eq_refl) as [D3 C4].
  exists true, (with_kps c (cf_kps c ++ [k4])), m4, (l ++ [v4]). split; [reflexivity|]. destruct G as (_ & F & R & Y). split; [|split; [reflexivity|split; [|reflexivity]]].
  - split; [|split; [|split]].
    + eapply good_perm; [|exact G4]. unfold cbl, with_kps. cbn [cf_at cf_kps]. rewrite kbs_app by (clear - F; induction F; cbn [length]; congruence). perm.
    + cbn [with_kps cf_kps]. apply Forall2_app; [exact F|]. constructor; [exact K4 | constructor].
    + exact R.
    + cbn [with_kps cf_kps]. destruct (cf_kps c); discriminate.
  - cbn [effect]. split; [exact D1|]. split; [exact C2|]. split; [exact D2|]. split; [exact D3|]. rewrite map_app. cbn [map]. change (pv v4) with (vc v4, vk v4, vs v4, vh v4). rewrite C4, E2, C3, E1, B1, E1h, B1h, A3, A3h. reflexivity.
Qed.

Lemma set_keypair_ok m c l a b t : cgood c l m -> pub P (got a) -> pub_hash P pubkey (got a) -> pub P (got t) ->
  exists ok c' m' l', set_keypair E pubkey m c a b t = OK (ok, c', m') /\ cgood c' l' m' /\ cf_refs c' = cf_refs c /\
    effect pubkey (OSet a b t) ok (map pv l) (map pv l') /\ (generous E -> possible pubkey (OSet a b t) -> ok = true).
Proof.
  intros G Qa Qh Qt. destruct (nonempty _ _ _ G) as (k & v & r & lr & A & ->). unfold set_keypair.
  destruct (set_cert_mem_ok m c _ v lr a G eq_refl Qa Qh) as (ok1 & c1 & m1 & v1 & -> & G1 & R1 & A1 & A2 & A3 & A4 & A5). cbn [bind].
  cbn [map possible]. change (pv v) with (vc v, vk v, vs v, vh v). cbn [effect]. destruct ok1; cbn [negb].
  2: { do 3 eexists. exists (v1 :: lr). split; [reflexivity|]. split; [exact G1|]. split; [exact R1|]. cbn [map]. change (pv v1) with (vc v1, vk v1, vs v1, vh v1). split.
       - do 4 eexists. split; [|reflexivity]. rewrite A1, A2. cbn [In] in A3. destruct A3 as [X|[X|[]]]; injection X as <- <-; cbn [In]; auto.
       - intros U ((V1 & V2) & _). apply A5; auto. }
  destruct (A4 eq_refl) as [D1 C1]. destruct A3 as [A3|[]]. injection A3 as A3 A3h. symmetry in A3, A3h.
  destruct (set_key_mem_ok m1 c1 _ v1 lr b G1 eq_refl) as (ok2 & c2 & m2 & v2 & -> & G2 & R2 & B1 & B1h & B2 & B3 & B4 & B5). cbn [bind].
  destruct ok2; cbn [negb].
  2: { do 3 eexists. exists (v2 :: lr). split; [reflexivity|]. split; [exact G2|]. split; [congruence|]. cbn [map]. change (pv v2) with (vc v2, vk v2, vs v2, vh v2). split.
       - do 4 eexists. split; [|reflexivity]. rewrite B1, B3, B2, A2, B1h, A3, A3h. cbn [In]. auto.
       - intros U (_ & V & _). auto. }
  specialize (B4 eq_refl). destruct t as [t|].
  - destruct (set_staple_mem_ok m2 c2 _ v2 lr (Some t) G2 eq_refl Qt) as (ok3 & c3 & m3 & v3 & -> & G3 & R3 & E1 & E1h & E2 & E3 & E4 & E5).
    do 3 eexists. exists (v3 :: lr). split; [reflexivity|]. split; [exact G3|]. split; [congruence|]. cbn [map]. change (pv v3) with (vc v3, vk v3, vs v3, vh v3).
    rewrite E1, E2, E3, E1h, B1, B1h, B3, A3, A3h. split.
    + destruct ok3.
      * split; [exact D1|]. split; [exact C1|]. split; [exact B4|]. split; [apply E4; reflexivity|]. reflexivity.
      * do 4 eexists. split; [|reflexivity]. cbn [In]. auto.
    + intros U (_ & _ & V). auto.
  - do 3 eexists. exists (v2 :: lr). split; [reflexivity|]. split; [exact G2|]. split; [congruence|]. cbn [map]. change (pv v2) with (vc v2, vk v2, vs v2, vh v2).
    rewrite B1, B1h, B3, B2, A2, A3, A3h. split; [|reflexivity].
    split; [exact D1|]. split; [exact C1|]. split; [exact B4|]. split; [intros X; congruence | reflexivity].
Qed.

Lemma apply_ok m c l o : cgood c l m -> opub o ->
  exists ok c' m', apply E pubkey m c o = OK (ok, c', m') /\ (generous E -> possible pubkey o -> ok = true) /\
  match c' with
  | Some c' => exists l', cgood c' l' m' /\ effect pubkey o ok (map pv l) (map pv l') /\ (forall r, refs (cf_refs c) (o :: r) = refs (cf_refs c') r)
  | None => effect pubkey o ok (map pv l) (map pv l) /\ (forall r, refs (cf_refs c) (o :: r) = None) /\ good m0 P m' []
  end.
Proof.
  intros G [Q1 Q2]. destruct o as [a|b|a b t|a b t| | |]; cbn [apply certs staples app] in *.
  - destruct (nonempty _ _ _ G) as (k & v & r & lr & A & ->).
    destruct (set_cert_mem_ok m c _ v lr a G eq_refl) as (ok & c' & m' & v' & -> & G' & R & A1 & A2 & A3 & A4 & A5). { apply Q1; left; reflexivity. } { apply Q2; left; reflexivity. }
    cbn [bind]. do 3 eexists. split; [reflexivity|]. cbn [possible]. split. { intros U [V1 V2]. apply A5; auto. }
    exists (v' :: lr). split; [exact G'|]. split; [|intros x; cbn [refs]; rewrite R; reflexivity].
    cbn [map]. change (pv v) with (vc v, vk v, vs v, vh v). change (pv v') with (vc v', vk v', vs v', vh v'). rewrite A1, A2. cbn [effect]. destruct ok.
    + destruct (A4 eq_refl) as [D D']. destruct A3 as [A3|[]]. injection A3 as <- <-. auto.
    + do 2 eexists. split; [exact A3 | reflexivity].
  - destruct (nonempty _ _ _ G) as (k & v & r & lr & A & ->).
    destruct (set_key_mem_ok m c _ v lr b G eq_refl) as (ok & c' & m' & v' & -> & G' & R & A1 & A1h & A2 & A3 & A4 & A5).
    cbn [bind]. do 3 eexists. split; [reflexivity|]. cbn [possible]. split; [exact A5|].
    exists (v' :: lr). split; [exact G'|]. split; [|intros x; cbn [refs]; rewrite R; reflexivity].
    cbn [map]. change (pv v) with (vc v, vk v, vs v, vh v). change (pv v') with (vc v', vk v', vs v', vh v'). rewrite A1, A1h, A2, A3. cbn [effect]. destruct ok; auto.
  - destruct (set_keypair_ok m c l a b t G) as (ok & c' & m' & l' & -> & G' & R & X & Y).
    { apply Q1; left; reflexivity. } { apply Q2; left; reflexivity. } { apply Q1; right; left; reflexivity. }
    cbn [bind]. do 3 eexists. split; [reflexivity|]. split; [exact Y|]. exists l'. split; [exact G'|]. split; [exact X|]. intros x; cbn [refs]; rewrite R; reflexivity.
  - destruct (add_keypair_ok m c l a b t G) as (ok & c' & m' & l' & -> & G' & R & X & Y).
    { apply Q1; left; reflexivity. } { apply Q2; left; reflexivity. } { apply Q1; right; left; reflexivity. }
    cbn [bind]. do 3 eexists. split; [reflexivity|]. split; [exact Y|]. exists l'. split; [exact G'|]. split; [exact X|]. intros x; cbn [refs]; rewrite R; reflexivity.
  - destruct G as (G & F & R & N). destruct (clear_all_ok (cf_kps c) l m [(cf_at c, zeros 344)]) as (ks & m' & -> & G' & F' & L').
    { eapply good_perm; [|exact G]. unfold cbl. perm. } { exact F. }
    cbn [bind]. do 3 eexists. split; [reflexivity|]. split; [auto|]. exists (map (fun v => mkKv (vc v) None (vs v) (vh v)) l). split; [|split].
    + split; [|split; [|split]].
      * unfold cbl, with_kps. cbn [cf_at cf_kps]. eapply good_perm; [|exact G']. perm.
      * exact F'.
      * exact R.
      * cbn [with_kps cf_kps]. destruct ks; [|discriminate]. destruct (cf_kps c); [congruence | discriminate].
    + cbn [effect]. split; [reflexivity|]. rewrite !map_map. reflexivity.
    + reflexivity.
  - do 3 eexists. split; [reflexivity|]. split; [auto|]. exists l. split; [|split; [split; reflexivity|reflexivity]].
    destruct G as (G & F & R & N). split; [exact G|]. split; [exact F|]. split; [cbn; lia | exact N].
  - unfold config_free. destruct (Nat.ltb_spec 1 (cf_refs c)) as [H|H].
    + cbn [bind]. do 3 eexists. split; [reflexivity|]. split; [auto|]. exists l. destruct G as (G & F & R & N).
      split; [|split; [split; reflexivity|]]. { split; [exact G|]. split; [exact F|]. split; [cbn; lia | exact N]. }
      intros x. cbn [refs cf_refs]. rewrite (proj2 (Nat.leb_gt _ _)) by lia. reflexivity.
    + destruct G as (G & F & R & N). destruct (free_all_ok (cf_kps c) l m [(cf_at c, zeros 344)]) as (m1 & -> & G1).
      { eapply good_perm; [|exact G]. unfold cbl. perm. } { exact F. }
      cbn [bind]. destruct (good_free m0 P Pz m1 _ _ _ G1 (Pz 344)) as (m2 & -> & G2). cbn [bind]. do 3 eexists. split; [reflexivity|]. split; [auto|].
      split; [split; reflexivity|]. split; [|exact G2]. intros x. cbn [refs]. rewrite (proj2 (Nat.leb_le _ _)) by lia. reflexivity.
Qed.


(** what was done of [ops]: up to the last reference *)
Lemma run_ok : forall ops m c l, cgood c l m -> Forall opub ops ->
  exists oks c' m' n l', run E pubkey m c ops = OK (oks, c', m') /\ effects pubkey (firstn n ops) oks (map pv l) (map pv l') /\
    (generous E -> Forall (possible pubkey) ops -> Forall (eq true) oks) /\
    match c' with
    | Some c' => n = length ops /\ cgood c' l' m' /\ refs (cf_refs c) ops = Some (cf_refs c')
    | None => refs (cf_refs c) ops = None /\ good m0 P m' []
    end.
Proof.
  induction ops as [|o ops IH]; intros m c l G F.
  - do 3 eexists. exists O, l. split; [reflexivity|]. split; [constructor|]. split; [constructor|]. split; [reflexivity|]. split; [exact G | reflexivity].
  - apply Forall_cons_iff in F. destruct F as [F1 F]. cbn [run].
    destruct (apply_ok m c l o G F1) as (ok & c1 & m1 & -> & A & B). cbn [bind]. destruct c1 as [c1|].
    + destruct B as (l1 & G1 & X & R). destruct (IH m1 c1 l1 G1 F) as (oks & c' & m' & n & l' & -> & Y & Z & W). cbn [bind].
      do 3 eexists. exists (S n), l'. split; [reflexivity|]. split; [cbn [firstn]; econstructor; eauto|].
      split. { intros U V. apply Forall_cons_iff in V. destruct V. constructor; [symmetry; auto | auto]. }
      rewrite R. destruct c'; [|exact W]. destruct W as (-> & W). auto.
    + destruct B as (X & R & Y). do 3 eexists. exists 1%nat, l. split; [reflexivity|]. split; [cbn [firstn]; econstructor; [exact X | constructor]|].
      split. { intros U V. apply Forall_cons_iff in V. destruct V. constructor; [symmetry; auto | constructor]. }
      split; [apply R | exact Y].
Qed.

Lemma config_new_ok m : good m0 P m [] -> exists c m', config_new E m = OK (c, m') /\
  match c with
  | None => good m0 P m' [] /\ ~ generous E
  | Some c => cgood c [mkKv None None None None] m' /\ cf_refs c = 1%nat
  end.
Proof.
  intros G. unfold config_new, calloc. change (SIZE_MAX <? 1 * 344) with false. cbv iota. change (1 * 344) with 344.
  destruct (good_give E m0 P Pz m 344 (fun _ => By 0) _ G) as [(A & m' & -> & G')|(A & m' & -> & G')].
  2: { do 2 eexists. split; [reflexivity|]. split; [exact G'|]. intros X. apply A. apply generous_granted; [exact X | reflexivity]. }
  destruct (keypair_new_ok E m0 P Pz m' _ G') as (k & m1 & -> & H). destruct k as [k|].
  - do 2 eexists. split; [reflexivity|]. destruct H as [H K]. split; [|reflexivity]. split; [|split; [|split]].
    + unfold cbl. cbn [cf_at cf_kps kbs]. eapply good_perm; [|exact H]. change (map (fun _ => By 0) (seq 0 (N.to_nat 344))) with (zeros 344). rewrite app_nil_r. perm.
    + cbn [cf_kps]. constructor; [exact K | constructor].
    + cbn. lia.
    + cbn. discriminate.
  - destruct H as [H X]. destruct (good_free m0 P Pz m1 _ _ _ H) as (m2 & -> & G2). { apply (Pz 344). }
    cbn [bind]. do 2 eexists. split; [reflexivity|]. split; [exact G2 | exact X].
Qed.

Lemma fok_reads m q f c L : good m0 P m L -> (forall x, In x (fb f c) -> In x L) -> fok f c -> q = f -> reads m q c.
Proof.
  intros G S F ->. destruct c as [d|]; cbn [fok reads] in *; [|exact F]. destruct F as (p & ->). cbn [fst snd]. split; [discriminate|]. split; [reflexivity|].
  pose proof (g_pts _ _ _ _ G) as W. rewrite Forall_forall in W. destruct (W (p, map By d)) as [_ X]. { apply S. left. reflexivity. }
  rewrite (load_ok m p 0 _ _ X) by (cbn [snd fst]; rewrite map_length; cbn; lia). cbn [N.to_nat skipn snd]. rewrite firstn_all2; [reflexivity|]. rewrite map_length. lia.
Qed.
Lemma hok_reads m p c L : good m0 P m L -> (forall x, In x (hb p c) -> In x L) -> (p = None <-> c = None) -> reads_str m p c.
Proof.
  intros G S F. destruct c as [d|]; cbn [reads_str]; [|tauto]. destruct p as [q|]; [|destruct F as [F _]; specialize (F eq_refl); discriminate].
  split; [discriminate|]. pose proof (g_pts _ _ _ _ G) as W. rewrite Forall_forall in W. destruct (W (q, map By d)) as [_ X]. { apply S. left. reflexivity. }
  rewrite (load_ok m q 0 _ _ X) by (cbn [snd fst]; rewrite map_length; cbn; lia). cbn [N.to_nat skipn snd]. rewrite firstn_all2; [reflexivity|]. rewrite map_length. lia.
Qed.
Lemma kbs_holds : forall ks l m L, good m0 P m L -> (forall x, In x (kbs ks l) -> In x L) -> Forall2 (kok P) ks l -> Forall2 (holds m) ks (map pv l).
Proof.
  induction ks as [|k ks IH]; intros l m L G S F; inversion F; subst; cbn [map]; constructor.
  - cbn [kbs] in S. unfold kb in S. unfold holds, pv. split; [|split; [|split]].
    1-3: eapply fok_reads; try reflexivity; try exact G; try apply H1; intros x X; apply S; rewrite !in_app_iff; tauto.
    eapply hok_reads; [exact G | | apply H1]. intros x X; apply S; rewrite !in_app_iff; tauto.
  - eapply IH; eauto. intros x X. apply S. cbn [kbs]. apply in_or_app. right. exact X.
Qed.
End Run.
