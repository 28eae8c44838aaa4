(** What gmid -n looks at. *)
From Verif Require Import Base BaseLemmas Conf Config Mime Prop_Mime Parse Tls TlsSpec Prop_Tls Gram Main MainSpec WellSpec.
Local Open Scope N_scope.

Lemma ai_bytes_inj a b : ai_bytes a = ai_bytes b -> a = b.
Proof. destruct a, b. unfold ai_bytes. cbn. intros H. injection H as -> -> -> -> _ ->. reflexivity. Qed.

Lemma map_opt_some {A B} (f : A -> option B) l : (forall x, In x l -> f x <> None) -> exists l', map_opt f l = Some l'.
Proof.
  induction l as [|x l IH]; intros H; cbn [map_opt]; [eauto|]. destruct (f x) as [y|] eqn:E; [|exfalso; exact (H x (or_introl eq_refl) E)].
  destruct IH as (l' & ->); [intros z I; apply H; right; exact I|]. eauto.
Qed.
Lemma map_opt_none {A B} (f : A -> option B) l l' x : map_opt f l = Some l' -> In x l -> f x <> None.
Proof.
  revert l'. induction l as [|y l IH]; intros l' H I; [destruct I|]. cbn [map_opt] in H. destruct (f y) as [z|] eqn:E; [|discriminate].
  destruct (map_opt f l) as [s|]; [|discriminate]. destruct I as [<-|I]; [congruence|exact (IH s eq_refl I)].
Qed.

(** ** key pairs *)
Lemma kps_addrs_iff cert_of h a : forall l st, (exists st', kps_addrs cert_of h a l st = Some st') <-> (here a l = [] \/ loads cert_of (ch_cert h) = true).
Proof.
  induction l as [|b l IH]; intros st; cbn [kps_addrs]; [split; [left; reflexivity|eauto]|].
  unfold here. cbn [filter]. destruct (match_addr a b) eqn:M; cbn [negb]; [|exact (IH st)].
  destruct st as [t any]. unfold add_keypair, set_keypair. destruct (loads cert_of (ch_cert h)) eqn:L.
  - split; [right; reflexivity|]. intros _. destruct any; apply IH; right; reflexivity.
  - split; [intros (x & X); destruct any; discriminate X|intros [X|X]; discriminate X].
Qed.
Lemma kps_hosts_iff cert_of a : forall hs st, (exists st', kps_hosts cert_of hs a st = Some st') <-> (forall h, In h hs -> listens h a -> loads cert_of (ch_cert h) = true).
Proof.
  induction hs as [|h hs IH]; intros st; cbn [kps_hosts]; [split; [intros _ h []|eauto]|].
  pose proof (kps_addrs_iff cert_of h a (ch_addrs h) st) as K. pose proof (here_listens a h) as HL.
  destruct (kps_addrs cert_of h a (ch_addrs h) st) as [st1|].
  - rewrite IH. split.
    + intros X g [<-|I] L; [|exact (X g I L)]. apply HL in L. destruct (proj1 K) as [Z|Z]; [eauto|contradiction|exact Z].
    + intros X g I L. apply X; [right; exact I|exact L].
  - split; [intros (x & X); discriminate X|]. intros X. exfalso. assert (Z : exists st', @None (tlsconf * bool) = Some st'); [|destruct Z as (? & Z); discriminate Z].
    apply K. destruct (here a (ch_addrs h)) as [|y ys] eqn:E; [left; reflexivity|]. right. apply X; [left; reflexivity|]. apply HL. discriminate.
Qed.

(** what is put in the configuration of an address *)
Definition offered (a : addr) (hs : list chost) : list keypair := flat_map (fun h => map (fun _ => pair_of h) (here a (ch_addrs h))) hs.
Definition conf_of (protos : N) (l : list keypair) : tlsconf :=
  match l with [] => mkTls (mkKp None None None) [] protos false | k :: r => mkTls k r protos false end.
Lemma matching_iff cert_of a hs protos t : add_matching_kps cert_of (mkTls (mkKp None None None) [] protos false) a hs = Some t <->
  (forall h, In h hs -> listens h a -> loads cert_of (ch_cert h) = true) /\ t = conf_of protos (offered a hs).
Proof.
  unfold add_matching_kps. rewrite <- (kps_hosts_iff cert_of a hs (mkTls (mkKp None None None) [] protos false, false)).
  destruct (kps_hosts cert_of hs a (mkTls (mkKp None None None) [] protos false, false)) as [st|] eqn:K.
  - destruct (kps_hosts_got _ _ _ _ _ K) as (G & C & P & F); [intros _; split; reflexivity|]. cbn [got snd fst app t_protos t_fake] in G, P, F. fold (offered a hs) in G.
    assert (E : fst st = conf_of protos (offered a hs)).
    { rewrite <- G. destruct st as [[kp more pr fk] any]. cbn [fst snd t_kp t_more t_protos t_fake] in *. subst pr fk. destruct any; [reflexivity|].
      destruct (C eq_refl) as (C1 & C2). cbn [fst t_kp t_more] in C1, C2. subst. reflexivity. }
    cbn [option_map]. split; [intros X; injection X as <-; split; [eauto|exact E]|intros (_ & ->); f_equal; exact E].
  - cbn [option_map]. split; [discriminate|intros ((x & X) & _); discriminate X].
Qed.
Lemma setup_iff cert_of configures protos hs : forall l, (exists ctxs, setup_tls cert_of configures false protos hs l = Some ctxs) <->
  (forall a, In a l -> (forall h, In h hs -> listens h a -> loads cert_of (ch_cert h) = true) /\ configures (conf_of protos (offered a hs)) = true).
Proof.
  induction l as [|a l IH]; cbn [setup_tls]; [split; [intros _ a []|eauto]|]. split.
  - intros (ctxs & H). destruct (add_matching_kps _ _ a hs) as [t|] eqn:M; [|discriminate]. destruct (configures t) eqn:CF; [|discriminate].
    apply matching_iff in M. destruct M as (M & ->). destruct (setup_tls cert_of configures false protos hs l) as [r|] eqn:S; [|discriminate].
    intros b [<-|I]; [auto|]. apply (proj1 IH); [eauto|exact I].
  - intros H. destruct (H a (or_introl eq_refl)) as (L & CF). rewrite (proj2 (matching_iff cert_of a hs protos _) (conj L eq_refl)). rewrite CF.
    destruct (proj2 IH) as (r & ->); [intros b I; apply H; right; exact I|]. cbn. eauto.
Qed.

(** ** roots *)
Lemma load_loc_iff opendir chroot l : load_loc opendir (Some chroot) l <> None <->
  (l_dir l = [] \/ match chroot with [] => exists fd, opendir (l_dir l) = Some fd
     | _ => (length (chroot ++ [47%N] ++ l_dir l) < 4096)%nat /\ exists fd, opendir (chroot ++ [47%N] ++ l_dir l) = Some fd end).
Proof.
  unfold load_loc. destruct (l_dir l) as [|x d]; [split; [left; reflexivity|discriminate]|]. destruct chroot as [|y r].
  - destruct (opendir (x :: d)) as [fd|].
    + split; [intros _; right; eauto|discriminate].
    + split; [intros Z; exfalso; apply Z; reflexivity|intros [Z|(fd & Z)]; discriminate].
  - cbv zeta. destruct (Nat.leb_spec Fcgi.PATH_MAX (length ((y :: r) ++ [47] ++ x :: d))) as [L|L]; unfold Fcgi.PATH_MAX in L.
    + split; [intros Z; exfalso; apply Z; reflexivity|]. intros [Z|(Z & _)]; [discriminate|]. exfalso. lia.
    + destruct (opendir ((y :: r) ++ [47] ++ x :: d)) as [fd|].
      * split; [intros _; right; split; [exact L|eauto]|discriminate].
      * split; [intros Z; exfalso; apply Z; reflexivity|]. intros [Z|(_ & fd & Z)]; discriminate.
Qed.

(** ** all of it *)
Definition tested (W : world) (hs : list vh) (cs : list chost) : Prop := Forall2 (fun h c => test_host W h = Some c) hs cs.
Lemma test_host_inv W h c : test_host W h = Some c -> exists cert key, pair_read W h cert key /\
  ch_cert c = Some cert /\ ch_key c = Some key /\ ch_ocsp c = None /\ ch_addrs c = map addr_of (vh_addrs h) /\ ch_locs c = map pl (vh_locs h).
Proof.
  unfold test_host. destruct (vh_cert h) as [x|] eqn:C; [|discriminate]. destruct (vh_key h) as [y|] eqn:K; [|discriminate].
  destruct (w_file W x) as [cert|] eqn:FC; [|discriminate]. destruct (w_file W y) as [key|] eqn:FK; [|discriminate]. intros H. injection H as <-.
  exists cert, key. split; [exists x, y; auto|]. cbn. auto.
Qed.
Lemma test_host_iff W h : test_host W h <> None <-> exists cert key, pair_read W h cert key.
Proof.
  split.
  - destruct (test_host W h) as [c|] eqn:T; [|congruence]. intros _. destruct (test_host_inv _ _ _ T) as (x & y & P & _). eauto.
  - intros (cert & key & x & y & C & K & FC & FK). unfold test_host. unfold readable in *. rewrite C, K, FC, FK. discriminate.
Qed.
Lemma listens_has h c W a : test_host W h = Some c -> (listens c (addr_of a) <-> has_addr h a).
Proof.
  intros T. destruct (test_host_inv _ _ _ T) as (_ & _ & _ & _ & _ & _ & AD & _). unfold listens, has_addr. rewrite AD. split.
  - intros (b & I & E). apply in_map_iff in I. destruct I as (b0 & <- & I). exists b0. auto.
  - intros (b & I & E). exists (addr_of b). split; [apply in_map; exact I|exact E].
Qed.
Lemma pair_read_fun W h c k c' k' : pair_read W h c k -> pair_read W h c' k' -> c = c' /\ k = k'.
Proof. intros (x & y & A & B & C & D) (x' & y' & A' & B' & C' & D'). unfold readable in *. split; congruence. Qed.

Lemma offered_iff W a hs cs : tested W hs cs -> Forall (fun h => NoDup (map a_ai (vh_addrs h))) hs -> forall l,
  pairs W a hs l <-> (forall c, In c cs -> listens c (addr_of a) -> loads (w_cert_of W) (ch_cert c) = true) /\ l = offered (addr_of a) cs.
Proof.
  intros T. induction T as [|h c hs cs T TS IH]; intros ND l.
  - split; [intros P; inversion P; subst; split; [intros ? []|reflexivity]|intros (_ & ->); constructor].
  - inversion ND as [|? ? ND1 ND2]; subst. specialize (IH ND2). pose proof (listens_has h c W a T) as LH.
    destruct (test_host_inv _ _ _ T) as (cert & key & PR & CC & CK & CO & AD & _).
    assert (ND' : NoDup (map ad_ai (ch_addrs c))).
    { rewrite AD, map_map. cbn [addr_of ad_ai]. rewrite <- (map_map a_ai ai_bytes). apply (FinFun.Injective_map_NoDup ai_bytes_inj). exact ND1. }
    pose proof (here_one (addr_of a) c ND') as ONE. pose proof (here_listens (addr_of a) c) as HL.
    assert (KP : pair_of c = mkKp (Some cert) (Some key) None) by (unfold pair_of; rewrite CC, CK, CO; reflexivity).
    unfold offered. cbn [flat_map]. fold (offered (addr_of a) cs). split.
    + intros P. inversion P as [|? ? l' cert' key' HA PR' (x & X) P'|? ? l' NA P']; subst.
      * destruct (pair_read_fun _ _ _ _ _ _ PR PR') as (<- & <-). apply IH in P'. destruct P' as (A & ->).
        assert (NE : here (addr_of a) (ch_addrs c) <> []) by (apply HL, LH, HA). destruct (here (addr_of a) (ch_addrs c)) as [|z [|]]; [congruence| |cbn in ONE; lia].
        cbn [map app]. rewrite KP. split; [|reflexivity]. intros g [<-|I] L; [rewrite CC; unfold loads; rewrite X; reflexivity|exact (A g I L)].
      * apply IH in P'. destruct P' as (A & ->). assert (EE : here (addr_of a) (ch_addrs c) = []).
        { destruct (here (addr_of a) (ch_addrs c)) eqn:E; [reflexivity|]. exfalso. apply NA, LH, HL. discriminate. }
        rewrite EE. cbn [map app]. split; [|reflexivity]. intros g [<-|I] L; [exfalso; apply NA, LH, L|exact (A g I L)].
    + intros (A & ->). assert (R : pairs W a hs (offered (addr_of a) cs)) by (apply IH; split; [intros g I; apply A; right; exact I|reflexivity]).
      destruct (here (addr_of a) (ch_addrs c)) as [|z [|]] eqn:E; [| |cbn in ONE; lia]; cbn [map app].
      * apply pr_no; [|exact R]. intros X. apply LH, HL in X. congruence.
      * rewrite KP. assert (HA : listens c (addr_of a)) by (apply HL; discriminate). apply pr_yes; [apply LH, HA|exact PR| |exact R].
        specialize (A c (or_introl eq_refl) HA). rewrite CC in A. unfold loads in A. destruct (w_cert_of W cert) as [x|]; [eauto|discriminate].
Qed.

Lemma tested_in W hs cs h : tested W hs cs -> In h hs -> exists c, In c cs /\ test_host W h = Some c.
Proof. intros T. induction T as [|x c hs cs T TS IH]; intros I; [destruct I|]. destruct I as [<-|I]; [exists c; split; [left; reflexivity|exact T]|]. destruct (IH I) as (c' & A & B). exists c'. split; [right; exact A|exact B]. Qed.
Lemma tested_in' W hs cs c : tested W hs cs -> In c cs -> exists h, In h hs /\ test_host W h = Some c.
Proof. intros T. induction T as [|x d hs cs T TS IH]; intros I; [destruct I|]. destruct I as [<-|I]; [exists x; split; [left; reflexivity|exact T]|]. destruct (IH I) as (c' & A & B). exists c'. split; [right; exact A|exact B]. Qed.

Lemma load_vhosts_iff opendir chroot hs : load_vhosts opendir chroot hs <> None <-> forall h l, In h hs -> In l (ch_locs h) -> load_loc opendir chroot l <> None.
Proof.
  unfold load_vhosts. split.
  - intros N h l I J. destruct (map_opt (load_host opendir chroot) hs) as [hs'|] eqn:M; [|congruence]. pose proof (map_opt_none _ _ _ _ M I) as H. unfold load_host in H.
    destruct (map_opt (load_loc opendir chroot) (ch_locs h)) as [ls|] eqn:ML; [|congruence]. exact (map_opt_none _ _ _ _ ML J).
  - intros H. destruct (map_opt_some (load_host opendir chroot) hs) as (hs' & ->); [|discriminate]. intros h I. unfold load_host.
    destruct (map_opt_some (load_loc opendir chroot) (ch_locs h)) as (ls & ->); [|discriminate]. intros l J. exact (H h l I J).
Qed.

Lemma configure_iff cert_of configures opendir chroot sortm c :
  Forall (fun h => ch_locs h <> []) (cc_hosts c) ->
  (server_configure_done cert_of configures opendir chroot sortm false c <> None <->
   (exists ctxs, setup_tls cert_of configures false (cc_protos c) (cc_hosts c) (cc_addrs c) = Some ctxs) /\ load_vhosts opendir chroot (cc_hosts c) <> None).
Proof.
  intros LN. unfold server_configure_done.
  assert (MI : exists m, load_default_mime (mkMime (cc_mime c) (Nat.max 16 (length (cc_mime c)))) = OK (true, m)).
  { destruct (c28_defaults (mkMime (cc_mime c) (Nat.max 16 (length (cc_mime c))))) as (A & B). cbn [m_t m_cap] in A, B. destruct (cc_mime c) as [|e r].
    - destruct (A eq_refl) as (m & X & _); [cbn; lia|eauto].
    - eexists. apply B. discriminate. }
  destruct MI as (m & ->). destruct (setup_tls cert_of configures false (cc_protos c) (cc_hosts c) (cc_addrs c)) as [ctxs|].
  - destruct (load_vhosts opendir chroot (cc_hosts c)) as [hs|] eqn:L.
    + destruct (map_opt_some host_of hs) as (vs & ->).
      * intros h I. pose proof (c62_roots _ _ _ _ L) as R. assert (NE : ch_locs h <> []).
        { clear - R LN I. revert LN. induction R as [|g g' gs gs' E R IH]; intros LN; [destruct I|]. inversion LN as [|? ? N1 N2]; subst. destruct I as [<-|I]; [|exact (IH I N2)].
          destruct E as (_ & _ & _ & _ & _ & F). intros Z. rewrite Z in F. inversion F. congruence. }
        unfold host_of. destruct (ch_locs h); [congruence|discriminate].
      * split; [intros _; split; [eauto|discriminate]|discriminate].
    + split; [intros X; exfalso; apply X; reflexivity|intros (_ & X); exfalso; apply X; reflexivity].
  - split; [intros X; exfalso; apply X; reflexivity|intros ((x & X) & _); discriminate X].
Qed.

Lemma config_test_iff W c : Forall (fun h => NoDup (map a_ai (vh_addrs h)) /\ vh_locs h <> []) (g_hosts c) ->
  (config_test W c = true <-> sane W c (g_chroot c)).
Proof.
  intros F. assert (ND : Forall (fun h => NoDup (map a_ai (vh_addrs h))) (g_hosts c)) by (eapply Forall_impl; [|exact F]; intros h (A & _); exact A).
  unfold config_test, sane. destruct (map_opt (test_host W) (g_hosts c)) as [hs|] eqn:M.
  - pose proof (map_opt_F2 _ _ _ M) as T. fold (tested W (g_hosts c) hs) in T.
    set (cc := mkCconf _ _ _ _ _ _ _).
    assert (LN : Forall (fun h => ch_locs h <> []) (cc_hosts cc)).
    { apply Forall_forall. intros x I. destruct (tested_in' _ _ _ _ T I) as (h & J & TH). destruct (test_host_inv _ _ _ TH) as (_ & _ & _ & _ & _ & _ & _ & LO). rewrite LO.
      rewrite Forall_forall in F. destruct (F h J) as (_ & N). destruct (vh_locs h); [congruence|discriminate]. }
    pose proof (configure_iff (w_cert_of W) (w_configures W) (w_opendir W) (Some (g_chroot c)) (w_sort W) cc LN) as CI.
    destruct (server_configure_done (w_cert_of W) (w_configures W) (w_opendir W) (Some (g_chroot c)) (w_sort W) false cc) as [r|].
    + split; [intros _|reflexivity]. destruct (proj1 CI ltac:(discriminate)) as (S & L). unfold cc in S, L. cbn [cc_protos cc_hosts cc_addrs] in S, L. split; [|split].
      * intros h I. apply test_host_iff. exact (map_opt_none _ _ _ _ M I).
      * intros a I. apply setup_iff with (a := addr_of a) in S; [|apply in_map; exact I]. destruct S as (S1 & S2). exists (offered (addr_of a) hs). split; [apply (offered_iff W a _ _ T ND); auto|].
        unfold accepted. unfold conf_of in S2. destruct (offered (addr_of a) hs); exact S2.
      * intros h l I J. rewrite load_vhosts_iff in L. destruct (tested_in _ _ _ _ T I) as (x & X & TH). destruct (test_host_inv _ _ _ TH) as (_ & _ & _ & _ & _ & _ & _ & LO).
        specialize (L x (pl l) X). rewrite LO in L. specialize (L (in_map pl _ _ J)). apply load_loc_iff in L. exact L.
    + split; [discriminate|]. intros (A & B & C). exfalso. apply CI; [|reflexivity]. unfold cc. cbn [cc_protos cc_hosts cc_addrs]. split.
      * apply setup_iff. intros x I. apply in_map_iff in I. destruct I as (a & <- & I). destruct (B a I) as (l & P & AC). apply (offered_iff W a _ _ T ND) in P. destruct P as (P & ->).
        split; [exact P|]. unfold accepted in AC. unfold conf_of. destruct (offered (addr_of a) hs); exact AC.
      * apply load_vhosts_iff. intros x l I J. destruct (tested_in' _ _ _ _ T I) as (h & X & TH). destruct (test_host_inv _ _ _ TH) as (_ & _ & _ & _ & _ & _ & _ & LO). rewrite LO in J.
        apply in_map_iff in J. destruct J as (pl0 & <- & J). apply load_loc_iff. exact (C h pl0 X J).
  - split; [discriminate|]. intros (A & _). exfalso. destruct (map_opt_some (test_host W) (g_hosts c)) as (x & X); [|congruence]. intros h I. apply test_host_iff. exact (A h I).
Qed.
