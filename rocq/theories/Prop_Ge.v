(** C75: gemexp(1) exports the directory it is given, and nothing else. *)
From Coq Require Import Permutation Sorting.Sorted.
From Verif Require Import Base BaseLemmas Compat Compat_Proofs Iri IriSpec IriObs IriSafeSpec Prop_Iri Puny Conf ConfSpec Mime MimeSpec Prop_Mime Prop_Conf Fmt FmtSpec Fcgi
  Iri_Len_Proofs Server ServerSpec Server_Proofs Decide_Proofs RequestSpec Request_Proofs BodySpec Body_Proofs HistorySpec LegitSpec Legit_Proofs Prop_Server Prop_Safe Config Tls TlsSpec Prop_Tls
  Ge GeSpec Ge_Proofs GeDir_Proofs.
Local Open Scope N_scope.

(** ** what a program that serves has gone through *)

Definition plain_addr (a : ai) : addr := Config.mkAddr (ai_addr a) 0 false [].

Lemma serve_inv W host port dir cert key ctxs cf dir' : dir <> [] -> serve W host port dir cert key = OK (Serving ctxs cf dir') ->
  dir' = dir /\ exists l root, w_ai W host port = Some l /\ w_opendir W dir = Some root /\ filter up l <> [] /\
    cf = mkConf (w_sortm W default_mime) [] [ge_vhost dir root] /\
    let addrs := rev (map plain_addr (filter up l)) in
    setup_tls (w_cert_of W) (w_configures W) false 24 [mkChost [42] (Some cert) (Some key) None addrs [ge_loc dir] [] []] addrs = Some ctxs.
Proof.
  intros NE. unfold serve. destruct (w_ai W host port) as [l|]; [|discriminate]. destruct (listen_all 0 l q0 false) as [[q any]|] eqn:L; [|discriminate].
  destruct (listen_all_ok l 0 q0 false [] q any L eq_refl (ch_nil _) ltac:(intros x []) eq_refl) as (EQ & CH & AN & _). rewrite app_nil_r in CH, AN.
  destruct any; cbn [negb]; [|discriminate].
  assert (LE : (length (rev (ups 0 l)) <= length l)%nat) by (rewrite rev_length; apply ups_len).
  rewrite (chain_walk _ _ _ _ CH LE). cbn [bind]. rewrite <- EQ, (chain_walk _ _ _ _ CH LE). cbn [bind].
  assert (AD : map (ge_addr l) (rev (ups 0 l)) = rev (map plain_addr (filter up l))) by (rewrite map_rev; f_equal; apply (ups_addr l l [] 0); reflexivity).
  rewrite AD. assert (FN : filter up l <> []).
  { intros X. assert (Y : map (ge_addr l) (ups 0 l) = []) by (rewrite (ups_addr l l [] 0 eq_refl eq_refl), X; reflexivity).
    destruct (ups 0 l) as [|u us]; [discriminate AN|discriminate Y]. }
  unfold server_configure_done. cbn [cc_mime cc_protos cc_hosts cc_addrs cc_fcgi length]. change (Nat.max 16 0) with 16%nat.
  destruct (proj1 (c28_defaults (mkMime [] 16)) eq_refl (le_n 16)) as (m & LD & MT). rewrite LD. rewrite MT.
  set (addrs := rev (map plain_addr (filter up l))) in *. set (h := mkChost _ _ _ _ _ _ _ _).
  destruct (setup_tls (w_cert_of W) (w_configures W) false 24 [h] addrs) as [ctxs'|] eqn:S; [|discriminate].
  unfold load_vhosts. cbn [map_opt]. unfold load_host at 1. unfold h at 1. cbn [ch_locs map_opt].
  assert (LL : load_loc (w_opendir W) None (ge_loc dir) = match w_opendir W dir with Some fd => Some (set_dirfd fd (ge_loc dir)) | None => None end).
  { unfold load_loc. cbn [l_dir ge_loc]. destruct dir; [congruence|reflexivity]. }
  rewrite LL. destruct (w_opendir W dir) as [root|] eqn:O; [|discriminate]. cbn [map_opt host_of ch_locs]. intros H. injection H as <- <- <-.
  split; [reflexivity|]. exists l, root. split; [reflexivity|]. split; [reflexivity|]. split; [exact FN|]. split; [reflexivity|]. exact S.
Qed.

Lemma exports_total cwd argv p : (length argv <= 1)%nat ->
  match argv with [] => cwd | q :: _ => absolutify_path cwd q end = Some p -> exports cwd argv p.
Proof.
  intros L. destruct argv as [|q [|? ?]]; [intros ->; constructor; reflexivity| |cbn in L; lia].
  unfold absolutify_path. destruct q as [|c q].
  - destruct cwd as [wd|]; [|discriminate]. intros H. injection H as <-. apply (xp_rel (Some wd) [] wd); [intros (r & X); discriminate X|reflexivity].
  - destruct (N.eq_dec c 47) as [->|D]; [intros H; injection H as <-; apply xp_abs; eexists; reflexivity|].
    intros H. assert (G : match cwd with Some wd => Some (wd ++ [47] ++ c :: q) | None => None end = Some p).
    { destruct c as [|c]; [exact H|]. repeat (destruct c as [c|c|]; try exact H). congruence. }
    destruct cwd as [wd|]; [|discriminate]. injection G as <-. apply (xp_rel (Some wd) (c :: q) wd); [intros (r & X); congruence|reflexivity].
Qed.

(** what libc promises of getcwd(3): an absolute path that fits *)
Definition cwd_ok (W : world) : Prop := forall d, w_cwd W = Some d -> absolute d /\ (length d < PATH_MAX)%nat.

Lemma exports_ne W argv p : cwd_ok W -> exports (w_cwd W) argv p -> into_dir p <> [].
Proof.
  intros C H. assert (A : absolute p).
  { inversion H as [d E|q Q|q d NA E]; subst; [apply (C _ E)|exact Q|]. destruct (C _ E) as ((r & ->) & _). eexists. reflexivity. }
  destruct A as (r & ->). unfold into_dir, PATH_MAX. discriminate.
Qed.

(** the program, so called, comes to serve *)
Definition started (W : world) (os : list opt) (argv : list (list N)) (d : disk) (ctxs : list (addr * tlsconf)) (cf : conf) (dir : list N) : Prop :=
  exists o, ge_main W os argv d = OK o /\ o_end o = Serving ctxs cf dir.

Lemma main_inv W os argv d ctxs cf dir : cwd_ok W -> started W os argv d ctxs cf dir ->
  exists a target cert key l root, options os args0 = inr a /\ exports (w_cwd W) argv target /\ dir = into_dir target /\
    (exists certs t, kept_in (a_certs a) (w_xdg W) (w_home W) certs /\ load_local_cert (w_gen W) (a_host a) certs d = (t, Some (cert, key))) /\
    w_ai W (a_host a) (a_port a) = Some l /\ w_opendir W dir = Some root /\ filter up l <> [] /\
    cf = mkConf (w_sortm W default_mime) [] [ge_vhost dir root] /\
    let addrs := rev (map plain_addr (filter up l)) in
    setup_tls (w_cert_of W) (w_configures W) false 24 [mkChost [42] (Some cert) (Some key) None addrs [ge_loc dir] [] []] addrs = Some ctxs.
Proof.
  intros CW (o & H & E). unfold ge_main in H. destruct (options os args0) as [code|a] eqn:O; [injection H as <-; discriminate E|].
  destruct (Nat.ltb_spec 1 (length argv)) as [L|L]; [injection H as <-; discriminate E|].
  match type of H with bind ?x _ = _ => destruct x as [[cs dd]| |] eqn:DD; cbn [bind] in H; try discriminate end.
  destruct dd as [certs|]; [|injection H as <-; discriminate E].
  assert (KI : kept_in (a_certs a) (w_xdg W) (w_home W) certs).
  { destruct (a_certs a) as [s|] eqn:AC; [injection DD as _ <-; apply ki_given; reflexivity|]. destruct (data_path (w_xdg W) (w_home W)) as [dp|] eqn:DP; [|discriminate].
    destruct (mkdirs (w_two W) (w_mkdir W) (S (length dp)) dp) as [[cs' ok]| |]; cbn [bind] in DD; try discriminate. destruct ok; [|discriminate]. injection DD as _ <-.
    unfold data_path in DP. destruct (w_xdg W) as [x|]; [injection DP as <-; apply ki_xdg; reflexivity|]. destruct (w_home W) as [h|]; [|discriminate]. injection DP as <-. apply ki_home; reflexivity. }
  destruct (load_local_cert (w_gen W) (a_host a) certs d) as [t [[cert key]|]] eqn:LC; [|injection H as <-; discriminate E].
  destruct (match argv with [] => w_cwd W | p :: _ => absolutify_path (w_cwd W) p end) as [p|] eqn:P; [|injection H as <-; discriminate E].
  apply exports_total in P; [|lia]. destruct (serve W (a_host a) (a_port a) (into_dir p) cert key) as [e| |] eqn:S; cbn [bind] in H; try discriminate.
  injection H as <-. cbn [o_end] in E. subst e. apply serve_inv in S; [|eapply exports_ne; eauto]. destruct S as (-> & l & root & S).
  exists a, p, cert, key, l, root. split; [reflexivity|]. split; [exact P|]. split; [reflexivity|]. split; [eauto|exact S].
Qed.

(** ** The root *)

(** The directory opened is the one on the command line.  Missing: when its
    absolute name does not fit in PATH_MAX bytes. *)
Theorem c75_root_partial W os argv d ctxs cf dir target : cwd_ok W -> started W os argv d ctxs cf dir -> exports (w_cwd W) argv target ->
  (length target < PATH_MAX)%nat -> dir = target /\ exists root, w_opendir W target = Some root.
Proof.
  intros CW S X L. destruct (main_inv _ _ _ _ _ _ _ CW S) as (a & t & c & k & l & root & _ & X' & -> & _ & _ & O & _).
  assert (t = target). { inversion X as [? A|? A|? ? A A']; subst; inversion X' as [? B|? B|? ? B B']; subst; try congruence; try contradiction. }
  subst t. assert (I : into_dir target = target) by (unfold into_dir; apply firstn_all2; lia). rewrite I in *. eauto.
Qed.

(** ** Requests *)

(** "*" matches everything (fnmatch(3)) *)
Definition star (fnm : list N -> list N -> bool) : Prop := forall s, fnm [42] s = true.

(** The world of a connection: the configuration is gemexp's, and the address of
    the listening socket has no printed form (addr->pp is never set). *)
Record running (W : world) (os : list opt) (argv : list (list N)) (d : disk) (dir : list N) (E : env) : Prop := mkRunning {
  r_started : exists ctxs a t, started W os argv d ctxs (e_conf E) dir /\ In (a, t) ctxs /\ e_pp E = ad_pp a;
  r_sorts : sort_mime default_mime (w_sortm W default_mime); r_star : star (e_fnm E); r_qsort : sort_ok E; r_cwd : cwd_ok W }.

Lemma setup_addr cert_of configures pc protos hs addrs ctxs a t : setup_tls cert_of configures pc protos hs addrs = Some ctxs -> In (a, t) ctxs -> In a addrs.
Proof. intros S I. rewrite <- (c59_every_address _ _ _ _ _ _ _ S). apply in_map_iff. exists (a, t). auto. Qed.

Lemma running_inv W os argv d dir E : running W os argv d dir E ->
  exists root, w_opendir W dir = Some root /\ e_conf E = mkConf (w_sortm W default_mime) [] [ge_vhost dir root] /\ e_pp E = [] /\
    sort_mime default_mime (c_mime (e_conf E)).
Proof.
  intros [(ctxs & a & t & S & I & PP) SO ST Q CW]. destruct (main_inv _ _ _ _ _ _ _ CW S) as (ar & tg & c & k & l & root & _ & _ & _ & _ & _ & O & _ & CF & SU).
  exists root. split; [exact O|]. rewrite CF. split; [reflexivity|]. split; [|exact SO]. cbv zeta in SU. pose proof (setup_addr _ _ _ _ _ _ _ _ _ SU I) as IA.
  apply in_rev in IA. apply in_map_iff in IA as (x & <- & _). rewrite PP. reflexivity.
Qed.

(** Every connection is let in, whatever name it asks for (unless the name does
    not decode), with the name it asked for. *)
Theorem c75_any_name W os argv d dir E sni c0 : running W os argv d dir E -> run E [EvHandshake sni] fresh = Some (OK c0) ->
  match sni with
  | None => c_vhost c0 <> None /\ c_domain c0 = []
  | Some s => forall out name, puny_decode s DOMAIN_NAME_LEN = OK (Ret true out) -> cstr out = Some name -> c_vhost c0 <> None /\ c_domain c0 = name
  end.
Proof.
  intros R H. destruct (running_inv _ _ _ _ _ _ R) as (root & _ & C & PP & _). pose proof (r_star _ _ _ _ _ _ R) as ST.
  assert (H1 : handle_handshake E sni fresh = OK c0) by (cbn [run step] in H; cbn in H; destruct (handle_handshake E sni fresh) as [c| |]; congruence).
  clear H. rename H1 into H. unfold handle_handshake in H.
  assert (FH : forall dom, find_host (e_fnm E) (c_hosts (e_conf E)) dom = Some (ge_vhost dir root)).
  { intros dom. rewrite C. cbn [c_hosts find_host]. unfold match_host, matches. cbn [v_domain ge_vhost]. rewrite ST. reflexivity. }
  destruct sni as [s|].
  - intros out name P CS. rewrite P in H. cbn [bind] in H. rewrite CS in H. rewrite FH in H. injection H as <-. cbn. split; [discriminate|].
    destruct name; [rewrite PP; reflexivity|reflexivity].
  - cbn [bind cstr N.eqb] in H. rewrite FH in H. injection H as <-. cbn. split; [discriminate|]. rewrite PP. reflexivity.
Qed.

Lemma req_path_len E line i asked : understood E line i asked -> (length line <= 1024)%nat -> (length (c_path i) <= 1024)%nat.
Proof. intros (_ & _ & A & _) L. apply accepts_path_len in A. lia. Qed.

(** A request for the name of the connection gets what is at its place below the
    directory, any other is refused; nothing else is opened, no client is asked
    for a certificate. *)
Theorem c75_serves W os argv d dir E fs sni v line i asked chunks c0 c1 : running W os argv d dir E ->
  request E fs sni v line i asked chunks c0 -> run E (opening fs sni chunks) fresh = Some (OK c1) ->
  exists root, w_opendir W dir = Some root /\
    ((ours i (c_domain c0) asked /\ exists w, gets i (fs root (place i)) w /\ performed E v i (mkD [(root, place i)] w) c0 c1) \/
     (~ ours i (c_domain c0) asked /\ performed E v i (mkD [] (WReply 53 (s2b "won't proxy request"))) c0 c1)).
Proof.
  intros R [HS HV HL HN HU HP] H. destruct (running_inv _ _ _ _ _ _ R) as (root & O & C & PP & SM). exists root. split; [exact O|].
  assert (VE : v = ge_vhost dir root /\ c_in c0 = [] /\ waiting v c0).
  { destruct (Body_Proofs.handshake_waiting E sni v c0 HS HV) as (W0 & I0 & _ & _ & IV). rewrite C in IV. destruct IV as [<-|[]]. auto. }
  destruct VE as (-> & VI & VW).
  assert (H1 : run E (reads fs chunks) c0 = Some (OK c1)).
  { unfold opening in H. cbn [run] in H, HS. destruct (step E (EvHandshake sni) fresh) as [[c| |]|]; congruence. }
  assert (CO : codes_ok (ge_vhost dir root)) by (constructor; [left; reflexivity|constructor]).
  destruct (c15_decision E fs _ c0 line i asked chunks c1 VW VI (r_qsort _ _ _ _ _ _ R) CO HL HN HU HP H1) as (dec & D & P).
  apply ge_decides in D; [|eapply req_path_len; eauto|exact SM]. destruct D as [(OU & w & -> & G)|(NO & ->)]; [left|right]; eauto.
Qed.

(** In any history, whatever the client does: only this directory is opened, only
    below itself; no application, no upstream, no certificate authority. *)
Theorem c75_nothing_else W os argv d dir E es c x : running W os argv d dir E -> bytes_sent es -> history E es c -> In x (c_acts c) ->
  match x with
  | Server.AOpen fd p => w_opendir W dir = Some fd /\ stays_inside p
  | AFcgi _ _ | AUp _ _ => False
  | _ => True
  end.
Proof.
  intros R HB H I. destruct (running_inv _ _ _ _ _ _ R) as (root & O & C & _).
  pose proof (c51_only_what_is_configured E es c x HB H I) as L. destruct x as [code meta|code meta|fd p|k b|p b|ca]; try exact Logic.I.
  - destruct (c51_opens E es c fd p HB H I) as (SI & v & i & line & IV & _ & _ & _ & (l & IL & FD) & _). split; [|exact SI].
    rewrite C in IV. destruct IV as [<-|[]]. destruct IL as [<-|[]]. cbn in FD. injection FD as <-. exact O.
  - inversion L as [|v i name asked k' l bytes LI AP _| | | |]; subst. destruct LI as ((_ & SE & _) & _).
    destruct SE as (b' & a' & X & _). rewrite C in X. cbn [c_hosts] in X. destruct b' as [|b0 b']; [|destruct b'; discriminate X]. injection X as <- _.
    destruct AP as (l' & G & -> & F & _). apply governs_one in G; [|reflexivity]. subst l'. discriminate F.
  - inversion L as [| |v i name asked p' bytes RQ PX _ _| | |]; subst. destruct RQ as (_ & SE & _).
    destruct SE as (b' & a' & X & _). rewrite C in X. cbn [c_hosts] in X. destruct b' as [|b0 b']; [|destruct b'; discriminate X]. injection X as <- _.
    destruct PX as (b1 & a1 & X & _). destruct b1; discriminate X.
Qed.

(** ** Sockets and certificates *)

Lemma kps_one cert_of h a : forall l t any t' any', kps_addrs cert_of h a l (t, any) = Some (t', any') ->
  (any = true -> t_kp t = pair_of h) -> ch_ocsp h = None -> kp_ocsp (t_kp t) = None -> Forall (fun k => k = pair_of h) (t_more t) ->
  (any' = true -> t_kp t' = pair_of h) /\ Forall (fun k => k = pair_of h) (t_more t') /\ (any = true \/ (exists b, In b l /\ match_addr a b = true) -> any' = true).
Proof.
  induction l as [|b l IH]; intros t any t' any' H K OC OK0 F; cbn [kps_addrs] in H.
  - injection H as <- <-. split; [exact K|]. split; [exact F|]. intros [X|(b & [] & _)]; exact X.
  - destruct (match_addr a b) eqn:M; cbn [negb] in H.
    2:{ destruct (IH _ _ _ _ H K OC OK0 F) as (A & B & C). split; [exact A|]. split; [exact B|]. intros [X|(x & [<-|I] & X)]; [auto|congruence|apply C; right; eauto]. }
    destruct any.
    + unfold add_keypair in H. destruct (loads cert_of (ch_cert h)); [|discriminate]. destruct (IH _ _ _ _ H) as (A & B & C); cbn; auto.
      * apply Forall_app. split; [exact F|]. constructor; [unfold pair_of; rewrite OC; reflexivity|constructor].
    + unfold set_keypair in H. destruct (loads cert_of (ch_cert h)); [|discriminate]. destruct (IH _ _ _ _ H) as (A & B & C); cbn; rewrite ?OC; auto.
      intros _. unfold pair_of. rewrite OC, OK0. reflexivity.
Qed.

(** Exactly the addresses of the host and port on the command line that could be
    bound are listened on, and every client of each is shown the certificate of
    the files in the directory for them, whatever name it asks for. *)
Theorem c75_listens W os argv d ctxs cf dir : cwd_ok W -> started W os argv d ctxs cf dir ->
  exists a l cert key certs t, options os args0 = inr a /\ w_ai W (a_host a) (a_port a) = Some l /\
    kept_in (a_certs a) (w_xdg W) (w_home W) certs /\ load_local_cert (w_gen W) (a_host a) certs d = (t, Some (cert, key)) /\
    map (fun x => ad_ai (fst x)) ctxs = rev (map ai_addr (filter (fun x => ai_socket x && ai_bind x) l)) /\ ctxs <> [] /\
    forall x tc pton sni k, In (x, tc) ctxs -> fst (tls_servername_cb pton (w_cert_of W) tc sni) = Shown k -> kp_cert k = Some cert /\ kp_key k = Some key.
Proof.
  intros CW S. destruct (main_inv _ _ _ _ _ _ _ CW S) as (a & tg & cert & key & l & root & O & _ & _ & (certs & t & KI & LC) & AI & _ & FN & _ & SU). cbv zeta in SU.
  exists a, l, cert, key, certs, t. split; [exact O|]. split; [exact AI|]. split; [exact KI|]. split; [exact LC|].
  pose proof (c59_every_address _ _ _ _ _ _ _ SU) as AD.
  assert (MA : map (fun x => ad_ai (fst x)) ctxs = rev (map ai_addr (filter up l))).
  { rewrite <- (map_map fst ad_ai), AD, map_rev, map_map. reflexivity. }
  split; [exact MA|]. split.
  { intros ->. cbn in MA. destruct (filter up l) as [|y ys]; [congruence|]. cbn in MA. symmetry in MA. destruct (rev (map ai_addr ys)); discriminate MA. }
  intros x tc pton sni k I SH. destruct (setup_in _ _ _ _ _ _ _ _ _ SU I) as (IA & AM & _). set (h := mkChost _ _ _ _ _ _ _ _) in *.
  unfold add_matching_kps in AM. cbn [kps_hosts] in AM. destruct (kps_addrs (w_cert_of W) h x (ch_addrs h) _) as [[t' any']|] eqn:K; [|discriminate]. injection AM as <-.
  destruct (kps_one _ h x _ _ _ _ _ K) as (A & B & C); cbn; auto; [discriminate|].
  assert (any' = true). { apply C. right. exists x. split; [exact IA|]. unfold match_addr. apply leqb_eq. reflexivity. }
  specialize (A H). assert (KE : k = pair_of h).
  { unfold tls_servername_cb in SH. destruct sni as [name|]; [|injection SH as <-; exact A]. destruct (pton name); [injection SH as <-; exact A|]. cbn [fst] in SH.
    revert SH. generalize (t_more t') B. intros m. induction m as [|q m IH]; intros FM; cbn [sni_loop]; [intros X; injection X as <-; exact A|].
    inversion FM; subst. destruct (match kp_cert (pair_of h) with Some d0 => w_cert_of W d0 | None => None end) as [ce|]; [|discriminate].
    destruct (tls_check_name pton ce name) as [[]|]; [intros X; injection X as <-; reflexivity|apply IH; assumption|discriminate]. }
  rewrite KE. split; reflexivity.
Qed.

(** ** The command line *)

(** -d, -H, -p: the last counts; -R anywhere; the defaults are the manual's *)
Theorem c75_options os a : options os args0 = inr a ->
  (forall o code, In o os -> ~ stops o code) /\
  last_of (fun o y => exists s, o = OptD s /\ y = Some s) None os (a_certs a) /\
  last_of (fun o y => o = OptH y) (s2b "localhost") os (a_host a) /\
  last_of (fun o y => exists s, o = OptP s /\ is_dec s y /\ (0 <= y <= 65535)%Z) 1965%Z os (a_port a) /\
  (a_ec a = false <-> In OptR os).
Proof.
  intros H. destruct (options_ok os args0 a H) as (A & B & C & D & E). split; [exact A|]. split; [exact B|]. split; [exact C|]. split; [exact D|].
  rewrite E. cbn [a_ec args0 andb]. rewrite negb_false_iff, existsb_exists. split.
  - intros (x & I & X). destruct x; try discriminate X. exact I.
  - intros I. exists OptR. auto.
Qed.
(** -h, -V, unknown options and bad ports end the program before it does anything *)
Theorem c75_stops W os argv d code : options os args0 = inl code ->
  ge_main W os argv d = OK (mkOut [] [d] (Exit code)) /\
  exists b o r, os = b ++ o :: r /\ stops o code /\ forall x c, In x b -> ~ stops x c.
Proof. intros H. split; [unfold ge_main; rewrite H; reflexivity|]. eapply options_stop; eauto. Qed.

(** ** The directory of the certificates *)

(** every missing directory is made, outermost first, but the first *)
Theorem c75_mkdirs two mkdir ws : ws <> [] -> Forall word ws -> (length (path_of_words ws) <= PATH_MAX)%nat ->
  exists cs b, mkdirs two mkdir (S (length (path_of_words ws))) (path_of_words ws) = OK (cs, b) /\ in_turn mkdir (ancestors ws) cs b.
Proof.
  intros NE F L. apply mkdirs_words; auto. clear - F. induction F as [|w ws (W & _) F IH]; cbn; [lia|]. rewrite app_length. cbn in IH. lia.
Qed.
(** it comes to an end for absolute paths only (glibc: not for those with exactly
    two slashes in front) *)
Theorem c75_mkdirs_ends two mkdir p : (length p <= PATH_MAX)%nat ->
  ((exists fuel r, mkdirs two mkdir fuel p = OK r) <-> absolute p /\ (two = true -> ~ exists r, p = 47 :: 47 :: r /\ hd 0 r <> 47)).
Proof.
  intros L. assert (RE : rooted two p <-> absolute p /\ (two = true -> ~ exists r, p = 47 :: 47 :: r /\ hd 0 r <> 47)).
  { unfold rooted, absolute, two_slashes. split; intros (A & B); (split; [|exact B]).
    - destruct p as [|x r]; [discriminate A|]. cbn in A. subst x. eauto.
    - destruct A as (r & ->). reflexivity. }
  rewrite <- RE. split.
  - intros (f & r & H). destruct (hd 0 p =? 47) eqn:HD.
    + destruct two; [|split; [lia|discriminate]]. split; [lia|]. intros _ T. rewrite mkdirs_never in H; [discriminate| |exact L]. intros (_ & N). exact (N eq_refl T).
    + exfalso. rewrite mkdirs_never in H; [discriminate| |exact L]. intros (N & _). lia.
  - intros R. exists (S (length p)). apply mkdirs_ends; [exact R|lia].
Qed.

(** ** By address *)

(** A client that does not name the server (one that went to its address) is
    refused whatever it asks for. *)
Theorem c75_by_address W os argv d dir E fs v line i asked chunks c0 c1 : running W os argv d dir E ->
  request E fs None v line i asked chunks c0 -> asked <> [] -> run E (opening fs None chunks) fresh = Some (OK c1) ->
  performed E v i (mkD [] (WReply 53 (s2b "won't proxy request"))) c0 c1.
Proof.
  intros R Q NE H. destruct (c75_serves _ _ _ _ _ _ _ _ _ _ _ _ _ _ _ R Q H) as (root & _ & [((_ & O) & _)|(_ & P)]); [|exact P].
  exfalso. destruct Q as [HS _ _ _ _ _]. destruct (c75_any_name _ _ _ _ _ _ _ _ R HS) as (_ & D). rewrite D in O. destruct asked; [congruence|discriminate O].
Qed.

(** ** A run, and what goes wrong *)

Fixpoint mins (d : etm) (l : list etm) : list etm :=
  match l with [] => [d] | x :: r => match strcmp (snd d) (snd x) with Gt => x :: mins d r | _ => d :: l end end.
Definition msort (l : list etm) : list etm := fold_right mins [] l.
Lemma mins_perm d l : Permutation (d :: l) (mins d l).
Proof.
  induction l as [|x l IH]; cbn [mins]; [reflexivity|]. destruct (strcmp _ _); try reflexivity.
  eapply perm_trans; [apply perm_swap|apply perm_skip; exact IH].
Qed.
Lemma msort_perm l : Permutation l (msort l).
Proof. induction l as [|d l IH]; cbn [msort fold_right]; [constructor|]. eapply perm_trans; [apply perm_skip; exact IH|apply mins_perm]. Qed.
Lemma msort_default : sort_mime default_mime (msort default_mime).
Proof.
  split; [apply msort_perm|]. let l := eval vm_compute in (msort default_mime) in change (StronglySorted before l).
  repeat (constructor; [|repeat (constructor; [vm_compute; discriminate|]); constructor]). constructor.
Qed.

Definition ex_gen : gen := mkGen true (Some (s2b "K")) None (fun k => Some (s2b "cert of " ++ k)) true None (fun _ => true).
(** "localhost" has two addresses; the first is in use *)
Definition ex_W : world := mkW true None (Some (s2b "/home/u")) (Some (s2b "/srv")) (fun _ => true) ex_gen
  (fun h p => if leqb h (s2b "localhost") then Some [mkAi (s2b "[::1]:1965") true false true; mkAi (s2b "127.0.0.1:1965") true true true] else None)
  (fun s => match s with [] => None | _ => Some (mkCert None [Some (s2b "localhost")]) end) (fun _ => true)
  (fun p => if leqb p (s2b "/srv/pub") then Some 5 else if leqb (firstn 3 p) (s2b "/aa") then Some 6 else None) msort.
Definition nothing : disk := fun _ => Absent.

Definition serving (r : res outcome) : option (list (addr * tlsconf) * conf * list N) :=
  match r with OK o => match o_end o with Serving c f d => Some (c, f, d) | _ => None end | _ => None end.
Lemma serving_started W os argv d c f dir : serving (ge_main W os argv d) = Some (c, f, dir) -> started W os argv d c f dir.
Proof.
  unfold serving, started. destruct (ge_main W os argv d) as [o| |]; try discriminate. destruct (o_end o) as [n|c' f' d'] eqn:E; [discriminate|].
  intros H. injection H as <- <- <-. eauto.
Qed.
Lemma ex_cwd : cwd_ok ex_W.
Proof. intros x X. injection X as <-. split; [eexists; reflexivity|unfold PATH_MAX; cbn [s2b length]; lia]. Qed.

Definition ex_conf : conf := match serving (ge_main ex_W [] [s2b "pub"] nothing) with Some (_, f, _) => f | None => mkConf [] [] [] end.
Definition ex_env75 : env := mkEnv ex_conf lit (fun _ => false) None (fun _ => false) 1965 [] (s2b "::1") (s2b "gemexp")
  (fun _ => true) (fun _ => true) (fun _ => true) isort (repeat 0 1027).

(** "gemexp pub", from /srv *)
Example c75_running : running ex_W [] [s2b "pub"] nothing (s2b "/srv/pub") ex_env75 /\
  exists o, ge_main ex_W [] [s2b "pub"] nothing = OK o /\
    o_mkdirs o = [s2b "/home/u"; s2b "/home/u/.local"; s2b "/home/u/.local/share"; s2b "/home/u/.local/share/gemexp"] /\
    last (o_disks o) nothing (s2b "/home/u/.local/share/gemexp/localhost.pem") = File true (s2b "cert of K").
Proof.
  assert (A : match serving (ge_main ex_W [] [s2b "pub"] nothing) with
              | Some (c, f, dd) => dd = s2b "/srv/pub" /\ exists a t, In (a, t) c /\ [] = ad_pp a | None => False end).
  { vm_compute. split; [reflexivity|]. eexists. eexists. split; [left; reflexivity|reflexivity]. }
  assert (B : match ge_main ex_W [] [s2b "pub"] nothing with OK o =>
    o_mkdirs o = [s2b "/home/u"; s2b "/home/u/.local"; s2b "/home/u/.local/share"; s2b "/home/u/.local/share/gemexp"] /\
    last (o_disks o) nothing (s2b "/home/u/.local/share/gemexp/localhost.pem") = File true (s2b "cert of K") | _ => False end).
  { vm_compute. split; reflexivity. }
  split.
  - destruct (serving (ge_main ex_W [] [s2b "pub"] nothing)) as [[[c f] dd]|] eqn:S; [|destruct A]. destruct A as (-> & a & t & I & P).
    constructor; [|exact msort_default|intros s; reflexivity|exact isort_ok|exact ex_cwd].
    exists c, a, t. split; [|split; [exact I|exact P]]. apply serving_started. rewrite S. unfold ex_env75, ex_conf. cbn [e_conf]. rewrite S. reflexivity.
  - destruct (ge_main ex_W [] [s2b "pub"] nothing) as [o| |]; try destruct B. eauto.
Qed.
(** and a client of it *)
Definition ex_fs75 (fd : N) (p : list N) : node :=
  if (fd =? 5) && leqb p (s2b "a/f.txt") then NFile true (s2b "hello")
  else if (fd =? 5) && leqb p (s2b "a/") then NDir (fun _ => NMissing) (Some [(s2b "f.txt", false); (s2b ".", true)]) else NMissing.
Definition ex_iri75 : comps := mkC (s2b "gemini") (s2b "any.name") [] 1965 (s2b "a/f.txt") [] [].
Definition ex_c075 : client := match run ex_env75 [EvHandshake (Some (s2b "any.name"))] fresh with Some (OK c) => c | _ => fresh end.
Definition ex_v75 : vhost := ge_vhost (s2b "/srv/pub") 5.
Example c75_case : request ex_env75 ex_fs75 (Some (s2b "any.name")) ex_v75 (s2b "gemini://any.name/a/f.txt")
    ex_iri75 (s2b "any.name") [s2b "gemini://any.name/a/f.txt" ++ CRLF] ex_c075 /\
  ours ex_iri75 (c_domain ex_c075) (s2b "any.name") /\
  exists c1, run ex_env75 (opening ex_fs75 (Some (s2b "any.name")) [s2b "gemini://any.name/a/f.txt" ++ CRLF]) fresh = Some (OK c1) /\
  c_out c1 = s2b "20 text/plain" ++ CRLF /\ c_pfd c1 = PFile (s2b "hello").
Proof.
  split; [constructor|split; [split; vm_compute; reflexivity|]].
  - vm_compute. reflexivity.
  - vm_compute. reflexivity.
  - vm_compute. repeat constructor.
  - apply readln_none. vm_compute. reflexivity.
  - split; [repeat constructor; discriminate|]. split; [repeat constructor|]. split; [eexists; split; vm_compute; reflexivity|].
    eexists. split; [vm_compute; reflexivity|]. vm_compute. reflexivity.
  - split; [vm_compute; reflexivity|]. repeat constructor; discriminate.
  - eexists. split; [vm_compute; reflexivity|]. split; vm_compute; reflexivity.
Qed.
(** the same file asked for by a client that gave no name *)
Definition ex_c075' : client := match run ex_env75 [EvHandshake None] fresh with Some (OK c) => c | _ => fresh end.
Example c75_by_address_case : request ex_env75 ex_fs75 None ex_v75 (s2b "gemini://127.0.0.1/a/f.txt")
    (mkC (s2b "gemini") (s2b "127.0.0.1") [] 1965 (s2b "a/f.txt") [] []) (s2b "127.0.0.1") [s2b "gemini://127.0.0.1/a/f.txt" ++ CRLF] ex_c075' /\
  exists c1, run ex_env75 (opening ex_fs75 None [s2b "gemini://127.0.0.1/a/f.txt" ++ CRLF]) fresh = Some (OK c1) /\
  c_out c1 = s2b "53 won't proxy request" ++ CRLF.
Proof.
  split; [constructor|].
  - vm_compute. reflexivity.
  - vm_compute. reflexivity.
  - vm_compute. repeat constructor.
  - apply readln_none. vm_compute. reflexivity.
  - split; [repeat constructor; discriminate|]. split; [repeat constructor|]. split; [eexists; split; vm_compute; reflexivity|].
    eexists. split; [vm_compute; reflexivity|]. vm_compute. reflexivity.
  - split; [vm_compute; reflexivity|]. repeat constructor; discriminate.
  - eexists. split; vm_compute; reflexivity.
Qed.

(** A name too long for PATH_MAX is cut, and another directory exported. *)
Theorem c75_root_refuted : ~ (forall W os argv d ctxs cf dir target, cwd_ok W -> started W os argv d ctxs cf dir ->
  exports (w_cwd W) argv target -> dir = target).
Proof.
  intros H. set (target := s2b "/aa" ++ repeat 97 PATH_MAX).
  assert (A : match serving (ge_main ex_W [] [target] nothing) with Some (_, _, dd) => length dd = Nat.pred PATH_MAX | None => False end) by (vm_compute; reflexivity).
  destruct (serving (ge_main ex_W [] [target] nothing)) as [[[c f] dd]|] eqn:S; [|destruct A].
  specialize (H ex_W [] [target] nothing c f dd target ex_cwd (serving_started _ _ _ _ _ _ _ S)). rewrite H in A.
  - unfold target in A. rewrite app_length, repeat_length in A. cbn [s2b length] in A. lia.
  - apply xp_abs. eexists. reflexivity.
Qed.

(** The program comes to serve, or to an exit, if the directory of the
    certificates is absolute (and, for glibc, not behind two slashes). *)
Theorem c75_ends_partial W os argv d : (forall p, data_path (w_xdg W) (w_home W) = Some p ->
    absolute p /\ (w_two W = true -> ~ exists r, p = 47 :: 47 :: r /\ hd 0 r <> 47)) ->
  exists o, ge_main W os argv d = OK o.
Proof.
  intros DP. unfold ge_main. destruct (options os args0) as [code|a]; [eauto|]. destruct (1 <? length argv)%nat; [eauto|].
  assert (X : exists cs dd, match a_certs a with Some s => OK ([], Some s) | None => match data_path (w_xdg W) (w_home W) with None => OK ([], None)
    | Some p => let* (cs, ok) := mkdirs (w_two W) (w_mkdir W) (S (length p)) p in OK (cs, if ok then Some p else None) end end = OK (cs, dd)).
  { destruct (a_certs a); [eauto|]. destruct (data_path (w_xdg W) (w_home W)) as [p|]; [|eauto]. destruct (DP p eq_refl) as ((r & ->) & N).
    assert (R : rooted (w_two W) (47 :: r)) by (split; [reflexivity|exact N]).
    assert (M : exists x, mkdirs (w_two W) (w_mkdir W) (S (length (47 :: r))) (47 :: r) = OK x) by (apply mkdirs_ends; [exact R|lia]).
    destruct M as ([cs ok] & ->). cbn [bind]. eauto. }
  destruct X as (cs & dd & ->). cbn [bind]. destruct dd as [certs|]; [|eauto].
  destruct (load_local_cert (w_gen W) (a_host a) certs d) as [t [[cert key]|]]; [|eauto].
  destruct (match argv with [] => w_cwd W | p :: _ => absolutify_path (w_cwd W) p end) as [p|]; [|eauto].
  assert (X : exists e, serve W (a_host a) (a_port a) (into_dir p) cert key = OK e).
  { unfold serve. destruct (w_ai W (a_host a) (a_port a)) as [l|]; [|eauto]. destruct (listen_all 0 l q0 false) as [[q any]|] eqn:L; [|eauto].
    destruct (listen_all_ok l 0 q0 false [] q any L eq_refl (ch_nil _) ltac:(intros x []) eq_refl) as (EQ & CH & AN & _). rewrite app_nil_r in CH.
    destruct any; cbn [negb]; [|eauto].
    assert (LE : (length (rev (ups 0 l)) <= length l)%nat) by (rewrite rev_length; apply ups_len).
    rewrite (chain_walk _ _ _ _ CH LE). cbn [bind]. rewrite <- EQ, (chain_walk _ _ _ _ CH LE). cbn [bind].
    destruct (server_configure_done _ _ _ _ _ _ _) as [[ctxs cf]|]; eauto. }
  destruct X as (e & ->). cbn [bind]. eauto.
Qed.
Lemma ex_data_ok p : data_path (w_xdg ex_W) (w_home ex_W) = Some p ->
  absolute p /\ (w_two ex_W = true -> ~ exists r, p = 47 :: 47 :: r /\ hd 0 r <> 47).
Proof. intros H. injection H as <-. split; [eexists; reflexivity|]. intros _ (r & X & _). discriminate X. Qed.
(** With a relative $XDG_DATA_HOME it does neither: mkdirs calls itself until the
    stack is gone. *)
Theorem c75_ends_refuted : ~ (forall W os argv d, cwd_ok W -> exists o, ge_main W os argv d = OK o) /\
  forall two mkdir fuel, mkdirs two mkdir fuel (s2b "data/gemexp") = Fuel.
Proof.
  split.
  - intros H. set (W := mkW (w_two ex_W) (Some (s2b "data")) (w_home ex_W) (w_cwd ex_W) (w_mkdir ex_W) (w_gen ex_W) (w_ai ex_W) (w_cert_of ex_W) (w_configures ex_W) (w_opendir ex_W) (w_sortm ex_W)).
    destruct (H W [] [] nothing ex_cwd) as (o & X). vm_compute in X. discriminate X.
  - intros two mkdir fuel. apply mkdirs_never; [|unfold PATH_MAX; cbn [s2b length]; lia]. intros (N & _). discriminate N.
Qed.
(** the directories made for it, and one that cannot be *)
Example c75_mkdirs_case : in_turn (fun _ => true) (ancestors [s2b "home"; s2b "u"; s2b "gemexp"]) [s2b "/home/u"; s2b "/home/u/gemexp"] true /\
  mkdirs true (fun p => negb (leqb p (s2b "/home/u"))) 20 (s2b "/home/u/gemexp") = OK ([s2b "/home/u"], false) /\
  Forall word [s2b "home"; s2b "u"; s2b "gemexp"].
Proof.
  split; [repeat constructor|]. split; [vm_compute; reflexivity|].
  repeat (constructor; [split; [discriminate|intros H; cbn in H; repeat (destruct H as [H|H]; [discriminate H|]); exact H]|]). constructor.
Qed.
(** two options of a kind, and a bad port *)
Example c75_options_case : options [OptP (s2b "70"); OptH (s2b "a"); OptP (s2b "7070"); OptR] args0 = inr (mkArgs None (s2b "a") 7070 false) /\
  options [OptH (s2b "a"); OptP (s2b "65536"); OptV] args0 = inl 1.
Proof. split; vm_compute; reflexivity. Qed.

Print Assumptions c75_root_partial. Print Assumptions c75_any_name. Print Assumptions c75_serves. Print Assumptions c75_nothing_else.
Print Assumptions c75_listens. Print Assumptions c75_options. Print Assumptions c75_stops. Print Assumptions c75_mkdirs. Print Assumptions c75_mkdirs_ends.
Print Assumptions c75_by_address. Print Assumptions c75_root_refuted. Print Assumptions c75_ends_partial. Print Assumptions c75_ends_refuted.
