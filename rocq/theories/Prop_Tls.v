(** C59-C62: certificates, addresses and document roots *)
From Coq Require Import Lia.
From Verif Require Import Base BaseLemmas Compat Iri IriSpec IriObs Puny Conf ConfSpec Mime Fmt Fcgi Config Server ServerSpec RequestSpec HistorySpec LegitSpec Tls TlsSpec Tls_Proofs Prop_Config Prop_Server Prop_History Prop_Safe.
Local Open Scope N_scope.

(** ** C60: which names a certificate is good for *)

(** libtls says a certificate matches a name exactly when the certificate is for
    that name, and it does not fail on certificates that are not malformed. *)
Theorem c60_certificate pton c name m : tls_check_name pton c name = Some m -> (m = true <-> certified (pton name) c name).
Proof. apply check_name_certified. Qed.
Theorem c60_no_error pton c name : sound c -> tls_check_name pton c name <> None.
Proof. apply check_name_sound. Qed.
(** A wildcard never stands for a top level domain's children, nor for more or
    less than one label. *)
Theorem c60_one_label d name : ~ In 46 d -> covers (42 :: 46 :: d) name -> same_name (42 :: 46 :: d) name.
Proof.
  intros N [H|(d' & h & e & E & (x & y & -> & _) & _)]; [exact H|]. injection E as ->. exfalso. apply N, in_or_app. right. left. reflexivity.
Qed.
Definition ex_pton (s : list N) : option (list N) := if leqb s (s2b "1.2.3.4") then Some [1; 2; 3; 4] else None.
Definition wild : cert := mkCert (Some (Some [AOther; ADns true (s2b "*.Example.org")])) [Some (s2b "other.net")].
Example c60_wildcard : sound wild /\ certified (ex_pton (s2b "www.example.org")) wild (s2b "www.example.org") /\
  map (fun n => tls_check_name ex_pton wild n) [s2b "WWW.example.org"; s2b "example.org"; s2b "a.b.example.org"; s2b ".example.org"; s2b "other.net"; s2b "1.2.3.4"]
  = [Some true; Some false; Some false; Some false; Some false; Some false].
Proof.
  split; [|split].
  - split; [discriminate|]. split.
    + intros d (l & E & I). injection E as <-. destruct I as [I|[I|[]]]; [discriminate|]. injection I as <-. split; [|discriminate]. cbn. intuition discriminate.
    + right. exists (s2b "other.net"). split; [reflexivity|]. split; [cbn; lia|]. cbn. intuition discriminate.
  - apply (check_name_certified ex_pton wild (s2b "www.example.org") true); reflexivity.
  - reflexivity.
Qed.

(** ** C59: the certificates offered on an address *)

Definition got (st : tlsconf * bool) : list keypair := if snd st then t_kp (fst st) :: t_more (fst st) else [].
Definition clean (st : tlsconf * bool) : Prop := snd st = false -> t_kp (fst st) = mkKp None None None /\ t_more (fst st) = [].
Definition here (a : addr) (l : list addr) : list addr := filter (match_addr a) l.

Lemma kps_addrs_got cert_of h a : forall l st st', kps_addrs cert_of h a l st = Some st' -> clean st ->
  got st' = got st ++ map (fun _ => pair_of h) (here a l) /\ clean st' /\ t_protos (fst st') = t_protos (fst st) /\ t_fake (fst st') = t_fake (fst st).
Proof.
  induction l as [|b l IH]; intros st st' H C; cbn [kps_addrs] in H.
  - injection H as <-. cbn. rewrite app_nil_r. auto.
  - unfold here. cbn [filter]. destruct (match_addr a b); cbn [negb] in H; [|apply IH; assumption].
    destruct st as [t any]. destruct any.
    + unfold add_keypair in H. destruct (loads cert_of (ch_cert h)); [|discriminate]. apply IH in H; [|intros X; discriminate].
      destruct H as (H & C' & P & F). rewrite H. split; [cbn; rewrite <- app_assoc; reflexivity|]. split; [exact C'|]. split; [exact P|exact F].
    + destruct (C eq_refl) as (C1 & C2). cbn [fst] in *. unfold set_keypair in H. destruct (loads cert_of (ch_cert h)); [|discriminate]. apply IH in H; [|intros X; discriminate].
      destruct H as (H & C' & P & F). rewrite H. split; [|split; [exact C'|split; [exact P|exact F]]].
      cbn. rewrite C1, C2. cbn. unfold pair_of. destruct (ch_ocsp h); reflexivity.
Qed.
Lemma kps_hosts_got cert_of a : forall hs st st', kps_hosts cert_of hs a st = Some st' -> clean st ->
  got st' = got st ++ flat_map (fun h => map (fun _ => pair_of h) (here a (ch_addrs h))) hs /\ clean st' /\
  t_protos (fst st') = t_protos (fst st) /\ t_fake (fst st') = t_fake (fst st).
Proof.
  induction hs as [|h hs IH]; intros st st' H C; cbn [kps_hosts] in H.
  - injection H as <-. cbn. rewrite app_nil_r. auto.
  - destruct (kps_addrs cert_of h a (ch_addrs h) st) as [s1|] eqn:KA; [|discriminate].
    destruct (kps_addrs_got _ _ _ _ _ _ KA C) as (G1 & C1 & P1 & F1). destruct (IH _ _ H C1) as (G2 & C2 & P2 & F2).
    split; [|split; [exact C2|split; congruence]]. rewrite G2, G1. cbn [flat_map]. rewrite app_assoc. reflexivity.
Qed.

Lemma here_listens a h : here a (ch_addrs h) <> [] <-> listens h a.
Proof.
  unfold here, listens. split.
  - destruct (filter (match_addr a) (ch_addrs h)) as [|b r] eqn:F; [congruence|]. intros _. exists b.
    assert (I : In b (filter (match_addr a) (ch_addrs h))) by (rewrite F; left; reflexivity). apply filter_In in I as (I & M).
    split; [exact I|]. apply leqb_eq in M. congruence.
  - intros (b & I & E) F. assert (X : In b (filter (match_addr a) (ch_addrs h))). { apply filter_In. split; [exact I|]. apply leqb_eq. congruence. }
    rewrite F in X. destruct X.
Qed.
Lemma here_one a h : NoDup (map ad_ai (ch_addrs h)) -> (length (here a (ch_addrs h)) <= 1)%nat.
Proof.
  unfold here. induction (ch_addrs h) as [|b l IH]; intros D; cbn [filter map] in *; [cbn; lia|]. inversion D as [|? ? N D']; subst.
  destruct (match_addr a b) eqn:M; [|apply IH; exact D']. apply leqb_eq in M.
  assert (F : filter (match_addr a) l = []).
  { clear - N M. induction l as [|x l IH]; [reflexivity|]. cbn [filter map] in *. destruct (match_addr a x) eqn:E.
    - apply leqb_eq in E. exfalso. apply N. left. congruence.
    - apply IH. intros X. apply N. right. exact X. }
  rewrite F. cbn. lia.
Qed.
Lemma offered_listening a hs : addresses_distinct hs -> forall l, listening a hs l ->
  flat_map (fun h => map (fun _ => pair_of h) (here a (ch_addrs h))) hs = map pair_of l.
Proof.
  intros D l H. induction H as [|h hs l L H IH|h hs l L H IH]; [reflexivity| |]; cbn [flat_map map]; inversion D as [|? ? D1 D2]; subst.
  - rewrite (IH D2). apply here_listens in L. pose proof (here_one a h D1) as O. destruct (here a (ch_addrs h)) as [|x [|]]; [congruence|reflexivity|cbn in O; lia].
  - rewrite (IH D2). destruct (here a (ch_addrs h)) as [|x r] eqn:Q; [reflexivity|]. exfalso. apply L, here_listens. rewrite Q. discriminate.
Qed.
Lemma listening_total a hs : exists l, listening a hs l.
Proof.
  induction hs as [|h hs (l & IH)]; [exists []; constructor|]. destruct (here a (ch_addrs h)) as [|x r] eqn:Q.
  - exists l. apply ls_no; [|exact IH]. intros L. apply here_listens in L. congruence.
  - exists (h :: l). apply ls_yes; [|exact IH]. apply here_listens. rewrite Q. discriminate.
Qed.
Lemma listening_in a hs l h : listening a hs l -> (In h l <-> In h hs /\ listens h a).
Proof.
  intros H. induction H as [|g hs l L H IH|g hs l L H IH].
  - split; [intros []|intros ([] & _)].
  - split.
    + intros [<-|I]; [split; [left; reflexivity|exact L]|]. apply IH in I. split; [right|]; apply I.
    + intros ([<-|I] & J); [left; reflexivity|right; apply IH; auto].
  - split.
    + intros I. apply IH in I. split; [right|]; apply I.
    + intros ([<-|I] & J); [contradiction|apply IH; auto].
Qed.

Lemma setup_in cert_of configures pc protos hs a t : forall l ctxs, setup_tls cert_of configures pc protos hs l = Some ctxs -> In (a, t) ctxs ->
  In a l /\ add_matching_kps cert_of (mkTls (mkKp None None None) [] protos pc) a hs = Some t /\ configures t = true.
Proof.
  induction l as [|b l IH]; intros ctxs H I; cbn [setup_tls] in H; [injection H as <-; destruct I|].
  destruct (add_matching_kps _ _ b hs) as [t0|] eqn:A; [|discriminate]. destruct (configures t0) eqn:CF; [|discriminate].
  destruct (setup_tls cert_of configures pc protos hs l) as [r|]; [|discriminate]. injection H as <-. destruct I as [I|I].
  - injection I as -> ->. split; [left; reflexivity|auto].
  - destruct (IH r eq_refl I) as (X & Y). split; [right; exact X|exact Y].
Qed.

(** On every address the server offers the certificates (with their keys and
    staples) of exactly the hosts that listen on it, in the order of the hosts,
    under the protocols configured. *)
Theorem c59_offered cert_of configures pc protos hs addrs ctxs a t l :
  setup_tls cert_of configures pc protos hs addrs = Some ctxs -> addresses_distinct hs -> In (a, t) ctxs ->
  listening a hs l -> l <> [] ->
  t_kp t :: t_more t = map pair_of l /\ t_protos t = protos /\ t_fake t = pc.
Proof.
  intros S D I L NE. destruct (setup_in _ _ _ _ _ _ _ _ _ S I) as (_ & A & _). unfold add_matching_kps in A.
  destruct (kps_hosts cert_of hs a _) as [st|] eqn:K; [|discriminate]. injection A as <-.
  destruct (kps_hosts_got _ _ _ _ _ K ltac:(intros _; auto)) as (G & C & P & F). split; [|split; assumption].
  rewrite (offered_listening a hs D l L) in G. cbn [got snd app] in G. unfold got in G. destruct (snd st); [exact G|].
  destruct l; [congruence|discriminate].
Qed.
(** every address has its context *)
Theorem c59_every_address cert_of configures pc protos hs addrs ctxs :
  setup_tls cert_of configures pc protos hs addrs = Some ctxs -> map fst ctxs = addrs.
Proof.
  revert ctxs. induction addrs as [|a l IH]; intros ctxs; cbn [setup_tls]; [intros H; injection H as <-; reflexivity|].
  destruct (add_matching_kps _ _ a hs) as [t|]; [|discriminate]. destruct (configures t); [|discriminate].
  destruct (setup_tls cert_of configures pc protos hs l) as [r|]; [|discriminate]. intros H. injection H as <-. cbn. rewrite (IH r eq_refl). reflexivity.
Qed.

(** a host's certificate is for this name *)
Definition has_name (pton : list N -> option (list N)) (cert_of : list N -> option cert) (name : list N) (h : chost) : Prop :=
  exists d c, ch_cert h = Some d /\ cert_of d = Some c /\ certified (pton name) c name.

Lemma sni_shown pton cert_of name dflt : forall l, (forall h, In h l -> exists d c, ch_cert h = Some d /\ cert_of d = Some c /\ sound c) ->
  (exists before h after, l = before ++ h :: after /\ has_name pton cert_of name h /\ Forall (fun g => ~ has_name pton cert_of name g) before /\
     sni_loop pton cert_of name (map pair_of l) dflt = Shown (pair_of h)) \/
  (Forall (fun g => ~ has_name pton cert_of name g) l /\ sni_loop pton cert_of name (map pair_of l) dflt = Shown dflt).
Proof.
  induction l as [|h l IH]; intros W; cbn [map sni_loop]; [right; split; [constructor|reflexivity]|].
  destruct (W h (or_introl eq_refl)) as (d & c & HC & HD & SO). cbn [pair_of kp_cert]. rewrite HC, HD.
  destruct (tls_check_name pton c name) as [m|] eqn:TC; [|exfalso; exact (check_name_sound pton c name SO TC)].
  pose proof (check_name_certified pton c name m TC) as CE. destruct m.
  - left. exists [], h, l. split; [reflexivity|]. split; [exists d, c; split; [exact HC|split; [exact HD|apply CE; reflexivity]]|]. split; [constructor|reflexivity].
  - assert (NH : ~ has_name pton cert_of name h). { intros (d' & c' & E1 & E2 & X). rewrite HC in E1. injection E1 as <-. rewrite HD in E2. injection E2 as <-. apply CE in X. discriminate. }
    destruct (IH (fun g I => W g (or_intror I))) as [(b & g & af & -> & G1 & G2 & G3)|(G1 & G2)].
    + left. exists (h :: b), g, af. split; [reflexivity|]. split; [exact G1|]. split; [constructor; assumption|exact G3].
    + right. split; [constructor; assumption|exact G2].
Qed.

(** What a client is shown.  The hosts listening on the address are [h0 :: l].
    A client that asks for a name is shown the certificate of the first host
    after [h0] whose certificate is for that name, else that of [h0]; one that
    does not, or that asks for an address, is shown that of [h0]. *)
Theorem c59_shown pton cert_of configures pc protos hs addrs ctxs a t h0 l sni :
  setup_tls cert_of configures pc protos hs addrs = Some ctxs -> addresses_distinct hs -> In (a, t) ctxs ->
  listening a hs (h0 :: l) -> (forall h, In h l -> exists d c, ch_cert h = Some d /\ cert_of d = Some c /\ sound c) ->
  match sni with
  | Some name =>
    match pton name with
    | None => (exists before h after, l = before ++ h :: after /\ has_name pton cert_of name h /\ Forall (fun g => ~ has_name pton cert_of name g) before /\
                 tls_servername_cb pton cert_of t sni = (Shown (pair_of h), Some name)) \/
              (Forall (fun g => ~ has_name pton cert_of name g) l /\ tls_servername_cb pton cert_of t sni = (Shown (pair_of h0), Some name))
    | Some _ => tls_servername_cb pton cert_of t sni = (Shown (pair_of h0), None)
    end
  | None => tls_servername_cb pton cert_of t sni = (Shown (pair_of h0), None)
  end.
Proof.
  intros S D I L W. destruct (c59_offered _ _ _ _ _ _ _ _ _ _ S D I L ltac:(discriminate)) as (O & _).
  cbn [map] in O. injection O as O1 O2. unfold tls_servername_cb. rewrite O1, O2. destruct sni as [name|]; [|reflexivity].
  destruct (pton name) eqn:PT; [reflexivity|].
  destruct (sni_shown pton cert_of name (pair_of h0) l W) as [(b & h & af & A1 & A2 & A3 & A4)|(A1 & A2)].
  - left. exists b, h, af. rewrite A4. auto.
  - right. rewrite A2. auto.
Qed.

(** So: only the certificate of a host that listens on the address is shown, *)
Theorem c59_listening pton cert_of configures pc protos hs addrs ctxs a t sni k :
  setup_tls cert_of configures pc protos hs addrs = Some ctxs -> addresses_distinct hs -> In (a, t) ctxs ->
  (exists h, In h hs /\ listens h a) -> fst (tls_servername_cb pton cert_of t sni) = Shown k ->
  exists h, In h hs /\ listens h a /\ k = pair_of h.
Proof.
  intros S D I (g & G1 & G2) H. destruct (listening_total a hs) as (l & L).
  assert (NE : l <> []) by (intros ->; assert (X : In g []) by (apply (listening_in a hs [] g L); auto); destruct X).
  destruct (c59_offered _ _ _ _ _ _ _ _ _ _ S D I L NE) as (O & _).
  assert (IN : forall x, In x (t_kp t :: t_more t) -> exists h, In h hs /\ listens h a /\ x = pair_of h).
  { intros x X. rewrite O in X. apply in_map_iff in X as (h & <- & X). apply (listening_in a hs l h L) in X. exists h. tauto. }
  apply IN. clear IN O. unfold tls_servername_cb in H. destruct sni as [name|]; [|injection H as <-; left; reflexivity].
  destruct (pton name); [injection H as <-; left; reflexivity|]. cbn [fst] in H.
  assert (G : forall l dflt, sni_loop pton cert_of name l dflt = Shown k -> k = dflt \/ In k l).
  { clear. induction l as [|x l IH]; intros dflt H; cbn [sni_loop] in H; [injection H as <-; left; reflexivity|].
    destruct (match kp_cert x with Some d => cert_of d | None => None end) as [c|]; [|discriminate].
    destruct (tls_check_name pton c name) as [[]|]; [injection H as <-; right; left; reflexivity| |discriminate].
    destruct (IH _ H) as [->|X]; [left; reflexivity|right; right; exact X]. }
  destruct (G _ _ H) as [->|X]; [left; reflexivity|right; exact X].
Qed.

(** and if one host only of those that listen on the address has a certificate
    for the name asked for, its certificate is shown. *)
Theorem c59_right_certificate_partial pton cert_of configures pc protos hs addrs ctxs a t h name :
  setup_tls cert_of configures pc protos hs addrs = Some ctxs -> addresses_distinct hs -> In (a, t) ctxs -> pton name = None ->
  (forall g, In g hs -> exists d c, ch_cert g = Some d /\ cert_of d = Some c /\ sound c) ->
  In h hs -> listens h a -> has_name pton cert_of name h ->
  (forall g, In g hs -> listens g a -> has_name pton cert_of name g -> pair_of g = pair_of h) ->
  tls_servername_cb pton cert_of t (Some name) = (Shown (pair_of h), Some name).
Proof.
  intros S D I PT W IH LH HH U. destruct (listening_total a hs) as (l & L).
  assert (IN : In h l) by (apply (listening_in a hs l h L); auto).
  destruct l as [|h0 l]; [destruct IN|].
  assert (WL : forall g, In g l -> exists d c, ch_cert g = Some d /\ cert_of d = Some c /\ sound c).
  { intros g G. apply W. apply (listening_in a hs _ g L). right. exact G. }
  pose proof (c59_shown pton cert_of configures pc protos hs addrs ctxs a t h0 l (Some name) S D I L WL) as H. cbv beta iota in H. rewrite PT in H.
  destruct H as [(b & g & af & -> & G1 & _ & ->)|(G1 & ->)].
  - assert (X : In g hs /\ listens g a) by (apply (listening_in a hs _ g L); right; apply in_or_app; right; left; reflexivity).
    rewrite (U g (proj1 X) (proj2 X) G1). reflexivity.
  - destruct IN as [->|IN]; [reflexivity|]. rewrite Forall_forall in G1. destruct (G1 h IN HH).
Qed.

(** ** C62: document roots *)

Lemma map_opt_F2 {A B} (f : A -> option B) : forall l l', map_opt f l = Some l' -> Forall2 (fun x y => f x = Some y) l l'.
Proof.
  induction l as [|x l IH]; intros l'; cbn [map_opt]; [intros H; injection H as <-; constructor|].
  destruct (f x) as [y|] eqn:F; [|discriminate]. destruct (map_opt f l) as [s|]; [|discriminate]. intros H. injection H as <-. constructor; auto.
Qed.
Lemma load_loc_opened opendir chroot l l' : load_loc opendir chroot l = Some l' -> opened opendir chroot l l'.
Proof.
  unfold load_loc, opened. destruct (l_dir l) as [|x d] eqn:D; [intros H; injection H as <-; repeat (split; [reflexivity || exact D|]); left; auto|].
  assert (G : forall p, match opendir p with Some fd => Some (set_dirfd fd l) | None => None end = Some l' -> exists fd, l' = set_dirfd fd l /\ opendir p = Some fd).
  { intros p. destruct (opendir p) as [fd|]; [|discriminate]. intros H. injection H as <-. exists fd. auto. }
  assert (K : forall p, (exists fd, l' = set_dirfd fd l /\ opendir p = Some fd) ->
    p = match chroot with Some ((_ :: _) as root) => root ++ [47] ++ x :: d | _ => x :: d end -> opened opendir chroot l l').
  { intros p (fd & -> & OD) ->. unfold opened. rewrite D. cbn. repeat (split; [reflexivity || exact D|]). right. split; [discriminate|]. exists fd. auto. }
  unfold opened in K. rewrite D in K. intros H. revert H.
  destruct chroot as [[|r root]|]; try (intros H; apply G in H; exact (K _ H eq_refl)). cbv zeta. destruct (_ <=? _)%nat; [discriminate|]. intros H; apply G in H. exact (K _ H eq_refl).
Qed.

(** When a server process got through its configuration, every location of every
    host has its root open, as named by the configuration, and nothing else of
    the hosts has changed. *)
Theorem c62_roots opendir chroot hs hs' : load_vhosts opendir chroot hs = Some hs' ->
  Forall2 (fun h h' => ch_domain h' = ch_domain h /\ ch_aliases h' = ch_aliases h /\ ch_proxies h' = ch_proxies h /\ ch_addrs h' = ch_addrs h /\
     pair_of h' = pair_of h /\ Forall2 (opened opendir chroot) (ch_locs h) (ch_locs h')) hs hs'.
Proof.
  intros H. apply map_opt_F2 in H. induction H as [|h h' hs hs' E H IH]; constructor; [|exact IH]. unfold load_host in E.
  destruct (map_opt (load_loc opendir chroot) (ch_locs h)) as [ls|] eqn:M; [|discriminate]. injection E as <-. cbn. repeat (split; [reflexivity|]).
  apply map_opt_F2 in M. clear - M. induction M; constructor; [apply load_loc_opened; assumption|assumption].
Qed.

Lemma Forall2_in_r {A B} (R : A -> B -> Prop) l l' y : Forall2 R l l' -> In y l' -> exists x, In x l /\ R x y.
Proof.
  intros H. induction H as [|a b l l' HR H IH]; [intros []|]. intros [<-|I]; [exists a; split; [left; reflexivity|exact HR]|].
  destruct (IH I) as (x & X & Y). exists x. split; [right; exact X|exact Y].
Qed.

(** From the configuration file to openat(2): the main process parsed [c] and
    sent it whole; a server process received it and got through its set-up.
    Then whatever happens on any connection, what it opens is a path that
    stays below the root of a location of [c]. *)
Theorem c62_end_to_end fs supported load_ca pubkey_hash load_pkey prefork ok c ms n s0 s cert_of configures opendir sortm pc ctxs conf E es cl fd p :
  perform fs ok 0 (main_configure fs supported prefork c) = (ms, Done) -> (n < prefork)%nat -> cas_load fs load_ca c ->
  recv_all load_ca pubkey_hash load_pkey false (sent_to TServer n ms) s0 = Took s ->
  server_configure_done cert_of configures opendir None sortm pc (k_conf s) = Some (ctxs, conf) ->
  e_conf E = conf -> bytes_sent es -> history E es cl -> In (Server.AOpen fd p) (c_acts cl) ->
  stays_inside p /\ exists h l, In h (pc_hosts c) /\ In l (ph_locs h) /\ l_dir (pl l) <> [] /\ opendir (l_dir (pl l)) = Some fd.
Proof.
  intros P N CA R SC EC HB H I.
  destruct (c29_servers fs supported load_ca pubkey_hash load_pkey prefork ok c ms n s0 P N CA) as (s' & R' & _ & SM).
  rewrite R in R'. injection R' as <-. destruct SM as (_ & _ & _ & _ & _ & HS).
  unfold server_configure_done in SC. destruct (load_default_mime _) as [[[] m]| |]; try discriminate.
  destruct (setup_tls _ _ _ _ _ _) as [cx'|]; [|discriminate]. destruct (load_vhosts opendir None (cc_hosts (k_conf s))) as [hs|] eqn:LV; [|discriminate].
  destruct (map_opt host_of hs) as [vs|] eqn:MO; [|discriminate]. injection SC as _ <-. apply c62_roots in LV. apply map_opt_F2 in MO.
  destruct (c51_opens E es cl fd p HB H I) as (SI & v & i & line & V & _ & _ & _ & (l & L1 & L2) & _). split; [exact SI|].
  rewrite EC in V. cbn [c_hosts] in V. destruct (Forall2_in_r _ _ _ _ MO V) as (h1 & H1 & HO).
  destruct (Forall2_in_r _ _ _ _ LV H1) as (h2 & H2 & (_ & _ & _ & _ & _ & FL)).
  destruct (Forall2_in_r _ _ _ _ HS H2) as (h3 & H3 & (_ & _ & _ & _ & _ & SL & _)).
  unfold host_of in HO. destruct (ch_locs h1) as [|l0 ls] eqn:CL; [discriminate|]. injection HO as <-. cbn [v_loc0 v_locs] in L1.
  destruct (Forall2_in_r _ _ _ _ FL L1) as (l4 & H4 & OP). destruct (Forall2_in_r _ _ _ _ SL H4) as (l5 & H5 & SL5).
  destruct SL5 as (_ & _ & _ & _ & _ & _ & _ & _ & _ & _ & _ & _ & _ & LD & DF & _).
  exists h3, l5. split; [exact H3|]. split; [exact H5|]. rewrite <- LD. destruct OP as (_ & _ & _ & _ & _ & _ & _ & _ & _ & _ & _ & _ & _ & _ & _ & [(_ & OP)|(ND & fd' & OP & OD)]); [congruence|].
  split; [exact ND|]. congruence.
Qed.

(** ** Cases and refutations *)
Definition A1 : addr := mkAddr [1] 1965 false (s2b "10.0.0.1").
Definition A2 : addr := mkAddr [2] 1965 false (s2b "10.0.0.2").
Definition root_loc (dir : list N) : location := mkLoc [] [] [] [] 0 0 [] 0 None false None false 0 [] dir None.
Definition two (name1 name2 : list N) (addrs1 addrs2 : list addr) : cconf :=
  mkCconf 0 [] 24 [A1; A2] []
    [mkChost name1 (Some (s2b "c1")) None None addrs1 [root_loc (s2b "/one")] [] [];
     mkChost name2 (Some (s2b "c2")) None None addrs2 [root_loc (s2b "/two")] [] []] [].
(** two certificates, "c1" for a.example.org and "c2" for *.example.org *)
Definition ex_certs (d : list N) : option cert :=
  if leqb d (s2b "c1") then Some (mkCert (Some (Some [ADns true (s2b "a.example.org")])) [])
  else if leqb d (s2b "c2") then Some (mkCert None [Some (s2b "*.example.org")]) else None.
Definition ex_roots (p : list N) : option N := if leqb p (s2b "/one") then Some 11 else if leqb p (s2b "/two") then Some 12 else None.
Definition ex_done (c : cconf) := server_configure_done ex_certs (fun _ => true) ex_roots None (fun l => l) true c.
(** a connection accepted on [a] *)
Definition on_addr (a : addr) (cf : conf) : env :=
  mkEnv cf lit (fun _ => false) None (fun _ => false) (Z.to_N (ad_port a)) (ad_pp a) (s2b "::1") (s2b "gmid")
    (fun _ => true) (fun _ => true) (fun _ => true) isort (repeat 0 1027).

(** the hypotheses of the theorems above hold of this one *)
Example c59_case : let hs := cc_hosts (two (s2b "a.example.org") (s2b "b.example.org") [A1] [A1]) in
  exists ctxs t, setup_tls ex_certs (fun _ => true) true 24 hs [A1] = Some ctxs /\ addresses_distinct hs /\ In (A1, t) ctxs /\
  listening A1 hs hs /\ (forall h, In h hs -> exists d c, ch_cert h = Some d /\ ex_certs d = Some c /\ sound c) /\
  map (fun s => fst (tls_servername_cb ex_pton ex_certs t s)) [Some (s2b "b.example.org"); Some (s2b "else.where"); Some (s2b "1.2.3.4"); None]
  = map (fun d => Shown (mkKp (Some d) None None)) [s2b "c2"; s2b "c1"; s2b "c1"; s2b "c1"].
Proof.
  cbv zeta. eexists. eexists. split; [vm_compute; reflexivity|]. split; [repeat constructor; intros []|]. split; [left; reflexivity|]. split.
  { repeat constructor; exists A1; split; try reflexivity; left; reflexivity. }
  split; [|vm_compute; reflexivity].
  intros h [<-|[<-|[]]].
  - eexists. eexists. split; [reflexivity|]. split; [vm_compute; reflexivity|]. split; [discriminate|]. split; [|left; reflexivity].
    intros d (l & E & I). injection E as <-. destruct I as [I|[]]. injection I as <-. split; [cbn; intuition discriminate|discriminate].
  - eexists. eexists. split; [reflexivity|]. split; [vm_compute; reflexivity|]. split; [discriminate|]. split; [intros d (l & E & _); discriminate|].
    right. eexists. split; [reflexivity|]. split; [cbn; lia|cbn; intuition discriminate].
Qed.

(** The certificate shown need not be that of the host that answers, even when
    that host's certificate is for the name: here the client asks for
    a.example.org, the first host (which has a certificate for exactly that)
    serves it, and the second host's wildcard certificate is shown. *)
Theorem c59_other_host_refuted : exists ctxs cf t es c h1 h2,
  cc_hosts (two (s2b "a.example.org") (s2b "b.example.org") [A1] [A1]) = [h1; h2] /\
  ex_done (two (s2b "a.example.org") (s2b "b.example.org") [A1] [A1]) = Some (ctxs, cf) /\ In (A1, t) ctxs /\
  history (on_addr A1 cf) es c /\ In (EvHandshake (Some (s2b "a.example.org"))) es /\
  (exists v, c_vhost c = Some v /\ v_domain v = ch_domain h1) /\
  has_name ex_pton ex_certs (s2b "a.example.org") h1 /\
  tls_servername_cb ex_pton ex_certs t (Some (s2b "a.example.org")) = (Shown (pair_of h2), Some (s2b "a.example.org")) /\ pair_of h1 <> pair_of h2.
Proof.
  eexists. eexists. eexists. exists [EvHandshake (Some (s2b "a.example.org"))].
  assert (X : exists c, run (on_addr A1 (mkConf default_mime [] [mkVhost (s2b "a.example.org") [] (set_dirfd 11 (root_loc (s2b "/one"))) [] [];
     mkVhost (s2b "b.example.org") [] (set_dirfd 12 (root_loc (s2b "/two"))) [] []])) [EvHandshake (Some (s2b "a.example.org"))] fresh = Some (OK c) /\
     option_map v_domain (c_vhost c) = Some (s2b "a.example.org")).
  { eexists. split; vm_compute; reflexivity. }
  destruct X as (c & R & VD). exists c. eexists. eexists. split; [vm_compute; reflexivity|]. split; [vm_compute; reflexivity|]. split; [left; reflexivity|].
  split; [apply history_run; exact R|]. split; [left; reflexivity|].
  split; [destruct (c_vhost c) as [v|]; [|discriminate]; exists v; split; [reflexivity|injection VD as VD; exact VD]|].
  split; [|split; [vm_compute; reflexivity|discriminate]].
  eexists. eexists. split; [reflexivity|]. split; [vm_compute; reflexivity|]. left. eexists. split; [eexists; split; [reflexivity|left; reflexivity]|].
  apply match_name_covers. vm_compute. reflexivity.
Qed.

(** ** C61: a host answers only on the addresses it listens on *)

(** If no host that listens elsewhere only has a name that matches, the host that
    answers listens on the address of the connection: [on] says which address
    each host was configured with. *)
Theorem c61_partial E es c v name sni (on : vhost -> Prop) : history E es c -> In (EvHandshake sni) es -> named E sni name -> c_vhost c = Some v ->
  bytes_sent es -> (forall sni', In (EvHandshake sni') es -> sni' = sni) ->
  (forall w, In w (c_hosts (e_conf E)) -> names (e_fnm E) name w -> on w) -> on v.
Proof.
  intros H I NM V HB U W. destruct (Legit_Proofs.history_LI E es c HB H) as (_ & _ & (L & _) & _). destruct (L v V) as ((s & I2 & N2) & SE).
  apply U in I2. subst s. assert (X : name = c_domain c).
  { destruct NM as (d & A & ->), N2 as (d' & B & ->). assert (d = d') as ->; [|reflexivity].
    destruct sni as [s|]; [|congruence]. destruct A as (o & X1 & X2), B as (o' & Y1 & Y2). congruence. }
  rewrite <- X in SE. destruct SE as (b & a & E1 & E2 & _). apply W; [rewrite E1; apply in_or_app; right; left; reflexivity|exact E2].
Qed.

(** In general it is not so: the second host listens on A2 only, and answers a
    connection accepted on A1 with a file of its root. *)
Definition ask_b : list event := [EvHandshake (Some (s2b "b.example.org")); EvRead (s2b "gemini://b.example.org/x" ++ [13; 10]) (fun fd p => if fd =? 12 then NFile true (s2b "secret") else NMissing)].
Theorem c61_served_elsewhere_refuted : exists ctxs cf c h1 h2 v,
  cc_hosts (two (s2b "a.example.org") (s2b "b.example.org") [A1] [A2]) = [h1; h2] /\
  ex_done (two (s2b "a.example.org") (s2b "b.example.org") [A1] [A2]) = Some (ctxs, cf) /\
  history (on_addr A1 cf) ask_b c /\ c_vhost c = Some v /\ v_domain v = ch_domain h2 /\ ~ listens h2 A1 /\
  In (AOpen 12 (s2b "x")) (c_acts c) /\ replies c = [(20, s2b "application/octet-stream")].
Proof.
  eexists. eexists.
  assert (X : exists c, run (on_addr A1 (mkConf default_mime [] [mkVhost (s2b "a.example.org") [] (set_dirfd 11 (root_loc (s2b "/one"))) [] [];
     mkVhost (s2b "b.example.org") [] (set_dirfd 12 (root_loc (s2b "/two"))) [] []])) ask_b fresh = Some (OK c) /\
     option_map v_domain (c_vhost c) = Some (s2b "b.example.org") /\ In (AOpen 12 (s2b "x")) (c_acts c) /\ replies c = [(20, s2b "application/octet-stream")]).
  { eexists. split; [vm_compute; reflexivity|]. split; [vm_compute; reflexivity|]. split; [left; reflexivity|vm_compute; reflexivity]. }
  destruct X as (c & R & VD & O & RP). exists c. eexists. eexists. destruct (c_vhost c) as [v|] eqn:CV; [|discriminate]. exists v.
  split; [vm_compute; reflexivity|]. split; [vm_compute; reflexivity|]. split; [apply history_run; exact R|]. split; [reflexivity|].
  split; [injection VD as VD; exact VD|]. split; [|split; [exact O|exact RP]].
  intros (b & [<-|[]] & X). discriminate.
Qed.

(** the hypotheses of the end to end theorem hold of this one *)
Definition ex_get : list event := [EvHandshake (Some (s2b "a.example")); EvRead (s2b "gemini://a.example/f.gmi" ++ [13; 10]) (fun _ _ => NMissing)].
Definition ex_loc2 : location := mkLoc (s2b "*") [] [] [] 0 0 [] 0 None false None false 0 [] (s2b "/srv") None.
Definition ex_conf2 : pconf := mkPconf 0 [] 24 [A1] []
  [mkPhost (s2b "a.example") (s2b "c1") (s2b "a.key") None [A1] [mkPloc ex_loc2 None] [] []] true.
Example c62_case : exists ms s ctxs cf c,
  perform ex_files (fun _ => true) 0 (main_configure ex_files (fun _ => true) 2 ex_conf2) = (ms, Done) /\ cas_load ex_files (fun _ => Some 7) ex_conf2 /\
  recv_all (fun _ => Some 7) (fun d => Some d) (fun _ => Some 9) false (sent_to TServer 1 ms) ex_child = Took s /\
  server_configure_done ex_certs (fun _ => true) (fun d => if leqb d (s2b "/srv") then Some 5 else None) None (fun l => l) true (k_conf s) = Some (ctxs, cf) /\
  bytes_sent ex_get /\ history (on_addr A1 cf) ex_get c /\ In (AOpen 5 (s2b "f.gmi")) (c_acts c).
Proof.
  assert (X : exists c, run (on_addr A1 (mkConf default_mime [] [mkVhost (s2b "a.example") [] (set_dirfd 5 ex_loc2) [] []])) ex_get fresh = Some (OK c) /\
     In (AOpen 5 (s2b "f.gmi")) (c_acts c)).
  { eexists. split; [vm_compute; reflexivity|left; reflexivity]. }
  destruct X as (c & R & I). eexists. eexists. eexists. eexists. exists c. split; [vm_compute; reflexivity|]. split; [intros h p d _ _ _; discriminate|].
  split; [vm_compute; reflexivity|]. split; [vm_compute; reflexivity|]. split; [|split; [apply history_run; exact R|exact I]].
  intros chunk fs IN. cbn in IN. repeat (destruct IN as [IN|IN]; [try discriminate IN; injection IN as <- _; repeat constructor|]). destruct IN.
Qed.

Print Assumptions c60_certificate.
Print Assumptions c59_shown.
Print Assumptions c59_right_certificate_partial.
Print Assumptions c61_served_elsewhere_refuted.
Print Assumptions c62_end_to_end.
