(** What the rest of gmid takes for granted about a configuration: everything fits
    where it is stored, and nothing that is needed is missing. *)
From Verif Require Import Base Conf Config Mime Parse UpTls Gram GramSpec.
Local Open Scope N_scope.

(** a path that may be given: then it is absolute *)
Definition opt_path (p : option (list N)) : Prop := match p with Some s => abs_path s | None => True end.

(** a location: its strings fit, `block return' has a code and a text fmtbuf
    understands, its application ([n] of them) exists; the certificates of its CA are
    not loaded yet and no directory is open *)
Definition loc_fine (n : nat) (l : ploc) : Prop :=
  shorter 128 (l_match (pl l)) /\ shorter 32 (l_lang (pl l)) /\ shorter 128 (l_default_mime (pl l)) /\
  shorter 4096 (l_index (pl l)) /\ shorter 4096 (l_dir (pl l)) /\
  (l_block_code (pl l) = 0 \/
   (10 <= l_block_code (pl l) <= 19 \/ 30 <= l_block_code (pl l) <= 69) /\ fmt_text (l_block_fmt (pl l)) /\ shorter 1027 (l_block_fmt (pl l))) /\
  Forall (fun p => shorter 511 (fst p) /\ shorter 511 (snd p)) (l_params (pl l)) /\
  (forall i, l_fcgi (pl l) = Some i -> (i < n)%nat) /\
  opt_path (pl_ca l) /\ l_reqca (pl l) = None /\ l_dirfd (pl l) = None.

(** a proxy: it says where to relay to, and has a certificate and a key or none *)
Definition proxy_fine (p : pproxy) : Prop :=
  shorter 32 (p_match_proto (px p)) /\ shorter 256 (p_match_host (px p)) /\
  p_host (px p) <> [] /\ shorter 256 (p_host (px p)) /\ shorter 255 (px_sni p) /\
  (px_cert p = None <-> px_key p = None) /\ opt_path (px_cert p) /\ opt_path (px_key p) /\ opt_path (px_ca p) /\ p_reqca (px p) = None.

(** a server: it has a name that fits, a certificate and a key, an address, none
    twice; each of its addresses is among those of the daemon ([al]), in the same mode; the first
    location is for everything *)
Definition host_fine (n : nat) (al : list address) (h : vh) : Prop :=
  shorter 256 (vh_domain h) /\ Forall (shorter 256) (vh_aliases h) /\
  (exists c, vh_cert h = Some c /\ abs_path c) /\ (exists k, vh_key h = Some k /\ abs_path k) /\ opt_path (vh_ocsp h) /\
  vh_addrs h <> [] /\ (NoDup (map a_ai (vh_addrs h)) /\ forall a, In a (vh_addrs h) -> exists b, In b al /\ a_ai b = a_ai a /\ a_proxy b = a_proxy a) /\
  (exists l0 r, vh_locs h = l0 :: r /\ l_match (pl l0) = s2b "*") /\ Forall (loc_fine n) (vh_locs h) /\
  Forall proxy_fine (vh_proxies h).

(** the addresses: each once, of the Internet *)
Definition addrs_fine (al : list address) : Prop :=
  NoDup (map a_ai al) /\ Forall (fun a => (i_family (a_ai a) = 2 \/ i_family (a_ai a) = 10) /\ (length (i_sa (a_ai a)) <= 128)%nat /\ shorter 1025 (a_pp a)) al.

Definition well_formed (c : core) : Prop :=
  shorter 4096 (g_chroot c) /\ shorter 256 (g_user c) /\ (1 <= g_prefork c <= 15)%Z /\ g_style c <= 3 /\
  (exists n, In n facility_names /\ g_facility c = s2b n) /\
  Forall (fun e => shorter 128 (fst e) /\ shorter 128 (snd e)) (m_t (g_mime c)) /\
  Forall (fun f => shorter 4096 (f_path f) /\ shorter 32 (f_port f)) (g_fcgi c) /\
  addrs_fine (g_addrs c) /\ Forall (host_fine (length (g_fcgi c)) (g_addrs c)) (g_hosts c).
