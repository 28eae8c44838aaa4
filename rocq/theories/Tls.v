(** What a server process makes of the configuration it received: TLS contexts
    (server.c:1464-1525, compat/libtls) and document roots (server.c:1527-1555);
    and which certificate libtls presents (compat/libtls/tls_server.c:82-142,
    tls_verify.c).

    Strings are lists of bytes.  X.509 parsing is left out: [cert_of] gives
    what libssl's accessors return for the bytes of a PEM file.  Memory
    allocation does not fail.  inet_pton(3) is a parameter. *)
From Verif Require Import Base Compat Conf Config Mime Fcgi Server.
Local Open Scope N_scope.

(** strchr(3): the string from the first [x] on *)
Fixpoint strchr (x : N) (s : list N) : option (list N) :=
  match s with [] => None | c :: r => if c =? x then Some s else strchr x r end.

(** compat/libtls/tls_verify.c:32-83 — [tls_match_name]: [true] is 0.  [s[1]] of
    a one-byte string is its NUL, hence [hd 0]. *)
Definition tls_match_name (cert_name name : list N) : bool :=
  if strcaseeq cert_name name then true else
  match cert_name with
  | 42 :: cert_domain =>
    match cert_domain with
    | 46 :: r =>
      if hd 0 r =? 46 then false else
      match strchr 46 r with
      | None => false
      | Some next_dot =>
        if hd 0 (tl next_dot) =? 46 then false else
        if hd 0 name =? 46 then false else
        match strchr 46 name with
        | None => false
        | Some domain => if (length domain =? 1)%nat then false else strcaseeq cert_domain domain
        end
      end
    | _ => false
    end
  | _ => false
  end.

(** a subjectAltName entry: dNSName (is it an IA5String; its bytes), iPAddress
    or another kind *)
Inductive altname := ADns (ia5 : bool) (data : list N) | AIp (data : list N) | AOther.
(** a certificate: its subjectAltName extension ([None]: it has none; [Some
    None]: it does not decode) and the commonName fields of its subject, in
    UTF-8 ([None]: does not convert) *)
Record cert := mkCert { x_alts : option (option (list altname)); x_cns : list (option (list N)) }.

Section Check.
(** inet_pton(3) for AF_INET and AF_INET6: the 4 or 16 bytes *)
Variable pton : list N -> option (list N).

(** compat/libtls/tls_verify.c:114-195 — the loop of [tls_check_subject_altname]:
    [None] is -1, else (alt_match, alt_exists) *)
Fixpoint check_alts (name : list N) (l : list altname) (seen : bool) : option (bool * bool) :=
  match l with
  | [] => Some (false, seen)
  | AOther :: r => check_alts name r seen
  | ADns ia5 data :: r =>
    match pton name with
    | Some _ => check_alts name r true
    | None =>
      if negb ia5 then check_alts name r true else
      if existsb (N.eqb 0) data then None else
      if leqb data [32] then None else
      if tls_match_name data name then Some (true, true) else check_alts name r true
    end
  | AIp data :: r =>
    match pton name with
    | None => check_alts name r true
    | Some a => if leqb data a then Some (true, true) else check_alts name r true
    end
  end.

(** compat/libtls/tls_verify.c:90-203 — [tls_check_subject_altname] *)
Definition tls_check_subject_altname (c : cert) (name : list N) : option (bool * bool) :=
  match x_alts c with
  | None => Some (false, false)
  | Some None => None
  | Some (Some l) => check_alts name l false
  end.

(** compat/libtls/tls_verify.c:205-306 — [tls_check_common_name]: [None] is -1 *)
Definition tls_check_common_name (c : cert) (name : list N) : option bool :=
  match x_cns c with
  | [] => Some false
  | [None] => None
  | [Some cn] =>
    if (length cn <? 1)%nat || (64 <? length cn)%nat then None else
    if existsb (N.eqb 0) cn then None else
    match pton name with
    | Some _ => Some (leqb cn name)
    | None => Some (tls_match_name cn name)
    end
  | _ => None
  end.

(** compat/libtls/tls_verify.c:308-332 — [tls_check_name]: [None] is -1 *)
Definition tls_check_name (c : cert) (name : list N) : option bool :=
  match tls_check_subject_altname c name with
  | None => None
  | Some (m, ex) => if m || ex then Some m else tls_check_common_name c name
  end.

(** ** Key pairs *)

(** compat/libtls/tls_internal.h [struct tls_keypair]; NULL is [None] *)
Record keypair := mkKp { kp_cert : option (list N); kp_key : option (list N); kp_ocsp : option (list N) }.
(** [struct tls_config]: the list of its key pairs (never empty), protocols,
    and whether private keys are fake *)
Record tlsconf := mkTls { t_kp : keypair; t_more : list keypair; t_protos : N; t_fake : bool }.

(** compat/libtls/tls_config.c:92-180 — [tls_config_new]: one empty key pair *)
Definition tls_config_new : tlsconf := mkTls (mkKp None None None) [] 24 false.

Variable cert_of : list N -> option cert.
(** tls_keypair.c:33-60 — [tls_keypair_pubkey_hash]: fails if the certificate
    cannot be loaded *)
Definition loads (c : option (list N)) : bool :=
  match c with None => true | Some d => match cert_of d with Some _ => true | None => false end end.

(** tls_config.c:641-655 — [tls_config_set_keypair_mem_internal] *)
Definition set_keypair (t : tlsconf) (c k o : option (list N)) : option tlsconf :=
  if loads c then
    Some (mkTls (mkKp c k (match o with None => kp_ocsp (t_kp t) | Some _ => o end)) (t_more t) (t_protos t) (t_fake t))
  else None.
(** tls_config.c:370-396 and 184-194 — [tls_config_add_keypair_mem_internal] *)
Definition add_keypair (t : tlsconf) (c k o : option (list N)) : option tlsconf :=
  if loads c then Some (mkTls (t_kp t) (t_more t ++ [mkKp c k o]) (t_protos t) (t_fake t)) else None.

(** server.c:93-102 — [match_addr]; [ad_ai] are the fields it compares *)
Definition match_addr (a b : addr) : bool := leqb (ad_ai a) (ad_ai b).

(** server.c:1464-1493 — [add_matching_kps], inner loop *)
Fixpoint kps_addrs (h : chost) (a : addr) (l : list addr) (st : tlsconf * bool) : option (tlsconf * bool) :=
  match l with
  | [] => Some st
  | va :: r =>
    if negb (match_addr a va) then kps_addrs h a r st else
    let '(t, any) := st in
    match (if any then add_keypair t (ch_cert h) (ch_key h) (ch_ocsp h)
           else set_keypair t (ch_cert h) (ch_key h) (ch_ocsp h)) with
    | None => None
    | Some t => kps_addrs h a r (t, true)
    end
  end.
(** the outer loop; [None]: fatalx *)
Fixpoint kps_hosts (hs : list chost) (a : addr) (st : tlsconf * bool) : option (tlsconf * bool) :=
  match hs with
  | [] => Some st
  | h :: r => match kps_addrs h a (ch_addrs h) st with None => None | Some st => kps_hosts r a st end
  end.
Definition add_matching_kps (t : tlsconf) (a : addr) (hs : list chost) : option tlsconf :=
  option_map fst (kps_hosts hs a (t, false)).

(** tls_configure: whether libssl accepts the configuration *)
Variable configures : tlsconf -> bool.

(** server.c:1496-1525 — [setup_tls]: the contexts, in the order of the
    addresses; [None]: fatal *)
Fixpoint setup_tls (privsep_crypto : bool) (protos : N) (hs : list chost) (l : list addr) : option (list (addr * tlsconf)) :=
  match l with
  | [] => Some []
  | a :: r =>
    let t := mkTls (mkKp None None None) [] protos privsep_crypto in
    match add_matching_kps t a hs with
    | None => None
    | Some t => if configures t then option_map (cons (a, t)) (setup_tls privsep_crypto protos hs r) else None
    end
  end.

(** ** Which key pair a client is shown *)

Inductive shown := Shown (k : keypair) | Alert (* fatal alert, no connection *).

(** compat/libtls/tls_server.c:119-130 — the additional key pairs, in order; a
    certificate that was loaded once loads again *)
Fixpoint sni_loop (name : list N) (l : list keypair) (dflt : keypair) : shown :=
  match l with
  | [] => Shown dflt
  | k :: r =>
    match (match kp_cert k with Some d => cert_of d | None => None end) with
    | None => Alert
    | Some c =>
      match tls_check_name c name with
      | None => Alert
      | Some true => Shown k
      | Some false => sni_loop name r dflt
      end
    end
  end.

(** compat/libtls/tls_server.c:82-142 — [tls_servername_cb]: the key pair and
    what tls_conn_servername(3) will say *)
Definition tls_servername_cb (t : tlsconf) (sni : option (list N)) : shown * option (list N) :=
  match sni with
  | None => (Shown (t_kp t), None)
  | Some name =>
    match pton name with
    | Some _ => (Shown (t_kp t), None)
    | None => (sni_loop name (t_more t) (t_kp t), Some name)
    end
  end.
End Check.

(** ** Document roots *)

Definition set_dirfd (fd : N) (l : location) : location :=
  mkLoc (l_match l) (l_lang l) (l_default_mime l) (l_index l) (l_auto_index l) (l_block_code l) (l_block_fmt l)
        (l_strip l) (l_reqca l) (l_disable_log l) (l_fcgi l) (l_nofcgi l) (l_fcgi_strip l) (l_params l) (l_dir l) (Some fd).

Section Load.
(** open(path, O_RDONLY|O_DIRECTORY) *)
Variable opendir : list N -> option N.
(** conf->chroot, when it is a configuration test (gmid -n) *)
Variable conftest_chroot : option (list N).

(** server.c:1536-1554 — one location of [load_vhosts]; [None]: fatal *)
Definition load_loc (l : location) : option location :=
  match l_dir l with
  | [] => Some l
  | d =>
    let p := match conftest_chroot with
             | Some ((_ :: _) as root) =>
               let s := root ++ [47] ++ d in if (PATH_MAX <=? length s)%nat then None else Some s
             | _ => Some d end in
    match p with
    | None => None
    | Some p => match opendir p with Some fd => Some (set_dirfd fd l) | None => None end
    end
  end.
Fixpoint map_opt {A B} (f : A -> option B) (l : list A) : option (list B) :=
  match l with
  | [] => Some []
  | x :: r => match f x with None => None | Some y => match map_opt f r with None => None | Some s => Some (y :: s) end end
  end.
Definition load_host (h : chost) : option chost :=
  match map_opt load_loc (ch_locs h) with
  | None => None
  | Some ls => Some (mkChost (ch_domain h) (ch_cert h) (ch_key h) (ch_ocsp h) (ch_addrs h) ls (ch_aliases h) (ch_proxies h))
  end.
(** server.c:1527-1555 — [load_vhosts] *)
Definition load_vhosts (hs : list chost) : option (list chost) := map_opt load_host hs.
End Load.

(** what the request path (Server.v) reads of a host; a host always has a
    location (parse.y:316-330), [None] otherwise *)
Definition host_of (h : chost) : option vhost :=
  match ch_locs h with
  | [] => None
  | l0 :: ls => Some (mkVhost (ch_domain h) (ch_aliases h) l0 ls (map cx (ch_proxies h)))
  end.

(** server.c:1594-1612 — [server_configure_done]: the mime table, the contexts
    and the roots; the result is what every connection then works with.
    [sortm] is qsort(3) on the table (C28). *)
Definition server_configure_done (cert_of : list N -> option cert) (configures : tlsconf -> bool)
  (opendir : list N -> option N) (chroot : option (list N)) (sortm : list etm -> list etm) (privsep_crypto : bool) (c : cconf) :
  option (list (addr * tlsconf) * conf) :=
  match load_default_mime (mkMime (cc_mime c) (Nat.max 16 (length (cc_mime c)))) with
  | OK (true, m) =>
    match setup_tls cert_of configures privsep_crypto (cc_protos c) (cc_hosts c) (cc_addrs c), load_vhosts opendir chroot (cc_hosts c) with
    | Some ctxs, Some hs =>
      match map_opt host_of hs with
      | Some vs => Some (ctxs, mkConf (sortm (m_t m)) (cc_fcgi c) vs)
      | None => None
      end
    | _, _ => None
    end
  | _ => None
  end.
