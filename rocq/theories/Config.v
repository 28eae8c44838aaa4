(** How the main process hands its configuration to the others (config.c,
    proc.c:755-848, crypto.c:47-232, gmid.c:445-469).

    An imsg is one constructor of [msg]; a struct sent by value is the record
    of what its receiver reads (pointers of the sender's address space, which
    the code clears in the copy it sends, are absent).  An attached descriptor
    is the contents of the file it was opened on: files do not change between
    open(2) and pread(2).  Channels deliver what was sent, in order (C32,
    C33).  calloc, dup, fstat do not fail; pread returns the whole file. *)
From Verif Require Import Base Conf.
Local Open Scope N_scope.

(** gmid.h:117-139 [struct address]: what getaddrinfo(3) said, the port, the
    printed address, and whether to expect the PROXY protocol *)
Record addr := mkAddr { ad_ai : list N; ad_port : Z; ad_proxy : bool; ad_pp : list N }.

(** gmid.h:169-190 [struct proxy] as parsed: [px] are the fields of Conf.proxy
    (its p_reqca unused), the others and the three paths *)
Record pproxy := mkPproxy { px : proxy; px_sni : list N; px_protos : N; px_noverify : bool;
  px_cert : option (list N); px_key : option (list N); px_ca : option (list N) }.
(** gmid.h:193-215 [struct location] as parsed ([pl]: l_reqca, l_dirfd unused)
    and the path of the CA *)
Record ploc := mkPloc { pl : location; pl_ca : option (list N) }.
(** gmid.h:218-246 [struct vhost] as parsed *)
Record phost := mkPhost { ph_domain : list N; ph_cert : list N; ph_key : list N; ph_ocsp : option (list N);
  ph_addrs : list addr; ph_locs : list ploc; ph_aliases : list (list N); ph_proxies : list pproxy }.
(** gmid.h:267-288 [struct conf] in the main process, lists in queue order *)
Record pconf := mkPconf { pc_logfmt : N; pc_mime : list etm; pc_protos : N; pc_addrs : list addr;
  pc_fcgi : list fcgi; pc_hosts : list phost; pc_privsep_crypto : bool }.

(** what server processes make of them: loaded files instead of paths *)
Record cproxy := mkCproxy { cx : proxy; cx_sni : list N; cx_protos : N; cx_noverify : bool;
  cx_cert : option (list N); cx_key : option (list N) }.
Record chost := mkChost { ch_domain : list N; ch_cert : option (list N); ch_key : option (list N);
  ch_ocsp : option (list N); ch_addrs : list addr; ch_locs : list location; ch_aliases : list (list N);
  ch_proxies : list cproxy }.
(** crypto.c, gmid.h:260-265 [struct pki]: hash and key *)
Record pki := mkPki { pk_hash : list N; pk_key : option N }.
Record cconf := mkCconf { cc_logfmt : N; cc_mime : list etm; cc_protos : N; cc_addrs : list addr;
  cc_fcgi : list fcgi; cc_hosts : list chost; cc_pkis : list pki }.

(** gmid.h:76-99 [enum imsg_type], the RECONF messages *)
Inductive msg :=
| MStart | MLogFmt (f : N) | MMime (e : etm) | MProtos (p : N) | MSock (a : addr) | MFcgi (f : fcgi)
| MHost (domain : list N) | MCert (file : list N) | MKey (file : list N) | MOcsp (file : list N)
| MHostAddr (a : addr) | MLoc (l : location) (ca : option (list N)) | MEnv (e : list N * list N)
| MAlias (a : list N) | MProxy (p : proxy) (sni : list N) (protos : N) (noverify : bool) (ca : option (list N))
| MProxyCert (file : list N) | MProxyKey (file : list N) | MEnd.

Inductive target := TServer | TCrypto.

(** what the main process does, one step at a time; each may fail *)
Inductive act :=
| ASend (t : target) (n : nat) (m : msg)       (* compose a message for instance n *)
| AFlush (t : target)                          (* proc_flush_imsg *)
| AOpen (path : list N).                       (* open(path, O_RDONLY), fatal if -1 *)

Section Send.
(** the files, [None] if open(2) fails *)
Variable fs : list N -> option (list N).
(** the address families this kernel has (config.c:250-256); bind and listen succeed *)
Variable supported : addr -> bool.
(** number of server processes; there is one crypto process *)
Variable prefork : nat.

Definition instances (t : target) : nat := match t with TServer => prefork | TCrypto => 1%nat end.
Definition contents (path : list N) : list N := match fs path with Some c => c | None => [] end.

(** proc.c:767-788 — [proc_compose]: one message per instance *)
Definition compose (t : target) (m : msg) : list act := map (fun n => ASend t n m) (seq 0 (instances t)).

(** config.c:164-192 — [config_send_file] *)
Definition config_send_file (t : target) (m : msg) : list act := compose t m ++ [AFlush t].

(** config.c:194-206 — [config_open_send] *)
Definition config_open_send (t : target) (m : list N -> msg) (path : list N) : list act :=
  AOpen path :: config_send_file t (m (contents path)).

(** config.c:208-236 — [config_send_kp] *)
Definition config_send_kp (privsep_crypto : bool) (cert key : list N) : list act :=
  AOpen cert :: config_send_file TServer (MCert (contents cert)) ++
  (if privsep_crypto then config_send_file TCrypto (MCert (contents cert)) else []) ++
  config_open_send (if privsep_crypto then TCrypto else TServer) MKey key.

(** config.c:238-283 — [config_send_socks] *)
Definition config_send_socks (l : list addr) : list act :=
  flat_map (fun a => if supported a then config_send_file TServer (MSock a) else []) l.

Definition open_opt (p : option (list N)) : list act := match p with Some path => [AOpen path] | None => [] end.
Definition file_opt (p : option (list N)) : option (list N) := match p with Some path => Some (contents path) | None => None end.

(** config.c:344-356 — the copy of a location that is sent: no CA, no directory;
    its params are a pointer the receiver ignores *)
Definition lcopy (l : location) : location :=
  mkLoc (l_match l) (l_lang l) (l_default_mime l) (l_index l) (l_auto_index l) (l_block_code l) (l_block_fmt l)
        (l_strip l) None (l_disable_log l) (l_fcgi l) (l_nofcgi l) (l_fcgi_strip l) [] (l_dir l) None.
Definition pcopy (p : proxy) : proxy :=
  mkProxy (p_match_proto p) (p_match_host p) (p_match_port p) (p_host p) (p_port p) (p_notls p) (p_proxy p) None.

(** config.c:344-372 *)
Definition send_loc (l : ploc) : list act :=
  open_opt (pl_ca l) ++ config_send_file TServer (MLoc (lcopy (pl l)) (file_opt (pl_ca l))) ++
  flat_map (fun e => compose TServer (MEnv e)) (l_params (pl l)).

(** config.c:387-425 *)
Definition send_proxy (p : pproxy) : list act :=
  open_opt (px_ca p) ++
  config_send_file TServer (MProxy (pcopy (px p)) (px_sni p) (px_protos p) (px_noverify p) (file_opt (px_ca p))) ++
  match px_cert p, px_key p with
  | Some c, Some k => config_open_send TServer MProxyCert c ++ config_open_send TServer MProxyKey k
  | _, _ => []
  end.

(** config.c:317-427 *)
Definition send_host (privsep_crypto : bool) (h : phost) : list act :=
  compose TServer (MHost (ph_domain h)) ++
  config_send_kp privsep_crypto (ph_cert h) (ph_key h) ++
  match ph_ocsp h with Some o => config_open_send TServer MOcsp o | None => [] end ++
  flat_map (fun a => compose TServer (MHostAddr a)) (ph_addrs h) ++ [AFlush TServer] ++
  flat_map send_loc (ph_locs h) ++ [AFlush TServer] ++
  flat_map (fun a => compose TServer (MAlias a)) (ph_aliases h) ++ [AFlush TServer] ++
  flat_map send_proxy (ph_proxies h).

(** config.c:285-438 — [config_send] *)
Definition config_send (c : pconf) : list act :=
  compose TServer (MLogFmt (pc_logfmt c)) ++
  flat_map (fun e => compose TServer (MMime e)) (pc_mime c) ++
  compose TServer (MProtos (pc_protos c)) ++
  config_send_socks (pc_addrs c) ++
  flat_map (fun f => compose TServer (MFcgi f)) (pc_fcgi c) ++
  flat_map (send_host (pc_privsep_crypto c)) (pc_hosts c).

(** gmid.c:445-469 — [main_configure], without the logger *)
Definition main_configure (c : pconf) : list act :=
  compose TServer MStart ++ compose TCrypto MStart ++ config_send c ++ compose TServer MEnd ++ compose TCrypto MEnd.

Inductive outcome := Done | Gave_up (* returned -1 *) | Exited (* fatal *).

(** the steps taken until one fails: an open fails when the file is missing, the
    others as the environment decides ([ok i] for the i-th step) *)
Fixpoint perform (ok : nat -> bool) (i : nat) (l : list act) : list (target * nat * msg) * outcome :=
  match l with
  | [] => ([], Done)
  | AOpen p :: r => match fs p with Some _ => perform ok (S i) r | None => ([], Exited) end
  | AFlush _ :: r => if ok i then perform ok (S i) r else ([], Gave_up)
  | ASend t n m :: r => if ok i then let '(ms, o) := perform ok (S i) r in ((t, n, m) :: ms, o) else ([], Gave_up)
  end.
End Send.

(** what one process is sent *)
Definition sent_to (t : target) (n : nat) (ms : list (target * nat * msg)) : list msg :=
  flat_map (fun x => match x with (t', n', m) =>
    if (match t, t' with TServer, TServer | TCrypto, TCrypto => true | _, _ => false end) && Nat.eqb n n' then [m] else [] end) ms.

(** ** The receiving side *)

(** a pointer into the configuration: NULL, to the last element, or to freed memory *)
Inductive ptr := PNull | PLast | PDangling.

(** [conf] and the static variables of config_recv and config_crypto_recv_kp;
    [k_acks] counts the IMSG_RECONF_DONE sent *)
Record child := mkChild { k_conf : cconf; k_h : ptr; k_l : ptr; k_p : ptr; k_pki : ptr; k_acks : nat }.

Inductive took := Took (s : child) | Died (* fatal, or refused by config_recv, which is fatal in proc_dispatch *) | Undef.

Fixpoint upd_last {A} (f : A -> A) (l : list A) : list A :=
  match l with [] => [] | [x] => [f x] | x :: r => x :: upd_last f r end.
Fixpoint last_of {A} (l : list A) : option A :=
  match l with [] => None | [x] => Some x | _ :: r => last_of r end.

Definition free (p : ptr) : ptr := match p with PNull => PNull | _ => PDangling end.

Section Recv.
(** load_ca, ssl_pubkey_hash and ssl_load_pkey (utils.c): what they make of a file *)
Variable load_ca : list N -> option N.
Variable pubkey_hash : list N -> option (list N).
Variable load_pkey : list N -> option N.

(** config.c:58-162 — [config_purge]: TLSv1.2 and 1.3 (1<<3 | 1<<4) *)
Definition config_purge (c : cconf) : cconf := mkCconf (cc_logfmt c) [] 24 [] [] [] [].

Definition set_hosts (c : cconf) (h : list chost) : cconf :=
  mkCconf (cc_logfmt c) (cc_mime c) (cc_protos c) (cc_addrs c) (cc_fcgi c) h (cc_pkis c).
Definition with_conf (s : child) (c : cconf) : child := mkChild c (k_h s) (k_l s) (k_p s) (k_pki s) (k_acks s).
(** the host [h] points to is the last one *)
Definition in_host (s : child) (f : chost -> chost) : took :=
  match k_h s with
  | PNull => Died
  | PDangling => Undef
  | PLast => Took (with_conf s (set_hosts (k_conf s) (upd_last f (cc_hosts (k_conf s)))))
  end.
Definition cur_host (s : child) : option chost := last_of (cc_hosts (k_conf s)).
Definition get_host (s : child) {A} (f : chost -> option A) : option A := match cur_host s with Some h => f h | None => None end.

Definition set_cert (d : list N) (h : chost) := mkChost (ch_domain h) (Some d) (ch_key h) (ch_ocsp h) (ch_addrs h) (ch_locs h) (ch_aliases h) (ch_proxies h).
Definition set_key (d : list N) (h : chost) := mkChost (ch_domain h) (ch_cert h) (Some d) (ch_ocsp h) (ch_addrs h) (ch_locs h) (ch_aliases h) (ch_proxies h).
Definition set_ocsp (d : list N) (h : chost) := mkChost (ch_domain h) (ch_cert h) (ch_key h) (Some d) (ch_addrs h) (ch_locs h) (ch_aliases h) (ch_proxies h).
Definition add_addr (a : addr) (h : chost) := mkChost (ch_domain h) (ch_cert h) (ch_key h) (ch_ocsp h) (ch_addrs h ++ [a]) (ch_locs h) (ch_aliases h) (ch_proxies h).
Definition set_locs (f : list location -> list location) (h : chost) := mkChost (ch_domain h) (ch_cert h) (ch_key h) (ch_ocsp h) (ch_addrs h) (f (ch_locs h)) (ch_aliases h) (ch_proxies h).
Definition add_alias (a : list N) (h : chost) := mkChost (ch_domain h) (ch_cert h) (ch_key h) (ch_ocsp h) (ch_addrs h) (ch_locs h) (ch_aliases h ++ [a]) (ch_proxies h).
Definition set_proxies (f : list cproxy -> list cproxy) (h : chost) := mkChost (ch_domain h) (ch_cert h) (ch_key h) (ch_ocsp h) (ch_addrs h) (ch_locs h) (ch_aliases h) (f (ch_proxies h)).

Definition with_ca (l : location) (ca : option N) : location :=
  mkLoc (l_match l) (l_lang l) (l_default_mime l) (l_index l) (l_auto_index l) (l_block_code l) (l_block_fmt l)
        (l_strip l) ca (l_disable_log l) (l_fcgi l) (l_nofcgi l) (l_fcgi_strip l) [] (l_dir l) (l_dirfd l).
Definition add_env (e : list N * list N) (l : location) : location :=
  mkLoc (l_match l) (l_lang l) (l_default_mime l) (l_index l) (l_auto_index l) (l_block_code l) (l_block_fmt l)
        (l_strip l) (l_reqca l) (l_disable_log l) (l_fcgi l) (l_nofcgi l) (l_fcgi_strip l) (l_params l ++ [e]) (l_dir l) (l_dirfd l).
Definition with_pca (p : proxy) (ca : option N) : proxy :=
  mkProxy (p_match_proto p) (p_match_host p) (p_match_port p) (p_host p) (p_port p) (p_notls p) (p_proxy p) ca.
Definition set_pcert (d : list N) (p : cproxy) := mkCproxy (cx p) (cx_sni p) (cx_protos p) (cx_noverify p) (Some d) (cx_key p).
Definition set_pkey (d : list N) (p : cproxy) := mkCproxy (cx p) (cx_sni p) (cx_protos p) (cx_noverify p) (cx_cert p) (Some d).

(** the CA of a message: [None] if load_ca fails (fatal) *)
Definition ca_of (f : option (list N)) : option (option N) :=
  match f with None => Some None | Some d => match load_ca d with Some x => Some (Some x) | None => None end end.

(** config.c:471-515 — [config_crypto_recv_kp] *)
Definition crypto_recv_kp (m : msg) (s : child) : took :=
  let c := k_conf s in
  let put l p := Took (mkChild (mkCconf (cc_logfmt c) (cc_mime c) (cc_protos c) (cc_addrs c) (cc_fcgi c) (cc_hosts c) l) (k_h s) (k_l s) (k_p s) p (k_acks s)) in
  match m with
  | MCert d =>
    match k_pki s with
    | PNull => match pubkey_hash d with None => Died | Some h => put (cc_pkis c ++ [mkPki h None]) PLast end
    | _ => Died
    end
  | MKey d =>
    match k_pki s with
    | PNull => Died
    | PDangling => Undef
    | PLast => match load_pkey d with
               | None => Died
               | Some k => put (upd_last (fun x => mkPki (pk_hash x) (Some k)) (cc_pkis c)) PNull
               end
    end
  | _ => Died
  end.

(** config.c:517-752 — [config_recv]; [crypto] says which process this is
    (privsep_process == PROC_CRYPTO).  crypto.c:70-95 [crypto_dispatch_parent]
    passes on only START, CERT, KEY and END *)
Definition config_recv (crypto : bool) (m : msg) (s : child) : took :=
  let c := k_conf s in
  match m with
  | MStart => Took (mkChild (config_purge c) PNull (free (k_l s)) PNull (free (k_pki s)) (k_acks s))
  | MEnd => Took (mkChild c (k_h s) (k_l s) (k_p s) (k_pki s) (S (k_acks s)))
  | MCert d =>
    if crypto then crypto_recv_kp m s else
    match k_h s with
    | PLast => match get_host s ch_cert with Some _ => Died | None => in_host s (set_cert d) end
    | _ => in_host s (set_cert d)
    end
  | MKey d =>
    if crypto then crypto_recv_kp m s else
    match k_h s with
    | PLast => match get_host s ch_key with Some _ => Died | None => in_host s (set_key d) end
    | _ => in_host s (set_key d)
    end
  | _ =>
    if crypto then Died else
    match m with
    | MLogFmt f => Took (with_conf s (mkCconf f (cc_mime c) (cc_protos c) (cc_addrs c) (cc_fcgi c) (cc_hosts c) (cc_pkis c)))
    | MMime e => Took (with_conf s (mkCconf (cc_logfmt c) (cc_mime c ++ [e]) (cc_protos c) (cc_addrs c) (cc_fcgi c) (cc_hosts c) (cc_pkis c)))
    | MProtos p => Took (with_conf s (mkCconf (cc_logfmt c) (cc_mime c) p (cc_addrs c) (cc_fcgi c) (cc_hosts c) (cc_pkis c)))
    | MSock a => Took (with_conf s (mkCconf (cc_logfmt c) (cc_mime c) (cc_protos c) (a :: cc_addrs c) (cc_fcgi c) (cc_hosts c) (cc_pkis c)))
    | MFcgi f => Took (with_conf s (mkCconf (cc_logfmt c) (cc_mime c) (cc_protos c) (cc_addrs c) (cc_fcgi c ++ [f]) (cc_hosts c) (cc_pkis c)))
    | MHost d => Took (mkChild (set_hosts c (cc_hosts c ++ [mkChost d None None None [] [] [] []])) PLast PNull PNull (k_pki s) (k_acks s))
    | MOcsp d =>
      match k_h s with
      | PLast => match get_host s ch_ocsp with Some _ => Died | None => in_host s (set_ocsp d) end
      | _ => in_host s (set_ocsp d)
      end
    | MHostAddr a => in_host s (add_addr a)
    | MLoc l ca =>
      match ca_of ca with
      | None => Died
      | Some st => match in_host s (set_locs (fun ls => ls ++ [with_ca l st])) with
                   | Took s' => Took (mkChild (k_conf s') (k_h s') PLast (k_p s') (k_pki s') (k_acks s'))
                   | r => r
                   end
      end
    | MEnv e =>
      match k_l s with
      | PNull => Died
      | PDangling => Undef
      | PLast => in_host s (set_locs (upd_last (add_env e)))
      end
    | MAlias a => in_host s (add_alias a)
    | MProxy p sni protos nv ca =>
      match ca_of ca with
      | None => Died
      | Some st => match in_host s (set_proxies (fun ps => ps ++ [mkCproxy (with_pca p st) sni protos nv None None])) with
                   | Took s' => Took (mkChild (k_conf s') (k_h s') (k_l s') PLast (k_pki s') (k_acks s'))
                   | r => r
                   end
      end
    | MProxyCert d =>
      match k_p s with
      | PNull => Died
      | PDangling => Undef
      | PLast => match get_host s (fun h => match last_of (ch_proxies h) with Some x => cx_cert x | None => None end) with
                 | Some _ => Died
                 | None => in_host s (set_proxies (upd_last (set_pcert d)))
                 end
      end
    | MProxyKey d =>
      match k_p s with
      | PNull => Died
      | PDangling => Undef
      | PLast => match get_host s (fun h => match last_of (ch_proxies h) with Some x => cx_key x | None => None end) with
                 | Some _ => Died
                 | None => in_host s (set_proxies (upd_last (set_pkey d)))
                 end
      end
    | _ => Died
    end
  end.

(** all the messages, in order *)
Fixpoint recv_all (crypto : bool) (ms : list msg) (s : child) : took :=
  match ms with
  | [] => Took s
  | m :: r => match config_recv crypto m s with Took s' => recv_all crypto r s' | x => x end
  end.
End Recv.
