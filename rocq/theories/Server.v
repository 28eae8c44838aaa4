(** Model of one client connection: server.c from the TLS handshake to
    client_close, with the callbacks of fcgi.c and proxy.c.  The state is what
    the callbacks read and write of [struct client] (gmid.h:318-375); events
    are the calls libevent makes.  [UB] is undefined behaviour, including any
    use of the client after it has been freed.

    Simplifications: memory allocation does not fail; the two libevent flavours
    are modelled by the one in which adding to the output buffer schedules the
    write event; descriptors are named by what they refer to; FastCGI and
    upstream sockets accept all that is written to them; the PROXY protocol
    header sent upstream is left out (see ProxyProto.v). *)
From Verif Require Import Base Compat Iri IriSpec IriObs IriOut Puny Conf Mime Fmt Fcgi.
Local Open Scope N_scope.

(** gmid.h:286-293 *)
Inductive rtype := UNDECIDED | RFILE | RDIR | RFCGI | RPROXY | DONE.

(** what openat(2) finds: nothing, something fstat(2) fails on, a file (with its
    contents; [reg] is S_ISREG), a directory in which to look for the index and
    whose entries (name, is a directory) readdir(3) gives, if readable *)
Inductive node :=
| NMissing
| NBad
| NFile (reg : bool) (content : list N)
| NDir (lookup : list N -> node) (entries : option (list (list N * bool))).

(** what [c->pfd] refers to *)
Inductive pfd := PNone | PFile (rest : list N) | PDir | PConn (i : nat) | PUp.

(** one line of the access log, and the effects an observer sees *)
Inductive action :=
| AReply (code : N) (meta : list N)   (* header queued *)
| ALog (code : N) (meta : list N)     (* request logged *)
| AOpen (dir : N) (path : list N)     (* openat(dir, path) *)
| AFcgi (i : nat) (bytes : list N)    (* FastCGI application i is sent bytes *)
| AUp (p : proxy) (bytes : list N)    (* upstream p is sent bytes *)
| AVerify (ca : N).                   (* certificate checked against ca *)

(** a FastCGI connection: input buffer, descriptor still open *)
Record conn := mkConn { k_in : list N; k_open : bool }.

Record client := mkCl {
  c_hs : bool;                 (* handshake done: c->bev exists *)
  c_closed : bool;             (* client_close was called: freed *)
  c_type : rtype; c_code : N;
  c_in : list N;               (* EVBUFFER_INPUT(c->bev) *)
  c_out : list N;              (* EVBUFFER_OUTPUT(c->bev) *)
  c_sent : list N;             (* bytes accepted by tls_write *)
  c_wev : bool;                (* c->bev->ev_write is pending *)
  c_iri : option comps;        (* c->iri, None while zeroed *)
  c_domain : list N; c_vhost : option vhost;
  c_pfd : pfd; c_dir : list (list N * bool);
  c_sbuf : list N;             (* c->sbuf up to c->soff *)
  c_cgibev : option nat; c_conns : list conn;
  c_pxy : option proxy;        (* c->proxy *)
  c_up : option (list N);      (* input of c->proxybev *)
  c_acts : list action }.

(** the world: configuration, libc and library answers *)
Record env := mkEnv {
  e_conf : conf;
  e_fnm : list N -> list N -> bool;               (* fnmatch(3) = 0 *)
  e_ip6 : list N -> bool;                         (* getaddrinfo on an IPv6 literal *)
  e_cert : option peer;                           (* client certificate *)
  e_valid : N -> bool;                            (* chain verifies against the CA *)
  e_port : N; e_pp : list N;                      (* c->addr: port, printed address *)
  e_rhost : list N; e_version : list N;
  e_fcgi : nat -> bool;                           (* connecting to the application succeeds *)
  e_upstream : proxy -> bool;                     (* connecting upstream succeeds *)
  e_uptls : proxy -> bool;                        (* proxy_setup_tls succeeds *)
  e_sort : list (list N * bool) -> list (list N * bool);   (* qsort(3) with alphasort *)
  e_junk : list N                                 (* uninitialised stack buffer *)
}.

Definition path_of (c : client) : option (list N) := option_map c_path (c_iri c).

(** state updates *)
Definition set_type (t : rtype) (c : client) : client :=
  mkCl (c_hs c) (c_closed c) t (c_code c) (c_in c) (c_out c) (c_sent c) (c_wev c) (c_iri c) (c_domain c) (c_vhost c)
    (c_pfd c) (c_dir c) (c_sbuf c) (c_cgibev c) (c_conns c) (c_pxy c) (c_up c) (c_acts c).
Definition set_code (x : N) (c : client) : client :=
  mkCl (c_hs c) (c_closed c) (c_type c) x (c_in c) (c_out c) (c_sent c) (c_wev c) (c_iri c) (c_domain c) (c_vhost c)
    (c_pfd c) (c_dir c) (c_sbuf c) (c_cgibev c) (c_conns c) (c_pxy c) (c_up c) (c_acts c).
Definition set_in (x : list N) (c : client) : client :=
  mkCl (c_hs c) (c_closed c) (c_type c) (c_code c) x (c_out c) (c_sent c) (c_wev c) (c_iri c) (c_domain c) (c_vhost c)
    (c_pfd c) (c_dir c) (c_sbuf c) (c_cgibev c) (c_conns c) (c_pxy c) (c_up c) (c_acts c).
Definition set_io (out sent : list N) (w : bool) (c : client) : client :=
  mkCl (c_hs c) (c_closed c) (c_type c) (c_code c) (c_in c) out sent w (c_iri c) (c_domain c) (c_vhost c)
    (c_pfd c) (c_dir c) (c_sbuf c) (c_cgibev c) (c_conns c) (c_pxy c) (c_up c) (c_acts c).
Definition set_iri (x : option comps) (c : client) : client :=
  mkCl (c_hs c) (c_closed c) (c_type c) (c_code c) (c_in c) (c_out c) (c_sent c) (c_wev c) x (c_domain c) (c_vhost c)
    (c_pfd c) (c_dir c) (c_sbuf c) (c_cgibev c) (c_conns c) (c_pxy c) (c_up c) (c_acts c).
Definition set_host (d : list N) (h : option vhost) (c : client) : client :=
  mkCl true (c_closed c) (c_type c) (c_code c) (c_in c) (c_out c) (c_sent c) (c_wev c) (c_iri c) d h
    (c_pfd c) (c_dir c) (c_sbuf c) (c_cgibev c) (c_conns c) (c_pxy c) (c_up c) (c_acts c).
Definition set_pfd (x : pfd) (c : client) : client :=
  mkCl (c_hs c) (c_closed c) (c_type c) (c_code c) (c_in c) (c_out c) (c_sent c) (c_wev c) (c_iri c) (c_domain c) (c_vhost c)
    x (c_dir c) (c_sbuf c) (c_cgibev c) (c_conns c) (c_pxy c) (c_up c) (c_acts c).
Definition set_dir (x : list (list N * bool)) (c : client) : client :=
  mkCl (c_hs c) (c_closed c) (c_type c) (c_code c) (c_in c) (c_out c) (c_sent c) (c_wev c) (c_iri c) (c_domain c) (c_vhost c)
    (c_pfd c) x (c_sbuf c) (c_cgibev c) (c_conns c) (c_pxy c) (c_up c) (c_acts c).
Definition set_sbuf (x : list N) (c : client) : client :=
  mkCl (c_hs c) (c_closed c) (c_type c) (c_code c) (c_in c) (c_out c) (c_sent c) (c_wev c) (c_iri c) (c_domain c) (c_vhost c)
    (c_pfd c) (c_dir c) x (c_cgibev c) (c_conns c) (c_pxy c) (c_up c) (c_acts c).
Definition set_cgi (x : option nat) (k : list conn) (c : client) : client :=
  mkCl (c_hs c) (c_closed c) (c_type c) (c_code c) (c_in c) (c_out c) (c_sent c) (c_wev c) (c_iri c) (c_domain c) (c_vhost c)
    (c_pfd c) (c_dir c) (c_sbuf c) x k (c_pxy c) (c_up c) (c_acts c).
Definition set_up (p : option proxy) (x : option (list N)) (c : client) : client :=
  mkCl (c_hs c) (c_closed c) (c_type c) (c_code c) (c_in c) (c_out c) (c_sent c) (c_wev c) (c_iri c) (c_domain c) (c_vhost c)
    (c_pfd c) (c_dir c) (c_sbuf c) (c_cgibev c) (c_conns c) p x (c_acts c).
Definition set_closed (c : client) : client :=
  mkCl (c_hs c) true (c_type c) (c_code c) (c_in c) (c_out c) (c_sent c) false (c_iri c) (c_domain c) (c_vhost c)
    (c_pfd c) (c_dir c) (c_sbuf c) (c_cgibev c) (c_conns c) (c_pxy c) None (c_acts c).
Definition act (a : action) (c : client) : client :=
  mkCl (c_hs c) (c_closed c) (c_type c) (c_code c) (c_in c) (c_out c) (c_sent c) (c_wev c) (c_iri c) (c_domain c) (c_vhost c)
    (c_pfd c) (c_dir c) (c_sbuf c) (c_cgibev c) (c_conns c) (c_pxy c) (c_up c) (c_acts c ++ [a]).

(** adding to the output buffer: schedules the write event when not empty *)
Definition add_out (s : list N) (c : client) : client :=
  match s with [] => c | _ => set_io (c_out c ++ s) (c_sent c) true c end.

(** a new connection (server.c:1404-1456 [server_accept]: calloc) *)
Definition fresh : client :=
  mkCl false false UNDECIDED 0 [] [] [] false None [] None PNone [] [] None [] None None [].

(** server.c:1153-1205 — [start_reply]; the boolean is "did not return -1".
    [evbuffer_drain] on overflow empties the output buffer. *)
Definition is_relayed (t : rtype) : bool := match t with RFCGI => true | RPROXY => true | _ => false end.

Definition emit (E : env) (code : N) (meta header : list N) (c : client) : client :=
  let c := act (AReply code meta) (add_out (header ++ [13; 10]) (set_code code c)) in
  let c := if vhost_disable_log (e_fnm E) (c_vhost c) (path_of c) then c else act (ALog code meta) c in
  if code =? 20 then c else set_type DONE c.

Definition header_line (E : env) (c : client) (code : N) (meta : list N) : list N * list N :=
  let h := dec code ++ [32] ++ meta in
  let l := if negb (is_relayed (c_type c)) && leqb meta (s2b "text/gemini") then
             match vhost_lang (e_fnm E) (c_vhost c) (path_of c) with
             | Some l => s2b ";lang=" ++ l | None => [] end
           else [] in
  (h, l).

Definition start_reply (E : env) (code : N) (meta : list N) (c : client) : client * bool :=
  let '(h, l) := header_line E c code meta in
  if (1027 <? length h)%nat || (1027 <? length h + length l)%nat then
    (emit E 40 (s2b "internal error") (s2b "40 internal error") (set_io [] (c_sent c) (c_wev c) c), false)
  else (emit E code meta (h ++ l) c, true).

Definition reply (E : env) (code : N) (meta : list N) (c : client) : client := fst (start_reply E code meta c).

(** evbuffer_readln(3), EVBUFFER_EOL_CRLF_STRICT: the first line, without its
    CRLF, and the rest *)
Fixpoint readln (s : list N) : option (list N * list N) :=
  match s with
  | a :: r =>
    match r with
    | b :: r' =>
      if (a =? 13) && (b =? 10) then Some ([], r')
      else match readln r with Some (l, t) => Some (a :: l, t) | None => None end
    | [] => None
    end
  | [] => None
  end.

(** server.c:526-544 — [check_matching_certificate]: [None] when it returned 0 *)
Definition check_matching_certificate (E : env) (ca : N) (c : client) : client + client :=
  match e_cert E with
  | None => inl (reply E 60 (s2b "client certificate required") c)
  | Some _ =>
    let c := act (AVerify ca) c in
    if e_valid E ca then inr c else inl (reply E 61 (s2b "certificate not authorised") c)
  end.

(** proxy.c:228-262 — [proxy_enqueue_req], without the PROXY protocol header *)
Definition proxy_enqueue_req (E : env) (p : proxy) (i : comps) (c : client) : res client :=
  let* line := proxy_request_line i (e_junk E) in
  OK (act (AUp p line) (set_up (Some p) (Some []) c)).

(** server.c:616-642 — [apply_reverse_proxy], with proxy.c:382-396
    [proxy_init]; [None] when it returned 0 *)
Definition apply_reverse_proxy (E : env) (v : vhost) (i : comps) (c : client) : res (option client) :=
  match matched_proxy (e_fnm E) (v_proxies v) (c_scheme i) (c_domain c) (c_port i) with
  | None => OK None
  | Some p =>
    let c := set_up (Some p) (c_up c) c in
    match (match p_reqca p with Some ca => check_matching_certificate E ca c | None => inr c end) with
    | inl c => OK (Some c)
    | inr c =>
      if negb (e_upstream E p) then OK (Some (reply E 43 (s2b "proxy error") c)) else
      let c := set_pfd PUp c in
      if p_notls p then
        let* c := proxy_enqueue_req E p i c in OK (Some (set_type RPROXY c))
      else if e_uptls E p then OK (Some (set_type RPROXY c))
      else OK (Some (reply E 43 (s2b "proxy error") c))
    end
  end.

(** server.c:484-499 — [apply_block_return] *)
Definition apply_block_return (E : env) (v : vhost) (i : comps) (c : client) : res (option client) :=
  match vhost_block_return (e_fnm E) v (c_path i) with
  | None => OK None
  | Some (code, fmt) =>
    let path := strip_path (c_path i) (vhost_strip (e_fnm E) v (c_path i)) in
    let* meta := fmtbuf (mkFmt path (c_query i) (e_port E) (c_domain c)) GEMINI_URL_LEN fmt in
    OK (Some (reply E code meta c))
  end.

(** server.c:712-759 — [apply_fastcgi]: [c->type] is left alone *)
Definition apply_fastcgi (E : env) (v : vhost) (i : comps) (c : client) : res (option client) :=
  match vhost_fastcgi (e_fnm E) v (c_path i) with
  | None => OK None
  | Some loc =>
    match l_fcgi loc with
    | None => OK None
    | Some n =>
      match nth_error (c_fcgi (e_conf E)) n with
      | None => OK None
      | Some _ =>
        if negb (e_fcgi E n) then OK (Some (reply E 42 (s2b "CGI error") (set_pfd PNone c))) else
        let k := length (c_conns c) in
        let c := set_pfd (PConn k) (set_cgi (Some k) (c_conns c ++ [mkConn [] true]) c) in
        let* bytes := fcgi_req i loc (v_loc0 v) (e_rhost E) (e_version E) (e_cert E) in
        OK (Some (act (AFcgi n bytes) c))
      end
    end
  end.

(** server.c:841-854 — [redirect_canonical_dir] *)
Definition redirect_canonical_dir (E : env) (path : list N) (c : client) : client :=
  let r := 47 :: path ++ [47] in
  if (GEMINI_URL_LEN <=? length r)%nat then reply E 40 (s2b "internal server error") c
  else reply E 30 r c.

(** dirs.c:66-160 — [scandir_fd], [select_non_dot] and [select_non_dotdot] *)
Definition selected (root : bool) (d : list N * bool) : bool :=
  negb (leqb (fst d) (s2b ".")) && negb (root && leqb (fst d) (s2b "..")).

Definition scandir_fd (E : env) (root : bool) (entries : list (list N * bool)) : list (list N * bool) :=
  match filter (selected root) entries with [] => [] | l => e_sort E l end.

(** server.c:772-798 — [server_dir_listing] *)
Definition server_dir_listing (E : env) (v : vhost) (path : list N) (entries : option (list (list N * bool))) (c : client) : client :=
  let root := leqb path [47] || isnil path in
  if negb (vhost_auto_index (e_fnm E) v path) then reply E 51 (s2b "not found") c else
  match entries with
  | None => reply E 40 (s2b "internal server error") c
  | Some es =>
    let c := set_type RDIR (set_dir (scandir_fd E root es) c) in
    let c := reply E 20 (s2b "text/gemini") c in
    add_out (s2b "# Index of /" ++ path ++ [10; 10]) c
  end.

(** utils.c:94-108 — [ends_with] (C43) for the suffix "/" *)
Definition ends_slash (p : list N) : bool := match p with [] => false | _ => last p 0 =? 47 end.

(** server.c:800-839 — [open_dir]; the index is opened in the directory *)
Definition open_dir (E : env) (v : vhost) (path : list N) (look : list N -> node)
    (entries : option (list (list N * bool))) (c : client) : res client :=
  if negb (isnil path) && negb (ends_slash path) then OK (redirect_canonical_dir E path c) else
  let index := vhost_index (e_fnm E) v path in
  match look index with
  | NMissing => OK (server_dir_listing E v path entries c)
  | NBad => OK (reply E 40 (s2b "internal server error") c)
  | NDir _ _ => OK (server_dir_listing E v path entries c)
  | NFile false _ => OK (server_dir_listing E v path entries c)
  | NFile true content =>
    let* m := mime (e_fnm E) (c_mime (e_conf E)) (Some v) (firstn (PATH_MAX - 1) (path ++ index)) in
    OK (reply E 20 m (set_type RFILE (set_pfd (PFile content) c)))
  end.

(** server.c:1028-1060 — the file system part of [client_read]; [fs] answers
    openat(2) *)
Definition serve_file (E : env) (fs : N -> list N -> node) (v : vhost) (i : comps) (c : client) : res client :=
  let path := c_path i in
  let p := skip_slashes (strip_path path (vhost_strip (e_fnm E) v path)) in
  let p := match p with [] => [46] | _ => p end in
  match vhost_dirfd (e_fnm E) v path with
  | None => OK (reply E 51 (s2b "not found") c)
  | Some fd =>
    let c := act (AOpen fd p) c in
    match fs fd p with
    | NMissing => OK (reply E 51 (s2b "not found") c)
    | NBad => OK (reply E 40 (s2b "internal server error") c)
    | NDir look entries => open_dir E v path look entries (set_pfd PDir c)
    | NFile _ content =>
      let* m := mime (e_fnm E) (c_mime (e_conf E)) (Some v) p in
      OK (reply E 20 m (set_type RFILE (set_pfd (PFile content) c)))
    end
  end.

(** strcasecmp(3) = 0 *)
Definition strcaseeq (a b : list N) : bool := leqb (map to_lower a) (map to_lower b).

(** gmid.h:76-77 — DOMAIN_NAME_LEN *)
Definition DOMAIN_NAME_LEN : nat := 254.

(** server.c:1008-1060 — [client_read] once the request is a valid IRI and its
    host decodes to [decoded] *)
Definition dispatch (E : env) (fs : N -> list N -> node) (v : vhost) (i : comps) (decoded : list N) (c : client) : res client :=
  let* r := apply_reverse_proxy E v i c in
  match r with
  | Some c => OK c
  | None =>
    if negb (leqb (c_scheme i) (s2b "gemini")) || negb (strcaseeq (c_domain c) decoded) then
      OK (reply E 53 (s2b "won't proxy request") c)
    else
    match (match vhost_require_ca (e_fnm E) v (c_path i) with
           | Some ca => check_matching_certificate E ca c | None => inr c end) with
    | inl c => OK c
    | inr c =>
      let* r := apply_block_return E v i c in
      match r with
      | Some c => OK c
      | None =>
        let* r := apply_fastcgi E v i c in
        match r with
        | Some c => OK c
        | None => serve_file E fs v i c
        end
      end
    end
  end.

(** server.c:963-1061 — [client_read]: [bufferevent_disable(bev, EVBUFFER_READ)]
    has no effect (EVBUFFER_READ is 1, EV_READ is 2), so it can run again *)
Definition client_read (E : env) (fs : N -> list N -> node) (c : client) : res client :=
  match c_type c with
  | UNDECIDED =>
    if (1026 <? length (c_in c))%nat then OK (reply E 59 (s2b "bad request") c) else
    match readln (c_in c) with
    | None => OK c
    | Some (line, rest) =>
      let c := set_in rest c in
      if (1026 <? length line)%nat then OK (reply E 59 (s2b "bad request") c) else
      if existsb (N.eqb 0) line then OK (reply E 59 (s2b "bad request") c) else
      let* (ok, p) := parse_iri (e_ip6 E) (line ++ [0]) in
      match comps_of p with
      | None => UB
      | Some i =>
        let c := set_iri (Some i) c in
        if negb ok then OK (reply E 59 (s2b "bad request") c) else
        let* d := puny_decode (c_host i) DOMAIN_NAME_LEN in
        match d with
        | Fault => UB
        | Ret false _ => OK (reply E 59 (s2b "bad request") c)
        | Ret true out =>
          match cstr out, c_vhost c with
          | Some decoded, Some v => dispatch E fs v i decoded c
          | _, _ => UB
          end
        end
      end
    end
  | _ => OK c
  end.

(** server.c:1265-1306 — [client_close]: the current FastCGI connection is
    closed, the client is freed *)
Definition close_conn (i : nat) (ks : list conn) : list conn :=
  match nth_error ks i with
  | Some k => firstn i ks ++ mkConn (k_in k) false :: skipn (S i) ks
  | None => ks
  end.
Definition close_pfd (c : client) : client :=
  match c_pfd c with
  | PConn i => set_pfd PNone (set_cgi (c_cgibev c) (close_conn i (c_conns c)) c)
  | _ => set_pfd PNone c
  end.
Definition client_close (c : client) : client :=
  let c := match c_cgibev c with
           | Some i => set_cgi None (close_conn i (c_conns c)) c
           | None => c end in
  set_closed (close_pfd c).

(** stdio.h BUFSIZ (glibc, musl: 8192 and 1024; the value does not matter) *)
Definition BUFSIZ : nat := N.to_nat 8192.

(** the lines of server.c:1093-1107; what encode_path returns is ignored *)
Definition dir_line (d : list N * bool) : res (list N) :=
  let* (_, b) := encode_path PATH_MAX (fst d) in
  match cstr b with
  | Some name => OK (s2b "=> ./" ++ name ++ (if snd d then [47] else []) ++ [10])
  | None => UB
  end.
Fixpoint dir_lines (ds : list (list N * bool)) : res (list N) :=
  match ds with
  | [] => OK []
  | d :: r => let* l := dir_line d in let* rest := dir_lines r in OK (l ++ rest)
  end.

(** what read(2) returns: at most [n] bytes, or an error *)
Inductive rd_ans := RdErr | RdMax (n : nat).

(** server.c:1063-1126 — [client_write]; [a] answers read(2) *)
Definition client_write (a : rd_ans) (c : client) : res client :=
  match c_type c with
  | UNDECIDED | RFCGI | RPROXY => OK c
  | RFILE =>
    match a, c_pfd c with
    | RdMax n, PFile rest =>
      let r := Nat.min BUFSIZ (Nat.min n (length rest)) in
      let buf := firstn r rest in
      if (r =? 0)%nat then OK (client_close c) else
      let c := set_pfd (PFile (skipn r rest)) c in
      let c := if (r =? BUFSIZ)%nat then c else set_type DONE c in
      OK (add_out buf c)
    | _, _ => OK (client_close (set_type DONE c))
    end
  | RDIR =>
    let* lines := dir_lines (c_dir c) in
    let c := add_out lines (set_type DONE (set_dir [] c)) in
    OK (set_io (c_out c) (c_sent c) true c)
  | DONE => OK (match c_out c with [] => client_close c | _ => c end)
  end.

(** server.c:1128-1151 — [client_error]; no timeout is ever set on the client,
    so libevent only reports end of file and errors *)
Definition client_error (E : env) (timeout : bool) (c : client) : client :=
  let c := set_type DONE c in
  if timeout && (c_code c =? 0) then reply E 59 (s2b "timeout") c else client_close c.

(** server.c:354-430 — [handle_handshake]; [sni] is tls_conn_servername *)
Definition handle_handshake (E : env) (sni : option (list N)) (c : client) : res client :=
  let* d := match sni with
            | None => OK (Ret true [0])
            | Some s => puny_decode s DOMAIN_NAME_LEN
            end in
  match d with
  | Fault => UB
  | Ret false _ => OK (reply E 59 (s2b "Wrong/malformed host") (set_host [] None c))
  | Ret true out =>
  match cstr out with
  | None => UB
  | Some dom =>
    let dom := match dom with
               | [] => if (length (e_pp E) <? DOMAIN_NAME_LEN)%nat then e_pp E else []
               | _ => dom end in
    match find_host (e_fnm E) (c_hosts (e_conf E)) dom with
    | Some v => OK (set_host dom (Some v) c)
    | None => OK (reply E 59 (s2b "Wrong/malformed host") (set_host dom None c))
    end
  end
  end.

(** fcgi.c:347-372 — [fcgi_error]: disabling the event has no effect *)
Definition fcgi_error (E : env) (c : client) : client :=
  let c := close_pfd c in
  if c_code c =? 0 then reply E 42 (s2b "CGI error") c else set_type DONE c.

(** memmem(3) for CRLF: C40 *)
Definition SBUF : nat := 1029.

(** the C string at the head of [s], which is followed by a NUL *)
Fixpoint upto_nul (s : list N) : list N :=
  match s with [] => [] | c :: r => if c =? 0 then [] else c :: upto_nul r end.

(** digits, space and range: fcgi.c:244-257 and proxy.c:155-172 *)
Definition status (sp : N -> bool) (s : list N) : option (N * list N) :=
  match s with
  | a :: b :: x :: meta =>
    if is_digit a && is_digit b && sp x then
      let code := (a - 48) * 10 + (b - 48) in
      if (code <? 10) || (70 <=? code) then None else Some (code, upto_nul meta)
    else None
  | _ => None
  end.

(** fcgi.c:215-272 — [fcgi_handle_stdout] on a record of contents [s].  When an
    error is met part of the record stays in the buffer; it is never read
    again since the request is over. *)
Definition fcgi_handle_stdout (E : env) (s : list N) (c : client) : client :=
  if c_code c =? 0 then
    let l := Nat.min (length s) (SBUF - length (c_sbuf c)) in
    let c := set_sbuf (c_sbuf c ++ firstn l s) c in
    let s := skipn l s in
    match readln (c_sbuf c) with
    | None => if (length (c_sbuf c) =? SBUF)%nat then fcgi_error E c else c
    | Some (line, t) =>
      match status (N.eqb 32) line with
      | None => fcgi_error E c
      | Some (code, meta) =>
        let '(c, ok) := start_reply E code meta c in
        if negb ok || (c_code c <? 20) || (29 <? c_code c) then fcgi_error E c
        else add_out s (add_out t c)
      end
    end
  else add_out s c.

Definition set_conn (i : nat) (s : list N) (c : client) : client :=
  match nth_error (c_conns c) i with
  | Some k => set_cgi (c_cgibev c) (firstn i (c_conns c) ++ mkConn s (k_open k) :: skipn (S i) (c_conns c)) c
  | None => c
  end.

(** fcgi.c:274-336 — the loop of [fcgi_read] on the input [s]; result: the input
    left and whether it ended in [err] *)
Fixpoint fcgi_loop (E : env) (fuel : nat) (s : list N) (c : client) : res (list N * client * bool) :=
  match fuel with
  | O => Fuel
  | S f =>
    match c_type c with
    | DONE => OK (s, c, true)
    | _ =>
      match s with
      | v :: ty :: i1 :: i0 :: l1 :: l0 :: pad :: rsv :: body =>
        if negb (i0 + N.shiftl i1 8 =? 1) then OK (s, c, true) else
        let len := N.to_nat (l0 + N.shiftl l1 8) in
        if (length body <? len + N.to_nat pad)%nat then OK (s, c, false) else
        let content := firstn len body in
        let rest := skipn (len + N.to_nat pad) body in
        if ty =? FCGI_END_REQUEST then
          if negb (len =? 8)%nat then OK (body, c, true)
          else fcgi_loop E f rest (set_type DONE c)
        else if ty =? FCGI_STDERR then fcgi_loop E f rest c
        else if ty =? FCGI_STDOUT then fcgi_loop E f rest (fcgi_handle_stdout E content c)
        else OK (body, c, true)
      | _ => OK (s, c, false)
      end
    end
  end.

Definition fcgi_read (E : env) (i : nat) (c : client) : res client :=
  match nth_error (c_conns c) i with
  | None => UB
  | Some k =>
    let* (s, c, err) := fcgi_loop E (S (S (length (k_in k)))) (k_in k) c in
    let c := set_conn i s c in
    if err then client_write RdErr (fcgi_error E c) else OK c
  end.

(** proxy.c:199-226 — [proxy_error] *)
Definition proxy_error (E : env) (c : client) : res client :=
  let c := set_pfd PNone (set_up (c_pxy c) None c) in
  if c_code c =? 0 then OK (reply E 43 (s2b "protocol error") c)
  else client_write RdErr (set_type DONE c).

(** isspace(3) in the C locale *)
Definition is_space (c : N) : bool := (c =? 32) || ((9 <=? c) && (c <=? 13)).

(** proxy.c:134-187 — [proxy_read] on the input [s] of c->proxybev *)
Definition proxy_read (E : env) (s : list N) (c : client) : res client :=
  if c_code c =? 0 then
    match readln s with
    | None => if (1029 <? length s)%nat then proxy_error E (set_up (c_pxy c) (Some s) c)
              else OK (set_up (c_pxy c) (Some s) c)
    | Some (line, rest) =>
      let c := set_up (c_pxy c) (Some rest) c in
      if (length line <? 3)%nat || (1029 <? length line)%nat then proxy_error E c else
      match status is_space line with
      | None => proxy_error E c
      | Some (code, meta) =>
        let '(c, ok) := start_reply E code meta c in
        if negb ok || (c_code c <? 20) || (29 <? c_code c) then proxy_error E c
        else OK (add_out rest (set_up (c_pxy c) (Some []) c))
      end
    end
  else OK (add_out s (set_up (c_pxy c) (Some []) c)).

(** proxy.c:264-294 — how [proxy_handshake] ends *)
Inductive uptls := UpOk | UpFailed | UpTimeout.

(** the calls libevent makes *)
Inductive event :=
| EvHandshake (sni : option (list N))                 (* TLS handshake completed *)
| EvHandshakeFail
| EvRead (chunk : list N) (fs : N -> list N -> node)  (* tls_read returned chunk *)
| EvReadEnd                                           (* end of file or error *)
| EvWrite (n : nat) (a : rd_ans)                      (* tls_write accepted n bytes *)
| EvWriteErr
| EvFcgi (i : nat) (chunk : list N)                   (* FastCGI connection i sent chunk *)
| EvFcgiEnd (i : nat)
| EvUpTls (r : uptls)                                 (* handshake with the upstream over *)
| EvUp (chunk : list N)                               (* the upstream sent chunk *)
| EvUpEnd.

(** One event.  [None]: libevent cannot make this call in this state. *)
Definition step (E : env) (e : event) (c : client) : option (res client) :=
  let live := negb (c_closed c) in
  match e with
  | EvHandshake sni => if live && negb (c_hs c) then Some (handle_handshake E sni c) else None
  | EvHandshakeFail => if live && negb (c_hs c) then Some (OK (client_close c)) else None
  | EvRead chunk fs =>
    if live && c_hs c && negb (isnil chunk) then Some (client_read E fs (set_in (c_in c ++ chunk) c)) else None
  | EvReadEnd => if live && c_hs c then Some (OK (client_error E false c)) else None
  | EvWrite n a =>
    if live && c_hs c && c_wev c then
      (* server.c:913-961 — [client_tls_writecb] *)
      let k := Nat.min (Nat.max 1 n) (length (c_out c)) in
      let out := skipn k (c_out c) in
      let c := set_io out (c_sent c ++ firstn k (c_out c)) (negb (isnil out)) c in
      Some (match out with [] => client_write a c | _ => OK c end)
    else None
  | EvWriteErr => if live && c_hs c && c_wev c then Some (OK (client_error E false c)) else None
  | EvFcgi i chunk =>
    match nth_error (c_conns c) i with
    | Some k =>
      if k_open k && negb (isnil chunk) then
        Some (if live then fcgi_read E i (set_conn i (k_in k ++ chunk) c) else UB)
      else None
    | None => None
    end
  | EvFcgiEnd i =>
    match nth_error (c_conns c) i with
    | Some k =>
      if k_open k then
        Some (if live then OK (fcgi_error E (set_cgi (c_cgibev c) (close_conn i (c_conns c)) c)) else UB)
      else None
    | None => None
    end
  | EvUpTls r =>
    match c_type c, c_pxy c, c_up c, c_iri c with
    | RPROXY, Some p, None, Some i =>
      if live && negb (p_notls p) then
        Some (match r with
              | UpOk => proxy_enqueue_req E p i c
              | UpFailed => OK (reply E 43 (s2b "handshake failed") c)
              | UpTimeout => OK (reply E 43 (s2b "timeout") c)
              end)
      else None
    | _, _, _, _ => None
    end
  | EvUp chunk =>
    match c_up c with
    | Some s => if live && negb (isnil chunk) then Some (proxy_read E (s ++ chunk) c) else None
    | None => None
    end
  | EvUpEnd =>
    match c_up c with
    | Some _ => if live then Some (proxy_error E c) else None
    | None => None
    end
  end.

(** A history: the states a connection goes through.  The world may change
    between events except for the configuration. *)
Fixpoint run (E : env) (es : list event) (c : client) : option (res client) :=
  match es with
  | [] => Some (OK c)
  | e :: r =>
    match step E e c with
    | None => None
    | Some (OK c) => run E r c
    | Some UB => Some UB
    | Some Fuel => Some Fuel
    end
  end.
