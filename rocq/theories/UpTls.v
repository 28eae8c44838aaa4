(** TLS to an upstream: proxy.c:264-294 and 328-396, the client side of
    compat/libtls, and the two `protocols' options.

    The TLS protocol itself is a parameter: SSL_connect(3) wants more input or
    output, fails, or is done and shows the certificate of the peer, if any.
    Memory allocation does not fail.  That SSL_connect is also called again after
    WANT_POLLIN/OUT is the environment's: only its last result matters. *)
From Verif Require Import Base Compat Conf Config Mime Fcgi Server Tls.
Local Open Scope N_scope.

(** compat/libtls/tls.h:36-46 *)
Definition TLS12 : N := 8.
Definition TLS13 : N := 16.
Definition TLS_PROTOCOL_TLSv1 : N := N.lor TLS12 TLS13.
Definition TLS_PROTOCOLS_ALL : N := TLS_PROTOCOL_TLSv1.
Definition TLS_PROTOCOLS_DEFAULT : N := N.lor TLS12 TLS13.

(** ** [tls_config_parse_protocols], compat/libtls/tls_config.c:210-268 *)

(** strsep(&q, ",:"): 44 and 58 *)
Fixpoint strsep (s : list N) : list (list N) :=
  match s with
  | [] => [[]]
  | c :: r =>
    if (c =? 44) || (c =? 58) then [] :: strsep r
    else match strsep r with w :: ws => (c :: w) :: ws | [] => [[c]] end
  end.
(** tls_config.c:227-228 *)
Fixpoint skip_blanks (s : list N) : list N :=
  match s with c :: r => if (c =? 32) || (c =? 9) then skip_blanks r else s | [] => [] end.
(** tls_config.c:239-256: [0] when no name compares equal *)
Definition proto_of (p : list N) : N :=
  let is (s : string) := strcaseeq p (s2b s) in
  let proto := if is "all"%string || is "legacy"%string then TLS_PROTOCOLS_ALL
               else if is "default"%string || is "secure"%string then TLS_PROTOCOLS_DEFAULT else 0 in
  if is "tlsv1"%string then TLS_PROTOCOL_TLSv1
  else if is "tlsv1.0"%string then TLS12
  else if is "tlsv1.1"%string then TLS12
  else if is "tlsv1.2"%string then TLS12
  else if is "tlsv1.3"%string then TLS13
  else proto.
(** one turn of the loop; [None] is -1.  protos is a uint32_t: &= ~proto is ldiff *)
Definition proto_word (protos : N) (w : list N) : option N :=
  let p := skip_blanks w in
  let '(negate, p) := match p with 33 :: r => (true, r) | _ => (false, p) end in
  let protos := if negate && (protos =? 0) then TLS_PROTOCOLS_ALL else protos in
  let proto := proto_of p in
  if proto =? 0 then None else Some (if negate then N.ldiff protos proto else N.lor protos proto).
Fixpoint proto_words (protos : N) (ws : list (list N)) : option N :=
  match ws with [] => Some protos | w :: r => match proto_word protos w with Some p => proto_words p r | None => None end end.
Definition tls_config_parse_protocols (s : list N) : option N := proto_words 0 (strsep s).

(** compat/libtls/tls.c:509-528 — [tls_configure_ssl]: the versions not switched off *)
Inductive version := SSLv2 | SSLv3 | TLSv10 | TLSv11 | TLSv12 | TLSv13.
Definition version_on (protocols : N) (v : version) : bool :=
  match v with
  | TLSv12 => negb (N.land protocols TLS12 =? 0)
  | TLSv13 => negb (N.land protocols TLS13 =? 0)
  | _ => false
  end.

(** ** The proxy blocks of the configuration file, parse.y:500-548 *)
Inductive proxy_opt :=
| PCert (path : list N) | PKey (path : list N) | PProtocols (s : list N) | PProxyV1 | PRelayTo (host : list N) (port : list N)
| PReqCa (path : list N) | PSni (s : list N) | PUseTls (b : bool) | PVerifyName (b : bool).

(** utils.c:490-499 — [new_proxy] *)
Definition new_proxy : pproxy :=
  mkPproxy (mkProxy [] [] [] [] [] false false None) [] TLS_PROTOCOLS_DEFAULT false None None None.
Definition HOST_NAME_MAX : nat := 255.
(** parse.y:504-548; the boolean: no error reported (an error is fatal for the
    whole configuration, C31) *)
Definition proxy_option (o : proxy_opt) (st : pproxy * bool) : pproxy * bool :=
  let '(p, ok) := st in
  let x := px p in
  match o with
  | PCert f => (mkPproxy x (px_sni p) (px_protos p) (px_noverify p) (Some f) (px_key p) (px_ca p), ok)
  | PKey f => (mkPproxy x (px_sni p) (px_protos p) (px_noverify p) (px_cert p) (Some f) (px_ca p), ok)
  | PProtocols s =>
    match tls_config_parse_protocols s with
    | Some n => (mkPproxy x (px_sni p) n (px_noverify p) (px_cert p) (px_key p) (px_ca p), ok)
    | None => (p, false)
    end
  | PProxyV1 =>
    (mkPproxy (mkProxy (p_match_proto x) (p_match_host x) (p_match_port x) (p_host x) (p_port x) (p_notls x) true (p_reqca x))
       (px_sni p) (px_protos p) (px_noverify p) (px_cert p) (px_key p) (px_ca p), ok)
  | PRelayTo h n =>
    (mkPproxy (mkProxy (p_match_proto x) (p_match_host x) (p_match_port x) (firstn HOST_NAME_MAX h) n (p_notls x) (p_proxy x) (p_reqca x))
       (px_sni p) (px_protos p) (px_noverify p) (px_cert p) (px_key p) (px_ca p), ok && (length h <=? HOST_NAME_MAX)%nat)
  | PReqCa f => (mkPproxy x (px_sni p) (px_protos p) (px_noverify p) (px_cert p) (px_key p) (Some f), ok)
  | PSni s => (mkPproxy x (firstn (HOST_NAME_MAX - 1) s) (px_protos p) (px_noverify p) (px_cert p) (px_key p) (px_ca p), ok && (length s <=? HOST_NAME_MAX - 1)%nat)
  | PUseTls b =>
    (mkPproxy (mkProxy (p_match_proto x) (p_match_host x) (p_match_port x) (p_host x) (p_port x) (negb b) (p_proxy x) (p_reqca x))
       (px_sni p) (px_protos p) (px_noverify p) (px_cert p) (px_key p) (px_ca p), ok)
  | PVerifyName b => (mkPproxy x (px_sni p) (px_protos p) (negb b) (px_cert p) (px_key p) (px_ca p), ok)
  end.
(** parse.y:461-470 — the whole block *)
Definition proxy_block (os : list proxy_opt) : pproxy * bool :=
  let '(p, ok) := fold_left (fun st o => proxy_option o st) os (new_proxy, true) in
  (p, ok && negb (isnil (p_host (px p))) &&
      match px_cert p, px_key p with Some _, None | None, Some _ => false | _, _ => true end).

(** ** The connection *)
Section Up.
Variable pton : list N -> option (list N).
(** tls_config_set_cert_mem, tls_config_set_key_mem, tls_configure, and the calls of
    libssl in tls_connect_cbs succeed *)
Variable sets_up : cproxy -> bool.

(** [struct tls] of the connection: servername, verify_name, protocols *)
Record tlsup := mkTu { tu_name : list N; tu_verify : bool; tu_protos : N }.

(** compat/libtls/tls_client.c:289-307 *)
Definition undot (s : list N) : list N := match rev s with 46 :: r => rev r | _ => s end.

(** proxy.c:328-380 — [proxy_setup_tls]: [None] is -1.  The chain of certificates
    is never verified (tls_config_insecure_noverifycert). *)
Definition proxy_setup_tls (p : cproxy) : option tlsup :=
  if sets_up p then
    let hn := match cx_sni p with [] => p_host (cx p) | s => s end in
    Some (mkTu (undot hn) (negb (cx_noverify p)) (cx_protos p))
  else None.

(** results of SSL_connect(3) *)
Inductive ssl := SslWantIn | SslWantOut | SslError | SslDone (peer : option cert).
Inductive hs := HsWait | HsFail | HsDone.
(** compat/libtls/tls_client.c:433-487 — [tls_handshake_client] *)
Definition tls_handshake (t : tlsup) (s : ssl) : hs :=
  match s with
  | SslWantIn | SslWantOut => HsWait
  | SslError => HsFail
  | SslDone peer =>
    if tu_verify t then
      match peer with
      | None => HsFail
      | Some c => match tls_check_name pton c (tu_name t) with
                  | None => HsFail | Some false => HsFail | Some true => HsDone end
      end
    else HsDone
  end.
(** proxy.c:264-294 — [proxy_handshake]; [None] is the timeout.  [None]: it waits
    for the next event, else the event of Server.v *)
Definition proxy_handshake (t : tlsup) (s : option ssl) : option uptls :=
  match s with
  | None => Some UpTimeout
  | Some s => match tls_handshake t s with HsWait => None | HsFail => Some UpFailed | HsDone => Some UpOk end
  end.
End Up.
