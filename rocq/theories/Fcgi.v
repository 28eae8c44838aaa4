(** Model of the request side of fcgi.c: what is queued for the FastCGI
    application.  bufferevent_write(3) never fails. *)
From Verif Require Import Base Compat Iri IriSpec IriOut Conf Puny.
Local Open Scope N_scope.

(** fcgi.c:56-66 *)
Definition FCGI_BEGIN_REQUEST : N := 1.
Definition FCGI_END_REQUEST : N := 3.
Definition FCGI_PARAMS : N := 4.
Definition FCGI_STDIN : N := 5.
Definition FCGI_STDOUT : N := 6.
Definition FCGI_STDERR : N := 7.

(** fcgi.c:113-130 — [prepare_header]; the fields are unsigned chars
    (fcgi.c:26-35): values are reduced modulo 256 *)
Definition prepare_header (type size padding : N) : list N :=
  [1; type mod 256; 0; 1; N.shiftr size 8 mod 256; N.land size 255; padding mod 256; 0].

(** fcgi.c:132-148 — [fcgi_begin_request]: role FCGI_RESPONDER, FCGI_KEEP_CONN *)
Definition fcgi_begin_request : list N :=
  prepare_header FCGI_BEGIN_REQUEST 8 0 ++ [0; 1; 1; 0; 0; 0; 0; 0].

(** the four bytes of fcgi.c:164-172 *)
Definition len4 (n : N) : list N :=
  [N.lor (N.shiftr n 24) 128 mod 256; N.land (N.shiftr n 16) 255; N.land (N.shiftr n 8) 255; N.land n 255].

(** fcgi.c:150-185 — [fcgi_send_param]; lengths are uint32_t, as is their sum *)
Definition fcgi_send_param (name value : list N) : list N :=
  let namlen := N.of_nat (length name) mod 2^32 in
  let vallen := N.of_nat (length value) mod 2^32 in
  let size := (namlen + vallen + 8) mod 2^32 in
  let padlen := N.land (8 - N.land size 7) 7 in
  prepare_header FCGI_PARAMS size padlen ++ len4 namlen ++ len4 vallen ++
  firstn (N.to_nat namlen) name ++ firstn (N.to_nat vallen) value ++ repeat 0 (N.to_nat padlen).

(** fcgi.c:187-201 — [fcgi_end_param] *)
Definition fcgi_end_param : list N := prepare_header FCGI_PARAMS 0 0 ++ prepare_header FCGI_STDIN 0 0.

Definition PATH_MAX : nat := 4096.

(** [while ( *path == '/' ) path++] *)
Fixpoint skip_slashes (p : list N) : list N :=
  match p with c :: r => if c =? 47 then skip_slashes r else p | [] => [] end.

(** fcgi.c:374-397 — [path_translate] into a buffer of [len] bytes *)
Definition path_translate (path : list N) (loc rloc : location) (len : nat) : list N :=
  let root := if negb (isnil (l_dir loc)) then l_dir loc else l_dir rloc in
  if isnil root then [] else
  let sufx := if last root 0 =? 47 then [] else [47] in
  firstn (len - 1) (root ++ sufx ++ skip_slashes path).

(** fcgi.c:425-427 — length of the string without its trailing slashes *)
Fixpoint rtrim (s : list N) : list N :=
  match s with
  | [] => []
  | c :: r => match rtrim r with [] => if c =? 47 then [] else [c] | t => c :: t end
  end.

(** what libtls says about the peer certificate, as the strings sent *)
Record peer := mkPeer { t_subject : list N; t_issuer : list N; t_hash : list N; t_version : list N;
  t_cipher : list N; t_strength : list N; t_notbefore : list N; t_notafter : list N }.

Definition is_script_name (n : list N) : bool := leqb n (s2b "SCRIPT_NAME").

(** fcgi.c:411-444 — how [fcgi_req] divides the path: PATH_INFO, SCRIPT_NAME and
    the path given to [path_translate] *)
Definition fcgi_split (c : comps) (loc : location) : list N * list N * list N :=
  let stripped := strip_path (c_path c) (l_fcgi_strip loc) in
  let path := firstn (GEMINI_URL_LEN - 1) (match stripped with 47 :: _ => stripped | _ => 47 :: stripped end) in
  let scriptname := match find (fun p => is_script_name (fst p)) (l_params loc) with
                    | Some p => snd p | None => [] end in
  let l := length (rtrim scriptname) in
  if is_prefix (firstn l scriptname) path &&
     match skipn l path with 47 :: _ => true | [] => true | _ => false end
  then (skipn l path, firstn l path, skipn l path)
  else (stripped, scriptname, stripped).

(** fcgi.c:459-466 — the search string *)
Definition fcgi_search (c : comps) : res (list (list N * list N)) :=
  if negb (isnil (c_query c)) && negb (existsb (N.eqb 61) (c_query c)) then
    let* m := pct_decode_str (z (c_query c)) in
    match cstr m with Some qs => OK [(s2b "GEMINI_SEARCH_STRING", qs)] | None => UB end
  else OK [].

(** fcgi.c:474-502 — what is said of the client certificate *)
Definition fcgi_cert (cert : option peer) : list (list N * list N) :=
  match cert with
  | None => [(s2b "AUTH_TYPE", [])]
  | Some t => [(s2b "AUTH_TYPE", s2b "CERTIFICATE"); (s2b "REMOTE_USER", t_subject t);
               (s2b "TLS_CLIENT_ISSUER", t_issuer t); (s2b "TLS_CLIENT_HASH", t_hash t);
               (s2b "TLS_VERSION", t_version t); (s2b "TLS_CIPHER", t_cipher t);
               (s2b "TLS_CIPHER_STRENGTH", t_strength t);
               (s2b "TLS_CLIENT_NOT_BEFORE", t_notbefore t); (s2b "TLS_CLIENT_NOT_AFTER", t_notafter t)]
  end.

(** fcgi.c:399-506 — [fcgi_req]: the parameters in the order they are sent.
    [version] is GMID_VERSION; strdup(3) never fails. *)
Definition fcgi_params (c : comps) (loc rloc : location) (rhost version : list N) (cert : option peer)
  : res (list (list N * list N)) :=
  let '(pi, sn, tr) := fcgi_split c loc in
  let port := if isnil (c_port c) then s2b "1965" else c_port c in
  let* search := fcgi_search c in
  OK ([(s2b "PATH_INFO", pi); (s2b "SCRIPT_NAME", sn);
       (s2b "GATEWAY_INTERFACE", s2b "CGI/1.1"); (s2b "PATH_TRANSLATED", path_translate tr loc rloc PATH_MAX);
       (s2b "QUERY_STRING", c_query c); (s2b "REMOTE_ADDR", rhost); (s2b "REMOTE_HOST", rhost);
       (s2b "REQUEST_METHOD", s2b "GET"); (s2b "SERVER_NAME", c_host c); (s2b "SERVER_PORT", port);
       (s2b "SERVER_PROTOCOL", s2b "GEMINI"); (s2b "SERVER_SOFTWARE", version);
       (s2b "GEMINI_URL_PATH", c_path c)] ++ search ++
      filter (fun p => negb (is_script_name (fst p))) (l_params loc) ++
      fcgi_cert cert).

Definition send_params (ps : list (list N * list N)) : list N :=
  flat_map (fun p => fcgi_send_param (fst p) (snd p)) ps.

(** fcgi.c:399-506 — all the bytes [fcgi_req] queues *)
Definition fcgi_req (c : comps) (loc rloc : location) (rhost version : list N) (cert : option peer) : res (list N) :=
  let* ps := fcgi_params c loc rloc rhost version cert in
  OK (fcgi_begin_request ++ send_params ps ++ fcgi_end_param).
