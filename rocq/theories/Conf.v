(** The configuration a server process works with (gmid.h:121-268) and the
    location look-ups of server.c.  C strings are their bytes (no NUL), an
    [int] or pointer whose value -1/NULL means "not set" is an [option],
    truth values are [bool].  fnmatch(3) is a parameter: every theorem holds
    for every such function. *)
From Verif Require Import Base.
Local Open Scope N_scope.

(** gmid.h:193-215 [struct location]; [l_strip] is an int >= 0; reqca and dirfd
    are identifiers of a CA store and of an open directory *)
Record location := mkLoc {
  l_match : list N; l_lang : list N; l_default_mime : list N; l_index : list N;
  l_auto_index : Z; l_block_code : N; l_block_fmt : list N; l_strip : nat;
  l_reqca : option N; l_disable_log : bool; l_fcgi : option nat; l_nofcgi : bool;
  l_fcgi_strip : nat; l_params : list (list N * list N); l_dir : list N; l_dirfd : option N }.

(** gmid.h:169-190 [struct proxy], the fields the request path reads *)
Record proxy := mkProxy {
  p_match_proto : list N; p_match_host : list N; p_match_port : list N;
  p_host : list N; p_port : list N; p_notls : bool; p_proxy : bool; p_reqca : option N }.

(** gmid.h:218-246 [struct vhost]; [v_loc0] is TAILQ_FIRST(&locations), which
    the parser always creates (parse.y:316-330), [v_locs] the others in order *)
Record vhost := mkVhost {
  v_domain : list N; v_aliases : list (list N); v_loc0 : location; v_locs : list location;
  v_proxies : list proxy }.

(** gmid.h:149-155 [struct fcgi] *)
Record fcgi := mkFcgi { f_path : list N; f_port : list N }.

(** gmid.h:248-251 [struct etm]: (mime, ext) *)
Definition etm : Type := list N * list N.

(** gmid.h:267-288 [struct conf], what the request path reads *)
Record conf := mkConf { c_mime : list etm; c_fcgi : list fcgi; c_hosts : list vhost }.

Section Match.
Variable fnm : list N -> list N -> bool.

(** server.c:104-110 — [matches] *)
Definition matches (pattern path : list N) : bool :=
  fnm pattern (match path with 47 :: r => r | _ => path end).

(** server.c:112-125 — [match_host] *)
Definition match_host (v : vhost) (domain : list N) : bool :=
  matches (v_domain v) domain || existsb (fun a => matches a domain) (v_aliases v).

(** server.c:414-416 — TAILQ_FOREACH(h, &conf->hosts) if (match_host(h, c)) break *)
Fixpoint find_host (hs : list vhost) (domain : list N) : option vhost :=
  match hs with
  | [] => None
  | h :: r => if match_host h domain then Some h else find_host r domain
  end.

(** the loop shared by the vhost_* functions: TAILQ_NEXT from the first
    location until one that sets the option matches *)
Fixpoint scan_locs (sets : location -> bool) (path : list N) (ls : list location) : option location :=
  match ls with
  | [] => None
  | l :: r => if sets l then (if matches (l_match l) path then Some l else scan_locs sets path r)
              else scan_locs sets path r
  end.

Definition isnil (s : list N) : bool := match s with [] => true | _ => false end.

(** server.c:127-147 — [vhost_lang] *)
Definition vhost_lang (v : option vhost) (path : option (list N)) : option (list N) :=
  match v, path with
  | Some v, Some path =>
    match scan_locs (fun l => negb (isnil (l_lang l))) path (v_locs v) with
    | Some l => Some (l_lang l)
    | None => if isnil (l_lang (v_loc0 v)) then None else Some (l_lang (v_loc0 v))
    end
  | _, _ => None
  end.

(** server.c:149-170 — [vhost_default_mime] *)
Definition vhost_default_mime (v : option vhost) (path : option (list N)) : list N :=
  match v, path with
  | Some v, Some path =>
    match scan_locs (fun l => negb (isnil (l_default_mime l))) path (v_locs v) with
    | Some l => l_default_mime l
    | None => if isnil (l_default_mime (v_loc0 v)) then s2b "application/octet-stream"
              else l_default_mime (v_loc0 v)
    end
  | _, _ => s2b "application/octet-stream"
  end.

(** server.c:172-193 — [vhost_index] *)
Definition vhost_index (v : vhost) (path : list N) : list N :=
  match scan_locs (fun l => negb (isnil (l_index l))) path (v_locs v) with
  | Some l => l_index l
  | None => if isnil (l_index (v_loc0 v)) then s2b "index.gmi" else l_index (v_loc0 v)
  end.

(** server.c:195-213 — [vhost_auto_index] *)
Definition vhost_auto_index (v : vhost) (path : list N) : bool :=
  match scan_locs (fun l => negb (l_auto_index l =? 0)%Z) path (v_locs v) with
  | Some l => (l_auto_index l =? 1)%Z
  | None => (l_auto_index (v_loc0 v) =? 1)%Z
  end.

(** server.c:215-238 — [vhost_block_return]: the code and format, if any *)
Definition vhost_block_return (v : vhost) (path : list N) : option (N * list N) :=
  match scan_locs (fun l => negb (l_block_code l =? 0)) path (v_locs v) with
  | Some l => Some (l_block_code l, l_block_fmt l)
  | None => if l_block_code (v_loc0 v) =? 0 then None
            else Some (l_block_code (v_loc0 v), l_block_fmt (v_loc0 v))
  end.

(** server.c:246-255 — loop of [vhost_fastcgi]; [Some None] is [return NULL] *)
Fixpoint scan_fastcgi (path : list N) (ls : list location) : option (option location) :=
  match ls with
  | [] => None
  | l :: r =>
    if (match l_fcgi l with Some _ => matches (l_match l) path | None => false end) then Some (Some l)
    else if l_nofcgi l && matches (l_match l) path then Some None
    else scan_fastcgi path r
  end.

(** server.c:240-259 — [vhost_fastcgi] *)
Definition vhost_fastcgi (v : vhost) (path : list N) : option location :=
  match scan_fastcgi path (v_locs v) with
  | Some r => r
  | None => match l_fcgi (v_loc0 v) with None => None | Some _ => Some (v_loc0 v) end
  end.

(** server.c:261-284 — [vhost_dirfd] (without the index of the location) *)
Definition vhost_dirfd (v : vhost) (path : list N) : option N :=
  match scan_locs (fun l => match l_dirfd l with Some _ => true | None => false end) path (v_locs v) with
  | Some l => l_dirfd l
  | None => l_dirfd (v_loc0 v)
  end.

(** server.c:286-304 — [vhost_strip] *)
Definition vhost_strip (v : vhost) (path : list N) : nat :=
  match scan_locs (fun l => negb (l_strip l =? 0)%nat) path (v_locs v) with
  | Some l => l_strip l
  | None => l_strip (v_loc0 v)
  end.

(** server.c:306-324 — [vhost_require_ca] *)
Definition vhost_require_ca (v : vhost) (path : list N) : option N :=
  match scan_locs (fun l => match l_reqca l with Some _ => true | None => false end) path (v_locs v) with
  | Some l => l_reqca l
  | None => l_reqca (v_loc0 v)
  end.

(** server.c:326-342 — [vhost_disable_log] *)
Definition vhost_disable_log (v : option vhost) (path : option (list N)) : bool :=
  match v, path with
  | Some v, Some path =>
    match scan_locs l_disable_log path (v_locs v) with
    | Some _ => true
    | None => l_disable_log (v_loc0 v)
    end
  | _, _ => false
  end.

(** server.c:501-524 — [matched_proxy]; [iri.schema], [c->domain], [iri.port] *)
Fixpoint matched_proxy (ps : list proxy) (schema domain port : list N) : option proxy :=
  match ps with
  | [] => None
  | p :: r =>
    let proto := if isnil (p_match_proto p) then s2b "gemini" else p_match_proto p in
    let host := if isnil (p_match_host p) then s2b "*" else p_match_host p in
    let pt := if isnil (p_match_port p) then s2b "*" else p_match_port p in
    if matches proto schema && matches host domain && matches pt port then Some p
    else matched_proxy r schema domain port
  end.
End Match.
