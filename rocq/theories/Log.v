(** Model of the access log: gmid.c [log_request] and the logger's side of it
    in logger.c. *)
From Verif Require Import Base Compat IriSpec IriOut Fmt Vis.
Local Open Scope N_scope.

(** gmid.h:102-107 *)
Inductive log_format := LF_CONDENSED | LF_COMMON | LF_COMBINED | LF_LEGACY.

(** what [log_request] reads of the client, its certificate and the clock
    (localtime(3) and strftime(3) are not modelled: [g_tstamp] and [g_rfc3339]
    are what they yield) *)
Record logctx := mkLog {
  g_rhost : list N; g_rserv : list N; g_tstamp : list N; g_rfc3339 : list N;
  g_subject : option (list N);     (* subject of the client certificate, if provided *)
  g_iri : option comps;            (* c->iri; None while zeroed (c->iri.schema == NULL) *)
  g_domain : list N; g_req : option (list N) }.

(** gmid.c:108-133 — the text left in [b\[GEMINI_URL_LEN\]] *)
Definition log_url (x : logctx) : list N :=
  let n := GEMINI_URL_LEN in
  match g_iri x with
  | Some i =>
    let b := firstn (n - 1) (c_scheme i) in
    let b := cat n b (s2b "://") in
    let b := cat n b (match g_domain x with [] => c_host i | d => d end) in
    let b := match c_path i with 47 :: _ => b | _ => cat n b [47] end in
    let b := cat n b (c_path i) in
    match c_query i with [] => b | q => cat n (cat n b [63]) q end
  | None => firstn (n - 1) (match g_req x with Some r => r | None => [] end)
  end.

(** strstr(3) "/CN=" *)
Fixpoint has_cn (s : list N) : bool :=
  match s with
  | [] => false
  | _ :: r => leqb (firstn 4 s) (s2b "/CN=") || has_cn r
  end.

(** the text before the first slash: strchr(3) and overwriting it by NUL *)
Fixpoint until_slash (s : list N) : list N :=
  match s with [] => [] | c :: r => if c =? 47 then [] else c :: until_slash r end.

(** gmid.c:135-147 — the text left in [cn\[64\]], initialised to "-" *)
Definition log_cn (subject : option (list N)) : res (list N) :=
  match subject with
  | Some subj =>
    if has_cn subj then
      let cntmp := until_slash (firstn 63 (skipn 4 subj)) in
      let* (_, cn) := strnvis (45 :: repeat 0 63) (cntmp ++ [0]) 64 (Z.lor VIS_WHITE VIS_DQ) in
      match cstr cn with Some s => OK s | None => UB end
    else OK [45]
  | None => OK [45]
  end.

(** gmid.c:161,175 — the host: a null pointer given to "%s" is undefined *)
Definition log_host (x : logctx) : res (list N) :=
  match g_domain x with
  | [] => match g_iri x with Some i => OK (c_host i) | None => UB end
  | d => OK d
  end.

(** gmid.c:87-204 — [log_request]: the message composed for the logger, without
    its NUL *)
Definition log_request (fmt : log_format) (x : logctx) (code : N) (meta : list N) : res (list N) :=
  let b := log_url x in
  let* cn := log_cn (g_subject x) in
  let sp := [32] in
  match fmt with
  | LF_LEGACY => OK (g_rhost x ++ s2b ":" ++ g_rserv x ++ s2b " GET " ++ b ++ sp ++ dec code ++ sp ++ meta)
  | LF_CONDENSED =>
    let* h := log_host x in
    OK (g_rfc3339 x ++ sp ++ g_rhost x ++ sp ++ cn ++ sp ++ h ++ sp ++ b ++ s2b " 0 0 " ++ dec code ++ sp ++ meta)
  | LF_COMMON =>
    let* h := log_host x in
    OK (h ++ sp ++ g_rhost x ++ s2b " - " ++ cn ++ sp ++ g_tstamp x ++ [32; 34] ++ b ++ [34; 32] ++ dec code ++ s2b " 0")
  | LF_COMBINED =>
    OK (g_rhost x ++ s2b " - " ++ cn ++ s2b " [" ++ g_tstamp x ++ [93; 32; 34] ++ b ++ [34; 32] ++ dec code ++
        s2b " 0 " ++ [34; 45; 34; 32; 34; 34])
  end.

(** logger.c:112-128 — [logger_dispatch_server] on IMSG_LOG_REQUEST with the
    payload [data]: what is appended to the access log (dprintf(3) writes it
    all).  An empty payload is fatal: [None]. *)
Definition logger_write (data : list N) : option (list N) :=
  match data with
  | [] => None
  | _ => match cstr (removelast data ++ [0]) with Some s => Some (s ++ [10]) | None => None end
  end.
