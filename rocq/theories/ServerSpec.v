(** What a Gemini client, an operator and an administrator are promised,
    independently of the code. *)
From Coq Require Import Permutation Sorting.Sorted.
From Verif Require Import Base Compat Iri IriSpec IriObs Conf ConfSpec Mime Fmt FmtSpec Fcgi Server.
Local Open Scope N_scope.

(** ** Wire format: two digits, a space, at most 1024 bytes of meta, CRLF *)
Definition wf_header (h : list N) : Prop :=
  exists a b m, h = [a; b; 32] ++ m ++ [13; 10] /\ is_digit a = true /\ is_digit b = true /\ (length m <= 1024)%nat.

Definition header (code : N) (meta : list N) : list N := [48 + code / 10; 48 + code mod 10; 32] ++ meta ++ [13; 10].

(** ** The decision for a valid request *)
Inductive what :=
| WReply (code : N) (meta : list N)                      (* a header and nothing else *)
| WBody (type content : list N)                          (* a file *)
| WList (path : list N) (entries : list (list N * bool)) (* a directory listing *)
| WUp (p : proxy)                                        (* relayed to an upstream *)
| WFcgi (n : nat) (loc : location).                      (* given to a FastCGI application *)

(** what is opened below which directory, and what is done *)
Record decision := mkD { d_open : list (N * list N); d_what : what }.

Fixpoint unslash (p : list N) : list N := match p with 47 :: r => unslash r | _ => p end.

(** byte-wise order of names *)
Fixpoint name_le (a b : list N) : Prop :=
  match a, b with
  | [], _ => True
  | _ :: _, [] => False
  | x :: a, y :: b => x < y \/ (x = y /\ name_le a b)
  end.

(** the entries shown: all but "." and, at the root, ".."; by name *)
Definition hidden (root : bool) (n : list N) : bool := leqb n [46] || (root && leqb n [46; 46]).
Definition shown (root : bool) (es l : list (list N * bool)) : Prop :=
  Permutation l (filter (fun d => negb (hidden root (fst d))) es) /\
  StronglySorted (fun a b => name_le (fst a) (fst b)) l.

Section Decide.
Context (E : env) (fs : N -> list N -> node) (v : vhost) (i : comps).
Context (sni : list N)      (* the server name of the connection *)
        (asked : list N).   (* the decoded host of the request *)

(** the value [x] of an option for the path of the request *)
Definition option_is {A} (f : location -> A) (set : A -> Prop) (x : A) : Prop :=
  exists l, governs (e_fnm E) (c_path i) (fun l => set (f l)) v l /\ f l = x.

(** a CA refuses the client, or does not *)
Inductive refused : option N -> what -> Prop :=
| rf_none a : e_cert E = None -> refused (Some a) (WReply 60 (s2b "client certificate required"))
| rf_bad a : e_cert E <> None -> e_valid E a = false -> refused (Some a) (WReply 61 (s2b "certificate not authorised")).
Definition admitted (ca : option N) : Prop :=
  forall a, ca = Some a -> e_cert E <> None /\ e_valid E a = true.

(** reverse proxy *)
Inductive relays (p : proxy) : what -> Prop :=
| rl_refused w : refused (p_reqca p) w -> relays p w
| rl_down : admitted (p_reqca p) -> e_upstream E p = false -> relays p (WReply 43 (s2b "proxy error"))
| rl_notls : admitted (p_reqca p) -> e_upstream E p = true -> p_notls p = false -> e_uptls E p = false ->
    relays p (WReply 43 (s2b "proxy error"))
| rl_up : admitted (p_reqca p) -> e_upstream E p = true -> (p_notls p = true \/ e_uptls E p = true) ->
    relays p (WUp p).

(** a directory requested as [c_path i] *)
Definition dir_style : Prop := c_path i = [] \/ last (c_path i) 0 = 47.

Inductive lists (entries : option (list (list N * bool))) : what -> Prop :=
| ls_off a : option_is l_auto_index (fun x => x <> 0%Z) a -> a <> 1%Z -> lists entries (WReply 51 (s2b "not found"))
| ls_fail : option_is l_auto_index (fun x => x <> 0%Z) 1%Z -> entries = None ->
    lists entries (WReply 40 (s2b "internal server error"))
| ls_ok es l : option_is l_auto_index (fun x => x <> 0%Z) 1%Z -> entries = Some es ->
    shown (leqb (c_path i) [47] || isnil (c_path i)) es l -> lists entries (WList (c_path i) l).

Inductive directory (look : list N -> node) (entries : option (list (list N * bool))) : what -> Prop :=
| dr_slash : ~ dir_style -> (length (c_path i) <= 1024)%nat -> directory look entries (WReply 30 ([47] ++ c_path i ++ [47]))
| dr_long : ~ dir_style -> (1024 < length (c_path i))%nat -> directory look entries (WReply 40 (s2b "internal server error"))
| dr_index x idx content ty : dir_style -> option_is l_index (fun x => x <> []) x ->
    idx = match x with [] => s2b "index.gmi" | _ => x end ->
    look idx = NFile true content ->
    mime (e_fnm E) (c_mime (e_conf E)) (Some v) (firstn 4095 (c_path i ++ idx)) = OK ty ->
    directory look entries (WBody ty content)
| dr_bad x idx : dir_style -> option_is l_index (fun x => x <> []) x ->
    idx = match x with [] => s2b "index.gmi" | _ => x end ->
    look idx = NBad -> directory look entries (WReply 40 (s2b "internal server error"))
| dr_list x idx w : dir_style -> option_is l_index (fun x => x <> []) x ->
    idx = match x with [] => s2b "index.gmi" | _ => x end ->
    (look idx = NMissing \/ (exists c, look idx = NFile false c) \/ (exists a b, look idx = NDir a b)) ->
    lists entries w -> directory look entries w.

(** what was found *)
Inductive found (path : list N) : node -> what -> Prop :=
| fd_missing : found path NMissing (WReply 51 (s2b "not found"))
| fd_bad : found path NBad (WReply 40 (s2b "internal server error"))
| fd_file b content ty : mime (e_fnm E) (c_mime (e_conf E)) (Some v) path = OK ty ->
    found path (NFile b content) (WBody ty content)
| fd_dir look entries w : directory look entries w -> found path (NDir look entries) w.

(** the path below the root: stripped, relative, "." if empty *)
Definition below (n : nat) : list N := match unslash (strip_path (c_path i) n) with [] => [46] | p => p end.

(** the request is for this server *)
Definition ours : Prop := c_scheme i = s2b "gemini" /\ map to_lower sni = map to_lower asked.

Definition fcgi_set (l : location) : Prop := l_fcgi l <> None \/ l_nofcgi l = true.
Definition application (k : option (nat * location)) : Prop :=
  exists l, governs (e_fnm E) (c_path i) fcgi_set v l /\
    match k with
    | Some (n, l') => l' = l /\ l_fcgi l = Some n /\ nth_error (c_fcgi (e_conf E)) n <> None
    | None => forall n, l_fcgi l = Some n -> nth_error (c_fcgi (e_conf E)) n = None
    end.

(** past the reverse proxies, the name and the certificate *)
Inductive admitted_to : decision -> Prop :=
| a_block l n meta : governs (e_fnm E) (c_path i) (fun l => l_block_code l <> 0) v l -> l_block_code l <> 0 ->
    option_is l_strip (fun x => x <> 0%nat) n ->
    fmtbuf (mkFmt (strip_path (c_path i) n) (c_query i) (e_port E) sni) IriOut.GEMINI_URL_LEN (l_block_fmt l) = OK meta ->
    admitted_to (mkD [] (WReply (l_block_code l) meta))
| a_fcgi_down k l : option_is l_block_code (fun x => x <> 0) 0 ->
    application (Some (k, l)) -> e_fcgi E k = false -> admitted_to (mkD [] (WReply 42 (s2b "CGI error")))
| a_fcgi k l : option_is l_block_code (fun x => x <> 0) 0 ->
    application (Some (k, l)) -> e_fcgi E k = true -> admitted_to (mkD [] (WFcgi k l))
| a_noroot : option_is l_block_code (fun x => x <> 0) 0 -> application None ->
    option_is l_dirfd (fun x => x <> None) None -> admitted_to (mkD [] (WReply 51 (s2b "not found")))
| a_file fd n w : option_is l_block_code (fun x => x <> 0) 0 -> application None ->
    option_is l_dirfd (fun x => x <> None) (Some fd) -> option_is l_strip (fun x => x <> 0%nat) n ->
    found (below n) (fs fd (below n)) w -> admitted_to (mkD [(fd, below n)] w).

Let proxied := proxies_to (e_fnm E) (v_proxies v) (c_scheme i) sni (c_port i).

Inductive decides : decision -> Prop :=
| d_proxy p w : proxied (Some p) -> relays p w -> decides (mkD [] w)
| d_foreign : proxied None -> ~ ours -> decides (mkD [] (WReply 53 (s2b "won't proxy request")))
| d_refused ca w : proxied None -> ours -> option_is l_reqca (fun x => x <> None) ca -> refused ca w -> decides (mkD [] w)
| d_admitted ca d : proxied None -> ours -> option_is l_reqca (fun x => x <> None) ca -> admitted ca ->
    admitted_to d -> decides d.

(** the header on the wire: the language is added to text/gemini, and a header
    too long is replaced *)
Definition meta_sent (meta : list N) (m : list N) : Prop :=
  (meta <> s2b "text/gemini" /\ m = meta) \/
  (meta = s2b "text/gemini" /\ exists lg, option_is l_lang (fun x => x <> []) lg /\
     m = match lg with [] => meta | _ => meta ++ s2b ";lang=" ++ lg end).
Definition wire (code : N) (meta h : list N) : Prop :=
  exists m, meta_sent meta m /\
    h = if (length m <=? 1024)%nat then header code m else header 40 (s2b "internal error").
End Decide.

(** actions that are not the log nor the verification of a certificate *)
Definition visible (a : action) : bool := match a with ALog _ _ => false | AVerify _ => false | _ => true end.

(** [c'] follows from [c] by performing [d] *)
Definition performed (E : env) (v : vhost) (i : comps) (d : decision) (c c' : client) : Prop :=
  exists new, c_acts c' = c_acts c ++ new /\ c_sent c' = c_sent c /\ c_closed c' = c_closed c /\ c_iri c' = Some i /\
  let did l := filter visible new = map (fun o => AOpen (fst o) (snd o)) (d_open d) ++ l in
  match d_what d with
  | WReply code meta =>
    exists h, wire E v i code meta h /\ c_out c' = h /\ c_type c' = DONE /\ c_code c' <> 0 /\
      exists code' meta', did [AReply code' meta'] /\ ((code', meta') = (code, meta) \/ h = header 40 (s2b "internal error"))
  | WBody ty content =>
    exists h, wire E v i 20 ty h /\ c_out c' = h /\
      ((did [AReply 20 ty] /\ c_type c' = RFILE /\ c_pfd c' = PFile content) \/ h = header 40 (s2b "internal error"))
  | WList path entries =>
    exists h, wire E v i 20 (s2b "text/gemini") h /\ c_out c' = h ++ s2b "# Index of /" ++ path ++ [10; 10] /\
      ((did [AReply 20 (s2b "text/gemini")] /\ c_type c' = RDIR /\ c_dir c' = entries) \/ h = header 40 (s2b "internal error"))
  | WUp p =>
    c_out c' = [] /\ c_type c' = RPROXY /\ c_pxy c' = Some p /\
    if p_notls p then exists line, IriOut.proxy_request_line i (e_junk E) = OK line /\ did [AUp p line] /\ c_up c' = Some []
    else did []
  | WFcgi k loc =>
    c_out c' = [] /\ c_type c' = c_type c /\
    exists bytes, fcgi_req i loc (v_loc0 v) (e_rhost E) (e_version E) (e_cert E) = OK bytes /\ did [AFcgi k bytes] /\
      c_cgibev c' = Some (length (c_conns c)) /\ c_conns c' = c_conns c ++ [mkConn [] true]
  end.
