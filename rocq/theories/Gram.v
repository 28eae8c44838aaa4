(** Model of the grammar of the configuration file and its actions,
    parse.y:145-700 and parse_conf, parse.y:1122-1157.

    The parser yacc(1) makes of the (conflict free) grammar is written down as
    the recursive descent it amounts to: every rule is chosen by the next token.
    A token is looked at before the action of a rule that may go on with it
    (`string' at the end) and not before the others, as yacc's default
    reductions have it; so a file that is included is entered before the next
    token is read.  A syntax error ends the run with [Syntax]: yacc reports it
    (file->errors is no longer 0), skips tokens and goes on only to find more
    errors, which is not modelled.

    getaddrinfo(3), getnameinfo(3), getservbyname(3) and the files are
    parameters.  Memory allocation does not fail.  Warnings are left out. *)
From Verif Require Import Base BaseLemmas Compat Conf Config Mime Fmt Parse UpTls Lex.
Local Open Scope N_scope.

(** [struct vhost] while it is parsed *)
Record vh := mkVh { vh_domain : list N; vh_cert : option (list N); vh_key : option (list N); vh_ocsp : option (list N);
  vh_addrs : list address; vh_locs : list ploc; vh_aliases : list (list N); vh_proxies : list pproxy }.

(** [conf], default_host, default_port, current_media.  [host] is the first host,
    [loc] the last location of it, [proxy] its last proxy. *)
Record core := mkCore {
  g_chroot : list N; g_user : list N; g_prefork : Z; g_protos : N;
  g_access : option (list N); g_style : N; g_syslog : bool; g_facility : list N;
  g_mime : mimetab; g_fcgi : list fapp; g_addrs : list address; g_hosts : list vh;
  g_dhost : option (list N); g_dport : Z; g_media : list N }.
(** the lexer, yychar ([None]: YYEMPTY) *)
Record gst := mkG { g_lex : lex; g_la : option tok; g_core : core }.

Inductive pres (A : Type) := Good (a : A) | Syntax | Fatal | Wrong | Out.
Arguments Good {A} a.
Arguments Syntax {A}. Arguments Fatal {A}. Arguments Wrong {A}. Arguments Out {A}.
Definition M (A : Type) := gst -> pres (A * gst).
Definition ret {A} (a : A) : M A := fun s => Good (a, s).
Definition bnd {A B} (m : M A) (f : A -> M B) : M B :=
  fun s => match m s with Good (a, s) => f a s | Syntax => Syntax | Fatal => Fatal | Wrong => Wrong | Out => Out end.
Notation "'do' x <- m ; f" := (bnd m (fun x => f)) (at level 200, x pattern, m at level 100, f at level 200).
Notation "m ;; f" := (bnd m (fun _ => f)) (at level 100, f at level 200, right associativity).
Definition fail {A} : M A := fun _ => Syntax.
Definition fatal {A} : M A := fun _ => Fatal.
Definition of_res {A} (r : res A) : M A := fun s => match r with OK a => Good (a, s) | UB => Wrong | Fuel => Out end.
Definition modify (f : core -> core) : M unit := fun s => Good (tt, mkG (g_lex s) (g_la s) (f (g_core s))).
Definition set_lex (l : lex) (s : gst) : gst := mkG l (g_la s) (g_core s).
Definition set_la (t : option tok) (s : gst) : gst := mkG (g_lex s) t (g_core s).
Definition set_core (c : core) (s : gst) : gst := mkG (g_lex s) (g_la s) c.
Definition modify_lex (f : lex -> lex) : M unit := fun s => Good (tt, set_lex (f (g_lex s)) s).

Definition set_globals (chroot user : list N) (prefork : Z) (protos : N) (s : core) : core :=
  mkCore chroot user prefork protos (g_access s) (g_style s) (g_syslog s) (g_facility s)
         (g_mime s) (g_fcgi s) (g_addrs s) (g_hosts s) (g_dhost s) (g_dport s) (g_media s).
Definition set_log (access : option (list N)) (style : N) (syslog : bool) (facility : list N) (s : core) : core :=
  mkCore (g_chroot s) (g_user s) (g_prefork s) (g_protos s) access style syslog facility
         (g_mime s) (g_fcgi s) (g_addrs s) (g_hosts s) (g_dhost s) (g_dport s) (g_media s).
Definition set_mime (m : mimetab) (s : core) : core :=
  mkCore (g_chroot s) (g_user s) (g_prefork s) (g_protos s) (g_access s) (g_style s) (g_syslog s) (g_facility s)
         m (g_fcgi s) (g_addrs s) (g_hosts s) (g_dhost s) (g_dport s) (g_media s).
Definition set_fcgis (f : list fapp) (s : core) : core :=
  mkCore (g_chroot s) (g_user s) (g_prefork s) (g_protos s) (g_access s) (g_style s) (g_syslog s) (g_facility s)
         (g_mime s) f (g_addrs s) (g_hosts s) (g_dhost s) (g_dport s) (g_media s).
Definition set_hosts (a : list address) (h : list vh) (s : core) : core :=
  mkCore (g_chroot s) (g_user s) (g_prefork s) (g_protos s) (g_access s) (g_style s) (g_syslog s) (g_facility s)
         (g_mime s) (g_fcgi s) a h (g_dhost s) (g_dport s) (g_media s).
Definition set_defaults (h : option (list N)) (p : Z) (m : list N) (s : core) : core :=
  mkCore (g_chroot s) (g_user s) (g_prefork s) (g_protos s) (g_access s) (g_style s) (g_syslog s) (g_facility s)
         (g_mime s) (g_fcgi s) (g_addrs s) (g_hosts s) h p m.

(** ** tokens *)
Definition peek : M tok := fun s =>
  match g_la s with
  | Some t => Good (t, s)
  | None => match yylex (g_lex s) with
            | OK (t, l) => Good (t, set_la (Some t) (set_lex l s)) | UB => Wrong | Fuel => Out end
  end.
Definition next : M tok := do t <- peek; fun s => Good (t, set_la None s).
(** yyerror: the error is counted in the file being read *)
Definition err : M unit := modify_lex yyerror.
Definition err_if (b : bool) : M unit := if b then err else ret tt.
Fixpoint errs (n : nat) : M unit := match n with O => ret tt | S n => err;; errs n end.

Definition kw_eqb (a b : kw) : bool := if (fun x y : kw => ltac:(decide equality) : {x = y} + {x <> y}) a b then true else false.
Definition is_chr (c : N) (t : tok) : bool := match t with TChr d => d =? c | _ => false end.
Definition is_kw (k : kw) (t : tok) : bool := match t with TKw j => kw_eqb j k | _ => false end.
Definition expect (c : N) : M unit := do t <- next; if is_chr c t then ret tt else fail.
Definition expect_kw (k : kw) : M unit := do t <- next; if is_kw k t then ret tt else fail.

(** parse.y:688-694 — [nl], [optnl]: '\n' and ';' *)
Definition is_nl (t : tok) : bool := is_chr 10 t || is_chr 59 t.
Fixpoint optnl (n : nat) : M unit :=
  match n with
  | O => fun _ => Out
  | S n => do t <- peek; if is_nl t then next;; optnl n else ret tt
  end.
Definition nl (n : nat) : M unit := do t <- next; if is_nl t then optnl n else fail.

(** parse.y:187-200 — [string] *)
Fixpoint more_strings (n : nat) (a : list N) : M (list N) :=
  match n with
  | O => fun _ => Out
  | S n => do t <- peek; match t with TStr s => next;; more_strings n (a ++ s) | _ => ret a end
  end.
Definition string_ (n : nat) : M (list N) := do t <- next; match t with TStr s => more_strings n s | _ => fail end.
(** parse.y:183-185 — [bool] *)
Definition bool_ : M bool := do t <- next; match t with TKw ON => ret true | TKw OFF => ret false | _ => fail end.
Definition num : M Z := do t <- next; match t with TNum z => ret z | _ => fail end.
Definition str : M (list N) := do t <- next; match t with TStr s => ret s | _ => fail end.

(** strlcpy(dst, s, size) and yyerror if it does not fit *)
Definition copy (size : nat) (s : list N) : M (list N) := err_if (size <=? length s)%nat;; ret (firstn (size - 1) s).
(** parse.y:1219-1225 — [ensure_absolute_path] *)
Definition absolute (s : list N) : M (list N) := err_if (negb (hd 0 s =? 47));; ret s.

(** ** the current host, location, proxy *)
Definition on_host (f : vh -> vh) : M unit := fun s =>
  let c := g_core s in
  match g_hosts c with [] => Wrong | h :: r => Good (tt, set_core (set_hosts (g_addrs c) (f h :: r) c) s) end.
Definition on_last {A} (f : A -> A) (l : list A) : list A :=
  match rev l with [] => l | x :: r => rev r ++ [f x] end.
Definition set_locs (l : list ploc) (h : vh) : vh := mkVh (vh_domain h) (vh_cert h) (vh_key h) (vh_ocsp h) (vh_addrs h) l (vh_aliases h) (vh_proxies h).
Definition set_proxies (l : list pproxy) (h : vh) : vh := mkVh (vh_domain h) (vh_cert h) (vh_key h) (vh_ocsp h) (vh_addrs h) (vh_locs h) (vh_aliases h) l.
Definition on_loc (f : ploc -> ploc) : M unit := on_host (fun h => set_locs (on_last f (vh_locs h)) h).
Definition on_proxy (f : pproxy -> pproxy) : M unit := on_host (fun h => set_proxies (on_last f (vh_proxies h)) h).

(** utils.c:478-488 — [new_location] *)
Definition new_location : location := mkLoc [] [] [] [] 0 0 [] 0 None false None false 0 [] [] None.
Definition lmap (f : location -> location) (l : ploc) : ploc := mkPloc (f (pl l)) (pl_ca l).
Definition with_match m (l : location) := mkLoc m (l_lang l) (l_default_mime l) (l_index l) (l_auto_index l) (l_block_code l) (l_block_fmt l) (l_strip l) (l_reqca l) (l_disable_log l) (l_fcgi l) (l_nofcgi l) (l_fcgi_strip l) (l_params l) (l_dir l) (l_dirfd l).
Definition with_lang m (l : location) := mkLoc (l_match l) m (l_default_mime l) (l_index l) (l_auto_index l) (l_block_code l) (l_block_fmt l) (l_strip l) (l_reqca l) (l_disable_log l) (l_fcgi l) (l_nofcgi l) (l_fcgi_strip l) (l_params l) (l_dir l) (l_dirfd l).
Definition with_mime m (l : location) := mkLoc (l_match l) (l_lang l) m (l_index l) (l_auto_index l) (l_block_code l) (l_block_fmt l) (l_strip l) (l_reqca l) (l_disable_log l) (l_fcgi l) (l_nofcgi l) (l_fcgi_strip l) (l_params l) (l_dir l) (l_dirfd l).
Definition with_index m (l : location) := mkLoc (l_match l) (l_lang l) (l_default_mime l) m (l_auto_index l) (l_block_code l) (l_block_fmt l) (l_strip l) (l_reqca l) (l_disable_log l) (l_fcgi l) (l_nofcgi l) (l_fcgi_strip l) (l_params l) (l_dir l) (l_dirfd l).
Definition with_auto m (l : location) := mkLoc (l_match l) (l_lang l) (l_default_mime l) (l_index l) m (l_block_code l) (l_block_fmt l) (l_strip l) (l_reqca l) (l_disable_log l) (l_fcgi l) (l_nofcgi l) (l_fcgi_strip l) (l_params l) (l_dir l) (l_dirfd l).
Definition with_block c f (l : location) := mkLoc (l_match l) (l_lang l) (l_default_mime l) (l_index l) (l_auto_index l) c f (l_strip l) (l_reqca l) (l_disable_log l) (l_fcgi l) (l_nofcgi l) (l_fcgi_strip l) (l_params l) (l_dir l) (l_dirfd l).
Definition with_strip m (l : location) := mkLoc (l_match l) (l_lang l) (l_default_mime l) (l_index l) (l_auto_index l) (l_block_code l) (l_block_fmt l) m (l_reqca l) (l_disable_log l) (l_fcgi l) (l_nofcgi l) (l_fcgi_strip l) (l_params l) (l_dir l) (l_dirfd l).
Definition with_nolog m (l : location) := mkLoc (l_match l) (l_lang l) (l_default_mime l) (l_index l) (l_auto_index l) (l_block_code l) (l_block_fmt l) (l_strip l) (l_reqca l) m (l_fcgi l) (l_nofcgi l) (l_fcgi_strip l) (l_params l) (l_dir l) (l_dirfd l).
Definition with_fcgi m n (l : location) := mkLoc (l_match l) (l_lang l) (l_default_mime l) (l_index l) (l_auto_index l) (l_block_code l) (l_block_fmt l) (l_strip l) (l_reqca l) (l_disable_log l) m n (l_fcgi_strip l) (l_params l) (l_dir l) (l_dirfd l).
Definition with_fstrip m (l : location) := mkLoc (l_match l) (l_lang l) (l_default_mime l) (l_index l) (l_auto_index l) (l_block_code l) (l_block_fmt l) (l_strip l) (l_reqca l) (l_disable_log l) (l_fcgi l) (l_nofcgi l) m (l_params l) (l_dir l) (l_dirfd l).
Definition with_params m (l : location) := mkLoc (l_match l) (l_lang l) (l_default_mime l) (l_index l) (l_auto_index l) (l_block_code l) (l_block_fmt l) (l_strip l) (l_reqca l) (l_disable_log l) (l_fcgi l) (l_nofcgi l) (l_fcgi_strip l) m (l_dir l) (l_dirfd l).
Definition with_dir m (l : location) := mkLoc (l_match l) (l_lang l) (l_default_mime l) (l_index l) (l_auto_index l) (l_block_code l) (l_block_fmt l) (l_strip l) (l_reqca l) (l_disable_log l) (l_fcgi l) (l_nofcgi l) (l_fcgi_strip l) (l_params l) m (l_dirfd l).

Definition PROC_MAX_INSTANCES : Z := 16.
Definition TEMPFAIL : list N := s2b "temporary failure".

Section Grammar.
(** getaddrinfo(3) for a passive stream socket, with the names of the addresses *)
Variable gai : option (list N) -> list N -> option (list (ainfo * list N)).
(** getservbyname(3), tcp then udp: the port in host order *)
Variable service : list N -> option Z.
(** fopen(3) and its contents *)
Variable files : list N -> option (list N).

(** parse.y:1403-1432 — [listen_on] *)
Definition listen (hostname : option (list N)) (servname : list N) (proxy : bool) : M unit := fun s =>
  match gai hostname servname with
  | None => err s
  | Some l =>
    let c := g_core s in
    match g_hosts c with
    | [] => Wrong
    | h :: r =>
      match listen_on l proxy (mkL [vh_addrs h] (g_addrs c) 0) with
      | Some (mkL (a :: _) al n) =>
        errs n (set_core (set_hosts al (mkVh (vh_domain h) (vh_cert h) (vh_key h) (vh_ocsp h) a (vh_locs h) (vh_aliases h) (vh_proxies h) :: r) c) s)
      | _ => Fatal
      end
    end
  end.

(** parse.y:1329-1346 — [getservice]; None is -1 *)
Definition getservice (s : list N) : option Z :=
  match strtonum s 0 65535 with (z, NumOk) => Some z | _ => service s end.

(** parse.y:165-180 — [include] *)
Definition include : M unit :=
  do f <- str;
  match files f with
  | None => err;; fail
  | Some c => modify_lex (include_file c)
  end.

(** parse.y:213-227 — [varset]; [s] was read *)
Definition varset (n : nat) : M unit :=
  do name <- str; expect 61;; do v <- string_ n;
  if existsb is_space (tl name) then err;; fail
  else modify_lex (fun l => mkLex (lx_cur l) (lx_outer l) (lx_exp l) (symset name v false (lx_syms l))).

(** parse.y:277-326 — [logopt]; facilities by their canonical names *)
Definition facilities : list (list N) := map s2b ["daemon"; "ftp"; "local1"; "local2"; "local3"; "local4"; "local5"; "local6"; "local7"; "user"]%string.
Definition facility (s : list N) : option (list N) :=
  let s := map to_lower s in
  let s := if leqb (firstn 4 s) (s2b "log_") then skipn 4 s else s in
  find (fun f => leqb f s) facilities.
Definition style (s : list N) : option N :=
  if leqb s (s2b "condensed") then Some 0 else if leqb s (s2b "common") then Some 1 else
  if leqb s (s2b "combined") then Some 2 else if leqb s (s2b "legacy") then Some 3 else None.
Definition logopt_ (n : nat) : M unit :=
  do t <- next;
  match t with
  | TKw ACCESS => do s <- string_ n; modify (fun g => set_log (Some s) (g_style g) (g_syslog g) (g_facility g) g)
  | TKw STYLE => do s <- string_ n;
      match style s with Some f => modify (fun g => set_log (g_access g) f (g_syslog g) (g_facility g) g) | None => err end
  | TKw SYSLOG =>
      do t <- peek;
      match t with
      | TKw FACILITY => next;; do s <- string_ n;
          modify (fun g => set_log (g_access g) (g_style g) true (match facility s with Some f => f | None => g_facility g end) g)
      | TKw OFF => next;; modify (fun g => set_log (g_access g) (g_style g) false (g_facility g) g)
      | _ => modify (fun g => set_log (g_access g) (g_style g) true (g_facility g) g)
      end
  | _ => fail
  end.

(** a block: '{' optnl (item optnl)* '}' *)
Fixpoint items (item : M unit) (n : nat) (m : nat) : M unit :=
  match n with
  | O => fun _ => Out
  | S n => do t <- peek; if is_chr 125 t then next;; ret tt else item;; optnl m;; items item n m
  end.
Definition block (item : M unit) (n : nat) : M unit := expect 123;; optnl n;; items item n n.

(** parse.y:229-275 — [option] *)
Definition option_ (n : nat) : M unit :=
  do t <- next;
  match t with
  | TKw CHROOT => do s <- string_ n; do s <- copy 4096 s; modify (fun g => set_globals s (g_user g) (g_prefork g) (g_protos g) g)
  | TKw IPV6 => do b <- bool_; modify (fun g => set_defaults (if b : bool then None else Some (s2b "0.0.0.0")) (g_dport g) (g_media g) g)
  | TKw LOG => do t <- peek; if is_chr 123 t then block (logopt_ n) n else logopt_ n
  | TKw PORT => do z <- num; modify (fun g => set_defaults (g_dhost g) z (g_media g) g)
  | TKw PREFORK => do z <- num; err_if ((z <=? 0)%Z || (PROC_MAX_INSTANCES <=? z)%Z);; modify (fun g => set_globals (g_chroot g) (g_user g) z (g_protos g) g)
  | TKw PROTOCOLS => do s <- string_ n;
      match tls_config_parse_protocols s with
      | Some p => modify (fun g => set_globals (g_chroot g) (g_user g) (g_prefork g) p g) | None => err end
  | TKw USER => do s <- string_ n; do s <- copy 256 s; modify (fun g => set_globals (g_chroot g) s (g_prefork g) (g_protos g) g)
  | _ => fail
  end.

(** parse.y:1314-1327 — [add_param] *)
Definition add_param (n : nat) : M unit :=
  do name <- string_ n; expect 61;; do v <- string_ n;
  do name <- copy 511 name; do v <- copy 511 v;
  on_loc (lmap (fun l => with_params (l_params l ++ [(name, v)]) l)).

(** parse.y:1288-1312 — [fastcgi_conf] and loc->fcgi *)
Definition fcgi_conf (path : list N) (port : option (list N)) : M unit := fun s =>
  match fastcgi_conf path port (g_fcgi (g_core s)) with
  | OK (i, t, e) =>
    bnd (errs e) (fun _ => on_loc (lmap (fun l => with_fcgi (Some i) (l_nofcgi l) l))) (set_core (set_fcgis t (g_core s)) s)
  | UB => Wrong | Fuel => Out
  end.

(** parse.y:634-666 — [fastcgiopt] *)
Definition fastcgiopt (n : nat) : M unit :=
  do t <- next;
  match t with
  | TKw PARAM => add_param n
  | TKw SOCKET =>
      do t <- peek;
      if is_kw TCP t then
        next;; do h <- string_ n; do t <- peek;
        if is_kw PORT t then
          next;; do t <- peek;
          match t with
          | TNum z => next;; fcgi_conf h (Some (decz z))
          | _ => do p <- string_ n; fcgi_conf h (Some p)
          end
        else fcgi_conf h (Some (s2b "9000"))
      else do p <- string_ n; fcgi_conf p None
  | TKw STRIP => do z <- num; on_loc (lmap (with_fstrip (Z.to_nat z)))
  | _ => fail
  end.

(** parse.y:562-627 — [locopt], [fastcgi]; the token was read *)
Definition locopt_ (n : nat) (t : tok) : M unit :=
  match t with
  | TKw AUTO => expect_kw INDEX;; do b <- bool_; on_loc (lmap (with_auto (if b : bool then 1 else -1)%Z))
  | TKw BLOCK =>
      do t <- peek;
      if is_kw RETURN t then
        next;; do z <- num; do t <- peek;
        match t with
        | TStr _ =>
          do s <- string_ n;
          do ok <- of_res (check_block_fmt s); err_if (negb ok);;
          do s <- copy 1027 s; err_if (negb (check_block_code z));;
          on_loc (lmap (with_block (Z.to_N z) s))
        | _ =>
          err_if (negb (check_block_code z));;
          on_loc (lmap (with_block (Z.to_N z) TEMPFAIL));;
          err_if ((30 <=? z)%Z && (z <? 40)%Z)
        end
      else on_loc (lmap (with_block 40 TEMPFAIL))
  | TKw DEFAULT => expect_kw TYPE;; do s <- string_ n; do s <- copy 128 s; on_loc (lmap (with_mime s))
  | TKw FASTCGI =>
      do t <- peek;
      match t with
      | TChr 123 => block (fastcgiopt n) n
      | TKw OFF => next;; on_loc (lmap (with_fcgi None true))
      | TStr _ => do s <- string_ n; fcgi_conf s None
      | _ => fastcgiopt n
      end
  | TKw INDEX => do s <- string_ n; do s <- copy 4096 s; on_loc (lmap (with_index s))
  | TKw LANG => do s <- string_ n; do s <- copy 32 s; on_loc (lmap (with_lang s))
  | TKw LOG => do b <- bool_; on_loc (lmap (with_nolog (negb b)))
  | TKw REQUIRE => expect_kw CLIENT;; expect_kw CA;; do s <- string_ n; do s <- absolute s; on_loc (fun l => mkPloc (pl l) (Some s))
  | TKw ROOT => do s <- string_ n; do s <- copy 4096 s; on_loc (lmap (with_dir s))
  | TKw STRIP => do z <- num; err_if (z <=? 0)%Z;; on_loc (lmap (with_strip (Z.to_nat z)))
  | _ => fail
  end.

(** parse.y:418-456 — [listen_addr] and the six rules of LISTEN *)
Definition listen_opt (n : nat) : M unit :=
  expect_kw ON;; do t <- next;
  do h <- match t with TChr 42 => ret None | TStr s => ret (Some s) | _ => fail end;
  do t <- peek;
  do p <- (if is_kw PORT t then
             next;; do t <- next; match t with TStr s => ret s | TNum z => ret (decz z) | _ => fail end
           else ret (s2b "1965"));
  do t <- peek;
  do x <- (if is_kw PROXYV1 t then next;; ret true else ret false);
  listen h p x.

Definition set_cert c (h : vh) : vh := mkVh (vh_domain h) c (vh_key h) (vh_ocsp h) (vh_addrs h) (vh_locs h) (vh_aliases h) (vh_proxies h).
Definition set_key k (h : vh) : vh := mkVh (vh_domain h) (vh_cert h) k (vh_ocsp h) (vh_addrs h) (vh_locs h) (vh_aliases h) (vh_proxies h).
Definition set_ocsp o (h : vh) : vh := mkVh (vh_domain h) (vh_cert h) (vh_key h) o (vh_addrs h) (vh_locs h) (vh_aliases h) (vh_proxies h).
Definition add_alias a (h : vh) : vh := mkVh (vh_domain h) (vh_cert h) (vh_key h) (vh_ocsp h) (vh_addrs h) (vh_locs h) (vh_aliases h ++ [a]) (vh_proxies h).

(** parse.y:470-482 — [proxy_port] *)
Definition proxy_port (n : nat) : M Z :=
  do t <- peek;
  if is_kw PORT t then
    next;; do t <- next;
    match t with
    | TStr s => match getservice s with Some z => ret z | None => err;; ret (-1)%Z end
    | TNum z => ret z
    | _ => fail
    end
  else ret 1965%Z.

(** parse.y:484-500 — [proxy_match]s until '{' *)
Definition pmap (f : proxy -> proxy) (p : pproxy) : pproxy := mkPproxy (f (px p)) (px_sni p) (px_protos p) (px_noverify p) (px_cert p) (px_key p) (px_ca p).
Fixpoint proxy_matches (n : nat) (m : nat) : M unit :=
  match n with
  | O => fun _ => Out
  | S n =>
    do t <- peek;
    match t with
    | TKw PROTO => next;; do s <- string_ m; do s <- copy 32 s;
        on_proxy (pmap (fun x => mkProxy s (p_match_host x) (p_match_port x) (p_host x) (p_port x) (p_notls x) (p_proxy x) (p_reqca x)));;
        proxy_matches n m
    | TKw FOR_HOST => next;; do s <- string_ m; do z <- proxy_port m; do s <- copy 256 s;
        on_proxy (pmap (fun x => mkProxy (p_match_proto x) s (decz z) (p_host x) (p_port x) (p_notls x) (p_proxy x) (p_reqca x)));;
        proxy_matches n m
    | _ => ret tt
    end
  end.

(** parse.y:504-548 — [proxy_opt]: see UpTls.v; a bad value is one error *)
Definition proxy_act (o : proxy_opt) : M unit := fun s =>
  let c := g_core s in
  match g_hosts c with
  | [] => Wrong
  | h :: r =>
    match rev (vh_proxies h) with
    | [] => Wrong
    | p :: q =>
      let '(p', ok) := proxy_option o (p, true) in
      err_if (negb ok) (set_core (set_hosts (g_addrs c) (set_proxies (rev q ++ [p']) h :: r) c) s)
    end
  end.
Definition proxy_opt_ (n : nat) : M unit :=
  do t <- next;
  match t with
  | TKw CERT => do s <- string_ n; do s <- absolute s; proxy_act (PCert s)
  | TKw KEY => do s <- string_ n; do s <- absolute s; proxy_act (PKey s)
  | TKw PROTOCOLS => do s <- string_ n; proxy_act (PProtocols s)
  | TKw PROXYV1 => proxy_act PProxyV1
  | TKw RELAY_TO => do s <- string_ n; do z <- proxy_port n; proxy_act (PRelayTo s (decz z))
  | TKw REQUIRE => expect_kw CLIENT;; expect_kw CA;; do s <- string_ n; do s <- absolute s; proxy_act (PReqCa s)
  | TKw SNI => do s <- string_ n; proxy_act (PSni s)
  | TKw USE_TLS => do b <- bool_; proxy_act (PUseTls b)
  | TKw VERIFYNAME => do b <- bool_; proxy_act (PVerifyName b)
  | _ => fail
  end.
(** parse.y:461-468 — [proxy] *)
Definition proxy_ (n : nat) : M unit :=
  on_host (fun h => set_proxies (vh_proxies h ++ [new_proxy]) h);;
  proxy_matches n n;; block (proxy_opt_ n) n;;
  fun s => match g_hosts (g_core s) with
           | h :: _ => match rev (vh_proxies h) with
                       | p :: _ => errs ((if isnil (p_host (px p)) then 1 else 0) +
                                        (match px_cert p, px_key p with Some _, None | None, Some _ => 1 | _, _ => 0 end))%nat s
                       | [] => Wrong end
           | [] => Wrong end.

(** parse.y:550-560 — [location] *)
Definition drop_slash (s : list N) : list N := match s with 47 :: r => r | _ => s end.
Definition location_ (n : nat) : M unit :=
  on_host (fun h => set_locs (vh_locs h ++ [mkPloc new_location None]) h);;
  do s <- string_ n; block (do t <- next; locopt_ n t) n;;
  do s <- copy 128 (drop_slash s); on_loc (lmap (with_match s)).

(** parse.y:373-458 — an item of [servbody] *)
Definition servitem (n : nat) : M unit :=
  do t <- next;
  match t with
  | TKw ALIAS => do s <- string_ n; do s <- copy 256 s; on_host (add_alias s)
  | TKw CERT => do s <- string_ n; do s <- absolute s; on_host (set_cert (Some s))
  | TKw CGI => string_ n;; err
  | TKw KEY => do s <- string_ n; do s <- absolute s; on_host (set_key (Some s))
  | TKw OCSP => do s <- string_ n; do s <- absolute s; on_host (set_ocsp (Some s))
  | TKw PARAM => add_param n
  | TKw LISTEN => listen_opt n
  | TKw LOCATION => location_ n
  | TKw PROXY => proxy_ n
  | _ => locopt_ n t
  end.

(** parse.y:328-371 — [vhost] *)
Definition vhost_ (n : nat) : M unit :=
  expect_kw SERVER;; do s <- string_ n; do d <- copy 256 s;
  modify (fun g => set_hosts (g_addrs g) (mkVh d None None None [] [mkPloc (with_match (s2b "*") new_location) None] [] [] :: g_hosts g) g);;
  block (servitem n) n;;
  fun s => match g_hosts (g_core s) with
           | h :: _ =>
             bnd (err_if (match vh_cert h, vh_key h with Some _, Some _ => false | _, _ => true end))
               (fun _ => match vh_addrs h with [] => listen (g_dhost (g_core s)) (decz (g_dport (g_core s))) false | _ => ret tt end) s
           | [] => Wrong end.

(** parse.y:668-686 — [types] *)
Definition add_mime_ (ext : list N) : M unit := fun s =>
  let c := g_core s in
  match add_mime (g_mime c) (g_media c) ext with
  | OK (true, m) => Good (tt, set_core (set_mime m c) s) | OK (false, _) => Fatal | UB => Wrong | Fuel => Out end.
Fixpoint medianames (n : nat) : M unit :=
  match n with
  | O => fun _ => Out
  | S n =>
    do t <- peek;
    match t with
    | TStr s => next;; add_mime_ s;; medianames n
    | TNum z => next;; add_mime_ (decz z);; medianames n
    | _ => ret tt
    end
  end.
Definition mediaopts (n : nat) : M unit :=
  do t <- peek;
  match t with
  | TKw INCLUDE => next;; include
  | _ =>
    do s <- str; modify (fun g => set_defaults (g_dhost g) (g_dport g) s g);;
    do t <- peek;
    match t with TStr _ | TNum _ => medianames n | _ => fail end
  end.
Fixpoint mediaopts_l (n : nat) (m : nat) : M unit :=
  match n with
  | O => fun _ => Out
  | S n => do t <- peek; if is_chr 125 t then next;; ret tt else mediaopts m;; nl m;; mediaopts_l n m
  end.
Definition types_ (n : nat) : M unit :=
  expect_kw TYPES;; expect 123;; optnl n;; mediaopts n;; nl n;; mediaopts_l n n.

(** parse.y:149-163 — [grammar], [conf] *)
Definition statement (n : nat) : M unit :=
  do t <- peek;
  match t with
  | TKw INCLUDE => next;; include
  | TStr _ => varset n
  | TKw SERVER => vhost_ n
  | TKw TYPES => types_ n
  | _ => option_ n
  end.
Fixpoint conf_ (n : nat) (m : nat) : M unit :=
  match n with
  | O => fun _ => Out
  | S n => do t <- peek; match t with TEnd => ret tt | _ => statement m;; nl m;; conf_ n m end
  end.
Definition grammar (n : nat) : M unit := optnl n;; conf_ n n.

(** config.c:31-57 — [config_new] (init_mime: mime.c:28-34, capacity 16); parse.y:1127-1137 *)
Definition start (syms : list sym) (s : list N) : gst :=
  mkG (mkLex (mkLf s false 0) [] false syms) None
      (mkCore [] [] 3 24 None 3 true (s2b "daemon") (mkMime [] 16) [] [] [] None 1965%Z []).

(** parse.y:1122-1157 — [parse_conf]: 0 when no error was counted in the file the
    parser ended in *)
Definition parse_conf (n : nat) (syms : list sym) (s : list N) : pres core :=
  match grammar n (start syms s) with
  | Good (_, g) => if (lf_errors (lx_cur (g_lex g)) =? 0)%nat then Good (g_core g) else Syntax
  | Syntax => Syntax | Fatal => Fatal | Wrong => Wrong | Out => Out
  end.
End Grammar.

(** ** the configuration that is then sent (Config.v); the fields of a printed
    [struct addrinfo] as bytes *)
Definition ai_bytes (a : ainfo) : list N := [i_flags a; i_family a; i_socktype a; i_protocol a; N.of_nat (length (i_sa a))] ++ i_sa a.
Definition addr_of (a : address) : addr := Config.mkAddr (ai_bytes (a_ai a)) (a_port a) (a_proxy a) (a_pp a).
Definition phost_of (h : vh) : option phost :=
  match vh_cert h, vh_key h with
  | Some c, Some k => Some (mkPhost (vh_domain h) c k (vh_ocsp h) (map addr_of (vh_addrs h)) (vh_locs h) (vh_aliases h) (vh_proxies h))
  | _, _ => None
  end.
Fixpoint phosts (hs : list vh) : option (list phost) :=
  match hs with
  | [] => Some []
  | h :: r => match phost_of h, phosts r with Some h, Some r => Some (h :: r) | _, _ => None end
  end.
Definition pconf_of (privsep_crypto : bool) (g : core) : option pconf :=
  option_map (fun hs => mkPconf (g_style g) (m_t (g_mime g)) (g_protos g) (map addr_of (g_addrs g))
                                (map (fun f => mkFcgi (Parse.f_path f) (Parse.f_port f)) (g_fcgi g)) hs privsep_crypto) (phosts (g_hosts g)).
