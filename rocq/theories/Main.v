(** Model of gmid.c `main' (gmid.c:236-420), the command lines it makes for the
    other processes (proc.c:58-170, [proc_getid] and [proc_exec]), what these do
    with them, and the loss of privileges in [proc_run] (proc.c:552-590); of
    [write_pidfile] (gmid.c:208-233) and [config_test] (config.c:754-799).

    Memory allocation does not fail.  Words of the command line are C strings
    without their NUL.  Locale, process titles, log settings, daemon(3), signals
    and what -nn prints (gmid.c:610-633) are not modelled. *)
From Verif Require Import Base Compat Fmt Conf Config Mime Parse Tls Gram.
From Verif Require Proc Ge Fcgi.
Local Open Scope N_scope.

Definition word := list N.

(** ** getopt_long(3) *)
(** gmid.c:57 [opts] and :59-63 [longopts]; one constructor per value the loop
    of gmid.c:253-318 sees; [Obad] is '?' *)
Inductive opt :=
| Oc (s : word) | OD (s : word) | Of | Oh | OI (s : word) | OJ (s : word) | On | OP (s : word)
| OT (s : word) | OU (s : word) | OV | Ov | OX (s : word) | Obad.

Inductive kind := Flag (o : opt) | Arg (f : word -> opt).
Definition kind_of (ch : N) : kind :=
  if ch =? 99 then Arg Oc else if ch =? 68 then Arg OD else if ch =? 102 then Flag Of else if ch =? 73 then Arg OI else
  if ch =? 74 then Arg OJ else if ch =? 104 then Flag Oh else if ch =? 110 then Flag On else if ch =? 80 then Arg OP else
  if ch =? 84 then Arg OT else if ch =? 85 then Arg OU else if ch =? 86 then Flag OV else if ch =? 118 then Flag Ov else
  if ch =? 88 then Arg OX else Flag Obad.

(** the letters of a word "-abc"; an option whose argument is the next word *)
Fixpoint cluster (s : word) : list opt * option (word -> opt) :=
  match s with
  | [] => ([], None)
  | ch :: r =>
    match kind_of ch with
    | Flag o => let '(os, p) := cluster r in (o :: os, p)
    | Arg f => match r with [] => ([], Some f) | _ => ([f r], None) end
    end
  end.

(** "--name": a long option or what it may be shortened to *)
Definition long (name : word) : opt :=
  if leqb name (firstn (length name) (s2b "help")) then Oh
  else if leqb name (firstn (length name) (s2b "version")) then OV else Obad.

(** The options and the other words.  [posix]: the first word that is no option
    ends them (BSD); otherwise they may be mixed (GNU). *)
Fixpoint getopt (posix : bool) (ws : list word) : list opt * list word :=
  match ws with
  | [] => ([], [])
  | w :: r =>
    match w with
    | 45 :: 45 :: [] => ([], r)
    | 45 :: 45 :: name => let '(os, rest) := getopt posix r in (long name :: os, rest)
    | 45 :: c :: s =>
      match cluster (c :: s) with
      | (os, None) => let '(os', rest) := getopt posix r in (os ++ os', rest)
      | (os, Some f) =>
        match r with
        | [] => (os ++ [Obad], [])
        | a :: r' => let '(os', rest) := getopt posix r' in (os ++ f a :: os', rest)
        end
      end
    | _ => if posix then ([], ws) else let '(os, rest) := getopt posix r in (os, w :: rest)
    end
  end.

(** ** the world *)
(** getpwnam(3) *)
Record passwd := mkPw { pw_name : word; pw_uid : N; pw_gid : N; pw_dir : word }.
(** what the program finds: how getopt behaves, the working directory, what
    parse_conf makes of a path and macros ([None]: -1, or exit), whether it runs as
    root, the users; files, certificates, libtls and directories for -n *)
Record world := mkW {
  w_posix : bool; w_cwd : option word; w_parse : word -> list sym -> option core;
  w_root : bool; w_pw : word -> option passwd;
  w_file : word -> option (list N); w_cert_of : list N -> option cert; w_configures : tlsconf -> bool;
  w_opendir : word -> option N; w_sort : list etm -> list etm }.

(** gmid.c:236-247 and the globals :65-73 *)
Record opts := mkO { o_path : word; o_syms : list sym; o_debug : bool; o_verbose : bool; o_test : nat; o_pid : option word;
  o_role : nat; o_inst : nat; o_n : Z; o_user : option word; o_chroot : option word }.
(** SYSCONFDIR "/gmid.conf" *)
Definition default_path : word := s2b "/etc/gmid.conf".
Definition no_opts : opts := mkO default_path [] false false 0 None Proc.PARENT 0 0%Z None None.

(** proc.c:58-73 — [proc_getid] with gmid.c:51-55 *)
Definition titles : list (word * nat) := [(s2b "server", Proc.SERVER); (s2b "crypto", Proc.CRYPTO); (s2b "logger", Proc.LOGGER)].
Definition proc_getid (t : word) : option nat := option_map snd (find (fun p => leqb (fst p) t) titles).

(** what is left to see of a run that is over: its exit code, and which message
    it ends with *)
Inductive said := Usage | Version | ConfigOK | Complaint.
Inductive go := Goes (o : opts) | Exits (code : N) (s : said).
Definition PROC_MAX_INSTANCES : Z := 16.

(** gmid.c:253-318 — one turn of the loop *)
Definition take (W : world) (x : opt) (o : opts) : go :=
  let 'mkO path syms dbg vrb test pid role inst n user chroot := o in
  match x with
  | Oc s => match Ge.absolutify_path (w_cwd W) s with
            | Some p => Goes (mkO p syms dbg vrb test pid role inst n user chroot) | None => Exits 1 Complaint end
  | OD s => match cmdline_symset s syms with
            | Some t => Goes (mkO path t dbg vrb test pid role inst n user chroot) | None => Exits 1 Complaint end
  | Of => Goes (mkO path syms true vrb test pid role inst n user chroot)
  | Oh => Exits 0 Usage
  | OI s => match strtonum s 0 PROC_MAX_INSTANCES with
            | (v, NumOk) => Goes (mkO path syms dbg vrb test pid role (Z.to_nat v) n user chroot) | _ => Exits 1 Complaint end
  | OJ s => match strtonum s 0 PROC_MAX_INSTANCES with
            | (v, NumOk) => Goes (mkO path syms dbg vrb test pid role inst v user chroot) | _ => Exits 1 Complaint end
  | On => Goes (mkO path syms dbg vrb (S test) pid role inst n user chroot)
  | OP s => match Ge.absolutify_path (w_cwd W) s with
            | Some p => Goes (mkO path syms dbg vrb test (Some p) role inst n user chroot) | None => Exits 1 Complaint end
  | OT s => match proc_getid s with
            | Some id => Goes (mkO path syms dbg vrb test pid id inst n user chroot) | None => Exits 1 Complaint end
  | OU s => Goes (mkO path syms dbg vrb test pid role inst n (Some s) chroot)
  | OV => Exits 0 Version
  | Ov => Goes (mkO path syms dbg true test pid role inst n user chroot)
  | OX s => Goes (mkO path syms dbg vrb test pid role inst n user (Some s))
  | Obad => Exits 1 Usage
  end.
Fixpoint take_all (W : world) (l : list opt) (o : opts) : go :=
  match l with
  | [] => Goes o
  | x :: r => match take W x o with Goes o => take_all W r o | Exits c s => Exits c s end
  end.

(** ** gmid -n *)
(** config.c:767-787: the certificate and the key of each host are read *)
Definition test_host (W : world) (h : vh) : option chost :=
  match vh_cert h, vh_key h with
  | Some c, Some k =>
    match w_file W c, w_file W k with
    | Some cert, Some key =>
      (* the proxies are not looked at *)
      Some (mkChost (vh_domain h) (Some cert) (Some key) None (map addr_of (vh_addrs h)) (map pl (vh_locs h)) (vh_aliases h) [])
    | _, _ => None
    end
  | _, _ => None
  end.
(** config.c:754-799 — [config_test] *)
Definition config_test (W : world) (c : core) : bool :=
  match map_opt (test_host W) (g_hosts c) with
  | None => false
  | Some hs =>
    match server_configure_done (w_cert_of W) (w_configures W) (w_opendir W) (Some (g_chroot c)) (w_sort W) false
            (mkCconf (g_style c) (m_t (g_mime c)) (g_protos c) (map addr_of (g_addrs c))
                     (map (fun f => mkFcgi (Parse.f_path f) (Parse.f_port f)) (g_fcgi c)) hs []) with
    | Some _ => true
    | None => false
    end
  end.

(** config.c:60-84 — [config_new] *)
Definition fresh_core : core := mkCore [] [] 3 24 None 3 true (s2b "daemon") (mkMime [] 16) [] [] [] None 1965%Z [].

(** ** the other processes *)
(** proc.c:94-121: their command lines, after argv[0].  A NULL for the chroot
    (p_chroot, gmid.c:361-364) ends the list. *)
Definition child_args (title : word) (pw : option passwd) (chroot : word) (prefork inst : nat) (args : list word) : list word :=
  let rest := [s2b "-J"; dec (N.of_nat prefork); s2b "-I"; dec (N.of_nat inst)] ++ args in
  [s2b "-T"; title] ++
  match pw with
  | Some p => [s2b "-U"; pw_name p; s2b "-X"] ++ match chroot with [] => [] | _ => chroot :: rest end
  | None => rest
  end.
(** proc.c:123-133, and :165 *)
Definition proc_exec (pw : option passwd) (chroot : word) (prefork : nat) (args : list word) : list (list word) :=
  flat_map (fun t => map (fun i => child_args (fst t) pw chroot prefork i args) (seq 0 (Proc.instances prefork (snd t)))) titles.

(** strlcpy(3) into a buffer of [size] bytes *)
Definition strlcpy_to (size : nat) (s : word) : word := firstn (size - 1) s.
Definition LOGIN_NAME_MAX : nat := 256.

Inductive outcome :=
| Exit (code : N) (s : said)
(** the main process goes on to write [pid], with this configuration, after
    starting processes with these command lines *)
| Started (c : core) (path : word) (pid : option word) (debug : bool) (children : list (list word))
(** a process of that kind runs [proc_run]; as which user, in which root *)
| Child (role inst : nat) (prefork : Z) (who : option (passwd * word)).

(** gmid.c:343-355: the user's entry, and conf->chroot *)
Inductive user := NoUser (chroot : word) | User (p : passwd) (chroot : word) | Refused.
Definition find_user (W : world) (u chroot : word) : user :=
  match u with
  | [] => NoUser chroot
  | _ =>
    if negb (w_root W) then Refused else
    match w_pw W u with
    | None => Refused
    | Some p => User p (match chroot with [] => strlcpy_to Fcgi.PATH_MAX (pw_dir p) | _ => chroot end)
    end
  end.

(** the rest of [main] in another process: gmid.c:332-340 and :356-376, proc.c:273-285.
    It has no configuration; -n, which its parent would not have got past, tests
    that. *)
Definition as_child (W : world) (o : opts) (pw : option passwd) (chroot : word) : outcome :=
  if (0 <? o_test o)%nat then
    (if config_test W (set_globals chroot (match o_user o with Some u => u | None => [] end) (o_n o) 24 fresh_core) then Exit 0 ConfigOK else Exit 1 Complaint)
  else Child (o_role o) (o_inst o) (o_n o) (match pw with Some p => Some (p, match chroot with [] => pw_dir p | _ => chroot end) | None => None end).

(** gmid.c:236-420 — [main]; [args] are the words after argv[0] *)
Definition gmid_main (W : world) (args : list word) : outcome :=
  match take_all W (fst (getopt (w_posix W) args)) no_opts with
  | Exits code s => Exit code s
  | Goes o =>
    (* gmid.c:320-321: words that are no options only get a message *)
    if (o_role o =? Proc.PARENT)%nat then
      match w_parse W (o_path o) (o_syms o) with
      | None => Exit 1 Complaint
      | Some c =>
        match g_chroot c, g_user c with
        | _ :: _, [] => Exit 1 Complaint
        | _, _ =>
          let run pw chroot :=
            let c := set_globals chroot (g_user c) (g_prefork c) (g_protos c) c in
            if (0 <? o_test o)%nat then (if config_test W c then Exit 0 ConfigOK else Exit 1 Complaint)
            else Started c (o_path o) (o_pid o) (o_debug o) (proc_exec pw chroot (Z.to_nat (g_prefork c)) args) in
          match find_user W (g_user c) (g_chroot c) with
          | Refused => Exit 1 Complaint
          | NoUser chroot => run None chroot
          | User p chroot => run (Some p) chroot
          end
        end
      end
    else
      let fits size w := match w with Some s => (length s <? size)%nat | None => true end in
      if negb (fits LOGIN_NAME_MAX (o_user o)) || negb (fits Fcgi.PATH_MAX (o_chroot o)) then Exit 1 Complaint else
      match find_user W (match o_user o with Some u => u | None => [] end) (match o_chroot o with Some r => r | None => [] end) with
      | Refused => Exit 1 Complaint
      | NoUser chroot => as_child W o None chroot
      | User p chroot => as_child W o (Some p) chroot
      end
  end.

(** ** proc_run *)
Inductive call := Chroot (dir : word) | Chdir (dir : word) | Setgroups (l : list N) | Setresgid (r e s : N) | Setresuid (r e s : N).
(** proc.c:564-590: the calls in order *)
Definition drop (who : option (passwd * word)) : list call :=
  match who with
  | None => []
  | Some (p, root) => [Chroot root; Chdir (s2b "/"); Setgroups [pw_gid p]; Setresgid (pw_gid p) (pw_gid p) (pw_gid p); Setresuid (pw_uid p) (pw_uid p) (pw_uid p)]
  end.
(** the calls made until one fails (fatal), and whether the process goes on to
    [event_init] and its work *)
Fixpoint attempt (ok : call -> bool) (l : list call) : list call * bool :=
  match l with
  | [] => ([], true)
  | c :: r => if ok c then let '(done, b) := attempt ok r in (c :: done, b) else ([], false)
  end.
Definition proc_run (ok : call -> bool) (who : option (passwd * word)) : list call * bool := attempt ok (drop who).
