(** Starting gmid: which processes there are, as whom they run, what gmid -n
    finds.  Independently of the code. *)
From Verif Require Import Base Conf Config Mime Parse Tls TlsSpec Gram Proc Main.
Local Open Scope N_scope.

(** ** the command line *)

(** the options meant for the other processes (not in gmid(8)) *)
Definition internal (x : opt) : bool := match x with OI _ | OJ _ | OT _ | OU _ | OX _ => true | _ => false end.
Definition for_users (W : world) (args : list word) : Prop := Forall (fun x => internal x = false) (fst (getopt (w_posix W) args)).

(** how a command line is written: gmid(8) and getopt_long(3).  Single letters
    may be run together, an argument may follow in the same word or be the next
    word, "--" ends the options; an unknown option or a missing argument ends the
    list with [Obad] (gmid ends there).  [posix]: so does a word that is no option. *)
Definition plain_letters : list (N * opt) := [(102, Of); (104, Oh); (110, On); (86, OV); (118, Ov)].
Definition arg_letters : list (N * (word -> opt)) := [(99, Oc); (68, OD); (73, OI); (74, OJ); (80, OP); (84, OT); (85, OU); (88, OX)].
Definition plain (l : word) (os : list opt) : Prop := Forall2 (fun ch o => In (ch, o) plain_letters) l os.
Definition shortens (name full : word) : Prop := name <> [] /\ exists r, name ++ r = full.
Inductive written (posix : bool) : list word -> list opt -> Prop :=
| wr_end : written posix [] []
| wr_dashes r : written posix ([45; 45] :: r) []
| wr_plain l os r os' : l <> [] -> plain l os -> written posix r os' -> written posix ((45 :: l) :: r) (os ++ os')
| wr_same_word l os ch f a r os' : plain l os -> In (ch, f) arg_letters -> a <> [] -> written posix r os' ->
    written posix ((45 :: l ++ ch :: a) :: r) (os ++ f a :: os')
| wr_next_word l os ch f a r os' : plain l os -> In (ch, f) arg_letters -> written posix r os' ->
    written posix ((45 :: l ++ [ch]) :: a :: r) (os ++ f a :: os')
| wr_missing l os ch f : plain l os -> In (ch, f) arg_letters -> written posix [45 :: l ++ [ch]] (os ++ [Obad])
| wr_unknown l os ch m r : plain l os -> ~ In ch (map fst plain_letters) -> ~ In ch (map fst arg_letters) -> (l = [] -> ch <> 45) ->
    written posix ((45 :: l ++ ch :: m) :: r) (os ++ [Obad])
| wr_help name r os' : shortens name (s2b "help") -> written posix r os' -> written posix ((45 :: 45 :: name) :: r) (Oh :: os')
| wr_version name r os' : shortens name (s2b "version") -> written posix r os' -> written posix ((45 :: 45 :: name) :: r) (OV :: os')
| wr_long name r : name <> [] -> ~ shortens name (s2b "help") -> ~ shortens name (s2b "version") -> written posix ((45 :: 45 :: name) :: r) [Obad]
| wr_word_ends w r : (w = [] \/ w = [45] \/ hd 0 w <> 45) -> posix = true -> written posix (w :: r) []
| wr_word w r os' : (w = [] \/ w = [45] \/ hd 0 w <> 45) -> posix = false -> written posix r os' -> written posix (w :: r) os'.

(** getpwnam(3) returns the entry of that name *)
Definition users_named (W : world) : Prop := forall u p, w_pw W u = Some p -> pw_name p = u.

(** ** the processes *)
(** role and number of each process a daemon with so many servers has, besides the
    main one *)
Definition processes (servers : nat) : list (nat * nat) :=
  map (fun i => (Proc.SERVER, i)) (List.seq 0 servers) ++ [(Proc.CRYPTO, 0%nat); (Proc.LOGGER, 0%nat)].

(** as whom, and where, the configuration says they are to run *)
Inductive runs_as (W : world) (c : core) : option (passwd * word) -> Prop :=
| ra_nobody : g_user c = [] -> runs_as W c None
| ra_user p : g_user c <> [] -> w_pw W (g_user c) = Some p -> runs_as W c (Some (p, g_chroot c)).

(** ** credentials *)
(** what the kernel keeps of a process; the chain of roots it was confined to, and
    whether its working directory is below the last *)
Record cred := mkCred { k_uid : N * N * N; k_gid : N * N * N; k_groups : list N; k_root : list word; k_below : bool }.
Definition euid (k : cred) : N := snd (fst (k_uid k)).
Definition one_of (x : N) (t : N * N * N) : bool := let '(r, e, s) := t in (x =? r) || (x =? e) || (x =? s).

(** POSIX/BSD/Linux: chroot(2) and setgroups(2) are for root; another user may
    only exchange the ids he has *)
Definition permitted (k : cred) (c : call) : bool :=
  (euid k =? 0) ||
  match c with
  | Chroot _ | Setgroups _ => false
  | Chdir _ => true
  | Setresgid r e s => one_of r (k_gid k) && one_of e (k_gid k) && one_of s (k_gid k)
  | Setresuid r e s => one_of r (k_uid k) && one_of e (k_uid k) && one_of s (k_uid k)
  end.
(** the effect of a call that succeeds *)
Definition effect (k : cred) (c : call) : cred :=
  match c with
  | Chroot d => mkCred (k_uid k) (k_gid k) (k_groups k) (k_root k ++ [d]) false
  | Chdir (47 :: _) => mkCred (k_uid k) (k_gid k) (k_groups k) (k_root k) true
  | Chdir _ => k
  | Setgroups l => mkCred (k_uid k) (k_gid k) l (k_root k) (k_below k)
  | Setresgid r e s => mkCred (k_uid k) (r, e, s) (k_groups k) (k_root k) (k_below k)
  | Setresuid r e s => mkCred (r, e, s) (k_gid k) (k_groups k) (k_root k) (k_below k)
  end.
(** [becomes k l k']: these calls, all permitted, in this order *)
Inductive becomes : cred -> list call -> cred -> Prop :=
| bc_nil k : becomes k [] k
| bc_cons k c l k' : permitted k c = true -> becomes (effect k c) l k' -> becomes k (c :: l) k'.

(** the process is that user, only that user, and sees only below [root] *)
Definition confined (p : passwd) (before : cred) (root : word) (k : cred) : Prop :=
  k_uid k = (pw_uid p, pw_uid p, pw_uid p) /\ k_gid k = (pw_gid p, pw_gid p, pw_gid p) /\ k_groups k = [pw_gid p] /\
  k_root k = k_root before ++ [root] /\ k_below k = true.

(** ** gmid -n *)
Definition readable (W : world) (p : word) (content : list N) : Prop := w_file W p = Some content.

(** the certificate and the key of a server can be read and the certificate parses *)
Definition pair_read (W : world) (h : vh) (cert key : list N) : Prop :=
  exists c k, vh_cert h = Some c /\ vh_key h = Some k /\ readable W c cert /\ readable W k key.
(** a server has this address *)
Definition has_addr (h : vh) (a : address) : Prop := exists b, In b (vh_addrs h) /\ ai_bytes (a_ai b) = ai_bytes (a_ai a).
(** [pairs W a hs l]: [l] are the pairs of those of [hs] that have the address *)
Inductive pairs (W : world) (a : address) : list vh -> list keypair -> Prop :=
| pr_nil : pairs W a [] []
| pr_yes h hs l cert key : has_addr h a -> pair_read W h cert key -> (exists x, w_cert_of W cert = Some x) -> pairs W a hs l ->
    pairs W a (h :: hs) (mkKp (Some cert) (Some key) None :: l)
| pr_no h hs l : ~ has_addr h a -> pairs W a hs l -> pairs W a (h :: hs) l.
(** libtls accepts them *)
Definition accepted (W : world) (protos : N) (l : list keypair) : Prop :=
  match l with [] => w_configures W (mkTls (mkKp None None None) [] protos false) = true | k :: r => w_configures W (mkTls k r protos false) = true end.

(** a location's root can be opened below the chroot *)
Definition root_opens (W : world) (chroot dir : word) : Prop :=
  dir = [] \/
  match chroot with
  | [] => exists fd, w_opendir W dir = Some fd
  | _ => (length (chroot ++ [47%N] ++ dir) < 4096)%nat /\ exists fd, w_opendir W (chroot ++ [47%N] ++ dir) = Some fd
  end.

Definition sane (W : world) (c : core) (chroot : word) : Prop :=
  (forall h, In h (g_hosts c) -> exists cert key, pair_read W h cert key) /\
  (forall a, In a (g_addrs c) -> exists l, pairs W a (g_hosts c) l /\ accepted W (g_protos c) l) /\
  (forall h l, In h (g_hosts c) -> In l (vh_locs h) -> root_opens W chroot (l_dir (pl l))).

(** the user and the root that apply, if they can be *)
Inductive settled (W : world) (c : core) : word -> Prop :=
| se_nobody : g_user c = [] -> g_chroot c = [] -> settled W c []
| se_user p : g_user c <> [] -> w_root W = true -> w_pw W (g_user c) = Some p -> g_chroot c <> [] -> settled W c (g_chroot c)
| se_home p : g_user c <> [] -> w_root W = true -> w_pw W (g_user c) = Some p -> g_chroot c = [] -> settled W c (firstn 4095 (pw_dir p)).
