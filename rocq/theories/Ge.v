(** Model of ge.c (gemexp, the server for one directory), of absolutify_path and
    gencert (utils.c).

    Left out: messages, locale, the process title, sandboxing and the
    cryptography (the key and certificate made are answers of the world);
    getopt_long(3) has already split the command line.  Memory allocation does
    not fail. *)
From Verif Require Import Base Compat Conf Config Mime Fcgi Server Tls.
Local Open Scope N_scope.

(** ** The command line *)

(** what getopt_long(3) returns one after the other (ge.c:39-43 and :280) *)
Inductive opt := OptD (s : list N) | OptH (s : list N) | OptHelp | OptP (s : list N) | OptR | OptV | Optv | OptOther.

(** ge.c:268-270 — the local variables of [main] *)
Record args := mkArgs { a_certs : option (list N); a_host : list N; a_port : Z; a_ec : bool }.
Definition args0 : args := mkArgs None (s2b "localhost") 1965 true.

(** ge.c:280-310 — the option loop; [inl]: the program exits with that status *)
Fixpoint options (os : list opt) (a : args) : N + args :=
  match os with
  | [] => inr a
  | OptD s :: r => options r (mkArgs (Some s) (a_host a) (a_port a) (a_ec a))
  | OptH s :: r => options r (mkArgs (a_certs a) s (a_port a) (a_ec a))
  | OptHelp :: _ => inl 1
  | OptP s :: r =>
    match strtonum s 0 65535 with
    | (n, NumOk) => options r (mkArgs (a_certs a) (a_host a) n (a_ec a))
    | _ => inl 1
    end
  | OptR :: r => options r (mkArgs (a_certs a) (a_host a) (a_port a) false)
  | OptV :: _ => inl 0
  | Optv :: r => options r a
  | OptOther :: _ => inl 1
  end.

(** ** Directories *)

Fixpoint drop_slashes (s : list N) : list N := match s with 47 :: r => drop_slashes r | _ => s end.
Fixpoint drop_word (s : list N) : list N := match s with 47 :: _ => s | _ :: r => drop_word r | [] => [] end.

(** dirname(3).  POSIX leaves a path that begins with exactly two slashes to the
    implementation: [two] says that the library (glibc) keeps them. *)
Definition top (two : bool) (slashes : nat) : list N := if two && (slashes =? 2)%nat then [47; 47] else [47].
Definition dirname (two : bool) (p : list N) : list N :=
  match p with
  | [] => [46]
  | _ =>
    match drop_slashes (rev p) with
    | [] => top two (length p)
    | r =>
      match drop_word r with
      | [] => [46]
      | r' => match drop_slashes r' with [] => top two (length r') | r'' => rev r'' end
      end
    end
  end.

Section Mkdirs.
Variable two : bool.
(** mkdir(2) succeeds, or the directory exists *)
Variable mkdir : list N -> bool.

(** ge.c:120-143 — [pdirname] and [mkdirs]: the calls to mkdir(2), and whether
    the last succeeded ([false]: fatal) *)
Fixpoint mkdirs (fuel : nat) (path : list N) : res (list (list N) * bool) :=
  match fuel with
  | O => Fuel
  | S f =>
    if (PATH_MAX + 1 <=? length path)%nat then OK ([], false) else
    let dname := dirname two path in
    if leqb dname [47] then OK ([], true) else
    let* (cs, ok) := mkdirs f dname in
    if ok then OK (cs ++ [path], mkdir path) else OK (cs, false)
  end.
End Mkdirs.

(** ge.c:145-165 — [data_dir]: the path; [None]: fatal *)
Definition data_path (xdg home : option (list N)) : option (list N) :=
  match xdg with
  | Some x => Some (x ++ s2b "/gemexp")
  | None => match home with Some h => Some (h ++ s2b "/.local/share/gemexp") | None => None end
  end.

(** utils.c:78-94 — [absolutify_path]; [None]: getcwd(3) failed, fatal *)
Definition absolutify_path (cwd : option (list N)) (path : list N) : option (list N) :=
  match path with
  | 47 :: _ => Some path
  | _ => match cwd with Some wd => Some (wd ++ [47] ++ path) | None => None end
  end.

(** ** Certificates *)

(** a file: can it be opened for reading, and its contents *)
Inductive file := Absent | File (readable : bool) (content : list N).
Definition disk := list N -> file.
Definition put (d : disk) (p : list N) (f : file) : disk := fun q => if leqb p q then f else d q.

(** access(2) with R_OK succeeds *)
Definition accessible (f : file) : bool := match f with File true _ => true | _ => false end.
(** fopen(3) with "w" creates or empties the file; writing *)
Definition emptied (f : file) : file := match f with Absent => File true [] | File r _ => File r [] end.
Definition filled (f : file) (s : list N) : file := match f with Absent => Absent | File r _ => File r s end.

(** what the libraries answer: opening the key file, the key in PEM ([None]: some
    step fails), flushing it ([Some n]: fails after n bytes), the certificate for
    a key, opening and flushing its file, unlink(2) *)
Record gen := mkGen { g_openkey : bool; g_key : option (list N); g_keyout : option nat;
  g_cert : list N -> option (list N); g_opencert : bool; g_certout : option nat; g_unlink : list N -> bool }.

(** writing [s] to the file [p] that was just emptied: the disk after each byte;
    the last is after all of [n] bytes *)
Definition writing (d : disk) (p s : list N) (n : nat) : list disk :=
  map (fun k => put d p (filled (d p) (firstn k s))) (seq 0 (S (Nat.min n (length s)))).
Definition written (d : disk) (p s : list N) (n : nat) : disk := put d p (filled (d p) (firstn n s)).

(** utils.c:299-302 — the label [err]: the disk after each step *)
Definition gen_err (g : gen) (cert key : list N) (d : disk) : list disk :=
  let d1 := if g_unlink g cert then put d cert Absent else d in
  let d2 := if g_unlink g key then put d1 key Absent else d1 in
  [d; d1; d2].

(** utils.c:212-303 — [gencert]: the disks it goes through, the last being the
    one it ends with, and whether it returns (it exits with 1 otherwise) *)
Definition gencert (g : gen) (cert key : list N) (d : disk) : list disk * bool :=
  if negb (g_openkey g) then (gen_err g cert key d, false) else
  let d1 := put d key (emptied (d key)) in
  match g_key g with
  | None => (d :: gen_err g cert key d1, false)
  | Some k =>
    match g_keyout g with
    | Some n => (d :: writing d1 key k n ++ gen_err g cert key (written d1 key k n), false)
    | None =>
      let d2 := written d1 key k (length k) in
      let t2 := d :: writing d1 key k (length k) in
      match g_cert g k with
      | None => (t2 ++ gen_err g cert key d2, false)
      | Some c =>
        if negb (g_opencert g) then (t2 ++ gen_err g cert key d2, false) else
        let d3 := put d2 cert (emptied (d2 cert)) in
        match g_certout g with
        | Some n => (t2 ++ writing d3 cert c n ++ gen_err g cert key (written d3 cert c n), false)
        | None => (t2 ++ writing d3 cert c (length c), true)
        end
      end
    end
  end.

(** compat/libtls/tls_util.c — [tls_load_file]; an empty file is loaded too *)
Definition tls_load_file (f : file) : option (list N) := match f with File true s => Some s | _ => None end.

(** ge.c:99-107 *)
Definition cert_path (dir host : list N) : list N := dir ++ [47] ++ host ++ s2b ".pem".
Definition key_path (dir host : list N) : list N := dir ++ [47] ++ host ++ s2b ".key".

(** gmid.h:96 *)
Definition HOST_NAME_MAX : nat := 255.

(** ge.c:94-118 — [load_local_cert]: the disks, and the certificate and key
    ([None]: exit with 1) *)
Definition load_local_cert (g : gen) (host dir : list N) (d : disk) : list disk * option (list N * list N) :=
  let cert := cert_path dir host in
  let key := key_path dir host in
  let '(t, ok) := if negb (accessible (d cert)) || negb (accessible (d key)) then gencert g cert key d else ([d], true) in
  if negb ok then (t, None) else
  let d' := last t d in
  match tls_load_file (d' cert), tls_load_file (d' key) with
  | Some c, Some k => if (HOST_NAME_MAX + 1 <=? length host)%nat then (t, None) else (t, Some (c, k))
  | _, _ => (t, None)
  end.

(** ** Sockets *)

(** one result of getaddrinfo(3), with what socket(2), bind(2) and listen(2) say *)
Record ai := mkAi { ai_addr : list N; ai_socket : bool; ai_bind : bool; ai_listen : bool }.

(** sys/queue.h TAILQ_INSERT_HEAD and the two lists of addresses an address is
    put in: conf->addrs and vh->addrs, linked through the same field; [q_next]
    is tqe_next of each address *)
Record queues := mkQ { q_conf : option nat; q_host : option nat; q_next : nat -> option nat }.
Definition q0 : queues := mkQ None None (fun _ => None).
Definition link (a : nat) (to : option nat) (next : nat -> option nat) : nat -> option nat :=
  fun x => if (x =? a)%nat then to else next x.
(** ge.c:228 and :234 (the second inserts [addr], not its copy) *)
Definition insert_both (a : nat) (q : queues) : queues :=
  let q := mkQ (Some a) (q_host q) (link a (q_conf q) (q_next q)) in
  mkQ (q_conf q) (Some a) (link a (q_host q) (q_next q)).
(** TAILQ_FOREACH *)
Fixpoint walk (fuel : nat) (next : nat -> option nat) (p : option nat) : res (list nat) :=
  match p with
  | None => OK []
  | Some a => match fuel with O => Fuel | S f => let* r := walk f next (next a) in OK (a :: r) end
  end.

(** ge.c:189-235 — the loop of [serve]; addresses are named by their position;
    [None]: fatal *)
Fixpoint listen_all (n : nat) (l : list ai) (q : queues) (any : bool) : option (queues * bool) :=
  match l with
  | [] => Some (q, any)
  | a :: r =>
    if negb (ai_socket a) then listen_all (S n) r q any else
    if negb (ai_bind a) then listen_all (S n) r q any else
    if negb (ai_listen a) then None else listen_all (S n) r (insert_both n q) true
  end.

(** ** The program *)

Record world := mkW {
  w_two : bool; w_xdg : option (list N); w_home : option (list N); w_cwd : option (list N);
  w_mkdir : list N -> bool; w_gen : gen;
  w_ai : list N -> Z -> option (list ai);             (* getaddrinfo(3) *)
  w_cert_of : list N -> option cert; w_configures : tlsconf -> bool;
  w_opendir : list N -> option N; w_sortm : list etm -> list etm }.

(** xcalloc(1, sizeof( *loc )): everything is zero *)
Definition zero_loc : location := mkLoc [] [] [] [] 0 0 [] 0 None false (Some 0%nat) false 0 [] [] (Some 0).
(** ge.c:329-337 — [loc->fcgi = -1], the match and auto_index *)
Definition ge_loc (dir : list N) : location :=
  mkLoc [42] (l_lang zero_loc) (l_default_mime zero_loc) (l_index zero_loc) 1 (l_block_code zero_loc) (l_block_fmt zero_loc)
    (l_strip zero_loc) (l_reqca zero_loc) (l_disable_log zero_loc) None (l_nofcgi zero_loc) (l_fcgi_strip zero_loc)
    (l_params zero_loc) dir (l_dirfd zero_loc).

(** strlcpy(3) into loc->dir, whose result is not looked at (C37) *)
Definition into_dir (s : list N) : list N := firstn (PATH_MAX - 1) s.

(** how the program ends *)
Inductive ending :=
| Exit (code : N)
| Serving (ctxs : list (addr * tlsconf)) (c : conf) (dir : list N).

(** what it did: mkdir(2) calls, the disks it went through *)
Record outcome := mkOut { o_mkdirs : list (list N); o_disks : list disk; o_end : ending }.

(** ge.c:167-249 — [serve]; [addrs] of the zeroed [struct address] has no port
    and no printed form (addr->pp) *)
Definition ge_addr (l : list ai) (n : nat) : addr :=
  Config.mkAddr (match nth_error l n with Some a => ai_addr a | None => [] end) 0 false [].
Definition serve (W : world) (host : list N) (port : Z) (dir cert key : list N) : res ending :=
  match w_ai W host port with
  | None => OK (Exit 1)
  | Some l =>
    match listen_all 0 l q0 false with
    | None => OK (Exit 1)
    | Some (q, any) =>
      if negb any then OK (Exit 1) else
      let* ca := walk (length l) (q_next q) (q_conf q) in
      let* ha := walk (length l) (q_next q) (q_host q) in
      let h := mkChost [42] (Some cert) (Some key) None (map (ge_addr l) ha) [ge_loc dir] [] [] in
      let c := mkCconf 0 [] 24 (map (ge_addr l) ca) [] [h] [] in
      match server_configure_done (w_cert_of W) (w_configures W) (w_opendir W) None (w_sortm W) false c with
      | None => OK (Exit 1)
      | Some (ctxs, cf) => OK (Serving ctxs cf dir)
      end
    end
  end.

(** ge.c:261-355 — [main] *)
Definition ge_main (W : world) (os : list opt) (argv : list (list N)) (d : disk) : res outcome :=
  match options os args0 with
  | inl code => OK (mkOut [] [d] (Exit code))
  | inr a =>
    if (1 <? length argv)%nat then OK (mkOut [] [d] (Exit 1)) else
    let* (cs, dd) :=
      match a_certs a with
      | Some s => OK ([], Some s)
      | None =>
        match data_path (w_xdg W) (w_home W) with
        | None => OK ([], None)
        | Some p => let* (cs, ok) := mkdirs (w_two W) (w_mkdir W) (S (length p)) p in
                    OK (cs, if ok then Some p else None)
        end
      end in
    match dd with
    | None => OK (mkOut cs [d] (Exit 1))
    | Some certs =>
      match load_local_cert (w_gen W) (a_host a) certs d with
      | (t, None) => OK (mkOut cs t (Exit 1))
      | (t, Some (cert, key)) =>
        match (match argv with [] => w_cwd W | p :: _ => absolutify_path (w_cwd W) p end) with
        | None => OK (mkOut cs t (Exit 1))
        | Some p => let* e := serve W (a_host a) (a_port a) (into_dir p) cert key in OK (mkOut cs t e)
        end
      end
    end
  end.
