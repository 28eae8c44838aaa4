(** Certificates and private keys in memory: compat/libtls/tls_util.c (memdup,
    tls_set_mem, tls_load_file without a password, tls_unload_file), tls_keypair.c, the
    keypairs of a configuration in tls_config.c, and what config_purge (config.c) frees of
    a host.  On the memory of Arr.v: malloc(3) may refuse, what is freed may not be used.

    The fields of a [struct tls_keypair] and a [struct tls_config] are kept beside the
    blocks the structs are in; of the latter only the keypairs and the reference count.
    The caller's bytes are given as they are. *)
From Verif Require Import Base Arr.
Local Open Scope N_scope.

(** ** compat/libtls/tls_util.c *)
(** tls_util.c:33-42 *)
Definition memdup (E : sys) (m : mem) (d : list N) : res (option nat * mem) :=
  match malloc E m (N.of_nat (length d)) with
  | (None, m) => OK (None, m)
  | (Some q, m) => let* m := store m (Some q) 0 (map By d) in OK (Some q, m)
  end.
(** a pointer and a length *)
Definition fld : Type := option nat * N.
(** tls_util.c:44-56 — [tls_set_mem]; [true]: 0 *)
Definition set_mem (E : sys) (m : mem) (dest : fld) (src : option (list N)) : res (bool * fld * mem) :=
  let* m := free m (fst dest) in
  match src with
  | None => OK (true, (None, 0), m)
  | Some d =>
    let* (p, m) := memdup E m d in
    match p with None => OK (false, (None, 0), m) | Some _ => OK (true, (p, N.of_nat (length d)), m) end
  end.
(** What open(2), fstat(2) and read(2) say of a file: its size, and the bytes read, of which
    there are at most that many; [None]: read fails *)
Inductive file := NoFile | File (size : N) (got : option (list N)).
(** tls_util.c:150-220 with [password == NULL] — [tls_load_file]; [None]: NULL.
    tls_config.c:43-91, [tls_config_load_file], is the same but for the messages *)
Definition load_file (E : sys) (m : mem) (f : file) : res (option nat * N * mem) :=
  match f with
  | NoFile => OK (None, 0, m)
  | File size got =>
    match malloc E m size with
    | (None, m) => OK (None, 0, m)
    | (Some p, m) =>
      let got := option_map (firstn (N.to_nat size)) got in
      let* m := match got with Some d => store m (Some p) 0 (map By d) | None => OK m end in
      if match got with Some d => N.of_nat (length d) =? size | None => false end
      then OK (Some p, size, m)
      else let* m := freezero m (Some p) size in OK (None, 0, m)
    end
  end.
(** where a certificate or key comes from: the functions on memory ([tls_set_mem]) and
    those on files (tls_config.c:46-48, then [load_file]); [None] is NULL *)
Inductive src := Mem (d : list N) | Disk (f : file).
Definition set_fld (E : sys) (m : mem) (dest : fld) (s : option src) : res (bool * fld * mem) :=
  match s with
  | None => set_mem E m dest None
  | Some (Mem d) => set_mem E m dest (Some d)
  | Some (Disk f) =>
    let* m := free m (fst dest) in
    let* (p, len, m) := load_file E m f in
    OK (match p with None => false | Some _ => true end, (p, len), m)
  end.
(** tls_util.c:224-228 — [tls_unload_file] *)
Definition unload_file (m : mem) (p : option nat) (len : N) : res mem := freezero m p len.

(** ** compat/libtls/tls_keypair.c *)
Record keypair := mkKp { kp_at : nat; kp_cert : fld; kp_key : fld; kp_staple : fld; kp_hash : option nat }.
Section Keypair.
Variable E : sys.
(** OpenSSL's tls_keypair_load_cert and tls_cert_pubkey_hash: the text of the hash of the
    public key, or [None] if they fail *)
Variable pubkey : list N -> option (list N).

(** tls_keypair.c:28-32; the struct has 88 bytes *)
Definition keypair_new (m : mem) : option keypair * mem :=
  match calloc E m 1 88 with
  | (None, m) => (None, m)
  | (Some p, m) => (Some (mkKp p (None, 0) (None, 0) (None, 0) None), m)
  end.
(** tls_keypair.c:34-58 — [tls_keypair_pubkey_hash]; the memory used while the hash is made
    is left out *)
Definition pubkey_hash (m : mem) (k : keypair) : res (bool * keypair * mem) :=
  let* m := free m (kp_hash k) in
  let set p := mkKp (kp_at k) (kp_cert k) (kp_key k) (kp_staple k) p in
  match fst (kp_cert k) with
  | None => OK (true, set None, m)
  | Some _ =>
    let* c := load m (fst (kp_cert k)) 0 (snd (kp_cert k)) in
    match pubkey (map val c) with
    | None => OK (false, set None, m)
    | Some h =>
      let* (p, m) := memdup E m (h ++ [0]) in
      OK (match p with None => false | Some _ => true end, set p, m)
    end
  end.
(** tls_keypair.c:60-67 — [tls_keypair_clear_key] *)
Definition clear_key (m : mem) (k : keypair) : res (keypair * mem) :=
  let* m := freezero m (fst (kp_key k)) (snd (kp_key k)) in
  OK (mkKp (kp_at k) (kp_cert k) (None, 0) (kp_staple k) (kp_hash k), m).
(** tls_keypair.c:69-86 — [tls_keypair_set_cert_file], [tls_keypair_set_cert_mem] *)
Definition set_cert (m : mem) (k : keypair) (d : option src) : res (bool * keypair * mem) :=
  let* (ok, f, m) := set_fld E m (kp_cert k) d in
  let k := mkKp (kp_at k) f (kp_key k) (kp_staple k) (kp_hash k) in
  if ok then pubkey_hash m k else OK (false, k, m).
(** tls_keypair.c:88-103 — [tls_keypair_set_key_file], [tls_keypair_set_key_mem] *)
Definition set_key (m : mem) (k : keypair) (d : option src) : res (bool * keypair * mem) :=
  let* (k, m) := clear_key m k in
  let* (ok, f, m) := set_fld E m (kp_key k) d in
  OK (ok, mkKp (kp_at k) (kp_cert k) f (kp_staple k) (kp_hash k), m).
(** tls_keypair.c:105-119 — [tls_keypair_set_ocsp_staple_file], [tls_keypair_set_ocsp_staple_mem] *)
Definition set_staple (m : mem) (k : keypair) (d : option src) : res (bool * keypair * mem) :=
  let* (ok, f, m) := set_fld E m (kp_staple k) d in
  OK (ok, mkKp (kp_at k) (kp_cert k) (kp_key k) f (kp_hash k), m).
(** tls_keypair.c:121-134 — [tls_keypair_free] *)
Definition keypair_free (m : mem) (k : keypair) : res mem :=
  let* (k, m) := clear_key m k in
  let* m := free m (fst (kp_cert k)) in
  let* m := free m (fst (kp_staple k)) in
  let* m := free m (kp_hash k) in
  free m (Some (kp_at k)).

(** ** compat/libtls/tls_config.c *)
(** the keypairs, first one first *)
Record config := mkCf { cf_at : nat; cf_refs : nat; cf_kps : list keypair }.
Definition with_kps (c : config) (l : list keypair) : config := mkCf (cf_at c) (cf_refs c) l.

(** tls_config.c:94-140 — [tls_config_new_internal]; what else the configuration gets does
    not fail.  The struct has 344 bytes *)
Definition config_new (m : mem) : res (option config * mem) :=
  match calloc E m 1 344 with
  | (None, m) => OK (None, m)
  | (Some p, m) =>
    match keypair_new m with
    | (None, m) => let* m := free m (Some p) in OK (None, m)
    | (Some k, m) => OK (Some (mkCf p 1 [k]), m)
    end
  end.
(** tls_config.c:166-170 *)
Fixpoint free_all (m : mem) (l : list keypair) : res mem :=
  match l with [] => OK m | k :: r => let* m := keypair_free m k in free_all m r end.
(** tls_config.c:153-182 — [tls_config_free]; [None]: it is gone *)
Definition config_free (m : mem) (c : config) : res (option config * mem) :=
  if (1 <? cf_refs c)%nat then OK (Some (mkCf (cf_at c) (cf_refs c - 1) (cf_kps c)), m)
  else let* m := free_all m (cf_kps c) in let* m := free m (Some (cf_at c)) in OK (None, m).
(** tls_config.c:202-209 — [tls_config_clear_keys] *)
Fixpoint clear_all (m : mem) (l : list keypair) : res (list keypair * mem) :=
  match l with
  | [] => OK ([], m)
  | k :: r => let* (k, m) := clear_key m k in let* (r, m) := clear_all m r in OK (k :: r, m)
  end.
(** tls_config.c:343-396 — [tls_config_add_keypair_file_internal], [tls_config_add_keypair_mem_internal] *)
Definition add_keypair (m : mem) (c : config) (cert key staple : option src) : res (bool * config * mem) :=
  match keypair_new m with
  | (None, m) => OK (false, c, m)
  | (Some k, m) =>
    let fail k m := let* m := keypair_free m k in OK (false, c, m) in
    let* (ok, k, m) := set_cert m k cert in
    if negb ok then fail k m else
    let* (ok, k, m) := match key with None => OK (true, k, m) | Some _ => set_key m k key end in
    if negb ok then fail k m else
    let* (ok, k, m) := match staple with None => OK (true, k, m) | Some _ => set_staple m k staple end in
    if negb ok then fail k m else
    OK (true, with_kps c (cf_kps c ++ [k]), m)
  end.
(** config->keypair *)
Definition on_first (m : mem) (c : config) (f : mem -> keypair -> res (bool * keypair * mem)) : res (bool * config * mem) :=
  match cf_kps c with
  | [] => UB
  | k :: r => let* (ok, k, m) := f m k in OK (ok, with_kps c (k :: r), m)
  end.
(** tls_config.c:449-463, :610-624, :824-838 *)
Definition set_cert_mem m c d := on_first m c (fun m k => set_cert m k d).
Definition set_key_mem m c d := on_first m c (fun m k => set_key m k d).
Definition set_staple_mem m c d := on_first m c (fun m k => set_staple m k d).
(** tls_config.c:626-655 — [tls_config_set_keypair_file_internal], [tls_config_set_keypair_mem_internal] *)
Definition set_keypair (m : mem) (c : config) (cert key staple : option src) : res (bool * config * mem) :=
  let* (ok, c, m) := set_cert_mem m c cert in
  if negb ok then OK (false, c, m) else
  let* (ok, c, m) := set_key_mem m c key in
  if negb ok then OK (false, c, m) else
  match staple with None => OK (true, c, m) | Some _ => set_staple_mem m c staple end.

(** What is done with a configuration: proxy.c:335-380, server.c:1470-1524, and
    tls_configure (tls.c:254-270), which takes a reference *)
Inductive op :=
| OCert (d : option src) | OKey (d : option src) | OSet (cert key staple : option src)
| OAdd (cert key staple : option src) | OClear | ORef | OFree.
Definition apply (m : mem) (c : config) (o : op) : res (bool * option config * mem) :=
  let some r := let* (ok, c, m) := (r : res (bool * config * mem)) in OK (ok, Some c, m) in
  match o with
  | OCert d => some (set_cert_mem m c d)
  | OKey d => some (set_key_mem m c d)
  | OSet a b s => some (set_keypair m c a b s)
  | OAdd a b s => some (add_keypair m c a b s)
  | OClear => let* (l, m) := clear_all m (cf_kps c) in OK (true, Some (with_kps c l), m)
  | ORef => OK (true, Some (mkCf (cf_at c) (S (cf_refs c)) (cf_kps c)), m)
  | OFree => let* (c, m) := config_free m c in OK (true, c, m)
  end.
(** One thing after another, until it is gone. *)
Fixpoint run (m : mem) (c : config) (ops : list op) : res (list bool * option config * mem) :=
  match ops with
  | [] => OK ([], Some c, m)
  | o :: r =>
    let* (ok, c, m) := apply m c o in
    match c with
    | None => OK ([ok], None, m)
    | Some c => let* (oks, c, m) := run m c r in OK (ok :: oks, c, m)
    end
  end.
End Keypair.

(** ** config.c:67-73: what [config_purge] frees of a host's certificate *)
Record host := mkHost { h_cert_path : option nat; h_key_path : option nat; h_ocsp_path : option nat;
  h_cert : option nat; h_key : option nat; h_ocsp : option nat }.
Definition purge_host (m : mem) (h : host) : res mem :=
  let* m := free m (h_cert_path h) in let* m := free m (h_key_path h) in let* m := free m (h_ocsp_path h) in
  let* m := free m (h_cert h) in let* m := free m (h_key h) in free m (h_ocsp h).
