(** Arrays that grow, on memory: compat/reallocarray.c, compat/recallocarray.c,
    compat/freezero.c, mime.c:24-59 and :154-158, dirs.c:66-155, the directory
    entries in server.c, tls_hex_string; and compat/timingsafe_memcmp.c.

    Memory is a list of blocks that malloc(3) gave out; to use a block that was freed, or
    what is behind its end, is [UB].  A pointer is the number of its block; 8 bytes of
    memory can hold one. *)
From Verif Require Import Base Compat.
Local Open Scope N_scope.

Inductive cell := By (b : N) | Frag (p i : nat).
Record blk := mkBlk { live : bool; body : list cell }.
(** the blocks, and how often memory was asked for *)
Record mem := mkMem { blocks : list blk; calls : nat }.
(** The system: is the n-th request for memory granted, what is in the memory, does
    fstat(2) work, how does qsort(3) order the pointers. *)
Record sys := mkSys { yes : nat -> N -> bool; junk : nat -> nat -> cell; fstat_ok : bool; order : mem -> list nat -> list nat }.

Definition SIZE_MAX : N := 2 ^ 64 - 1.
(** arithmetic of size_t *)
Definition addz (a b : N) : N := (a + b) mod 2 ^ 64.
Definition mulz (a b : N) : N := (a * b) mod 2 ^ 64.
Definition subz (a b : N) : N := if b <=? a then a - b else a + 2 ^ 64 - b.

Fixpoint set_nth {A} (l : list A) (n : nat) (x : A) : list A :=
  match l, n with [], _ => [] | _ :: r, O => x :: r | y :: r, S n => y :: set_nth r n x end.
Definition zeros (n : nat) : list cell := repeat (By 0) n.

(** malloc(3): no machine has 2^57 bytes *)
Definition give (E : sys) (m : mem) (n : N) (content : nat -> cell) : option nat * mem :=
  if (n <? 2 ^ 57) && yes E (calls m) n
  then (Some (length (blocks m)), mkMem (blocks m ++ [mkBlk true (map content (seq 0 (N.to_nat n)))]) (S (calls m)))
  else (None, mkMem (blocks m) (S (calls m))).
Definition malloc (E : sys) (m : mem) (n : N) := give E m n (junk E (calls m)).
(** calloc(3): fails if the product overflows *)
Definition calloc (E : sys) (m : mem) (nm sz : N) :=
  if SIZE_MAX <? nm * sz then (None, m) else give E m (nm * sz) (fun _ => By 0).
(** a pointer that may be used *)
Definition at_ (m : mem) (p : option nat) : res (nat * list cell) :=
  match p with
  | None => UB
  | Some p => match nth_error (blocks m) p with Some (mkBlk true b) => OK (p, b) | _ => UB end
  end.
(** reading and writing at [p + off] *)
Definition load (m : mem) (p : option nat) (off n : N) : res (list cell) :=
  let* (_, b) := at_ m p in
  if off + n <=? N.of_nat (length b) then OK (firstn (N.to_nat n) (skipn (N.to_nat off) b)) else UB.
Definition store (m : mem) (p : option nat) (off : N) (d : list cell) : res mem :=
  let* (i, b) := at_ m p in
  if off + N.of_nat (length d) <=? N.of_nat (length b)
  then OK (mkMem (set_nth (blocks m) i (mkBlk true (firstn (N.to_nat off) b ++ d ++ skipn (N.to_nat off + length d) b))) (calls m)) else UB.
(** free(3) *)
Definition free (m : mem) (p : option nat) : res mem :=
  match p with
  | None => OK m
  | Some _ => let* (i, b) := at_ m p in OK (mkMem (set_nth (blocks m) i (mkBlk false b)) (calls m))
  end.
(** realloc(3): the block always moves *)
Definition realloc (E : sys) (m : mem) (p : option nat) (n : N) : res (option nat * mem) :=
  match p with
  | None => OK (malloc E m n)
  | Some _ =>
    let* (_, b) := at_ m p in
    match malloc E m n with
    | (None, m) => OK (None, m)
    | (Some q, m) => let* m := store m (Some q) 0 (firstn (N.to_nat n) b) in let* m := free m p in OK (Some q, m)
    end
  end.

(** compat/reallocarray.c:29 and compat/recallocarray.c:29 *)
Definition MUL_NO_OVERFLOW : N := 2 ^ 32.
(** compat/reallocarray.c:34-35, compat/recallocarray.c:46-47, :54-55 *)
Definition overflows (nmemb size : N) : bool :=
  ((MUL_NO_OVERFLOW <=? nmemb) || (MUL_NO_OVERFLOW <=? size)) && (0 <? nmemb) && (SIZE_MAX / nmemb <? size).
(** compat/reallocarray.c:31-40 *)
Definition reallocarray (E : sys) (m : mem) (p : option nat) (nmemb size : N) : res (option nat * mem) :=
  if overflows nmemb size then OK (None, m) else realloc E m p (mulz size nmemb).
(** compat/recallocarray.c:37-92 *)
Definition recallocarray (E : sys) (m : mem) (p : option nat) (oldnmemb newnmemb size : N) : res (option nat * mem) :=
  match p with
  | None => OK (calloc E m newnmemb size)
  | Some _ =>
    if overflows newnmemb size then OK (None, m) else
    let newsize := mulz newnmemb size in
    if overflows oldnmemb size then OK (None, m) else
    let oldsize := mulz oldnmemb size in
    let d := subz oldsize newsize in
    if (newsize <=? oldsize) && (d <? oldsize / 2) && (d <? 4096) then
      let* m := store m p newsize (zeros (N.to_nat d)) in OK (p, m)
    else
    match malloc E m newsize with
    | (None, m) => OK (None, m)
    | (Some q, m) =>
      let* m :=
        if oldsize <? newsize then
          let* c := load m p 0 oldsize in
          let* m := store m (Some q) 0 c in
          store m (Some q) oldsize (zeros (N.to_nat (subz newsize oldsize)))
        else let* c := load m p 0 newsize in store m (Some q) 0 c in
      let* m := store m p 0 (zeros (N.to_nat oldsize)) in
      let* m := free m p in
      OK (Some q, m)
    end
  end.
(** compat/freezero.c:22-30 *)
Definition freezero (m : mem) (p : option nat) (n : N) : res mem :=
  match p with
  | None => OK m
  | Some _ => let* m := store m p 0 (zeros (N.to_nat n)) in free m p
  end.

(** ** the table of media types *)
(** gmid.h:245-249; an entry (:240-243) is 128 bytes of type and 128 of extension *)
Record table := mkT { t : option nat; tlen : N; cap : N }.
Definition ETM : N := 256.
Definition FIELD : nat := 128.
(** mime.c:24-33; [None]: fatal *)
Definition init_mime (E : sys) (m : mem) : option (table * mem) :=
  match calloc E m 16 ETM with (None, _) => None | (Some p, m) => Some (mkT (Some p) 0 16, m) end.
Definition val (c : cell) : N := match c with By b => b | Frag _ _ => 170 end.
(** strlcpy(3) to a field of the table; [true]: the string fits *)
Definition copy_field (m : mem) (p : option nat) (off : N) (src : list N) : res (bool * mem) :=
  let* old := load m p off (N.of_nat FIELD) in
  let* (n, new) := strlcpy (map val old) (src ++ [0]) FIELD in
  let* m := store m p off (map By new) in
  OK (Nat.ltb n FIELD, m).
(** mime.c:36-59; cap * 1.5 is exact below 2^53, and a table is never that long.
    [false]: -1 *)
Definition add_mime (E : sys) (m : mem) (tb : table) (mt ext : list N) : res (bool * table * mem) :=
  let* (ok, tb, m) :=
    if tlen tb =? cap tb then
      let newcap := cap tb * 3 / 2 in
      let* (p, m) := recallocarray E m (t tb) (cap tb) newcap ETM in
      match p with None => OK (false, tb, m) | Some _ => OK (true, mkT p (tlen tb) newcap, m) end
    else OK (true, tb, m) in
  if negb ok then OK (false, tb, m) else
  let* (ok, m) := copy_field m (t tb) (ETM * tlen tb) mt in
  if negb ok then OK (false, tb, m) else
  let* (ok, m) := copy_field m (t tb) (ETM * tlen tb + N.of_nat FIELD) ext in
  if negb ok then OK (false, tb, m) else
  OK (true, mkT (t tb) (addz (tlen tb) 1) (cap tb), m).
(** mime.c:154-158 *)
Definition free_mime (m : mem) (tb : table) : res mem := free m (t tb).
(** config.c:555, parse.y:687: many of them, whatever the answers *)
Fixpoint add_all (E : sys) (m : mem) (tb : table) (l : list (list N * list N)) : res (list bool * table * mem) :=
  match l with
  | [] => OK ([], tb, m)
  | (mt, ext) :: r =>
    let* (ok, tb, m) := add_mime E m tb mt ext in
    let* (oks, tb, m) := add_all E m tb r in OK (ok :: oks, tb, m)
  end.

(** ** the entries of a directory *)
(** what readdir(3) returns *)
Record dirent := mkD { d_ino : N; d_type : N; d_name : list N }.
(** a pointer in memory *)
Definition ptr (p : nat) : list cell := map (Frag p) (seq 0 8).
Definition as_ptr (c : list cell) : option nat :=
  match c with
  | [Frag p 0; Frag p1 1; Frag p2 2; Frag p3 3; Frag p4 4; Frag p5 5; Frag p6 6; Frag p7 7] =>
    if forallb (Nat.eqb p) [p1; p2; p3; p4; p5; p6; p7] then Some p else None
  | _ => None
  end.
Definition load_ptr (m : mem) (p : option nat) (off : N) : res nat :=
  let* c := load m p off 8 in match as_ptr c with Some q => OK q | None => UB end.
(** struct dirent of Linux: d_ino is at 0, d_type at 18, d_name at 19; it is 280 bytes with
    256 bytes of name *)
Definition NAME : N := 19.
(** dirs.c:61-64: & ~3 *)
Definition DIRSIZ (namlen : N) : N := addz (280 - 256) (addz namlen 4 / 4 * 4).
Fixpoint le (n : nat) (v : N) : list cell := match n with O => [] | S n => By (v mod 256) :: le n (v / 256) end.
(** dirs.c:119-129: the copy; [None]: no memory *)
Definition copy_entry (E : sys) (m : mem) (d : dirent) : res (option nat * mem) :=
  match malloc E m (DIRSIZ (N.of_nat (length (d_name d)))) with
  | (None, m) => OK (None, m)
  | (Some p, m) =>
    let* m := store m (Some p) 0 (le 8 (d_ino d)) in
    let* m := store m (Some p) 18 (le 1 (d_type d)) in
    let* m := store m (Some p) NAME (map By (d_name d ++ [0])) in
    OK (Some p, m)
  end.
(** dirs.c:143-146 *)
Fixpoint free_names (m : mem) (names : option nat) (n : nat) : res mem :=
  match n with
  | O => OK m
  | S n => let* p := load_ptr m names (8 * N.of_nat n) in let* m := free m (Some p) in free_names m names n
  end.
(** dirs.c:142-148 *)
Definition fail {A} (m : mem) (names : option nat) (n : nat) : res (option A * mem) :=
  let* m := free_names m names n in let* m := free m names in OK (None, m).
(** dirs.c:96-131: the entries selected; [None]: failed, and cleaned up *)
Fixpoint scan (E : sys) (m : mem) (names : option nat) (arraysz : N) (nitems : nat) (es : list dirent)
  : res (option (option nat * nat) * mem) :=
  match es with
  | [] => OK (Some (names, nitems), m)
  | d :: r =>
    let put names arraysz m :=
      let* (p, m) := copy_entry E m d in
      match p with
      | None => fail m names nitems
      | Some p => let* m := store m names (8 * N.of_nat nitems) (ptr p) in scan E m names arraysz (S nitems) r
      end in
    if arraysz <=? N.of_nat nitems then
      if negb (fstat_ok E) then fail m names nitems else
      let arraysz := mulz arraysz 2 in
      if SIZE_MAX / 8 <? arraysz then fail m names nitems else
      let* (nn, m) := reallocarray E m names arraysz 8 in
      match nn with
      | None => fail m names nitems
      | Some _ => put nn arraysz m
      end
    else put names arraysz m
  end.
(** qsort(3) of the first [n] pointers *)
Fixpoint load_ptrs (m : mem) (names : option nat) (i n : nat) : res (list nat) :=
  match n with O => OK [] | S n => let* p := load_ptr m names (8 * N.of_nat i) in let* r := load_ptrs m names (S i) n in OK (p :: r) end.
Definition qsort (E : sys) (m : mem) (names : option nat) (n : nat) : res mem :=
  let* ps := load_ptrs m names 0 n in store m names 0 (concat (map ptr (order E m ps))).
(** dirs.c:66-149; [st_size] is the size of the directory file.  The value returned is an
    int: a directory has less than 2^31 entries.  [None]: -1 *)
Definition scandir_fd (E : sys) (m : mem) (st_size : N) (select : dirent -> bool) (es : list dirent)
  : res (option (option nat * nat) * mem) :=
  if negb (fstat_ok E) then fail m None 0 else
  let arraysz := N.max (st_size / 24) 16 in
  if SIZE_MAX / 8 <? arraysz then fail m None 0 else
  match calloc E m arraysz 8 with
  | (None, m) => fail m None 0
  | (names, m) =>
    let* (r, m) := scan E m names arraysz 0 (filter select es) in
    match r with
    | None => OK (None, m)
    | Some (names, n) =>
      let* m := if (n =? 0)%nat then OK m else qsort E m names n in OK (Some (names, n), m)
    end
  end.
(** dirs.c:151-161 *)
Definition name_is (s : string) (d : dirent) : bool := if list_eq_dec N.eq_dec (d_name d) (s2b s) then true else false.
Definition select_non_dot (d : dirent) : bool := negb (name_is "." d).
Definition select_non_dotdot (d : dirent) : bool := negb (name_is "." d) && negb (name_is ".." d).

(** server.c:1093-1104: the listing is written; here: type and name of each entry *)
Fixpoint write_dir (m : mem) (names : option nat) (i n : nat) : res (list (N * list N) * mem) :=
  match n with
  | O => OK ([], m)
  | S n =>
    let* p := load_ptr m names (8 * N.of_nat i) in
    let* (_, b) := at_ m (Some p) in
    let* name := match cstr (map val (skipn (N.to_nat NAME) b)) with Some l => OK l | None => UB end in
    let* ty := load m (Some p) 18 1 in
    let* m := free m (Some p) in
    let* (r, m) := write_dir m names (S i) n in
    OK ((val (hd (By 0) ty), name) :: r, m)
  end.
(** server.c:1093-1106 *)
Definition list_dir (m : mem) (names : option nat) (n : nat) : res (list (N * list N) * mem) :=
  let* (l, m) := write_dir m names 0 n in let* m := free m names in OK (l, m).
(** server.c:1233-1234, in client_close_ev; [dir] is NULL once the listing was written *)
Definition close_dir (m : mem) (dir : option nat) : res mem := match dir with None => OK m | Some _ => free m dir end.

(** ** tls_hex_string *)
Definition hexdigit (n : N) : N := nth (N.to_nat n) (s2b "0123456789abcdef") 0.
Fixpoint put_hex (m : mem) (p : option nat) (len : N) (d : list N) : res (N * mem) :=
  match d with
  | [] => OK (len, m)
  | c :: r =>
    let* m := store m p len [By (hexdigit (N.land (N.shiftr c 4) 15))] in
    let* m := store m p (addz len 1) [By (hexdigit (N.land c 15))] in
    put_hex m p (addz (addz len 1) 1) r
  end.
(** compat/libtls/tls_conninfo.c:31-59; [None]: -1 *)
Definition tls_hex_string (E : sys) (m : mem) (d : list N) : res (option (option nat * N) * mem) :=
  if SIZE_MAX <=? N.of_nat (length d) then OK (None, m) else
  let* (p, m) := reallocarray E m None (addz (N.of_nat (length d)) 1) 2 in
  match p with
  | None => OK (None, m)
  | Some _ =>
    let* (len, m) := put_hex m p 0 d in
    let* m := store m p len [By 0] in
    OK (Some (p, addz len 1), m)
  end.
(** compat/libtls/tls.c:271-296: asprintf(3) makes the text in memory of its own; the digest
    of the certificate is given.  [None]: -1 *)
Definition tls_cert_hash (E : sys) (m : mem) (digest : list N) : res (option (option nat) * mem) :=
  let* (r, m) := tls_hex_string E m digest in
  match r with
  | None => OK (None, m)
  | Some (dhex, _) =>
    let* (_, b) := at_ m dhex in
    let* s := match cstr (map val b) with Some l => OK l | None => UB end in
    let text := s2b "SHA256:" ++ s ++ [0] in
    let '(q, m) := give E m (N.of_nat (length text)) (fun i => By (nth i text 0)) in
    let* m := free m dhex in
    OK (match q with None => None | Some _ => Some q end, m)
  end.

(** ** compat/timingsafe_memcmp.c:24-49 *)
Fixpoint memcmp_loop (p1 p2 : list N) (res done : Z) : Z :=
  match p1, p2 with
  | a :: p1, b :: p2 =>
    let lt := Z.shiftr (Z.of_N a - Z.of_N b) 8 in
    let gt := Z.shiftr (Z.of_N b - Z.of_N a) 8 in
    let cmp := (lt - gt)%Z in
    memcmp_loop p1 p2 (Z.lor res (Z.land cmp (Z.lnot done))) (Z.lor done (Z.lor lt gt))
  | _, _ => res
  end.
Definition timingsafe_memcmp (p1 p2 : list N) : Z := memcmp_loop p1 p2 0 0.
