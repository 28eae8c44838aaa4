(** compat/imsg-buffer.c:54-505 — the buffers that messages are built in and read from,
    on memory: what the pointers point to has a size, and to read or write elsewhere is
    [UB].  Memory allocation does not fail. *)
From Verif Require Import Base.
Local Open Scope N_scope.

Definition SIZE_MAX : N := 2 ^ 64 - 1.
(** arithmetic of size_t *)
Definition addz (a b : N) : N := (a + b) mod 2 ^ 64.
Definition subz (a b : N) : N := if b <=? a then a - b else a + 2 ^ 64 - b.
Definition len (l : list N) : N := N.of_nat (length l).
Definition zeros (n : N) : list N := repeat 0 (N.to_nat n).

(** what [buf] points to ([None]: NULL), the other members but [fd]; [stack]: fd is
    IBUF_FD_MARK_ON_STACK *)
Record ibuf := mkB { blk : option (list N); size : N; max : N; wpos : N; rpos : N; stack : bool }.

(** memcpy from and to [buf + off] *)
Definition rd (b : option (list N)) (off n : N) : res (list N) :=
  match b with
  | None => if (off =? 0) && (n =? 0) then OK [] else UB
  | Some l => if off + n <=? len l then OK (firstn (N.to_nat n) (skipn (N.to_nat off) l)) else UB
  end.
Definition wr (b : option (list N)) (off : N) (d : list N) : res (option (list N)) :=
  match b with
  | None => if (off =? 0) && (len d =? 0) then OK None else UB
  | Some l => if off + len d <=? len l then OK (Some (firstn (N.to_nat off) l ++ d ++ skipn (N.to_nat (off + len d)) l)) else UB
  end.

(** :54-72 *)
Definition ibuf_open (n : N) : ibuf := mkB (if 0 <? n then Some (zeros n) else None) n n 0 0 false.
(** :74-99 *)
Definition ibuf_dynamic (n mx : N) : option ibuf := if (mx =? 0) || (mx <? n) then None else Some (mkB (if 0 <? n then Some (zeros n) else None) n mx 0 0 false).
(** :391-398 *)
Definition ibuf_from_buffer (d : list N) : ibuf := mkB (Some d) (len d) 0 (len d) 0 true.

(** :362-366 *)
Definition ibuf_size (b : ibuf) : N := subz (wpos b) (rpos b).
(** :368-375 *)
Definition ibuf_left (b : ibuf) : N := if stack b then 0 else subz (max b) (wpos b).

(** realloc(3): what is new has any content *)
Definition realloc (b : option (list N)) (n : N) : option (list N) :=
  let old := match b with Some l => firstn (N.to_nat n) l | None => [] end in Some (old ++ repeat 170 (N.to_nat n - length old)).
(** a pointer into [buf]: [None] is NULL *)
Definition at_off (b : ibuf) (off : N) : option N := match blk b with None => None | Some _ => Some off end.
(** :101-137: the pointer is returned as an offset *)
Definition ibuf_reserve (b : ibuf) (n : N) : res (option N * ibuf) :=
  if subz SIZE_MAX (wpos b) <? n then OK (None, b) else
  if stack b then OK (None, b) else
  let grown :=
    if size b <? addz (wpos b) n then
      if max b <? addz (wpos b) n then OK None else
      let* nb := wr (realloc (blk b) (addz (wpos b) n)) (size b) (zeros (subz (addz (wpos b) n) (size b))) in
      OK (Some (mkB nb (addz (wpos b) n) (max b) (wpos b) (rpos b) (stack b)))
    else OK (Some b) in
  let* g := grown in
  match g with
  | None => OK (None, b)
  | Some b => OK (at_off b (wpos b), mkB (blk b) (size b) (max b) (addz (wpos b) n) (rpos b) (stack b))
  end.
Definition set_blk (b : ibuf) (l : option (list N)) : ibuf := mkB l (size b) (max b) (wpos b) (rpos b) (stack b).
(** :139-149; [false]: -1 *)
Definition ibuf_add (b : ibuf) (d : list N) : res (bool * ibuf) :=
  let* r := ibuf_reserve b (len d) in
  match r with
  | (None, b) => OK (false, b)
  | (Some o, b) => let* l := wr (blk b) o d in OK (true, set_blk b l)
  end.
(** :234-243 *)
Definition ibuf_add_zero (b : ibuf) (n : N) : res (bool * ibuf) :=
  let* r := ibuf_reserve b n in
  match r with
  | (None, b) => OK (false, b)
  | (Some o, b) => let* l := wr (blk b) o (zeros n) in OK (true, set_blk b l)
  end.
(** :245-256 *)
Definition ibuf_seek (b : ibuf) (pos n : N) : option N :=
  if (ibuf_size b <? pos) || (subz SIZE_MAX pos <? n) || (ibuf_size b <? addz pos n) then None else at_off b (addz (rpos b) pos).
(** :258-268 *)
Definition ibuf_set (b : ibuf) (pos : N) (d : list N) : res (bool * ibuf) :=
  match ibuf_seek b pos (len d) with
  | None => OK (false, b)
  | Some o => let* l := wr (blk b) o d in OK (true, set_blk b l)
  end.
(** :377-389 *)
Definition ibuf_truncate (b : ibuf) (n : N) : res (bool * ibuf) :=
  if n <=? ibuf_size b then OK (true, mkB (blk b) (size b) (max b) (addz (rpos b) n) (rpos b) (stack b)) else
  if stack b then OK (false, b) else ibuf_add_zero b (subz n (ibuf_size b)).
(** :391-395 *)
Definition ibuf_rewind (b : ibuf) : ibuf := mkB (blk b) (size b) (max b) (wpos b) 0 (stack b).
Definition advance (b : ibuf) (n : N) : ibuf := mkB (blk b) (size b) (max b) (wpos b) (addz (rpos b) n) (stack b).
(** :406-417, and the buffer :419-430 makes *)
Definition ibuf_get (b : ibuf) (n : N) : res (option (list N) * ibuf) :=
  if ibuf_size b <? n then OK (None, b) else let* d := rd (blk b) (rpos b) n in OK (Some d, advance b n).
(** :486-501: strndup(3) *)
Fixpoint until_nul (l : list N) : list N := match l with [] => [] | c :: r => if c =? 0 then [] else c :: until_nul r end.
Definition ibuf_get_string (b : ibuf) (n : N) : res (option (list N) * ibuf) :=
  if ibuf_size b <? n then OK (None, b) else let* d := rd (blk b) (rpos b) n in OK (Some (until_nul d), advance b n).
(** :503-512 *)
Definition ibuf_skip (b : ibuf) (n : N) : bool * ibuf := if ibuf_size b <? n then (false, b) else (true, advance b n).

(** htobe16(3), ...: the bytes of a number of [w] bytes *)
Fixpoint be (w : nat) (v : N) : list N := match w with O => [] | S w => v / 256 ^ N.of_nat w mod 256 :: be w v end.
Fixpoint unbe (acc : N) (l : list N) : N := match l with [] => acc | c :: r => unbe (acc * 256 + c) r end.
(** :157-202 ibuf_add_n8, _n16, _n32, _n64; [w]: 1, 2, 4, 8 *)
Definition ibuf_add_n (w : nat) (b : ibuf) (v : N) : res (bool * ibuf) :=
  if (negb (Nat.eqb w 8)) && (256 ^ N.of_nat w - 1 <? v) then OK (false, b) else ibuf_add b (be w v).
(** :270-315 *)
Definition ibuf_set_n (w : nat) (b : ibuf) (pos v : N) : res (bool * ibuf) :=
  if (negb (Nat.eqb w 8)) && (256 ^ N.of_nat w - 1 <? v) then OK (false, b) else ibuf_set b pos (be w v).
(** :450-484 *)
Definition ibuf_get_n (w : nat) (b : ibuf) : res (option N * ibuf) :=
  let* r := ibuf_get b (N.of_nat w) in match r with (Some d, b) => OK (Some (unbe 0 d), b) | (None, b) => OK (None, b) end.

(** ** what a program does with a buffer *)
Inductive op := Add (d : list N) | AddZero (n : N) | SetAt (pos : N) (d : list N) | Truncate (n : N) | Rewind | Get (n : N) | GetString (n : N) | Skip (n : N) | Size | Left
| AddN (w : nat) (v : N) | SetN (w : nat) (pos v : N) | GetN (w : nat).
Inductive ans := Failed | Done | Bytes (l : list N) | Number (n : N).
Definition yes (r : bool * ibuf) : ans * ibuf := (if fst r then Done else Failed, snd r).
Definition bytes (r : option (list N) * ibuf) : ans * ibuf := (match fst r with Some l => Bytes l | None => Failed end, snd r).
Definition do_op (b : ibuf) (o : op) : res (ans * ibuf) :=
  match o with
  | Add d => let* r := ibuf_add b d in OK (yes r)
  | AddZero n => let* r := ibuf_add_zero b n in OK (yes r)
  | SetAt pos d => let* r := ibuf_set b pos d in OK (yes r)
  | Truncate n => let* r := ibuf_truncate b n in OK (yes r)
  | Rewind => OK (Done, ibuf_rewind b)
  | Get n => let* r := ibuf_get b n in OK (bytes r)
  | GetString n => let* r := ibuf_get_string b n in OK (bytes r)
  | Skip n => OK (yes (ibuf_skip b n))
  | Size => OK (Number (ibuf_size b), b)
  | Left => OK (Number (ibuf_left b), b)
  | AddN w v => let* r := ibuf_add_n w b v in OK (yes r)
  | SetN w pos v => let* r := ibuf_set_n w b pos v in OK (yes r)
  | GetN w => let* r := ibuf_get_n w b in OK (match fst r with Some v => Number v | None => Failed end, snd r)
  end.
Fixpoint run (b : ibuf) (os : list op) : res (list ans) :=
  match os with [] => OK [] | o :: r => let* ab := do_op b o in let* l := run (snd ab) r in OK (fst ab :: l) end.
