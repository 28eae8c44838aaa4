(** Model of the two-way search of compat/memmem.c. *)
From Verif Require Import Base.
Local Open Scope nat_scope.

(** compat/memmem.c:79-80: [byteset] (as the set of its bits) and [shift]; the
    entries of [shift] that are not set are uninitialised ([None]) *)
Fixpoint tables (n : list N) (i : nat) (bs : N -> bool) (sh : N -> option nat) : (N -> bool) * (N -> option nat) :=
  match n with
  | [] => (bs, sh)
  | c :: n => tables n (S i) (fun x => if (x =? c)%N then true else bs x) (fun x => if (x =? c)%N then Some (S i) else sh x)
  end.

(** compat/memmem.c:83-98 and 103-118, with [gt] for [>] and [<].  [ip] starts at
    (size_t)-1: [i1] is [ip] + 1, and [ip] + k = [i1] + k - 1 modulo 2^64.  Result: [ip] + 1, [p] *)
Fixpoint maxsuf (fuel : nat) (gt : N -> N -> bool) (n : list N) (l i1 jp k p : nat) : res (nat * nat) :=
  match fuel with
  | O => Fuel
  | S fuel =>
    if jp + k <? l then
      let* a := rd n (i1 + k - 1) in
      let* b := rd n (jp + k) in
      if (a =? b)%N then
        if k =? p then maxsuf fuel gt n l i1 (jp + p) 1 p else maxsuf fuel gt n l i1 jp (S k) p
      else if gt a b then maxsuf fuel gt n l i1 (jp + k) 1 (jp + k + 1 - i1)
      else maxsuf fuel gt n l (jp + 1) (jp + 1) 1 1
    else OK (i1, p)
  end.

(** compat/memmem.c:123: memcmp(3) on [c] bytes of [n] and [n] + [p], all of which may be read: equal *)
Definition same_bytes (n : list N) (p c : nat) : res bool :=
  if (c <=? length n) && (p + c <=? length n) then OK (leqb (firstn c n) (firstn c (skipn p n))) else UB.

(** compat/memmem.c:150: [for (; k<l && n[k] == h[k]; k++)]; [d] is [l] - [k] *)
Fixpoint cmp_right (d : nat) (m n : list N) (h k : nat) : res nat :=
  match d with
  | O => OK k
  | S d => let* a := rd n k in let* b := rd m (h + k) in if (a =? b)%N then cmp_right d m n h (S k) else OK k
  end.
(** compat/memmem.c:157: [for (; k>mem && n[k-1] == h[k-1]; k--)] *)
Fixpoint cmp_left (mem : nat) (m n : list N) (h k : nat) : res nat :=
  match k with
  | O => OK O
  | S k' =>
    if mem <? k then
      let* a := rd n k' in let* b := rd m (h + k') in if (a =? b)%N then cmp_left mem m n h k' else OK k
    else OK k
  end.

(** compat/memmem.c:130-161: the search; [c] is [ms] + 1, [z] the end.  [z]-[h] is
    converted to size_t: a negative one is not smaller than [l] *)
Fixpoint search (fuel : nat) (m n : list N) (z l c p mem0 : nat) (bs : N -> bool) (sh : N -> option nat) (h mem : nat) : res (option nat) :=
  match fuel with
  | O => Fuel
  | S fuel =>
    let go := search fuel m n z l c p mem0 bs sh in
    if (h <=? z) && (z - h <? l) then OK None else
    let* e := rd m (h + l - 1) in
    if bs e then
      match sh e with
      | None => UB
      | Some s =>
        let k := l - s in
        if negb (k =? 0) then go (h + Nat.max k mem) 0
        else
          let* k := cmp_right (l - Nat.max c mem) m n h (Nat.max c mem) in
          if k <? l then go (h + (k + 1 - c)) 0
          else
            let* k := cmp_left mem m n h c in
            if k <=? mem then OK (Some h) else go (h + p) mem0
      end
    else go (h + l) 0
  end.

(** compat/memmem.c:70-162 — [twoway_memmem].  When [ms] is (size_t)-1 the sum at :125 wraps to 0 *)
Definition twoway_memmem (m : list N) (h z : nat) (n : list N) : res (option nat) :=
  let l := length n in
  let (bs, sh) := tables n 0 (fun _ => false) (fun _ => None) in
  let* (c0, p0) := maxsuf (2 * l + 1) (fun a b => (b <? a)%N) n l 0 0 1 1 in
  let* (c1, p1) := maxsuf (2 * l + 1) (fun a b => (a <? b)%N) n l 0 0 1 1 in
  let (c, p) := if c0 <? c1 then (c1, p1) else (c0, p0) in                     (* :119-120 *)
  let* same := same_bytes n p c in
  let (mem0, p) := if same then (l - p, p)
                   else (0, match c with O => O | S ms => Nat.max ms (l - c) + 1 end) in
  search (z - h + 1) m n z l c p mem0 bs sh h 0.
