(** Vocabulary of C85 to C88: what can be said about memory (Arr.v). *)
From Verif Require Import Base Arr.
Local Open Scope N_scope.

(** block [p] may be used and holds [b] *)
Definition pts (m : mem) (p : nat) (b : list cell) := nth_error (blocks m) p = Some (mkBlk true b).
(** how many blocks were ever given out: the blocks are 0, ..., sz m - 1 *)
Definition sz (m : mem) := length (blocks m).
(** block [q] may be used; was freed *)
Definition alive (m : mem) (q : nat) := exists b, pts m q b.
Definition dead (m : mem) (k : nat) := exists c, nth_error (blocks m) k = Some (mkBlk false c).
(** the next request is granted if it is for [n] bytes *)
Definition granted (E : sys) (m : mem) (n : N) := n < 2 ^ 57 /\ yes E (calls m) n = true.
(** the system never refuses *)
Definition generous (E : sys) := (forall k n, n < 2 ^ 57 -> yes E k n = true) /\ fstat_ok E = true.

(** the blocks of [m] but [ps] are as they were *)
Definition keep (m m' : mem) (ps : list nat) := forall k, (k < sz m)%nat -> ~ In k ps -> nth_error (blocks m') k = nth_error (blocks m) k.
(** the first [n0] blocks are as they were *)
Definition old_kept (n0 : nat) (m m' : mem) := forall k, (k < n0)%nat -> nth_error (blocks m') k = nth_error (blocks m) k.
(** and the others were all freed: nothing leaked *)
Definition clean (n0 : nat) (m m' : mem) := old_kept n0 m m' /\ (n0 <= sz m')%nat /\ forall k, (n0 <= k < sz m')%nat -> dead m' k.

(** the elements a list of answers says yes to *)
Fixpoint accepted {A} (l : list A) (oks : list bool) : list A :=
  match l, oks with x :: l, ok :: oks => if ok then x :: accepted l oks else accepted l oks | _, _ => [] end.
(** a type and an extension that fit in 128 bytes each, with their NUL *)
Definition fits (e : list N * list N) : bool := Nat.ltb (length (fst e)) FIELD && Nat.ltb (length (snd e)) FIELD.

(** what readdir(3) can return *)
Definition dirent_ok (d : dirent) := nonul (d_name d) /\ N.of_nat (length (d_name d)) < 2 ^ 32 /\ d_type d < 256.
(** what a listing shows of an entry *)
Definition shown (d : dirent) : N * list N := (d_type d, d_name d).

(** two digits for every byte *)
Definition hexchars (d : list N) : list N := concat (map (fun c => [hexdigit (c / 16); hexdigit (c mod 16)]) d).
