(** Model of the table of connections of a server process (server.c). *)
From Verif Require Import Base.
Local Open Scope N_scope.

(** server.c:89-91, 1661-1671 — the counter (a uint32_t) and the tree, ordered by
    id: for each id in it, the connection.  A connection is named by its address. *)
Record ctable := mkCT { ct_next : N; ct_tree : list (N * nat); ct_live : list (nat * N) }.

(** SPLAY_INSERT (sys/tree.h): nothing is inserted if the id is there already *)
Definition splay_insert (id : N) (c : nat) (t : list (N * nat)) : list (N * nat) :=
  if existsb (fun x => fst x =? id) t then t else (id, c) :: t.
(** SPLAY_REMOVE: removes the entry with that id, whichever connection it is *)
Definition splay_remove (id : N) (t : list (N * nat)) : list (N * nat) := filter (fun x => negb (fst x =? id)) t.

(** server.c:1404-1456 — [server_accept], as far as the id is concerned; [ok]:
    getnameinfo(3) and tls_accept_cbs(3) succeeded *)
Definition do_accept (c : nat) (ok : bool) (s : ctable) : ctable :=
  let id := (ct_next s + 1) mod 2^32 in
  if ok then mkCT id (splay_insert id c (ct_tree s)) ((c, id) :: ct_live s)
  else mkCT id (ct_tree s) (ct_live s).
(** server.c:1264-1275 — [client_close], as far as the id is concerned *)
Definition do_close (c : nat) (s : ctable) : ctable :=
  match find (fun x => (fst x =? c)%nat) (ct_live s) with
  | None => s
  | Some (_, id) => mkCT (ct_next s) (splay_remove id (ct_tree s)) (filter (fun x => negb (fst x =? c)%nat) (ct_live s))
  end.

Inductive cevent := EAccept (c : nat) (ok : bool) | EClose (c : nat).
Definition cdo (s : ctable) (e : cevent) : ctable := match e with EAccept c ok => do_accept c ok s | EClose c => do_close c s end.
(** server.c:1569 — SPLAY_INIT *)
Definition cinit : ctable := mkCT 0 [] [].
Definition crun (h : list cevent) : ctable := fold_left cdo h cinit.
