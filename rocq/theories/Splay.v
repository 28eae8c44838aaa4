(** Model of the splay tree of compat/tree.h as server.c uses it: the table of
    connections, on memory where connections are allocated and freed. *)
From Verif Require Import Base.
Local Open Scope nat_scope.

(** Where a [struct client] lives: on the heap, or the [__node] on the stack of
    [SPLAY] (tree.h:213). *)
Inductive loc := Node | At (a : nat).

(** The memory of the connections, field by field (gmid.h:320-366: [id] and
    [entry]); reading or writing what is not allocated is [UB]. *)
Record mem := mkMem { live : loc -> bool; key : loc -> N; lf : loc -> option nat; rg : loc -> option nat }.

Definition leq (a b : loc) : bool := match a, b with Node, Node => true | At a, At b => a =? b | _, _ => false end.
Definition put {A} (f : loc -> A) (l : loc) (v : A) : loc -> A := fun x => if leq x l then v else f x.

Definition get_key (m : mem) (l : loc) : res N := if live m l then OK (key m l) else UB.
Definition get_left (m : mem) (l : loc) : res (option nat) := if live m l then OK (lf m l) else UB.
Definition get_right (m : mem) (l : loc) : res (option nat) := if live m l then OK (rg m l) else UB.
Definition set_left (m : mem) (l : loc) (p : option nat) : res mem :=
  if live m l then OK (mkMem (live m) (key m) (put (lf m) l p) (rg m)) else UB.
Definition set_right (m : mem) (l : loc) (p : option nat) : res mem :=
  if live m l then OK (mkMem (live m) (key m) (lf m) (put (rg m) l p)) else UB.
(** dereferencing a pointer that may be NULL *)
Definition deref (p : option nat) : res nat := match p with Some a => OK a | None => UB end.

(** server.c:1660-1669 — [client_tree_cmp] *)
Definition client_tree_cmp (m : mem) (a b : nat) : res comparison :=
  let* x := get_key m (At a) in
  let* y := get_key m (At b) in
  OK (if (x =? y)%N then Eq else if (x <? y)%N then Lt else Gt).

(** tree.h:89-93, 95-99 — SPLAY_ROTATE_RIGHT, SPLAY_ROTATE_LEFT: memory and root *)
Definition rotate_right (m : mem) (root tmp : nat) : res (mem * nat) :=
  let* x := get_right m (At tmp) in
  let* m := set_left m (At root) x in
  let* m := set_right m (At tmp) (Some root) in
  OK (m, tmp).
Definition rotate_left (m : mem) (root tmp : nat) : res (mem * nat) :=
  let* x := get_left m (At tmp) in
  let* m := set_right m (At root) x in
  let* m := set_left m (At tmp) (Some root) in
  OK (m, tmp).

(** tree.h:101-105, 107-111 — SPLAY_LINKLEFT, SPLAY_LINKRIGHT: memory, the new
    [__right] (or [__left]) and the root *)
Definition linkleft (m : mem) (root : nat) (tmp : loc) : res (mem * loc * option nat) :=
  let* m := set_left m tmp (Some root) in
  let* r := get_left m (At root) in
  OK (m, At root, r).
Definition linkright (m : mem) (root : nat) (tmp : loc) : res (mem * loc * option nat) :=
  let* m := set_right m tmp (Some root) in
  let* r := get_right m (At root) in
  OK (m, At root, r).

(** tree.h:113-118 — SPLAY_ASSEMBLE *)
Definition assemble (m : mem) (root : nat) (lft rgt : loc) : res mem :=
  let* x := get_left m (At root) in
  let* m := set_right m lft x in
  let* x := get_right m (At root) in
  let* m := set_left m rgt x in
  let* x := get_right m Node in
  let* m := set_left m (At root) x in
  let* x := get_left m Node in
  set_right m (At root) x.

(** tree.h:219-241 — the loop of [SPLAY]: memory, root, [__left], [__right] *)
Fixpoint splay_loop (fuel : nat) (m : mem) (root : option nat) (elm : nat) (lft rgt : loc) : res (mem * nat * loc * loc) :=
  match fuel with
  | O => Fuel
  | S fuel =>
    let* r := deref root in
    let* c := client_tree_cmp m elm r in
    match c with
    | Eq => OK (m, r, lft, rgt)
    | Lt =>
      let* t := get_left m (At r) in
      match t with
      | None => OK (m, r, lft, rgt)                                         (* :222-223 *)
      | Some tmp =>
        let* c := client_tree_cmp m elm tmp in
        match c with
        | Lt =>
          let* (m, r) := rotate_right m r tmp in
          let* t := get_left m (At r) in
          match t with
          | None => OK (m, r, lft, rgt)                                     (* :226-227 *)
          | Some _ => let* (m, rgt, root) := linkleft m r rgt in splay_loop fuel m root elm lft rgt
          end
        | _ => let* (m, rgt, root) := linkleft m r rgt in splay_loop fuel m root elm lft rgt
        end
      end
    | Gt =>
      let* t := get_right m (At r) in
      match t with
      | None => OK (m, r, lft, rgt)                                         (* :232-233 *)
      | Some tmp =>
        let* c := client_tree_cmp m elm tmp in
        match c with
        | Gt =>
          let* (m, r) := rotate_left m r tmp in
          let* t := get_right m (At r) in
          match t with
          | None => OK (m, r, lft, rgt)                                     (* :236-237 *)
          | Some _ => let* (m, lft, root) := linkright m r lft in splay_loop fuel m root elm lft rgt
          end
        | _ => let* (m, lft, root) := linkright m r lft in splay_loop fuel m root elm lft rgt
        end
      end
    end
  end.

(** tree.h:210-243 — [SPLAY]: [__node] comes to life with both links NULL and
    goes away at the end *)
Definition node_live (b : bool) (m : mem) : mem := mkMem (put (live m) Node b) (key m) (lf m) (rg m).
Definition splay (fuel : nat) (m : mem) (root : option nat) (elm : nat) : res (mem * nat) :=
  let m := node_live true m in
  let* m := set_right m Node None in
  let* m := set_left m Node None in
  let* (m, r, lft, rgt) := splay_loop fuel m root elm Node Node in
  let* m := assemble m r lft rgt in
  OK (node_live false m, r).

(** tree.h:129-138 — [SPLAY_FIND]: memory, the root, what it returns *)
Definition splay_find (fuel : nat) (m : mem) (root : option nat) (elm : nat) : res (mem * option nat * option nat) :=
  match root with
  | None => OK (m, root, None)
  | Some _ =>
    let* (m, r) := splay fuel m root elm in
    let* c := client_tree_cmp m elm r in
    OK (m, Some r, match c with Eq => Some r | _ => None end)
  end.

(** tree.h:165-187 — [SPLAY_INSERT] *)
Definition splay_insert (fuel : nat) (m : mem) (root : option nat) (elm : nat) : res (mem * option nat * option nat) :=
  match root with
  | None =>
    let* m := set_right m (At elm) None in
    let* m := set_left m (At elm) None in
    OK (m, Some elm, None)
  | Some _ =>
    let* (m, r) := splay fuel m root elm in
    let* c := client_tree_cmp m elm r in
    match c with
    | Lt =>
      let* x := get_left m (At r) in
      let* m := set_left m (At elm) x in
      let* m := set_right m (At elm) (Some r) in
      let* m := set_left m (At r) None in
      OK (m, Some elm, None)
    | Gt =>
      let* x := get_right m (At r) in
      let* m := set_right m (At elm) x in
      let* m := set_left m (At elm) (Some r) in
      let* m := set_right m (At r) None in
      OK (m, Some elm, None)
    | Eq => OK (m, Some r, Some r)
    end
  end.

(** tree.h:189-208 — [SPLAY_REMOVE] *)
Definition splay_remove (fuel : nat) (m : mem) (root : option nat) (elm : nat) : res (mem * option nat * option nat) :=
  match root with
  | None => OK (m, root, None)
  | Some _ =>
    let* (m, r) := splay fuel m root elm in
    let* c := client_tree_cmp m elm r in
    match c with
    | Eq =>
      let* l := get_left m (At r) in
      match l with
      | None => let* x := get_right m (At r) in OK (m, x, Some elm)
      | Some _ =>
        let* tmp := get_right m (At r) in
        let* (m, r) := splay fuel m l elm in
        let* m := set_right m (At r) tmp in
        OK (m, Some r, Some elm)
      end
    | _ => OK (m, Some r, None)
    end
  end.

(** ** server.c *)

(** The memory, [clients] (the root) and [server_client_id] (server.c:89-91) *)
Record tstate := mkT { t_mem : mem; t_root : option nat; t_id : N }.

(** xcalloc (utils.c:106-114) at [a], with the id of server.c:1429 *)
Definition calloc (m : mem) (a : nat) (id : N) : mem :=
  mkMem (put (live m) (At a) true) (put (key m) (At a) id) (put (lf m) (At a) None) (put (rg m) (At a) None).
(** free(3) *)
Definition free (m : mem) (a : nat) : res mem :=
  if live m (At a) then OK (mkMem (put (live m) (At a) false) (key m) (lf m) (rg m)) else UB.

Inductive tevent :=
| TAccept (a : nat) (ok : bool)   (* server.c:1404-1456 [server_accept]; [ok]: getnameinfo(3) and tls_accept_cbs(3) succeeded *)
| TClose (a : nat)                (* server.c:1264-1305 [client_close] *)
| TFree (a : nat).                (* server.c:1238 the end of [client_close_ev] *)

Definition tstep (fuel : nat) (e : tevent) (s : tstate) : res tstate :=
  match e with
  | TAccept a ok =>
    let id := ((t_id s + 1) mod 2 ^ 32)%N in
    let m := calloc (t_mem s) a id in
    if ok then let* (m, r, _) := splay_insert fuel m (t_root s) a in OK (mkT m r id)
    else let* m := free m a in OK (mkT m (t_root s) id)
  | TClose a => let* (m, r, _) := splay_remove fuel (t_mem s) (t_root s) a in OK (mkT m r (t_id s))
  | TFree a => let* m := free (t_mem s) a in OK (mkT m (t_root s) (t_id s))
  end.

(** server.c:1569 — SPLAY_INIT; no connection is allocated *)
Definition tinit : tstate := mkT (mkMem (fun _ => false) (fun _ => 0%N) (fun _ => None) (fun _ => None)) None 0.

Fixpoint trun (fuel : nat) (h : list tevent) (s : tstate) : res tstate :=
  match h with
  | [] => OK s
  | e :: h => let* s := tstep fuel e s in trun fuel h s
  end.
