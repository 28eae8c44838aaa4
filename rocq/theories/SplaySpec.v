(** What the table of connections must do, without trees. *)
From Verif Require Import Base Splay.
Local Open Scope nat_scope.

(** ** a table of elements by key *)
Inductive mop := MIns (a : nat) | MDel (a : nat) | MGet (a : nat).
(** The table: keys and the elements under them.  Inserting under a key that is
    taken returns the element there and changes nothing; removing takes out
    whatever is under the key; both and the lookup say what they found. *)
Definition lookup (k : N) (T : list (N * nat)) : option nat :=
  match find (fun y => (fst y =? k)%N) T with Some y => Some (snd y) | None => None end.
Definition map_step (keys : nat -> N) (o : mop) (T : list (N * nat)) : option nat * list (N * nat) :=
  match o with
  | MIns a => match lookup (keys a) T with Some b => (Some b, T) | None => (None, (keys a, a) :: T) end
  | MDel a => match lookup (keys a) T with Some _ => (Some a, filter (fun y => negb (fst y =? keys a)%N) T) | None => (None, T) end
  | MGet a => (lookup (keys a) T, T)
  end.
Fixpoint map_run (keys : nat -> N) (os : list mop) (T : list (N * nat)) : list (option nat) :=
  match os with [] => [] | o :: os => fst (map_step keys o T) :: map_run keys os (snd (map_step keys o T)) end.

(** the same operations on the tree *)
Definition tree_step (fuel : nat) (o : mop) (m : mem) (root : option nat) : res (mem * option nat * option nat) :=
  match o with MIns a => splay_insert fuel m root a | MDel a => splay_remove fuel m root a | MGet a => splay_find fuel m root a end.
Fixpoint tree_run (fuel : nat) (os : list mop) (m : mem) (root : option nat) : res (list (option nat)) :=
  match os with
  | [] => OK []
  | o :: os => let* (m, root, r) := tree_step fuel o m root in let* l := tree_run fuel os m root in OK (r :: l)
  end.

(** ** the connections *)
(** [a] can be reached from the pointer [p] *)
Inductive reach (m : mem) : option nat -> nat -> Prop :=
| reach_here a : reach m (Some a) a
| reach_left a b : reach m (lf m (At a)) b -> reach m (Some a) b
| reach_right a b : reach m (rg m (At a)) b -> reach m (Some a) b.

(** what became of the memory at [a] *)
Inductive status := Gone | Opened | Closing.
Definition status_step (a : nat) (s : status) (e : tevent) : status :=
  match e with
  | TAccept b ok => if b =? a then if ok then Opened else Gone else s
  | TClose b => if b =? a then Closing else s
  | TFree b => if b =? a then Gone else s
  end.
Definition status_of (h : list tevent) (a : nat) : status := fold_left (status_step a) h Gone.
(** malloc(3) returns memory that is not in use, only open connections are
    closed, and a connection is freed once, after it was closed *)
Definition proper (h : list tevent) : Prop := forall h1 e h2, h = h1 ++ e :: h2 ->
  match e with TAccept a _ => status_of h1 a = Gone | TClose a => status_of h1 a = Opened | TFree a => status_of h1 a = Closing end.
