(** The processes and the sockets between them: proc.c:182-318, 320-388, 430-486
    and the tables [procs] of gmid.c:51-55, server.c:83-87, crypto.c:37-40,
    logger.c:49-52.  Sockets are numbered in the order socketpair(2) is called;
    the two ends of socket k are (k, false) and (k, true).  Messages between the
    processes arrive in order with their descriptors (C32, C33); the parent keeps
    no copy of what it sends (imsg-buffer.c:742 closes it); nothing survives
    execvp(3) but descriptor 3 (proc.c:145-151, 252-254, 460-462). *)
From Verif Require Import Base.
Local Open Scope nat_scope.

(** proc.h:36-42 *)
Definition PARENT := 0.
Definition SERVER := 1.
Definition CRYPTO := 2.
Definition LOGGER := 3.
Definition PROC_MAX := 4.
(** kind and instance *)
Definition proc := (nat * nat)%type.
Definition endp := (nat * bool)%type.

Section Proc.
(** conf->prefork: gmid.c:357, and -J of proc.c:94, 117-119 for the children *)
Variable prefork : nat.

(** proc.c:329-332: at least one of each *)
Definition instances (id : nat) : nat :=
  if id =? SERVER then (if prefork <? 1 then 1 else prefork) else 1.

(** the peers a process has a handler for *)
Definition listed (me id : nat) : bool :=
  match me with
  | 0 => (id =? SERVER) || (id =? CRYPTO) || (id =? LOGGER)     (* gmid.c:51-55 *)
  | 1 => (id =? PARENT) || (id =? CRYPTO) || (id =? LOGGER)     (* server.c:83-87 *)
  | 2 => (id =? PARENT) || (id =? SERVER)                       (* crypto.c:37-40 *)
  | _ => (id =? PARENT) || (id =? SERVER)                       (* logger.c:49-52 *)
  end.

(** proc.c:243-262 — [proc_init] in the parent: the sockets of the children *)
Definition proc_init : list (proc * proc) :=
  flat_map (fun dst => if dst =? PARENT then [] else map (fun i => ((PARENT, 0), (dst, i))) (seq 0 (instances dst)))
           (seq 0 PROC_MAX).

(** proc.c:430-486 — [proc_open] *)
Definition proc_open (src dst : nat) : list (proc * proc) :=
  flat_map (fun i => flat_map (fun j =>
      if (src =? dst) && (i =? j) then []
      else if (src =? SERVER) && (dst =? SERVER) then []
      else [((src, i), (dst, j))])
    (seq 0 (instances dst))) (seq 0 (instances src)).

(** proc.c:208-218 — [proc_connect] *)
Definition proc_connect : list (proc * proc) :=
  flat_map (fun src => flat_map (fun dst => if (src =? PARENT) || (dst =? PARENT) then [] else proc_open src dst)
    (seq src (PROC_MAX - src))) (seq 0 PROC_MAX).

(** number the sockets from [k] on *)
Fixpoint number {A} (k : nat) (l : list A) : list (nat * A) :=
  match l with [] => [] | x :: r => (k, x) :: number (S k) r end.

(** proc.c:466-475: the two IMSG_CTL_PROCFD messages for each socket:
    receiver, peer, end *)
Definition procfds : list (proc * (proc * endp)) :=
  flat_map (fun '(k, (a, b)) => [(b, (a, (k, true))); (a, (b, (k, false)))])
           (number (length proc_init) proc_connect).

(** a process's pp_pipes; [None] is -1 *)
Definition table := proc -> option endp.
Definition peq (a b : proc) : bool := (fst a =? fst b) && (snd a =? snd b).
Definition set (t : table) (q : proc) (e : endp) : table := fun q' => if peq q q' then Some e else t q'.

(** proc.c:287-318 — [proc_accept] in a process of kind [me]; the outer [None] is
    an access outside of the arrays *)
Definition proc_accept (me : nat) (t : table) (q : proc) (e : endp) : option table :=
  if negb (listed me (fst q)) then Some t             (* closed *)
  else if instances (fst q) <=? snd q then None
  else match t q with Some _ => Some t                (* "duplicated descriptor", closed *)
       | None => Some (set t q e) end.

Fixpoint accept_all (me : nat) (t : table) (l : list (proc * endp)) : option table :=
  match l with
  | [] => Some t
  | (q, e) :: r => match proc_accept me t q e with Some t' => accept_all me t' r | None => None end
  end.

(** the table of each process once it has handled its messages.
    The parent (proc.c:260): its ends of the first sockets.  A child: descriptor
    3 (proc.c:129, 145, 601), then what it is sent (proc.c:668-673). *)
Definition final (p : proc) : option table :=
  if fst p =? PARENT
  then Some (fold_left (fun t '(k, (_, b)) => set t b (k, false)) (number 0 proc_init) (fun _ => None))
  else accept_all (fst p) (fun _ => None)
         (flat_map (fun '(k, (_, b)) => if peq b p then [((PARENT, 0), (k, true))] else []) (number 0 proc_init)
          ++ flat_map (fun '(r, m) => if peq r p then [m] else []) procfds).

(** the processes there are *)
Definition running (p : proc) : Prop := fst p < PROC_MAX /\ snd p < instances (fst p).
End Proc.
