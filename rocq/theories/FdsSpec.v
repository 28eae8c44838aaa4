(** What a process that serves many connections owes each of them. *)
From Verif Require Import Base Fds.
Local Open Scope N_scope.

(** at the start the process has descriptors of its own only *)
Definition system_only (t : list (N * N)) : Prop := NoDup (fds t) /\ Forall (fun e => snd e = 0) t.

(** every close(2) is of a descriptor that is open for the connection that closes it *)
Fixpoint closes_own (ks : list call) (t : list (N * N)) : Prop :=
  match ks with
  | [] => True
  | k :: r =>
    match k with CClose id n => In (n, id) t | COpen _ _ => True end /\
    match kernel k t with Some t' => closes_own r t' | None => True end
  end.

(** the events registered with libevent: on which descriptor, for which connection *)
Definition events_of (c : fconn) : list (N * N) :=
  (f_fd c, f_id c) :: match f_cgi c with Some n => [(n, f_id c)] | None => [] end ++ match f_up c with Some n => [(n, f_id c)] | None => [] end.
Definition events (p : proc) : list (N * N) := flat_map events_of (p_conns p).

(** the client sends nothing more while an application works on its request *)
Definition polite_op (p : proc) (o : op) : Prop :=
  match o with
  | OReply _ | OMissing _ | OFile _ _ | ODir _ _ _ | OCgi _ _ | OCgiFail _ _ | OUp _ _ _ | OUpFail _ _ | OUpSetupFail _ _ =>
    forall c, In c (p_conns p) -> f_id c = op_id o -> f_cgi c = None
  | _ => True
  end.

(** [serves ok t os p]: operations [os], each allowed by [ok], lead from a
    process with the descriptors [t] and no connection to [p] *)
Inductive serves (ok : op -> Prop) (t : list (N * N)) : list op -> proc -> Prop :=
| s_start : serves ok t [] (mkP t [] [])
| s_op os o p p' : serves ok t os p -> ok o -> polite_op p o -> fstep o p = Some p' -> serves ok t (os ++ [o]) p'.

Definition lists (o : op) : Prop := match o with ODir _ _ (DList _) => True | _ => False end.
Definition app_ends (o : op) : Prop := match o with OCgiEnd _ => True | _ => False end.
Definition up_waits (o : op) : Prop := match o with OClose _ true => True | _ => False end.

(** the kernel hands out the lowest number *)
Definition lowest (n : N) (t : list (N * N)) : Prop := ~ In n (fds t) /\ forall m, m < n -> In m (fds t).
