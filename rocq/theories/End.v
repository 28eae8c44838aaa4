(** How the processes of gmid end: gmid.c:478-506 [main_sig_handler], :584-600
    [main_shutdown]; proc.c:393-428 [proc_kill], :489-515 [proc_close], :517-550
    [proc_shutdown] and [proc_sig_handler], :618 the end of [proc_run], :637-656 the
    dead pipes of [proc_dispatch]; crypto.c: a server waiting for the crypto process.

    The sockets are those of Proc.v, once every process has got its own.  [fg]
    (gmid -f, gmid.c:378): without it daemon(3) has forked, and the main process is
    no longer the parent of the others (they were started before, gmid.c:375). *)
From Verif Require Import Base Proc.
Local Open Scope nat_scope.

(** in its event loop; a server that waits for an answer of the crypto process and
    looks at nothing else; the main process in waitpid(2), its sockets closed; ended *)
Inductive life := Up | Busy | Waits | Gone.
(** it has its sockets open *)
Definition open (l : life) : bool := match l with Up | Busy => true | Waits | Gone => false end.

Section End.
Variable prefork : nat.
Variable fg : bool.

Definition state := proc -> life.
Definition started : state := fun _ => Up.
Definition put (s : state) (p : proc) (l : life) : state := fun q => if peq p q then l else s q.

(** the end a process uses for a peer: Proc.v *)
Definition end_for (p q : proc) (e : endp) : Prop := running prefork p /\ exists t, final prefork p = Some t /\ t q = Some e.
(** nobody has this end open any more *)
Definition hung_up (s : state) (e : endp) : Prop := forall p q, end_for p q e -> open (s p) = false.
Definition other (e : endp) : endp := (fst e, negb (snd e)).

Definition main : proc := (PARENT, 0).
Inductive event :=
| Fails (p : proc)       (* ends for whatever reason: killed, fatal(), a signal to it *)
| Asked                  (* SIGTERM or SIGINT to the main process *)
| Chld                   (* SIGCHLD to the main process *)
| Eof (p q : proc)       (* end of file, or a failed write, on the socket to q *)
| Ask (i : nat)          (* server i asks the crypto process; is answered *)
| Answer (i : nat)
| Reaped.                (* waitpid(2): there are no children *)

(** what a process does that sees a dead socket: event_loopexit, then
    [main_shutdown] or [proc_shutdown] *)
Definition leave (p : proc) : life := if fst p =? PARENT then Waits else Gone.

Inductive step (s : state) : event -> state -> Prop :=
| s_fails p : running prefork p -> s p <> Gone -> step s (Fails p) (put s p Gone)
| s_asked : s main = Up -> step s Asked (put s main Waits)
| s_chld p : fg = true -> s main = Up -> running prefork p -> p <> main -> s p = Gone -> step s Chld (put s main Waits)
| s_eof p q e : end_for p q e -> s p = Up -> hung_up s (other e) -> step s (Eof p q) (put s p (leave p))
(* fatalx: "pipe closed" *)
| s_eof_busy p e : end_for p (CRYPTO, 0) e -> s p = Busy -> hung_up s (other e) -> step s (Eof p (CRYPTO, 0)) (put s p Gone)
| s_ask i : running prefork (SERVER, i) -> s (SERVER, i) = Up -> step s (Ask i) (put s (SERVER, i) Busy)
| s_answer i : running prefork (SERVER, i) -> s (SERVER, i) = Busy -> s (CRYPTO, 0) = Up -> step s (Answer i) (put s (SERVER, i) Up)
| s_reaped : s main = Waits -> (fg = true -> forall p, running prefork p -> p <> main -> s p = Gone) -> step s Reaped (put s main Gone).

Inductive run : state -> list event -> state -> Prop :=
| r_nil s : run s [] s
| r_cons s e t es u : step s e t -> run t es u -> run s (e :: es) u.
End End.
