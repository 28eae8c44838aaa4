(** The logger process and its descriptors: logger.c:37-128, the messages
    main_send_logfd sends it (gmid.c:410-443), and what proc_dispatch and
    imsg_free do around a message (proc.c:655-693, imsg-buffer.c: ibuf_free,
    ibuf_fd_get).  IMSG_CTL_PROCFD, read before any of these, is in Proc.v.
    Descriptors are numbers in the process' table, which says what open file
    each refers to; using one that is not there is [UB]. *)
From Verif Require Import Base Log.
Local Open Scope N_scope.

Inductive peer := Parent | Server.
(** gmid.h:372-409 *)
Inductive mtype := LOG_REQUEST | LOG_ACCESS | LOG_SYSLOG | LOG_FACILITY | OTHER (n : N).
(** [i_file]: the open file that travels with the message *)
Record imsg := mkImsg { i_type : mtype; i_data : list N; i_file : option nat }.

Definition table := list (nat * nat).
(** close(2) *)
Definition close (t : table) (fd : nat) : res table :=
  if existsb (fun e => Nat.eqb (fst e) fd) t then OK (filter (fun e => negb (Nat.eqb (fst e) fd)) t) else UB.
(** what write(2) and dprintf(3) write to *)
Definition file_of (t : table) (fd : nat) : res nat :=
  match find (fun e => Nat.eqb (fst e) fd) t with Some e => OK (snd e) | None => UB end.

(** an int in a message, little endian *)
Definition int_of (d : list N) : N :=
  match d with [a; b; c; e] => a + 256 * b + 65536 * c + 16777216 * e | _ => 0 end.
Definition int_bytes (x : N) : list N :=
  [x mod 256; x / 256 mod 256; x / 65536 mod 256; x / 16777216 mod 256].

(** logger.c:37-39; [l_queue]: messages received, each with the number its
    descriptor got; [l_out], [l_sys]: what was written to files, to syslog *)
Record lg := mkLg { l_fd : option nat; l_syslog : N; l_fac : N; l_tab : table;
  l_queue : list (peer * imsg * option nat);
  l_out : list (nat * list N); l_sys : list (N * list N) }.

(** logger.c:37-39, 60-69; LOG_DAEMON is 3 << 3 *)
Definition logger_init (t : table) : lg := mkLg None 1 24 t [] [] [].

Section Logger.
(** the number the kernel gives to a new descriptor *)
Variable alloc : table -> nat.

(** recvmsg(2) in imsgbuf_read *)
Definition recv (s : lg) (p : peer) (m : imsg) : lg :=
  match i_file m with
  | None => mkLg (l_fd s) (l_syslog s) (l_fac s) (l_tab s) (l_queue s ++ [(p, m, None)]) (l_out s) (l_sys s)
  | Some f =>
    let fd := alloc (l_tab s) in
    mkLg (l_fd s) (l_syslog s) (l_fac s) ((fd, f) :: l_tab s) (l_queue s ++ [(p, m, Some fd)]) (l_out s) (l_sys s)
  end.

(** imsg-buffer.c, [ibuf_free] from imsg_free: a descriptor nobody took is closed *)
Definition imsg_free (t : table) (fd : option nat) : res table :=
  match fd with Some n => close t n | None => OK t end.

(** logger.c:79-102 — [logger_dispatch_parent]; [None]: fatal, here or, for -1, in
    proc_dispatch (proc.c:685-690) *)
Definition logger_dispatch_parent (s : lg) (m : imsg) (fd : option nat) : res (option lg) :=
  match i_type m with
  | LOG_FACILITY =>
    if Nat.eqb (length (i_data m)) 4 then
      let* t := imsg_free (l_tab s) fd in
      OK (Some (mkLg (l_fd s) (l_syslog s) (int_of (i_data m)) t (l_queue s) (l_out s) (l_sys s)))
    else OK None
  | LOG_SYSLOG =>
    if Nat.eqb (length (i_data m)) 4 then
      let* t := imsg_free (l_tab s) fd in
      OK (Some (mkLg (l_fd s) (int_of (i_data m)) (l_fac s) t (l_queue s) (l_out s) (l_sys s)))
    else OK None
  | LOG_ACCESS =>
    let* t := match l_fd s with Some n => close (l_tab s) n | None => OK (l_tab s) end in
    OK (Some (mkLg fd (l_syslog s) (l_fac s) t (l_queue s) (l_out s) (l_sys s)))
  | _ => OK None
  end.

(** logger.c:104-128 — [logger_dispatch_server]; the same for [None]; LOG_NOTICE is 5 *)
Definition logger_dispatch_server (s : lg) (m : imsg) (fd : option nat) : res (option lg) :=
  match i_type m with
  | LOG_REQUEST =>
    match logger_write (i_data m) with
    | None => OK None
    | Some l =>
      let* o := match l_fd s with
                | Some n => let* f := file_of (l_tab s) n in OK (l_out s ++ [(f, l)])
                | None => OK (l_out s)
                end in
      let y := if l_syslog s =? 0 then l_sys s else l_sys s ++ [(N.lor (l_fac s) 5, removelast l)] in
      let* t := imsg_free (l_tab s) fd in
      OK (Some (mkLg (l_fd s) (l_syslog s) (l_fac s) t (l_queue s) o y))
    end
  | _ => OK None
  end.

Inductive event := Recv (p : peer) (m : imsg) | Disp (i : nat).

Definition set_queue (s : lg) q : lg := mkLg (l_fd s) (l_syslog s) (l_fac s) (l_tab s) q (l_out s) (l_sys s).

(** proc.c:655-693: any message received may be the next one, which includes the
    order each channel has; also, the message that was dispatched *)
Definition step (s : lg) (e : event) : res (option (lg * option (peer * imsg))) :=
  match e with
  | Recv p m => OK (Some (recv s p m, None))
  | Disp i =>
    match nth_error (l_queue s) i with
    | None => OK (Some (s, None))
    | Some (p, m, fd) =>
      let s := set_queue s (firstn i (l_queue s) ++ skipn (S i) (l_queue s)) in
      let* r := match p with
                | Parent => logger_dispatch_parent s m fd
                | Server => logger_dispatch_server s m fd
                end in
      match r with Some s' => OK (Some (s', Some (p, m))) | None => OK None end
    end
  end.

(** all of it; [None]: the process is gone; the messages dispatched, in order *)
Fixpoint run (s : lg) (tr : list (peer * imsg)) (es : list event) : res (option (lg * list (peer * imsg))) :=
  match es with
  | [] => OK (Some (s, tr))
  | e :: es =>
    let* r := step s e in
    match r with
    | None => OK None
    | Some (s', o) => run s' (tr ++ match o with Some x => [x] | None => [] end) es
    end
  end.
End Logger.

(** logger.c:71-77 — [logger_shutdown] *)
Definition logger_shutdown (s : lg) : res table :=
  match l_fd s with Some n => close (l_tab s) n | None => OK (l_tab s) end.

(** gmid.c:410-443 — what [main_send_logfd] sends; [f]: what open(2) returned *)
Definition main_send_logfd (f : option nat) (facility syslog : N) : list (peer * imsg) :=
  [(Parent, mkImsg LOG_ACCESS [] f);
   (Parent, mkImsg LOG_FACILITY (int_bytes facility) None);
   (Parent, mkImsg LOG_SYSLOG (int_bytes syslog) None)].
