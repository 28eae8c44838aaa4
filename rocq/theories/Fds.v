(** Descriptors and events of the connections of one server process: what the
    callbacks of server.c, fcgi.c and proxy.c do with c->fd, c->pfd and with the
    libevent events they register, for any number of connections served in
    turns.  What a callback decides (is it a file, does the application answer)
    is a parameter of the operation, so every run of the code is a run of this
    model; Server.v has the decisions.

    The kernel's table says for which connection each open descriptor was
    opened.  Descriptors of the process itself (listening sockets, document
    roots, imsg channels) stay open and belong to the id 0.  A libevent event
    stays registered on its descriptor number until it is deleted or freed:
    close(2) does not remove it from libevent's tables, so when the number is
    used again the event fires for the new descriptor (libevent evmap.c). *)
From Verif Require Import Base.
Local Open Scope N_scope.

(** the part of [struct client] (gmid.h:320-375) concerned *)
Record fconn := mkF {
  f_id : N;
  f_fd : N;              (* c->fd *)
  f_pfd : option N;      (* c->pfd, None for -1 *)
  f_cgi : option N;      (* the descriptor the events of c->cgibev are on *)
  f_up : option N;       (* that of c->proxyev or c->proxybev *)
  f_ctx : bool;          (* c->proxyctx != NULL *)
  f_asked : bool;        (* c->type != REQUEST_UNDECIDED: requests are ignored *)
  f_closing : bool       (* client_close was called, tls_close not through *)
}.

(** system calls *)
Inductive call := COpen (id n : N) | CClose (id n : N).

(** the process *)
Record proc := mkP {
  p_open : list (N * N);    (* open descriptor, id of the connection it is for *)
  p_conns : list fconn;
  p_late : list N           (* event_once of client_proxy_close: descriptor *)
}.

Definition fds (t : list (N * N)) : list N := map fst t.
Definition mem (n : N) (l : list N) : bool := existsb (N.eqb n) l.

(** close(2) goes by number *)
Definition drop (n : N) (t : list (N * N)) : list (N * N) := filter (fun e => negb (fst e =? n)) t.
(** one call; the kernel hands out a number that is not in use *)
Definition kernel (k : call) (t : list (N * N)) : option (list (N * N)) :=
  match k with
  | COpen id n => if mem n (fds t) then None else Some ((n, id) :: t)
  | CClose _ n => Some (drop n t)
  end.
Fixpoint kernels (ks : list call) (t : list (N * N)) : option (list (N * N)) :=
  match ks with
  | [] => Some t
  | k :: r => match kernel k t with Some t' => kernels r t' | None => None end
  end.

(** close(fd) with fd == -1 fails *)
Definition close_opt (id : N) (o : option N) : list call := match o with Some n => [CClose id n] | None => [] end.

(** what happens with a directory (server.c:772-839): [redirect_canonical_dir];
    [server_dir_listing] refusing ("auto index off") or listing; the index file
    [m] found, not statable, or not a regular file; fdopendir(3) failing *)
Inductive dir_how :=
| DRedirect | DRefused (index : option N) | DList (index : option N) | DListFail (index : option N) | DIndex (m : N) | DIndexBad (m : N).

Inductive op :=
| OAccept (id n : N)                (* server.c:1404-1456 [server_accept] *)
| OAcceptFail (id n : N)
| OReply (id : N)                   (* any [start_reply] without descriptors *)
| OMissing (id : N)                 (* openat(2) failed: server.c:1040-1046 *)
| OFile (id n : N)                  (* server.c:1040-1060, a file (or fstat failed) *)
| ODir (id n : N) (h : dir_how)
| OCgi (id n : N)                   (* server.c:712-759 [apply_fastcgi] *)
| OCgiFail (id n : N)               (* connect failed *)
| OCgiEnd (id : N)                  (* fcgi.c:347-372 [fcgi_error] *)
| OUp (id n : N) (tls : bool)       (* server.c:616-642, proxy.c:382-396 *)
| OUpFail (id n : N)                (* connect failed *)
| OUpSetupFail (id n : N)           (* proxy_setup_tls failed *)
| OUpHsFail (id : N)                (* proxy.c:264-294 handshake failed *)
| OUpEnd (id : N)                   (* proxy.c:199-226 [proxy_error] *)
| OClose (id : N) (wait : bool)     (* server.c:1264-1305 [client_close]; [wait]: the upstream's tls_close wants to poll *)
| OCloseEv (id : N).                (* server.c:1207-1239 [client_close_ev] once tls_close is through *)

Definition op_id (o : op) : N :=
  match o with
  | OAccept id _ | OAcceptFail id _ | OReply id | OMissing id | OFile id _ | ODir id _ _ | OCgi id _ | OCgiFail id _ | OCgiEnd id
  | OUp id _ _ | OUpFail id _ | OUpSetupFail id _ | OUpHsFail id | OUpEnd id | OClose id _ | OCloseEv id => id
  end.

Definition set_fpfd (x : option N) (c : fconn) : fconn := mkF (f_id c) (f_fd c) x (f_cgi c) (f_up c) (f_ctx c) (f_asked c) (f_closing c).
Definition set_fcgi (x : option N) (c : fconn) : fconn := mkF (f_id c) (f_fd c) (f_pfd c) x (f_up c) (f_ctx c) (f_asked c) (f_closing c).
Definition set_fup (x : option N) (b : bool) (c : fconn) : fconn := mkF (f_id c) (f_fd c) (f_pfd c) (f_cgi c) x b (f_asked c) (f_closing c).
Definition asked (c : fconn) : fconn := mkF (f_id c) (f_fd c) (f_pfd c) (f_cgi c) (f_up c) (f_ctx c) true (f_closing c).
Definition closing (c : fconn) : fconn := mkF (f_id c) (f_fd c) (f_pfd c) (f_cgi c) (f_up c) (f_ctx c) true true.

Definition probe (id : N) (i : option N) : list call := match i with Some m => [COpen id m; CClose id m] | None => [] end.

(** server.c:800-839 [open_dir], dirs.c:69-147 [scandir_fd]: closedir(3) closes
    the descriptor given to fdopendir(3), and c->pfd keeps its number *)
Definition dir_calls (id n : N) (h : dir_how) : list call * option N :=
  match h with
  | DRedirect => ([], Some n)
  | DRefused i => (probe id i, Some n)
  | DList i => (probe id i ++ [CClose id n], Some n)
  | DListFail i => (probe id i, Some n)
  | DIndex m => ([COpen id m; CClose id n], Some m)
  | DIndexBad m => ([COpen id m; CClose id m], Some n)
  end.

(** one operation on its connection: the connection afterwards (None: freed), the
    system calls in order, the late events left behind *)
Definition callback (o : op) (c : fconn) : option (option fconn * list call * list N) :=
  let id := f_id c in
  let request (r : option fconn * list call * list N) := if f_asked c then None else Some r in
  if f_closing c then
    match o with
    | OCloseEv _ => Some (None, close_opt id (f_pfd c) ++ [CClose id (f_fd c)], [])
    | _ => None
    end
  else
  match o with
  | OReply _ => request (Some (asked c), [], [])
  | OMissing _ => request (Some (asked (set_fpfd None c)), [], [])
  | OFile _ n => request (Some (asked (set_fpfd (Some n) c)), [COpen id n], [])
  | ODir _ n h =>
    let '(ks, p) := dir_calls id n h in
    request (Some (asked (set_fpfd p c)), COpen id n :: ks, [])
  | OCgi _ n => request (Some (set_fcgi (Some n) (set_fpfd (Some n) c)), [COpen id n], [])
  | OCgiFail _ n => request (Some (asked (set_fpfd None c)), [COpen id n; CClose id n], [])
  | OCgiEnd _ =>
    match f_cgi c with
    | Some _ => Some (Some (asked (set_fpfd None c)), close_opt id (f_pfd c), [])
    | None => None
    end
  | OUp _ n tls => request (Some (asked (set_fup (Some n) tls (set_fpfd (Some n) c))), [COpen id n], [])
  | OUpFail _ n => request (Some (asked (set_fpfd None c)), [COpen id n; CClose id n], [])
  | OUpSetupFail _ n => request (Some (asked (set_fpfd (Some n) c)), [COpen id n], [])
  | OUpHsFail _ => if f_ctx c then match f_up c with Some _ => Some (Some (set_fup None true c), [], []) | None => None end else None
  | OUpEnd _ =>
    match f_up c with
    | Some _ => Some (Some (set_fpfd None (set_fup None false c)), close_opt id (f_pfd c), [])
    | None => None
    end
  | OClose _ wait =>
    let '(c1, k1) := match f_cgi c with
                     | Some _ => (set_fcgi None (set_fpfd None c), close_opt id (f_pfd c))
                     | None => (c, []) end in
    let '(c2, k2, l) := match f_pfd c1 with
                        | Some n => if f_ctx c1 then (set_fpfd None c1, [CClose id n], if wait then [n] else []) else (c1, [], [])
                        | None => (c1, [], []) end in
    Some (Some (closing (set_fup None (f_ctx c2) c2)), k1 ++ k2, l)
  | OCloseEv _ | OAccept _ _ | OAcceptFail _ _ => None
  end.

Fixpoint on_conn (id : N) (cs : list fconn) : option (list fconn * fconn * list fconn) :=
  match cs with
  | [] => None
  | c :: r => if f_id c =? id then Some ([], c, r)
              else match on_conn id r with Some (a, x, b) => Some (c :: a, x, b) | None => None end
  end.

Definition calls_of (o : op) (p : proc) : option (list call) :=
  match o with
  | OAccept id n => Some [COpen id n]
  | OAcceptFail id n => Some [COpen id n; CClose id n]
  | _ => match on_conn (op_id o) (p_conns p) with
         | Some (_, c, _) => option_map (fun x => snd (fst x)) (callback o c)
         | None => None end
  end.

(** the process does one operation; ids of connections are new (C36) and not 0 *)
Definition fstep (o : op) (p : proc) : option proc :=
  match calls_of o p with
  | None => None
  | Some ks =>
    match kernels ks (p_open p) with
    | None => None
    | Some t =>
      match o with
      | OAccept id n =>
        if (id =? 0) || mem id (map f_id (p_conns p)) then None
        else Some (mkP t (mkF id n None None None false false false :: p_conns p) (p_late p))
      | OAcceptFail id n => if (id =? 0) || mem id (map f_id (p_conns p)) then None else Some (mkP t (p_conns p) (p_late p))
      | _ =>
        match on_conn (op_id o) (p_conns p) with
        | Some (a, c, b) =>
          match callback o c with
          | Some (Some c', _, l) => Some (mkP t (a ++ c' :: b) (l ++ p_late p))
          | Some (None, _, l) => Some (mkP t (a ++ b) (l ++ p_late p))
          | None => None
          end
        | None => None
        end
      end
    end
  end.

Fixpoint fruns (os : list op) (p : proc) : option proc :=
  match os with [] => Some p | o :: r => match fstep o p with Some p' => fruns r p' | None => None end end.
