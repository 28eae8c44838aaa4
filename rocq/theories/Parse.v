(** Model of the tables the configuration parser builds (parse.y): macros,
    listening addresses, FastCGI applications. *)
From Verif Require Import Base BaseLemmas Compat Conf Fmt.
Local Open Scope N_scope.

(** ** macros *)
(** parse.y:90-98 — [struct sym]; [used] is never read *)
Record sym := mkSym { y_name : list N; y_val : list N; y_persist : bool }.

(** parse.y:1165-1168, 1210-1214 — the first entry with that name *)
Definition symfind (name : list N) (t : list sym) : option sym := find (fun s => leqb (y_name s) name) t.

(** TAILQ_REMOVE of the entry just found *)
Fixpoint symdel (name : list N) (t : list sym) : list sym :=
  match t with [] => [] | s :: r => if leqb (y_name s) name then r else s :: symdel name r end.

(** parse.y:1159-1187 — [symset] *)
Definition symset (name val : list N) (persist : bool) (t : list sym) : list sym :=
  match symfind name t with
  | Some s => if y_persist s then t else symdel name t ++ [mkSym name val persist]
  | None => t ++ [mkSym name val persist]
  end.

(** strrchr(3): the text before the last [c] and the text after it *)
Fixpoint rsplit (c : N) (s : list N) : option (list N * list N) :=
  match s with
  | [] => None
  | x :: r => match rsplit c r with
              | Some (a, b) => Some (x :: a, b)
              | None => if x =? c then Some ([], r) else None
              end
  end.

(** parse.y:1189-1203 — [cmdline_symset] (-D); [None]: -1, gmid exits *)
Definition cmdline_symset (s : list N) (t : list sym) : option (list sym) :=
  match rsplit 61 s with
  | None => None
  | Some (n, v) => Some (symset n v true t)
  end.

(** parse.y:1205-1217 — [symget] *)
Definition symget (name : list N) (t : list sym) : option (list N) := option_map y_val (symfind name t).

(** parse.y:1144-1152 — the end of [parse_conf] *)
Definition end_of_parse (t : list sym) : list sym := filter y_persist t.

(** ** addresses to listen on *)
(** struct addrinfo, as far as it is looked at; the length of the address is
    the length of [i_sa] *)
Record ainfo := mkAi { i_flags : N; i_family : N; i_socktype : N; i_protocol : N; i_sa : list N }.
(** gmid.h:115-138 — [struct address], as far as the parser fills it *)
Record address := mkAddr { a_ai : ainfo; a_pp : list N; a_proxy : bool; a_port : Z }.

Definition ainfo_eqb (a b : ainfo) : bool :=
  (i_flags a =? i_flags b) && (i_family a =? i_family b) && (i_socktype a =? i_socktype b) &&
  (i_protocol a =? i_protocol b) && (length (i_sa a) =? length (i_sa b))%nat && leqb (i_sa a) (i_sa b).

(** the families and the size of sockaddr_storage, as on Linux *)
Definition AF_INET : N := 2.
Definition AF_INET6 : N := 10.
Definition SS_SIZE : nat := 128.
Definition NI_MAXHOST : nat := 1025.

(** parse.y:1348-1401 — [add_to_addr_queue]: the queue and whether yyerror was
    called; [None]: gmid exits.  The port is in the bytes 2 and 3 of both kinds
    of address, in network order. *)
Definition add_to_addr_queue (a : list address) (ai : ainfo) (pp : list N) (proxy : bool) : option (list address * bool) :=
  if (SS_SIZE <? length (i_sa ai))%nat then None else
  match find (fun x => ainfo_eqb (a_ai x) ai) a with
  | Some x => Some (a, negb (Bool.eqb (a_proxy x) proxy))
  | None =>
    if (i_family ai =? AF_INET) || (i_family ai =? AF_INET6) then
      let port := 256 * nth 2 (i_sa ai) 0 + nth 3 (i_sa ai) 0 in
      Some (mkAddr ai (firstn (NI_MAXHOST - 1) pp) proxy (int16 port) :: a, false)
    else None
  end.

(** the addresses while a file is parsed: those of each server (the current
    one first), all of them, the errors *)
Record lstate := mkL { s_hosts : list (list address); s_all : list address; s_errors : nat }.

(** parse.y:1403-1432 — [listen_on], after getaddrinfo(3) and getnameinfo(3)
    have answered with the addresses [l] and their names *)
Fixpoint listen_on (l : list (ainfo * list N)) (proxy : bool) (s : lstate) : option lstate :=
  match l with
  | [] => Some s
  | (ai, pp) :: l =>
    match s_hosts s with
    | [] => None
    | h :: hs =>
      match add_to_addr_queue h ai pp proxy with
      | None => None
      | Some (h, e1) =>
        match add_to_addr_queue (s_all s) ai pp proxy with
        | None => None
        | Some (al, e2) => listen_on l proxy (mkL (h :: hs) al (s_errors s + (if e1 then 1 else 0) + (if e2 then 1 else 0)))
        end
      end
    end
  end.

(** what the grammar does with them (parse.y:328-371, 418-456): a server starts,
    a directive.  That a server without any gets a default one
    (parse.y:354-369) is a directive too. *)
Inductive ldir := LServer | LListen (l : list (ainfo * list N)) (proxy : bool).
Definition ldo (d : ldir) (s : lstate) : option lstate :=
  match d with
  | LServer => Some (mkL ([] :: s_hosts s) (s_all s) (s_errors s))
  | LListen l proxy => listen_on l proxy s
  end.
Fixpoint lrun (ds : list ldir) (s : lstate) : option lstate :=
  match ds with [] => Some s | d :: ds => match ldo d s with Some s => lrun ds s | None => None end end.
Definition lstart : lstate := mkL [] [] 0.

(** ** FastCGI applications *)
(** gmid.h:140-147 — [struct fcgi]; the id is the position *)
Record fapp := mkF { f_path : list N; f_port : list N }.
(** gmid.h:143-144 *)
Definition FCGI_PATH_MAX : nat := 4096.
Definition FCGI_PORT_MAX : nat := 32.

(** parse.y:1293-1299 — the search; comparing with a NULL port is [UB] *)
Fixpoint fcgi_find (path : list N) (port : option (list N)) (t : list fapp) (i : nat) : res (option nat) :=
  match t with
  | [] => OK None
  | f :: r =>
    if leqb (f_path f) path then
      match port with
      | None => if isnil (f_port f) then OK (Some i) else UB
      | Some p => if leqb (f_port f) p then OK (Some i) else fcgi_find path port r (S i)
      end
    else fcgi_find path port r (S i)
  end.

(** parse.y:1287-1312 — [fastcgi_conf]: the id, the table, the number of errors
    reported *)
Definition fastcgi_conf (path : list N) (port : option (list N)) (t : list fapp) : res (nat * list fapp * nat) :=
  let* r := fcgi_find path port t 0 in
  match r with
  | Some i => OK (i, t, 0%nat)
  | None =>
    let p := match port with Some p => p | None => [] end in
    OK (length t, t ++ [mkF (firstn (FCGI_PATH_MAX - 1) path) (firstn (FCGI_PORT_MAX - 1) p)],
        ((if (FCGI_PATH_MAX <=? length path)%nat then 1 else 0) + (if (FCGI_PORT_MAX <=? length p)%nat then 1 else 0))%nat)
  end.
