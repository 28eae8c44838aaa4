(** Model of titan(1), the Titan client: titan.c.

    The TLS library and the network are a schedule: for each turn of the loop of
    [iomux], what poll(2), tls_read(3) and tls_write(3) answer.  A run whose
    schedule is used up is still going on ([Running]).  Memory allocation
    succeeds; pledge(2) and the messages on stderr are not modelled; getopt(3)
    has already split the command line.  BUFSIZ, which differs between systems, is
    a parameter. *)
From Verif Require Import Base Compat Fmt Iri IriSpec IriObs IriOut.
Local Open Scope N_scope.

(** what poll(2) says, titan.c:113-116: an error, POLLERR or POLLNVAL, or neither *)
Inductive pollres := Pready | Pfail | Pbad.
(** tls_read(3): TLS_WANT_*, -1, 0, or some of these bytes *)
Inductive rres := Rwant | Rerr | Reof | Rgot (b : N) (bs : list N).
(** tls_write(3): TLS_WANT_*, -1, 0, or up to this number plus one of bytes taken *)
Inductive wres := Wwant | Werr | Wzero | Wtook (n : nat).
Record turn := mkT { t_poll : pollres; t_read : rres; t_write : wres }.

(** how [iomux] ends: [Back None] is -1, [Back (Some bs)] the number of bytes
    (and the bytes) stored in [out], [Died] is err(1)/errx(1) *)
Inductive muxres := Back (r : option (list N)) | Died | Going.
(** with the bytes handed to tls_write and taken, and what is left of the schedule *)
Definition mux := (muxres * list N * list turn)%type.
Definition sent_first (bs : list N) (m : mux) : mux := let '(r, w, s) := m in (r, bs ++ w, s).

(** titan.c:101-160 — [iomux] called with out == NULL: only writes; [in_] is what
    in/inlen point to.  pfd.revents, then the write *)
Fixpoint iomux_write (in_ : list N) (s : list turn) : mux :=
  match s with
  | [] => (Going, [], [])
  | t :: s =>
    match t_poll t with
    | Pfail | Pbad => (Died, [], s)
    | Pready =>
      match in_ with
      | [] => (Back (Some []), [], s)               (* :138-139: inlen == 0 && out == NULL *)
      | _ =>
        match t_write t with
        | Wwant => iomux_write in_ s
        | Werr | Wzero => (Back None, [], s)
        | Wtook n => sent_first (firstn (S n) in_) (iomux_write (skipn (S n) in_) s)
        end
      end
    end
  end.

(** titan.c:101-160 — [iomux] called with a buffer of [outlen] bytes left after
    the [got] already stored.  tls_read never stores more than [outlen] bytes; with
    [outlen] 0 it cannot deliver any *)
Fixpoint iomux (in_ got : list N) (outlen : nat) (s : list turn) : mux :=
  match s with
  | [] => (Going, [], [])
  | t :: s =>
    match t_poll t with
    | Pfail | Pbad => (Died, [], s)
    | Pready =>
      match t_read t with
      | Rerr => (Back None, [], s)                                             (* :124-125 *)
      | Reof => (match got with [] => Back None | _ => Back (Some got) end, [], s)  (* :126-129 *)
      | r =>
        let new := match r with Rgot b bs => firstn outlen (b :: bs) | _ => [] end in
        let got := got ++ new in                                               (* :130-133 *)
        let outlen := (outlen - length new)%nat in
        match got with
        | _ :: _ => iomux in_ got outlen s                                     (* :140-141 *)
        | [] =>
          match in_ with
          | [] => iomux in_ got outlen s                                       (* :146-147 *)
          | _ =>
            match t_write t with
            | Wwant => iomux in_ got outlen s
            | Werr | Wzero => (Back None, [], s)
            | Wtook n => sent_first (firstn (S n) in_) (iomux (skipn (S n) in_) got outlen s)
            end
          end
        end
      end
    end
  end.

(** titan.c:209-231 — [parse_response] on the NUL-terminated buffer [r]: the exit
    status and what it prints on stdout *)
Definition digit_ok (c : N) : bool := (48 <=? c) && (c <=? 57).
Definition parse_response (r : list N) : res (nat * list N) :=
  let* a := rd r 0 in
  if negb (digit_ok a) then OK (1%nat, []) else
  let* b := rd r 1 in
  if negb (digit_ok b) then OK (1%nat, []) else
  let* c := rd r 2 in
  if negb (c =? 32) then OK (1%nat, []) else
  let code := (a - 48) * 10 + (b - 48) in
  if (code <? 10) || (70 <=? code) then OK (1%nat, [])
  else if (20 <=? code) && (code <? 30) then OK (0%nat, [])
  else if (30 <=? code) && (code <? 40) then
    match cstr_at r 3 with Some m => OK (0%nat, m ++ [10]) | None => UB end   (* puts(3) *)
  else OK (2%nat, []).

(** titan.c:371-375: what is done with the [w] bytes of [resbuf] (1025 bytes, the
    rest of it is [junk]) *)
Definition reply (got junk : list N) : res (nat * list N) :=
  let resbuf := got ++ junk in
  let* m := memmem resbuf (length got) [13; 10] in
  match m with
  | None => OK (1%nat, [])
  | Some m => let* b := wr resbuf m 0 in parse_response b
  end.

Inductive ending := Exit (code : nat) | Running.

(** titan.c:353-377: the loop that reads the file and talks to the server.
    [file] is what fread(3) has still to deliver; one turn of this loop for each
    return of [iomux] with 0 *)
Definition RESBUF : nat := 1025.
Fixpoint upload (fuel : nat) (bufsiz : nat) (file junk : list N) (s : list turn) : res (ending * list N * list N) :=
  match fuel with
  | O => Fuel
  | S fuel =>
    let '(r, w, s) := iomux (firstn bufsiz file) [] RESBUF s in
    match r with
    | Going => OK (Running, w, [])
    | Died | Back None => OK (Exit 1, w, [])
    | Back (Some []) =>
      let* (e, w', o) := upload fuel bufsiz (skipn bufsiz file) junk s in OK (e, w ++ w', o)
    | Back (Some got) => let* (c, o) := reply got (skipn (length got) junk) in OK (Exit c, w, o)
    end
  end.

(** ** main *)

(** the options of the command line *)
Record opts := mkOpts { o_cert : option (list N); o_key : option (list N); o_mime : option (list N); o_token : option (list N) }.
(** titan.c:162-207 — the file: named on the command line, with the size fstat(2)
    reports, or copied from stdin to a temporary file; [None]: it cannot be opened,
    read or written *)
Inductive input := Named (f : option (list N * Z)) | Stdin (f : option (list N)).
Definition open_input_file (i : input) : option (list N * Z) :=
  match i with Named f => f | Stdin (Some b) => Some (b, Z.of_nat (length b)) | Stdin None => None end.

(** the environment of a run *)
Record world := mkW {
  w_ip6 : list N -> bool;                 (* inet_pton(AF_INET6) *)
  w_iribuf : list N;                      (* the 1025 uninitialised bytes of iribuf, reqbuf, resbuf *)
  w_reqbuf : list N;
  w_resbuf : list N;
  w_keypair : list N -> list N -> bool;   (* tls_config_set_keypair_file *)
  w_dial : list N -> list N -> bool;      (* a connection can be made to that host and port *)
  w_start : bool;                         (* tls_connect_socket *)
  w_send : list turn;                     (* while the request is sent *)
  w_talk : list turn                      (* after that *)
}.

(** what a run did *)
Record run := mkRun {
  r_end : ending;
  r_out : list N;                          (* stdout *)
  r_pair : option (list N * list N);       (* the certificate and key files *)
  r_peer : option (list N * list N);       (* connected to that host and port *)
  r_wire : list N                          (* the bytes taken by tls_write *)
}.
Definition stop (code : nat) : run := mkRun (Exit code) [] None None [].

(** titan.c:309-323: path with its parameters *)
Definition titan_path (path : list N) (size : Z) (o : opts) : list N :=
  path ++ s2b ";size=" ++ decz size ++
  match o_token o, o_mime o with
  | Some t, Some m => s2b ";token=" ++ t ++ s2b ";mime=" ++ m
  | Some t, None => s2b ";token=" ++ t
  | None, Some m => s2b ";mime=" ++ m
  | None, None => []
  end.

(** titan.c:299-328: from the url to the request; [None] is errx(1) *)
Definition REQBUF : nat := 1025.
Definition make_request (W : world) (o : opts) (url : list N) (size : Z) : res (option (comps * list N)) :=
  let* (l, b) := strlcpy (w_iribuf W) (z url) REQBUF in
  if (REQBUF <=? l)%nat then OK None else
  let* (ok, p) := parse_iri (w_ip6 W) b in
  if negb ok then OK None else
  match comps_of p with
  | None => UB
  | Some c =>
    if negb (leqb (c_scheme c) (s2b "titan")) then OK None else
    let c' := mkC (c_scheme c) (c_host c) (c_port c) (c_port_no c) (titan_path (c_path c) size o) (c_query c) (c_fragment c) in
    let* (ok, b) := serialize_iri c' (w_reqbuf W) REQBUF in
    if negb ok then OK None else
    let* (l, b) := strlcat b (z [13; 10]) REQBUF in
    if (REQBUF <=? l)%nat then OK None else
    match cstr b with Some r => OK (Some (c, r)) | None => UB end
  end.

(** titan.c:335-377, once the request is known.  tls_config_insecure_noverifycert
    and tls_config_insecure_noverifyname (:332-333) are always called, so whoever
    answers is talked to.  The closing loop (:379-402) changes neither the status
    nor what is sent *)
Definition session (bufsiz : nat) (W : world) (pair : option (list N * list N)) (c : comps) (req file : list N) : res run :=
  if negb (match pair with Some (c, k) => w_keypair W c k | None => true end) then OK (stop 1) else
  let port := match c_port c with [] => s2b "1965" | p => p end in      (* dial, :64-65 *)
  if negb (w_dial W (c_host c) port) then OK (mkRun (Exit 1) [] pair None []) else
  let peer := Some (c_host c, port) in
  if negb (w_start W) then OK (mkRun (Exit 1) [] pair peer []) else
  let '(r, w, _) := iomux_write req (w_send W) in
  match r with
  | Going => OK (mkRun Running [] pair peer w)
  | Died | Back None => OK (mkRun (Exit 1) [] pair peer w)
  | Back (Some _) =>
    let* (e, w', out) := upload (S (length (w_talk W))) bufsiz file (w_resbuf W) (w_talk W) in
    OK (mkRun e out pair peer (w ++ w'))
  end.

(** titan.c:243-328 *)
Definition titan (bufsiz : nat) (W : world) (o : opts) (url : list N) (i : input) : res run :=
  match o_cert o, o_key o with
  | None, Some _ => OK (stop 1)                                   (* usage, :284-285 *)
  | cert, key =>
    let pair := match cert with                                    (* :286-287 *)
                | Some c => Some (c, match key with Some k => k | None => c end)
                | None => None end in
    match open_input_file i with
    | None => OK (stop 1)
    | Some (file, size) =>
      let* q := make_request W o url size in
      match q with None => OK (stop 1) | Some (c, req) => session bufsiz W pair c req file end
    end
  end.
