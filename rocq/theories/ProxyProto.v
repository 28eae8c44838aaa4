(** Model of proxy-proto.c, of [read_cb] (server.c) and of what is written to
    an upstream before the request (server.c, proxy.c): the PROXY protocol. *)
From Verif Require Import Base Compat Fmt.
Local Open Scope N_scope.

(** gmid.h:311-318 — [struct buflayer] *)
Definition BUFLAYER_MAX : nat := 108.
Record buflayer := mkBuf { b_data : list N; b_len : nat; b_pos : nat; b_tail : bool }.

(** strncmp(3) = 0 against a literal without NUL; the string starts at the head
    of [s], reading past its end is [UB] *)
Fixpoint strncmp0 (lit s : list N) : res bool :=
  match lit with
  | [] => OK true
  | a :: l => match s with [] => UB | b :: s' => if b =? a then strncmp0 l s' else OK false end
  end.

(** strchr(3) and strcspn(3): the bytes before the first one that satisfies
    [stop], or before the NUL, and what starts there *)
Fixpoint scan (stop : N -> bool) (s : list N) : res (list N * list N) :=
  match s with
  | [] => UB
  | c :: r => if (c =? 0) || stop c then OK ([], s) else let* (t, r) := scan stop r in OK (c :: t, r)
  end.

(** A pointer into the buffer: the bytes before it, as they have been
    overwritten, and the bytes from it on. *)
Definition cursor : Type := list N * list N.

Section Parse.
(** getaddrinfo(3), AI_NUMERICHOST, for AF_INET (4), AF_INET6 (6) or AF_UNSPEC
    (0): the address *)
Variable gai : N -> list N -> option (list N).

(** proxy-proto.c:91-120 — [check_ip_v1]; nothing is read from the buffer once
    it has failed *)
Definition check_ip_v1 (af : N) (c : cursor) : res (option (list N * cursor)) :=
  let* (t, r) := scan (N.eqb 32) (snd c) in
  match r with
  | 32 :: r => match gai af t with
               | Some a => OK (Some (a, (fst c ++ t ++ [0], r)))
               | None => OK None
               end
  | _ => OK None
  end.

(** proxy-proto.c:122-142 — [check_port_v1] *)
Definition check_port_v1 (c : cursor) : res (option (N * cursor)) :=
  let* (t, r) := scan (fun x => (x =? 32) || (x =? 13)) (snd c) in
  match r with
  | x :: r =>
    if (x =? 32) || (x =? 13) then
      match strtonum t 0 65535 with
      | (v, NumOk) => OK (Some (Z.to_N v, (fst c ++ t ++ [0], r)))
      | _ => OK None
      end
    else OK None
  | [] => UB
  end.

(** proxy-proto.c:76-89 — [check_crlf_v1] *)
Definition check_crlf_v1 (data : list N) (len : nat) : res bool :=
  if (len <? 2)%nat then OK false else
  let* r := memmem data len [13; 10] in
  OK (match r with Some _ => true | None => false end).

Inductive parsed :=
| PBad
| PUnknown
| PAddr (v6 : bool) (src dst : list N) (sport dport : N) (c : cursor).

(** proxy-proto.c:169-182 — the addresses and ports *)
Definition parse_addrs (v6 : bool) (c : cursor) : res parsed :=
  let* r := check_ip_v1 (if v6 then 6 else 4) c in
  match r with None => OK PBad | Some (src, c) =>
  let* r := check_ip_v1 0 c in
  match r with None => OK PBad | Some (dst, c) =>
  let* r := check_port_v1 c in
  match r with None => OK PBad | Some (sport, c) =>
  let* r := check_port_v1 c in
  match r with None => OK PBad | Some (dport, (done, rest)) =>
  match rest with
  | [] => UB
  | x :: rest => if x =? 10 then OK (PAddr v6 src dst sport dport (done ++ [10], rest)) else OK PBad
  end end end end end.

(** proxy-proto.c:39-63 — [check_proto_v1]: 4, 6 or -1 (0 here) *)
Definition check_proto_v1 (s : list N) : res N :=
  let* t := strncmp0 (s2b "TCP") s in
  if negb t then OK 0 else
  match skipn 3 s with
  | [] => UB
  | x :: r =>
    if (x =? 52) || (x =? 54) then
      match r with [] => UB | y :: _ => OK (if y =? 32 then x - 48 else 0) end
    else OK 0
  end.

(** proxy-proto.c:144-183 — [proxy_proto_v1_parse].  [check_proto_v1] has moved
    the pointer behind "TCP" when it fails after that, so "TCPUNKNOWN" is taken
    for "UNKNOWN". *)
Definition unknown_after (s : list N) : res bool :=
  let* t := strncmp0 (s2b "TCP") s in
  strncmp0 (s2b "UNKNOWN") (if t then skipn 3 s else s).

Definition proxy_proto_v1_parse (data : list N) (len : nat) : res parsed :=
  let* ok := check_crlf_v1 data len in
  if negb ok then OK PBad else
  let* ok := strncmp0 (s2b "PROXY ") data in
  if negb ok then OK PBad else
  let s := skipn 6 data in
  let* p := check_proto_v1 s in
  if p =? 0 then
    let* u := unknown_after s in OK (if u then PUnknown else PBad)
  else parse_addrs (p =? 6) (firstn 11 data, skipn 11 data).

(** what the kernel answers to read(2) *)
Inductive rdans := RAgain | RFail | RData (l : list N).
(** what [read_cb] returns *)
Inductive rcb := RcWant | RcFail | RcData (l : list N).

(** the connection, as far as [read_cb] is concerned *)
Record pconn := mkP { q_on : bool; q_buf : buflayer; q_rhost : list N; q_rserv : list N }.

(** getnameinfo(3), NI_NUMERICHOST *)
Variable gni : list N -> option (list N).
(** what the uninitialised variable [consumed] holds *)
Variable junk : nat.

(** server.c:1378-1387 *)
Definition settle (consumed : nat) (data : list N) (len : nat) (rhost rserv : list N) : pconn :=
  if (consumed <? len)%nat then mkP true (mkBuf data len consumed true) rhost rserv
  else mkP false (mkBuf data len 0 false) rhost rserv.

(** server.c:1308-1390 — [read_cb]: what is returned, what was read from the
    socket, the connection.  [None]: the kernel cannot answer this.  The
    debug message (server.c:1375-1376) is left out. *)
Definition read_cb (q : pconn) (buflen : nat) (a : rdans) : option (res (rcb * list N * pconn)) :=
  let b := q_buf q in
  if negb (q_on q) then
    match a with
    | RAgain => Some (OK (RcWant, [], q))
    | RFail => Some (OK (RcFail, [], q))
    | RData l => if (length l <=? buflen)%nat then Some (OK (RcData l, l, q)) else None
    end
  else if b_tail b then
    let left := (b_len b - b_pos b)%nat in
    let copy := Nat.min buflen left in
    let l := firstn copy (skipn (b_pos b) (b_data b)) in
    let more := negb (left =? copy)%nat in
    Some (OK (RcData l, [], mkP more (mkBuf (b_data b) (b_len b) (b_pos b + copy) more) (q_rhost q) (q_rserv q)))
  else
    let avail := (BUFLAYER_MAX - b_len b - 1)%nat in
    if (avail =? 0)%nat then Some (OK (RcFail, [], q)) else
    match a with
    | RAgain => Some (OK (RcWant, [], q))
    | RFail => Some (OK (RcFail, [], q))
    | RData [] => Some (OK (RcData [], [], q))
    | RData l =>
      if negb (length l <=? avail)%nat then None else Some (
      let data := firstn (b_len b) (b_data b) ++ l ++ skipn (b_len b + length l) (b_data b) in
      let len := (b_len b + length l)%nat in
      let q1 := mkP true (mkBuf data len (b_pos b) false) (q_rhost q) (q_rserv q) in
      let* r := memmem data len [13; 10] in
      match r with
      | None => OK (RcWant, l, q1)
      | Some _ =>
        let* p := proxy_proto_v1_parse data len in
        match p with
        | PBad => OK (RcFail, l, q1)
        | PUnknown => OK (RcWant, l, settle junk data len (s2b "UNKNOWN") (q_rserv q))
        | PAddr _ src _ sport _ (done, rest) =>
          match gni src with
          | None => OK (RcFail, l, q1)
          | Some h => OK (RcWant, l, settle (length done) (done ++ rest) len h (dec sport))
          end
        end
      end)
    end.

(** a connection just accepted (server.c:1404-1456) on a listener with or
    without proxy-v1 *)
Definition accepted (on : bool) (rhost rserv : list N) : pconn :=
  mkP on (mkBuf (repeat 0 BUFLAYER_MAX) 0 0 false) rhost rserv.

(** The calls libtls makes: what was read from the socket, what was given to
    libtls, the answers.  libtls does not call again after an error. *)
Inductive calls : pconn -> list N -> list N -> pconn -> bool -> Prop :=
| cs_nil q : calls q [] [] q true
| cs_want q buflen a l q1 r g q2 ok :
    read_cb q buflen a = Some (OK (RcWant, l, q1)) -> calls q1 r g q2 ok -> calls q (l ++ r) g q2 ok
| cs_data q buflen a d l q1 r g q2 ok :
    read_cb q buflen a = Some (OK (RcData d, l, q1)) -> calls q1 r g q2 ok -> calls q (l ++ r) (d ++ g) q2 ok
| cs_fail q buflen a l q1 :
    read_cb q buflen a = Some (OK (RcFail, l, q1)) -> calls q l [] q1 false.
End Parse.

(** ** towards an upstream *)
(** server.c:590-609 — the end of [proxy_socket]: the header is put in the same
    buffer.  [v4]: the family of the listener; [to], [port]: the upstream as
    getnameinfo(3) prints it *)
Definition proxy_header (v4 : bool) (rhost to rserv port : list N) : list N :=
  s2b "PROXY TCP" ++ [if v4 then 52 else 54] ++ [32] ++ rhost ++ [32] ++ to ++ [32] ++ rserv ++ [32] ++ port ++ [13; 10].
Definition proxy_socket (on v4 : bool) (to port : list N) (q : pconn) : pconn :=
  if negb on then q else
  let h := proxy_header v4 (q_rhost q) to (q_rserv q) port in
  let b := q_buf q in
  let data := firstn (BUFLAYER_MAX - 1) h ++ [0] ++ skipn (S (Nat.min (BUFLAYER_MAX - 1) (length h))) (b_data b) in
  if (BUFLAYER_MAX <=? length h)%nat
  then mkP (q_on q) (mkBuf (0 :: skipn 1 data) (b_len b) (b_pos b) (b_tail b)) (q_rhost q) (q_rserv q)
  else mkP (q_on q) (mkBuf data (length h) (b_pos b) (b_tail b)) (q_rhost q) (q_rserv q).

(** [n] bytes of the buffer from [p]; reading past it is [UB] *)
Definition slice (m : list N) (p n : nat) : res (list N) :=
  if (p + n <=? length m)%nat then OK (firstn n (skipn p m)) else UB.

(** what is sent upstream before the request line (proxy.c:242-243) or before
    the first TLS record (proxy.c:306-326 [proxy_write_cb]; [left] is a size_t,
    so it is huge when the position is behind the end) *)
Definition preamble (notls proxy : bool) (q : pconn) : res (list N) :=
  let b := q_buf q in
  if notls then if proxy then slice (b_data b) 0 (b_len b) else OK []
  else if (b_len b <? b_pos b)%nat then UB else slice (b_data b) (b_pos b) (b_len b - b_pos b).
