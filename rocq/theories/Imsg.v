(** The channels between the processes: compat/imsg.c and compat/imsg-buffer.c
    over a stream socket pair.  proc.c:198-201, 312-314 always allow descriptor
    passing, so reads are [msgbuf_read] and writes [msgbuf_write].  Memory is
    never exhausted. *)
From Verif Require Import Base.
Local Open Scope N_scope.

(** a message as the callers of imsg_compose(3) and imsg_get(3) see it;
    descriptors are numbers naming open files *)
Record imsg := mkImsg { i_type : N; i_id : N; i_pid : N; i_data : list N; i_fd : option N }.

(** a 32 bit integer in memory (little endian) *)
Definition le32 (n : N) : list N := [n mod 256; (n / 256) mod 256; (n / 65536) mod 256; (n / 16777216) mod 256].
Definition un32 (l : list N) : N :=
  match l with [a; b; c; d] => a + 256 * b + 65536 * c + 16777216 * d | _ => 0 end.

(** imsg.h:28-29 *)
Definition IMSG_HEADER_SIZE : nat := 16.
Definition MAX_IMSGSIZE : N := 16384.
(** imsg.h:27 *)
Definition IBUF_READ_SIZE : N := 65535.

(** struct ibuf on the output queue: what is left to write, its descriptor *)
Definition wbuf := (list N * option N)%type.

(** imsg.c:291-330, 178-193 — [imsg_create], [imsg_add], [imsg_close],
    [imsg_compose]: None is the failure (ERANGE) *)
Definition imsg_compose (pid : N) (q : list wbuf) (m : imsg) : option (list wbuf) :=
  let len := N.of_nat IMSG_HEADER_SIZE + N.of_nat (length (i_data m)) in
  if MAX_IMSGSIZE <? len then None
  else Some (q ++ [(le32 (i_type m) ++ le32 len ++ le32 (i_id m) ++ le32 (if i_pid m =? 0 then pid else i_pid m)
                    ++ i_data m, i_fd m)]).

(** ** The socket: bytes, the first byte of a sendmsg(2) carrying its descriptor *)
Definition sock := list (N * option N).

(** imsg-buffer.c:699-709 — the buffers one sendmsg(2) is given; [i] those
    already taken *)
Fixpoint group (iov_max : nat) (i : nat) (q : list wbuf) : list wbuf :=
  match q with
  | [] => []
  | (d, fd) :: r =>
      if (iov_max <=? i)%nat then []
      else if (0 <? i)%nat && (match fd with Some _ => true | None => false end) then []
      else (d, fd) :: group iov_max (S i) r
  end.

(** imsg-buffer.c:950-966 — [msgbuf_drain] *)
Fixpoint drain (n : nat) (q : list wbuf) : list wbuf :=
  match q with
  | [] => []
  | (d, fd) :: r =>
      if (n =? 0)%nat then q
      else if (length d <=? n)%nat then drain (n - length d) r
      else (skipn n d, fd) :: r
  end.

(** imsg-buffer.c:738-743: the descriptor of the first buffer is now sent.
    (Only the first buffer of a group can have one.) *)
Definition clear_fd (q : list wbuf) : list wbuf :=
  match q with [] => [] | (d, _) :: r => (d, None) :: r end.

(** the bytes of one sendmsg(2) as they arrive in the socket *)
Definition tag_first (fd : option N) (l : list N) : sock :=
  match l with [] => [] | b :: r => (b, fd) :: map (fun b => (b, None)) r end.

(** imsg-buffer.c:682-749 — [msgbuf_write]; the kernel takes [n] > 0 bytes (when
    it takes none, nothing changes) *)
Definition msgbuf_write (iov_max : nat) (q : list wbuf) (s : sock) (n : nat) : list wbuf * sock :=
  let g := group iov_max 0 q in
  match g with
  | [] => (q, s)
  | (_, fd) :: _ =>
      if (n =? 0)%nat then (q, s)
      else (drain n (clear_fd q), s ++ tag_first fd (firstn n (concat (map fst g))))
  end.

(** ** The reader *)
(** struct msgbuf: rbuf (up to roff), rpmsg (size, bytes so far, descriptor),
    rbufs — never emptied here, so it is the history — and the descriptors closed *)
Record reader := mkReader { r_buf : list N; r_pmsg : option (N * list N * option N);
                            r_q : list (list N * option N); r_closed : list N }.

(** imsg.c:345-359 — [imsg_parse_hdr] *)
Definition imsg_parse_hdr (h : list N) : option N :=
  let len := un32 (firstn 4 (skipn 4 h)) in
  if (len <? N.of_nat IMSG_HEADER_SIZE) || (MAX_IMSGSIZE <? len) then None else Some len.

Definition close_fd (fd : option N) (l : list N) : list N :=
  match fd with Some f => l ++ [f] | None => l end.

(** imsg-buffer.c:765-801 — the loop of [ibuf_read_process] *)
Fixpoint process (fuel : nat) (buf : list N) (pm : option (N * list N * option N))
    (q : list (list N * option N)) (closed : list N) (fd : option N) : res (option reader) :=
  match fuel with
  | O => Fuel
  | S fuel =>
      let deliver '(sz, got, f) fd :=
        let left := (N.to_nat sz - length got)%nat in
        let n := if (left <=? length buf)%nat then left else length buf in
        let got := got ++ firstn n buf in
        let buf := skipn n buf in
        let '(pm, q) := if (N.to_nat sz <=? length got)%nat then (None, q ++ [(got, f)]) else (Some (sz, got, f), q) in
        if (0 <? length buf)%nat then process fuel buf pm q closed fd
        else OK (Some (mkReader buf pm q closed)) in
      match pm with
      | None =>
          if (length buf <? IMSG_HEADER_SIZE)%nat then OK (Some (mkReader buf None q (close_fd fd closed)))
          else match imsg_parse_hdr (firstn IMSG_HEADER_SIZE buf) with
               | None => OK None
               | Some sz => deliver (sz, [], fd) None
               end
      | Some p => deliver p fd
      end
  end.

(** imsg-buffer.c:751-763, 803-813 — [ibuf_read_process]: None is the failure *)
Definition ibuf_read_process (r : reader) (data : list N) (fd : option N) : res (option reader) :=
  let buf := r_buf r ++ data in
  let '(closed, fd) := match r_pmsg r with Some _ => (close_fd fd (r_closed r), None) | None => (r_closed r, fd) end in
  process (S (length buf)) buf (r_pmsg r) (r_q r) closed fd.

(** imsg.c:106-125, 148-176 — [imsg_get] and the accessors *)
Definition imsg_get (b : list N * option N) : imsg :=
  let '(d, fd) := b in
  mkImsg (un32 (firstn 4 d)) (un32 (firstn 4 (skipn 8 d))) (un32 (firstn 4 (skipn 12 d)))
         (skipn IMSG_HEADER_SIZE d) fd.

(** ** A channel: one end composes and writes, the other reads *)
Record chan := mkChan { ch_q : list wbuf; ch_sock : sock; ch_rd : option reader }.

Inductive ev :=
| ECompose (m : imsg)                  (* imsg_compose *)
| EWrite (n : nat)                     (* the writer is ready; the kernel takes n bytes *)
| ERecv (n : nat) (fd : option N).     (* the reader is ready; recvmsg(2) gives n bytes and fd *)

(** [ERecv] is at most what there is and what fits (imsg-buffer.c:867-868) *)
Definition exec (pid : N) (iov_max : nat) (c : chan) (e : ev) : chan :=
  match e with
  | ECompose m => match imsg_compose pid (ch_q c) m with
                  | Some q => mkChan q (ch_sock c) (ch_rd c)
                  | None => c
                  end
  | EWrite n => let '(q, s) := msgbuf_write iov_max (ch_q c) (ch_sock c) n in mkChan q s (ch_rd c)
  | ERecv n fd =>
      match ch_rd c with
      | None => c
      | Some r =>
          mkChan (ch_q c) (skipn n (ch_sock c))
            (match ibuf_read_process r (map fst (firstn n (ch_sock c))) fd with OK r => r | _ => None end)
      end
  end.

(** what a kernel may do: [sem taken fd], the bytes recvmsg(2) returns with
    their tags and the descriptor it returns *)
Definition possible (sem : sock -> option N -> Prop) (iov_max : nat) (c : chan) (e : ev) : Prop :=
  match e with
  | ECompose m => i_type m < 4294967296 /\ i_id m < 4294967296 /\ i_pid m < 4294967296
  | EWrite n => (n <= length (concat (map fst (group iov_max 0 (ch_q c)))))%nat
  | ERecv n fd =>
      match ch_rd c with
      | None => False
      | Some r => (0 < n)%nat /\ (n <= length (ch_sock c))%nat /\
                  N.of_nat (length (r_buf r) + n) <= IBUF_READ_SIZE /\
                  sem (firstn n (ch_sock c)) fd
      end
  end.

Inductive runs (sem : sock -> option N -> Prop) (pid : N) (iov_max : nat) : chan -> list ev -> chan -> Prop :=
| runs_nil c : runs sem pid iov_max c [] c
| runs_cons c e es c' : possible sem iov_max c e -> runs sem pid iov_max (exec pid iov_max c e) es c' ->
    runs sem pid iov_max c (e :: es) c'.

Definition new_chan : chan := mkChan [] [] (Some (mkReader [] None [] [])).

(** ** What the two kinds of kernel return *)
Definition untagged (l : sock) : Prop := Forall (fun x => snd x = None) l.
(** a read stops before the bytes of a sendmsg(2) that carried a descriptor (BSD) *)
Definition barrier (taken : sock) (fd : option N) : Prop :=
  match taken with [] => False | (_, t) :: r => fd = t /\ untagged r end.
(** unix(7) on Linux: a read returns what precedes and the bytes that came with
    the descriptor, and stops there *)
Definition glue (taken : sock) (fd : option N) : Prop :=
  (untagged taken /\ fd = None) \/
  (exists a b f r, taken = a ++ (b, Some f) :: r /\ untagged a /\ untagged r /\ fd = Some f).
(** anything at all *)
Definition any_kernel (taken : sock) (fd : option N) : Prop := True.
