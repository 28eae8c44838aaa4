(** The crypto process and its clients (crypto.c).  A server process asks for a
    private key operation with a message and waits for the answer; the crypto
    process answers the instance whose number is in the message header.
    Channels are FIFO queues (C32); libcrypto is a parameter. *)
From Verif Require Import Base Conf Config.
Local Open Scope N_scope.

(** IMSG_CRYPTO_RSA_PRIVENC, _RSA_PRIVDEC, _ECDSA_SIGN *)
Inductive kind := KEnc | KDec | KSign.
(** crypto.c:42-49 [struct imsg_crypto_req] and the data behind it, with the
    pid of the header (imsg.c fills in what proc.c:776 passes, the sender's
    instance plus one) *)
Record req := mkReq { q_pid : N; q_kind : kind; q_id : N; q_hash : list N; q_flen : N; q_tlen : N; q_pad : Z; q_data : list N }.
(** crypto.c:51-56 [struct imsg_crypto_res] and the data behind it *)
Record ans := mkAns { a_kind : kind; a_id : N; a_ret : Z; a_len : N; a_data : list N }.

Section Crypto.
(** libcrypto: keys are RSA or EC; RSA_size; the two RSA operations (the
    value returned and the bytes written, as many as the value if positive);
    ECDSA_sign (the signature, if it succeeds) *)
Variable is_rsa : N -> bool.
Variable rsa_size : N -> N.
Variable rsa : kind -> N -> Z -> list N -> Z * list N.
Variable ecdsa : N -> list N -> option (list N).
(** number of server processes *)
Variable prefork : nat.

(** crypto.c:98-109 — [get_pkey] *)
Fixpoint get_pkey (l : list pki) (hash : list N) : option N :=
  match l with [] => None | p :: r => if leqb (pk_hash p) hash then pk_key p else get_pkey r hash end.

Inductive handled := Reply (n : nat) (a : ans) | CDied | CUndef.
(** proc.c:790-803 — [proc_composev_imsg] with n = pid - 1: nothing checks it *)
Definition reply_to (pid : N) (a : ans) : handled :=
  if (0 <? pid) && (pid <=? N.of_nat prefork) then Reply (N.to_nat (pid - 1)) a else CUndef.

(** crypto.c:111-232 — [crypto_dispatch_server]; the buffer for the result of an
    RSA operation has the size the request says *)
Definition crypto_dispatch_server (pkis : list pki) (q : req) : handled :=
  if negb (N.of_nat (length (q_data q)) =? q_flen q) then CDied else
  match get_pkey pkis (q_hash q) with
  | None => CDied
  | Some k =>
    match q_kind q with
    | KSign =>
      if is_rsa k then CDied else
      match ecdsa k (q_data q) with
      | Some s => reply_to (q_pid q) (mkAns KSign (q_id q) 1 (N.of_nat (length s)) s)
      | None => reply_to (q_pid q) (mkAns KSign (q_id q) 0 0 [])
      end
    | kd =>
      if negb (is_rsa k) then CDied else
      if q_tlen q <? rsa_size k then CUndef else
      let '(ret, out) := rsa kd k (q_pad q) (q_data q) in
      reply_to (q_pid q) (if (0 <? ret)%Z then mkAns kd (q_id q) ret (Z.to_N ret) out else mkAns kd (q_id q) ret 0 [])
    end
  end.

(** ** A server process *)
(** what is asked for: operation, hash of the certificate, padding, data *)
Record ask := mkAsk { k_kind : kind; k_hash : list N; k_pad : Z; k_data : list N }.
(** what the caller gets: the value returned and the bytes; [None] for an
    ECDSA signature that failed *)
Definition result : Type := option (Z * list N).

(** crypto.c:58 [reqid], the operation under way, what was done before, and the
    two channels.  [v_asked] records everything asked *)
Record srv := mkSrv { v_reqid : N; v_wait : option (ask * N); v_done : list (ask * result); v_asked : list ask;
  v_out : list req; v_in : list ans }.

(** [RSA_size] of the public key the server has is that of the private key *)
Variable size_of : list N -> N.

(** crypto.c:257-282, 402-425 — the first half of [rsae_send_imsg] and
    [ecdsae_send_enc_imsg]: number the request and send it *)
Definition send_req (inst : nat) (a : ask) (s : srv) : option srv :=
  if 128 <=? N.of_nat (length (k_hash a)) then None else     (* fatalx: hash too long *)
  let id := (v_reqid s + 1) mod 2^64 in
  let q := mkReq (N.of_nat inst + 1) (k_kind a) id (k_hash a) (N.of_nat (length (k_data a)))
             (match k_kind a with KSign => 0 | _ => size_of (k_hash a) end) (k_pad a) (k_data a) in
  Some (mkSrv id (Some (a, id)) (v_done s) (v_asked s ++ [a]) (v_out s ++ [q]) (v_in s)).

Definition same_kind (a b : kind) : bool :=
  match a, b with KSign, KSign => true | KSign, _ | _, KSign => false | _, _ => true end.
(** crypto.c:288-350, 431-470 — the second half: take the answer *)
Definition take_ans (a : ask) (id : N) (x : ans) (s : srv) (rest : list ans) : option srv :=
  if negb (same_kind (k_kind a) (a_kind x)) then None else
  if (match k_kind a with
      | KSign => N.of_nat (length (a_data x)) =? a_len x
      | _ => (Z.of_nat (length (a_data x)) =? a_ret x)%Z       (* (int)ibuf_size(&ibuf) != res.ret *)
      end) && (a_id x =? id)
  then Some (mkSrv (v_reqid s) None
         (v_done s ++ [(a, match k_kind a with KSign => if (0 <? a_ret x)%Z then Some (1%Z, a_data x) else None | _ => Some (a_ret x, a_data x) end)])
         (v_asked s) (v_out s) rest)
  else None.

(** ** All of them *)
Record sys := mkSys { y_crypto : child; y_srv : nat -> srv }.
Definition upd (f : nat -> srv) (i : nat) (s : srv) : nat -> srv := fun j => if Nat.eqb i j then s else f j.

Inductive event :=
| EAsk (i : nat) (a : ask)        (* a handshake in server i needs a private key *)
| EServe (i : nat)                (* crypto reads a message of server i *)
| EAnswer (i : nat)               (* server i reads the answer *)
| EConf (m : msg)                 (* crypto reads a message of the main process *)
| EForge (i : nat) (q : req).     (* a compromised server i sends what it likes *)

Inductive state := Run (y : sys) | CryptoDied | CryptoUndef | ServerDied (i : nat).

Section Step.
Variable load_ca : list N -> option N.
Variable pubkey_hash : list N -> option (list N).
Variable load_pkey : list N -> option N.

(** an event that cannot happen in a state changes nothing *)
Definition step (e : event) (y : sys) : state :=
  match e with
  | EAsk i a =>
    match v_wait (y_srv y i) with
    | Some _ => Run y
    | None => match send_req i a (y_srv y i) with Some s => Run (mkSys (y_crypto y) (upd (y_srv y) i s)) | None => ServerDied i end
    end
  | EForge i q => let s := y_srv y i in
    Run (mkSys (y_crypto y) (upd (y_srv y) i (mkSrv (v_reqid s) (v_wait s) (v_done s) (v_asked s) (v_out s ++ [q]) (v_in s))))
  | EServe i =>
    let s := y_srv y i in
    match v_out s with
    | [] => Run y
    | q :: r =>
      match crypto_dispatch_server (cc_pkis (k_conf (y_crypto y))) q with
      | CDied => CryptoDied
      | CUndef => CryptoUndef
      | Reply n a =>
        let f := upd (y_srv y) i (mkSrv (v_reqid s) (v_wait s) (v_done s) (v_asked s) r (v_in s)) in
        let t := f n in
        Run (mkSys (y_crypto y) (upd f n (mkSrv (v_reqid t) (v_wait t) (v_done t) (v_asked t) (v_out t) (v_in t ++ [a]))))
      end
    end
  | EAnswer i =>
    match v_wait (y_srv y i), v_in (y_srv y i) with
    | Some (a, id), x :: r => match take_ans a id x (y_srv y i) r with Some s => Run (mkSys (y_crypto y) (upd (y_srv y) i s)) | None => ServerDied i end
    | _, _ => Run y
    end
  | EConf m => match config_recv load_ca pubkey_hash load_pkey true m (y_crypto y) with
               | Took c => Run (mkSys c (y_srv y)) | Died => CryptoDied | Undef => CryptoUndef end
  end.

Fixpoint run (es : list event) (y : sys) : state :=
  match es with [] => Run y | e :: r => match step e y with Run y' => run r y' | x => x end end.
End Step.
End Crypto.
