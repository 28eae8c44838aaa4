(** What is promised of the PROXY protocol, version 1. *)
From Verif Require Import Base Compat Compat_Proofs RequestSpec ProxyProto.
Local Open Scope N_scope.

(** a word: no NUL, space, CR or LF *)
Definition word (s : list N) : Prop := Forall (fun c => c <> 0 /\ c <> 32 /\ c <> 13 /\ c <> 10) s.

(** a header line as the protocol wants it: it names the source and its port *)
Definition header_v1 (gai : N -> list N -> option (list N)) (h src : list N) (sport : N) : Prop :=
  exists (v6 : bool) s d sp dp dst dport,
    h = s2b "PROXY TCP" ++ [if v6 then 54 else 52] ++ [32] ++ s ++ [32] ++ d ++ [32] ++ sp ++ [32] ++ dp ++ CRLF /\
    word s /\ word d /\ word sp /\ word dp /\
    gai (if v6 then 6 else 4) s = Some src /\ gai 0 d = Some dst /\
    is_dec sp (Z.of_N sport) /\ sport <= 65535 /\ is_dec dp (Z.of_N dport) /\ dport <= 65535.

(** what gmid takes for one: ports may end in a space or a CR, addresses may
    contain anything but NUL and spaces *)
Definition lenient_v1 (gai : N -> list N -> option (list N)) (h src : list N) (sport : N) : Prop :=
  exists (v6 : bool) s d sp e1 dp e2 dst dport,
    h = s2b "PROXY TCP" ++ [if v6 then 54 else 52] ++ [32] ++ s ++ [32] ++ d ++ [32] ++ sp ++ [e1] ++ dp ++ [e2; 10] /\
    (e1 = 32 \/ e1 = 13) /\ (e2 = 32 \/ e2 = 13) /\
    Forall (fun c => c <> 0 /\ c <> 32) s /\ Forall (fun c => c <> 0 /\ c <> 32) d /\
    Forall (fun c => c <> 0 /\ c <> 32 /\ c <> 13) sp /\ Forall (fun c => c <> 0 /\ c <> 32 /\ c <> 13) dp /\
    gai (if v6 then 6 else 4) s = Some src /\ gai 0 d = Some dst /\
    is_dec sp (Z.of_N sport) /\ sport <= 65535 /\ is_dec dp (Z.of_N dport) /\ dport <= 65535.

(** the two ways to say that nothing is known *)
Definition unknown_v1 (s : list N) : Prop :=
  (exists t, s = s2b "PROXY UNKNOWN" ++ t) \/ (exists t, s = s2b "PROXY TCPUNKNOWN" ++ t).

(** bytes read from the socket that libtls has not been given yet *)
Definition held (q : pconn) : list N :=
  if q_on q && b_tail (q_buf q) then firstn (b_len (q_buf q) - b_pos (q_buf q)) (skipn (b_pos (q_buf q)) (b_data (q_buf q))) else [].
