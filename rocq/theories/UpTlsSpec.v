(** Speaking TLS to an upstream, and the versions of TLS, independently of the
    code. *)
From Verif Require Import Base Conf Config Server HistorySpec Tls TlsSpec UpTls.
Local Open Scope N_scope.

(** ** the upstream is who it should be *)

(** the name to check: the `sni' of the proxy block or else the host of its
    `relay-to', without the final dot of a fully qualified name *)
Definition base_name (p : cproxy) : list N := match cx_sni p with [] => p_host (cx p) | s => s end.
Definition dotless (s t : list N) : Prop := s = t ++ [46] \/ (s = t /\ forall x, s <> x ++ [46]).

(** the results of the calls of SSL_connect until it is over: all but the last ask to
    be called again *)
Definition handshake_seq (pton : list N -> option (list N)) (t : tlsup) (ss : list (option ssl)) (r : uptls) : Prop :=
  exists a x, ss = a ++ [x] /\ Forall (fun y => proxy_handshake pton t y = None) a /\ proxy_handshake pton t x = Some r.

(** a history in which the handshakes with upstreams go as libtls and proxy.c make
    them; [U]: the settings of each proxy *)
Definition explained (pton : list N -> option (list N)) (sets_up : cproxy -> bool) (U : proxy -> cproxy)
  (c : client) (e : event) (ss : list (option ssl)) : Prop :=
  match e with
  | EvUpTls r => forall p, c_pxy c = Some p -> exists t, proxy_setup_tls sets_up (U p) = Some t /\ handshake_seq pton t ss r
  | _ => ss = []
  end.
Inductive uhistory (E : env) pton sets_up U : list (event * list (option ssl)) -> client -> Prop :=
| u_new : uhistory E pton sets_up U [] fresh
| u_step h e ss c c' : uhistory E pton sets_up U h c -> explained pton sets_up U c e ss -> step E e c = Some (OK c') ->
    uhistory E pton sets_up U (h ++ [(e, ss)]) c'.

(** ** `protocols' *)
Definition blank (c : N) : Prop := c = 32 \/ c = 9.
(** the names and the versions they stand for *)
Inductive denotes : list N -> list version -> Prop :=
| dn name s vs : In (s, vs) [(s2b "all", [TLSv12; TLSv13]); (s2b "legacy", [TLSv12; TLSv13]); (s2b "default", [TLSv12; TLSv13]);
     (s2b "secure", [TLSv12; TLSv13]); (s2b "tlsv1", [TLSv12; TLSv13]); (s2b "tlsv1.0", [TLSv12]); (s2b "tlsv1.1", [TLSv12]);
     (s2b "tlsv1.2", [TLSv12]); (s2b "tlsv1.3", [TLSv13])] -> same_name name s -> denotes name vs.
(** blanks, "!" if it is to be switched off, a name *)
Inductive word : list N -> bool * list version -> Prop :=
| wd bl (neg : bool) name vs : Forall blank bl -> denotes name vs -> word (bl ++ (if neg then [33] else []) ++ name) (neg, vs).
(** words separated by commas and colons *)
Inductive worded : list N -> list (list N) -> Prop :=
| wo_one w : ~ In 44 w -> ~ In 58 w -> worded w [w]
| wo_more w c s ws : ~ In 44 w -> ~ In 58 w -> c = 44 \/ c = 58 -> worded s ws -> worded (w ++ c :: s) (w :: ws).

Definition veq (a b : version) : bool :=
  match a, b with SSLv2, SSLv2 | SSLv3, SSLv3 | TLSv10, TLSv10 | TLSv11, TLSv11 | TLSv12, TLSv12 | TLSv13, TLSv13 => true | _, _ => false end.
(** the last word that mentions a version decides; if none does, it is on exactly
    when the first word switches something off *)
Definition last_says (ws : list (bool * list version)) (v : version) : option bool :=
  fold_left (fun d w => if existsb (veq v) (snd w) then Some (negb (fst w)) else d) ws None.
Definition enabled (ws : list (bool * list version)) (v : version) : bool :=
  match last_says ws v with
  | Some b => b
  | None => match ws with (true, _) :: _ => match v with TLSv12 | TLSv13 => true | _ => false end | _ => false end
  end.
(** at every "!" but at the first word something is still on *)
Definition never_empty (ws : list (bool * list version)) : Prop :=
  forall pre vs post, ws = pre ++ (true, vs) :: post -> pre <> [] -> exists v, enabled pre v = true.
