(** What is promised of the bodies of files and listings. *)
From Verif Require Import Base Iri IriSpec IriObs IriOutSpec Puny Conf Server ServerSpec RequestSpec.
Local Open Scope N_scope.

(** read(2) returns all it was asked for, or what is left *)
Definition full_reads (es : list event) : Prop :=
  Forall (fun e => match e with EvWrite _ a => exists n, a = RdMax n /\ (BUFSIZ <= n)%nat | _ => True end) es.

(** the client left, or the connection broke *)
Definition aborted (es : list event) : Prop := In EvReadEnd es \/ In EvWriteErr es.

Definition is_prefix (a b : list N) : Prop := exists r, b = a ++ r.

Definition writes (es : list event) : nat := length (filter (fun e => match e with EvWrite _ _ => true | _ => false end) es).

(** a line of a listing: a link to the entry, percent-encoded; directories get
    a slash *)
Definition link_line (d : list N * bool) : list N :=
  s2b "=> ./" ++ pct_encode (fst d) ++ (if snd d then [47] else []) ++ [10].
(** readdir(3) names: not empty, no NUL, no slash, at most NAME_MAX bytes *)
Definition entry_name (n : list N) : Prop := nonul n /\ bytes n /\ (length n <= 255)%nat.

(** The request [line] for [i], in the pieces [chunks], on a new connection
    that asked for the server name [sni] and got the server [v] *)
Record request (E : env) (fs : N -> list N -> node) (sni : option (list N)) (v : vhost) (line : list N) (i : comps)
    (asked : list N) (chunks : list (list N)) (c0 : client) : Prop := mkReq {
  rq_hs : run E [EvHandshake sni] fresh = Some (OK c0);
  rq_host : c_vhost c0 = Some v;
  rq_len : (length line <= 1024)%nat;
  rq_line : ~ has_crlf (line ++ [13]);
  rq_ok : understood E line i asked;
  rq_pieces : pieces (line ++ CRLF) chunks }.
Definition opening (fs : N -> list N -> node) (sni : option (list N)) (chunks : list (list N)) : list event :=
  EvHandshake sni :: reads fs chunks.
