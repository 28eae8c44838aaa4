(** Requests as a client sends them: a line ended by CRLF. *)
From Verif Require Import Base Iri IriSpec IriObs Puny Conf Server.
Local Open Scope N_scope.

Definition CRLF : list N := [13; 10].
Definition has_crlf (s : list N) : Prop := exists a b, s = a ++ CRLF ++ b.

(** [s] starts with the line [line], ended by the first CRLF of [s] *)
Definition first_line (s line rest : list N) : Prop := s = line ++ CRLF ++ rest /\ ~ has_crlf (line ++ [13]).

(** a connection waiting for its request: the handshake is done and selected
    the server [v]; nothing has been queued or sent *)
Definition waiting (v : vhost) (c : client) : Prop :=
  c_hs c = true /\ c_closed c = false /\ c_type c = UNDECIDED /\ c_code c = 0 /\ c_vhost c = Some v /\
  c_out c = [] /\ c_sent c = [].

(** a request the server understands: an IRI whose host decodes to [asked] *)
Definition understood (E : env) (line : list N) (i : comps) (asked : list N) : Prop :=
  nonul line /\ bytes line /\ accepts (e_ip6 E) line i /\
  exists out, puny_decode (c_host i) DOMAIN_NAME_LEN = OK (Ret true out) /\ cstr out = Some asked.

(** a request it must refuse: too long, not text, not an IRI, or not a host name *)
Definition malformed (E : env) (line : list N) : Prop :=
  (1024 < length line)%nat \/ In 0 line \/
  (nonul line /\ bytes line /\ refuses (e_ip6 E) line) \/
  (nonul line /\ bytes line /\ exists i out, accepts (e_ip6 E) line i /\ puny_decode (c_host i) DOMAIN_NAME_LEN = OK (Ret false out)).

(** the bytes of [s] in the pieces [chunks], as reads of the connection *)
Definition pieces (s : list N) (chunks : list (list N)) : Prop := concat chunks = s /\ Forall (fun x => x <> []) chunks.
Definition reads (fs : N -> list N -> node) (chunks : list (list N)) : list event := map (fun x => EvRead x fs) chunks.
