(** A connection is never left with nobody to move it on. *)
From Verif Require Import Base Compat Iri IriSpec IriObs Puny Conf Fmt Fcgi Server ServerSpec RequestSpec HistorySpec.
Local Open Scope N_scope.

(** The application does not hang up in the middle of a reply of which all that
    came so far has been sent on. *)
Definition civil_step (c : client) (e : event) : Prop :=
  match e with EvFcgiEnd _ => c_code c <> 0 -> c_out c <> [] | _ => True end.
Inductive civil_history (E : env) : list event -> client -> Prop :=
| v_new : civil_history E [] fresh
| v_step es e c c' : civil_history E es c -> polite_step c e -> civil_step c e -> step E e c = Some (OK c') ->
    civil_history E (es ++ [e]) c'.

(** the move is the client's: the handshake, or the rest of its request *)
Definition awaits_client (c : client) : Prop :=
  c_hs c = false \/
  (replies c = [] /\ c_type c = UNDECIDED /\ readln (c_in c) = None /\ (length (c_in c) <= 1026)%nat).
(** more of the reply is on its way to the client *)
Definition sending (c : client) : Prop := c_wev c = true.
(** the move is that of an application or an upstream, whose connection is open *)
Definition awaits_backend (c : client) : Prop :=
  (c_type c = UNDECIDED /\ exists k, In k (c_conns c) /\ k_open k = true) \/
  (c_type c = RPROXY /\ (c_up c <> None \/ exists p, c_pxy c = Some p /\ p_notls p = false /\ c_iri c <> None)).

Definition is_write (e : event) : Prop := match e with EvWrite _ _ => True | _ => False end.
(** nobody but the client is needed any more *)
Definition decided (c : client) : Prop := c_type c = RFILE \/ c_type c = RDIR \/ c_type c = DONE.
