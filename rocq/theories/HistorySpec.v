(** Histories of a connection, and what is promised of all of them. *)
From Verif Require Import Base Compat Iri IriSpec IriObs IriSafeSpec Puny Conf ConfSpec Mime Fmt Fcgi Server ServerSpec RequestSpec Decide_Proofs.
Local Open Scope N_scope.

(** [history E es c]: the events [es] lead a new connection to [c] *)
Inductive history (E : env) : list event -> client -> Prop :=
| h_new : history E [] fresh
| h_step es e c c' : history E es c -> step E e c = Some (OK c') -> history E (es ++ [e]) c'.

(** The client is polite: it sends nothing while a FastCGI application works on
    its request. *)
Definition polite_step (c : client) (e : event) : Prop :=
  match e with EvRead _ _ => c_type c = UNDECIDED -> c_cgibev c = None | _ => True end.
Inductive polite_history (E : env) : list event -> client -> Prop :=
| p_new : polite_history E [] fresh
| p_step es e c c' : polite_history E es c -> polite_step c e -> step E e c = Some (OK c') -> polite_history E (es ++ [e]) c'.

(** headers queued, with the code and meta the handler gave *)
Definition replies (c : client) : list (N * list N) :=
  flat_map (fun a => match a with AReply code meta => [(code, meta)] | _ => [] end) (c_acts c).
Definition logs (c : client) : list (N * list N) :=
  flat_map (fun a => match a with ALog code meta => [(code, meta)] | _ => [] end) (c_acts c).

(** all that was queued for the client: accepted by TLS or still buffered *)
Definition stream (c : client) : list N := c_sent c ++ c_out c.

(** the configuration passed the checks of the parser (C19) *)
Definition conf_ok (E : env) : Prop := Forall codes_ok (c_hosts (e_conf E)).

(** the meta on the wire: the language may have been added *)
Definition with_lang (meta m : list N) : Prop :=
  m = meta \/ (meta = s2b "text/gemini" /\ exists lg, m = meta ++ s2b ";lang=" ++ lg).
