(** What the server may do for a request, and nothing else. *)
From Verif Require Import Base Compat Iri IriSpec IriObs IriSafeSpec IriOut Puny Conf ConfSpec Mime Fmt Fcgi Server ServerSpec RequestSpec HistorySpec.
Local Open Scope N_scope.

(** a path followed below a directory without ever leaving it *)
Definition stays_inside (p : list N) : Prop :=
  hd 0 p <> 47 /\ forall pre suf, split_slash p = pre ++ suf -> walk 0 pre <> None.

(** the bytes received from the client, and the lines among them *)
Definition received (es : list event) : list N := flat_map (fun e => match e with EvRead chunk _ => chunk | _ => [] end) es.
Definition sent_line (es : list event) (line : list N) : Prop := exists a b, received es = a ++ line ++ CRLF ++ b.

(** the name of the connection: that of the TLS handshake, decoded; the address
    of the peer when there is none *)
Definition named (E : env) (sni : option (list N)) (name : list N) : Prop :=
  exists d, match sni with
            | None => d = []
            | Some s => exists out, puny_decode s DOMAIN_NAME_LEN = OK (Ret true out) /\ cstr out = Some d
            end /\
    name = match d with [] => if (length (e_pp E) <? DOMAIN_NAME_LEN)%nat then e_pp E else [] | _ => d end.

(** A request for [i] received on a connection of that name by the server it
    selects: an IRI the client sent, of which the host decodes to [asked]. *)
Definition request_for (E : env) (es : list event) (v : vhost) (i : comps) (name asked : list N) : Prop :=
  (exists sni, In (EvHandshake sni) es /\ named E sni name) /\
  selects (e_fnm E) (c_hosts (e_conf E)) name (Some v) /\
  (exists line, sent_line es line /\ nonul line /\ bytes line /\ (length line <= 1024)%nat /\ accepts (e_ip6 E) line i) /\
  exists out, puny_decode (c_host i) DOMAIN_NAME_LEN = OK (Ret true out) /\ cstr out = Some asked.

(** past the reverse proxies, the name and the certificate *)
Definition let_in (E : env) (es : list event) (v : vhost) (i : comps) (name asked : list N) : Prop :=
  request_for E es v i name asked /\ proxies_to (e_fnm E) (v_proxies v) (c_scheme i) name (c_port i) None /\ ours i name asked /\
  (exists ca, option_is E v i l_reqca (fun x => x <> None) ca /\ admitted E ca) /\
  option_is E v i l_block_code (fun x => x <> 0) 0.

Inductive legit (E : env) (es : list event) : action -> Prop :=
| lg_open v i name asked fd n : let_in E es v i name asked -> application E v i None ->
    option_is E v i l_dirfd (fun x => x <> None) (Some fd) -> option_is E v i l_strip (fun x => x <> 0%nat) n ->
    legit E es (AOpen fd (below i n))
| lg_fcgi v i name asked k l bytes : let_in E es v i name asked -> application E v i (Some (k, l)) ->
    fcgi_req i l (v_loc0 v) (e_rhost E) (e_version E) (e_cert E) = OK bytes -> legit E es (AFcgi k bytes)
| lg_up v i name asked p bytes : request_for E es v i name asked -> proxies_to (e_fnm E) (v_proxies v) (c_scheme i) name (c_port i) (Some p) ->
    admitted E (p_reqca p) -> proxy_request_line i (e_junk E) = OK bytes -> legit E es (AUp p bytes)
| lg_reply code meta : legit E es (AReply code meta)
| lg_log code meta : legit E es (ALog code meta)
| lg_verify ca : legit E es (AVerify ca).

(** the client sends bytes *)
Definition bytes_sent (es : list event) : Prop := forall chunk fs, In (EvRead chunk fs) es -> bytes chunk.
