(** A connection of a server process across reloads: config.c:58-162
    [config_purge], called for IMSG_RECONF_START (config.c:537-541) while
    connections are open (nothing closes them), frees the hosts, locations,
    proxies and addresses they point to.

    What a connection reads through a pointer to freed memory is arbitrary: the
    allocator may have given the memory to anything.  [Reload E' v p]: from now
    on the process has the world [E'] (its configuration is the new one; the port
    and printed address, read through c->addr, are arbitrary), c->host and
    c->proxy, where set, point at [v] and [p].
    Simplification: the new configuration is complete at once (between
    IMSG_RECONF_START and IMSG_RECONF_END there are prefixes of it, which is the
    same as one [Reload] for each). *)
From Verif Require Import Base Conf Server.
Local Open Scope N_scope.

Inductive happening := Ev (e : event) | Reload (E' : env) (v : vhost) (p : proxy).

(** the connection after its configuration was freed *)
Definition stale (v : vhost) (p : proxy) (c : client) : client :=
  mkCl (c_hs c) (c_closed c) (c_type c) (c_code c) (c_in c) (c_out c) (c_sent c) (c_wev c) (c_iri c) (c_domain c)
    (match c_vhost c with Some _ => Some v | None => None end)
    (c_pfd c) (c_dir c) (c_sbuf c) (c_cgibev c) (c_conns c)
    (match c_pxy c with Some _ => Some p | None => None end) (c_up c) (c_acts c).

Fixpoint across (E : env) (hs : list happening) (c : client) : option (res client) :=
  match hs with
  | [] => Some (OK c)
  | Ev e :: r =>
    match step E e c with
    | None => None
    | Some (OK c) => across E r c
    | Some UB => Some UB
    | Some Fuel => Some Fuel
    end
  | Reload E' v p :: r => across E' r (stale v p c)
  end.

(** the same without the reloads *)
Definition calm (hs : list happening) : list event := flat_map (fun h => match h with Ev e => [e] | Reload _ _ _ => [] end) hs.
