(** What the manual says about servers and locations (gmid.conf.5): names are
    shell patterns; the location block that governs an option for a path is
    the first, in the order of the file, that sets the option and whose
    pattern matches the path (without its leading slash), else the server. *)
From Verif Require Import Base Conf.
Local Open Scope N_scope.

Definition unrooted (path : list N) : list N := match path with 47 :: r => r | _ => path end.

Definition governs (fnm : list N -> list N -> bool) (path : list N) (sets : location -> Prop)
  (v : vhost) (l : location) : Prop :=
  let hit l := sets l /\ fnm (l_match l) (unrooted path) = true in
  (exists before after, v_locs v = before ++ l :: after /\ hit l /\ Forall (fun l' => ~ hit l') before)
  \/ (l = v_loc0 v /\ Forall (fun l' => ~ hit l') (v_locs v)).

(** the server a name selects *)
Definition names (fnm : list N -> list N -> bool) (name : list N) (v : vhost) : Prop :=
  Exists (fun p => fnm p (unrooted name) = true) (v_domain v :: v_aliases v).

Definition selects (fnm : list N -> list N -> bool) (hs : list vhost) (name : list N) (h : option vhost) : Prop :=
  match h with
  | Some v => exists before after, hs = before ++ v :: after /\ names fnm name v /\
                Forall (fun v' => ~ names fnm name v') before
  | None => Forall (fun v' => ~ names fnm name v') hs
  end.

(** the proxy block a request selects: empty patterns stand for "gemini", any
    host and any port *)
Definition proxy_hit (fnm : list N -> list N -> bool) (schema domain port : list N) (p : proxy) : Prop :=
  fnm (match p_match_proto p with [] => s2b "gemini" | x => x end) (unrooted schema) = true /\
  fnm (match p_match_host p with [] => s2b "*" | x => x end) (unrooted domain) = true /\
  fnm (match p_match_port p with [] => s2b "*" | x => x end) (unrooted port) = true.

Definition proxies_to (fnm : list N -> list N -> bool) (ps : list proxy) (schema domain port : list N) (r : option proxy) : Prop :=
  match r with
  | Some p => exists before after, ps = before ++ p :: after /\ proxy_hit fnm schema domain port p /\
                Forall (fun p' => ~ proxy_hit fnm schema domain port p') before
  | None => Forall (fun p' => ~ proxy_hit fnm schema domain port p') ps
  end.
