(** What a caller of parse_iri observes: the C strings its [struct iri] points to. *)
From Verif Require Import Base Iri IriSpec.
Local Open Scope N_scope.

(** iri.h [struct iri] (iri.h:17-25) read back by the callers *)
Definition comps_of (p : pst) : option comps :=
  let i := parsed p in
  match cstr_at (mem p) (i_schema i), cstr_at (mem p) (i_host i), cstr_at (mem p) (i_port i),
        cstr_at (mem p) (i_path i), cstr_at (mem p) (i_query i), cstr_at (mem p) (i_fragment i) with
  | Some a, Some b, Some c, Some d, Some e, Some f => Some (mkC a b c (i_port_no i) d e f)
  | _, _, _, _, _, _ => None
  end.

(** [parse_iri] called on the NUL-terminated string [s] succeeds and the
    caller then reads the components [c] *)
Definition accepts (ip6 : list N -> bool) (s : list N) (c : comps) : Prop :=
  exists p, parse_iri ip6 (s ++ [0]) = OK (true, p) /\ comps_of p = Some c.

(** [parse_iri] called on [s] returns 0 *)
Definition refuses (ip6 : list N -> bool) (s : list N) : Prop :=
  exists p, parse_iri ip6 (s ++ [0]) = OK (false, p).
