(** Independent specification of the request IRIs gmid accepts: a grammar and
    a path canonicalisation, on plain byte lists. *)
From Verif Require Import Base Utf8Spec.
Local Open Scope N_scope.

(** ** Path canonicalisation *)

(** split at '/' (47): always at least one segment *)
Fixpoint split_slash (s : list N) : list (list N) :=
  match s with
  | [] => [[]]
  | c :: r =>
    if c =? 47 then [] :: split_slash r
    else match split_slash r with
         | w :: ws => (c :: w) :: ws
         | [] => [[c]]
         end
  end.

Fixpoint join_slash (ws : list (list N)) : list N :=
  match ws with
  | [] => []
  | [w] => w
  | w :: ws' => w ++ 47 :: join_slash ws'
  end.

(** one segment acts on the stack of kept segments (innermost first) *)
Definition seg_step (st : list (list N)) (w : list N) : list (list N) :=
  if leqb w [] then st
  else if leqb w [46] then st
  else if leqb w [46; 46] then tl st
  else w :: st.

(** the kept segments, outermost first *)
Definition kept (s : list N) : list (list N) := rev (fold_left seg_step (split_slash s) []).

Definition ends_slash (s : list N) : bool :=
  match rev s with c :: _ => c =? 47 | [] => false end.

Definition canon (s : list N) : list N :=
  let ws := kept s in
  join_slash ws ++ (if ends_slash s && negb (match ws with [] => true | _ => false end)
                    then [47] else []).

(** ** Grammar *)

(** RFC 3986 character classes, spelled out *)
Definition g_unreserved (c : N) : bool := is_alnum c || existsb (N.eqb c) (s2b "-._~").
Definition g_subdelim (c : N) : bool := existsb (N.eqb c) (s2b "!$&'()*+,;=").
Definition g_host (c : N) : bool := g_unreserved c || g_subdelim c.
Definition g_path (c : N) : bool := g_unreserved c || g_subdelim c || existsb (N.eqb c) (s2b "@:/").
Definition g_query (c : N) : bool := g_unreserved c || g_subdelim c || existsb (N.eqb c) (s2b "/?:@").
Definition g_scheme (c : N) : bool := is_alnum c || existsb (N.eqb c) (s2b "+-.").

(** [items ok dec src out]: [src] is a sequence of allowed characters, percent
    escapes other than %00, and non-ASCII characters in UTF-8; [out] is [src]
    with the escapes decoded when [dec]. *)
Inductive item (ok : N -> bool) (dec : bool) : list N -> list N -> Prop :=
| it_plain c : ok c = true -> item ok dec [c] [c]
| it_pct a b : is_xdigit a = true -> is_xdigit b = true -> (a, b) <> (48, 48) ->
    item ok dec [37; a; b] (if dec then [16 * hexval a + hexval b] else [37; a; b])
| it_utf8 cp : scalar cp -> 128 <= cp -> item ok dec (utf8_encode cp) (utf8_encode cp).

Inductive items (ok : N -> bool) (dec : bool) : list N -> list N -> Prop :=
| its_nil : items ok dec [] []
| its_cons a a' s s' : item ok dec a a' -> items ok dec s s' -> items ok dec (a ++ s) (a' ++ s').

(** value of a decimal string *)
Definition decimal (ds : list N) : N := fold_left (fun v d => v * 10 + (d - 48)) ds 0.

(** What a parsed IRI consists of. *)
Record comps := mkC {
  c_scheme : list N; c_host : list N; c_port : list N; c_port_no : N;
  c_path : list N; c_query : list N; c_fragment : list N }.

(** host, optionally followed by ":" and a port *)
Inductive g_hostname (ip6 : list N -> bool) : list N -> list N -> Prop :=
| gh_name src out : items g_host true src out -> g_hostname ip6 src (map to_lower out)
| gh_ip6 h : ~ In 93 h -> ip6 h = true -> g_hostname ip6 ([91] ++ h ++ [93]) h.

Inductive g_portpart : list N -> list N -> N -> Prop :=
| gp_none : g_portpart [] [] 1965
| gp_some ds : forallb is_digit ds = true -> decimal ds <= 65535 -> g_portpart (58 :: ds) ds (decimal ds).

(** everything after the authority *)
Inductive g_rest : list N -> list N -> list N -> list N -> Prop :=
| gr_none : g_rest [] [] [] []
| gr_path p p' : items g_path true p p' -> g_rest (47 :: p) (canon p') [] []
| gr_path_frag p p' f : items g_path true p p' ->
    g_rest (47 :: p ++ 35 :: f) (canon p') [] f
| gr_path_query p p' q : items g_path true p p' -> items g_query false q q ->
    g_rest (47 :: p ++ 63 :: q) (canon p') q []
| gr_path_query_frag p p' q f : items g_path true p p' -> items g_query false q q ->
    g_rest (47 :: p ++ 63 :: q ++ 35 :: f) (canon p') q f.

Inductive g_iri (ip6 : list N -> bool) : list N -> comps -> Prop :=
| g_iri_intro c sch hsrc host psrc port no rest path query frag :
    is_alpha c = true -> forallb g_scheme sch = true ->
    g_hostname ip6 hsrc host -> g_portpart psrc port no -> g_rest rest path query frag ->
    g_iri ip6 ((c :: sch) ++ s2b "://" ++ hsrc ++ psrc ++ rest)
      (mkC (map to_lower (c :: sch)) host port no path query frag).
