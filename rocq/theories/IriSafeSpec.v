(** Independent specification of a path that cannot leave its root. *)
From Verif Require Import Base IriSpec.
Local Open Scope N_scope.

Definition proper_segment (w : list N) : Prop :=
  w <> [] /\ ~ In 47 w /\ w <> s2b "." /\ w <> s2b "..".

(** relative, no empty segment except possibly a last one (a trailing slash),
    no "." and no ".." *)
Definition safe_path (p : list N) : Prop :=
  p = [] \/ exists ws, ws <> [] /\ Forall proper_segment ws /\
                (split_slash p = ws \/ split_slash p = ws ++ [[]]).

(** Following the path from a directory, one component at a time: [None] when
    a ".." climbs above the start.  [d] is the current depth. *)
Fixpoint walk (d : nat) (ws : list (list N)) : option nat :=
  match ws with
  | [] => Some d
  | w :: r =>
    if leqb w [] || leqb w (s2b ".") then walk d r
    else if leqb w (s2b "..") then match d with O => None | S d' => walk d' r end
    else walk (S d) r
  end.
