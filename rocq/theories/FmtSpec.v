(** What gmid.conf(5) says of the text of `block return': %% is a percent
    sign, %N the server name, %P the port, %p the path, %q the query; all else
    stands for itself. *)
From Verif Require Import Base Fmt.
Local Open Scope N_scope.

(** [rooted]: the path with one leading slash *)
Definition rooted (p : list N) : list N := match p with 47 :: _ => p | _ => 47 :: p end.

Inductive spec (x : fmtctx) : N -> list N -> Prop :=
| sp_percent : spec x 37 [37]
| sp_path : spec x 112 (rooted (x_path x))
| sp_query : spec x 113 (x_query x)
| sp_port : spec x 80 (dec (x_port x))
| sp_name : spec x 78 (x_name x).

Inductive expands (x : fmtctx) : list N -> list N -> Prop :=
| ex_nil : expands x [] []
| ex_char c fmt out : c <> 37 -> expands x fmt out -> expands x (c :: fmt) (c :: out)
| ex_spec d v fmt out : spec x d v -> expands x fmt out -> expands x (37 :: d :: fmt) (v ++ out).

(** formats made of characters and known specifiers *)
Inductive wf_fmt : list N -> Prop :=
| wf_nil : wf_fmt []
| wf_char c f : c <> 37 -> wf_fmt f -> wf_fmt (c :: f)
| wf_spec d f : In d [37; 112; 113; 80; 78] -> wf_fmt f -> wf_fmt (37 :: d :: f).
