(** Fetching with gg(1), independently of the code. *)
From Verif Require Import Base IriSpec Titan TitanSpec Gg.
Local Open Scope N_scope.

(** ** an answer: a header of at most 2046 bytes, CRLF, a body *)
Inductive answer : list N -> list N -> list N -> Prop :=
| ans h body : (forall x y, h ++ [13] <> x ++ [13; 10] ++ y) -> (length h + 2 <= 2048)%nat ->
    answer (h ++ [13; 10] ++ body) h body.
(** no NUL: a text stops at the first one *)
Definition text_of (s t : list N) : Prop := nonul t /\ (s = t \/ prefix (t ++ [0]) s).

(** what -d prints *)
Inductive shows : dmode -> list N -> list N -> N -> list N -> list N -> list N -> Prop :=
| sh_none rep h code meta body : shows DNone rep h code meta body body
| sh_code rep h code meta body ds : numeral code ds -> shows DCode rep h code meta body (ds ++ [10])
| sh_header rep h code meta body t : text_of h t -> shows DHeader rep h code meta body (t ++ [10])
| sh_meta rep h code meta body t : text_of meta t -> shows DMeta rep h code meta body (t ++ [10])
| sh_all rep h code meta body : shows DAll rep h code meta body rep.
(** EXIT STATUS of the manual *)
Definition status (code : N) : nat := if (20 <=? code) && (code <? 30) then 0%nat else N.to_nat code.

(** ** the network *)
Definition gives (r : rres) : list N := match r with Rgot b bs => b :: bs | _ => [] end.
(** the server sends [rep] and closes *)
Inductive sends : list rres -> list N -> Prop :=
| snd_ a b : Forall (fun r => r <> Rerr /\ r <> Reof) a -> sends (a ++ Reof :: b) (concat (map gives a)).
(** the server sends [rep], and then closes, or breaks the connection, or nothing more
    has come so far *)
Inductive comes : list rres -> list N -> Prop :=
| comes_ a b : Forall (fun r => r <> Rerr /\ r <> Reof) a -> b = [] \/ (exists c, b = Rerr :: c \/ b = Reof :: c) ->
    comes (a ++ b) (concat (map gives a)).
(** the number of times something is taken *)
Fixpoint taken (s : list wres) : nat := match s with [] => O | Wtook _ :: s => S (taken s) | _ :: s => taken s end.

(** ** -P *)
Inductive proxy_arg : list N -> list N -> list N -> Prop :=
| pa_host h : ~ In 58 h -> hd 0 h <> 91 -> proxy_arg h h (s2b "1965")
| pa_port h p : ~ In 58 h -> hd 0 h <> 91 -> proxy_arg (h ++ 58 :: p) h p
| pa_ip6 h : ~ In 93 h -> proxy_arg ([91] ++ h ++ [93]) h (s2b "1965")
| pa_ip6_port h p : ~ In 93 h -> proxy_arg ([91] ++ h ++ [93; 58] ++ p) h p.

(** where to connect *)
Inductive target (o : gopts) (c : comps) : list N -> list N -> Prop :=
| tg_url : g_proxy o = None -> target o c (c_host c) (default_port (c_port c))
| tg_proxy a h p : g_proxy o = Some a -> proxy_arg a h p -> target o c h p.

(** ** what is printed of the text of the server *)
Inductive cleaned (ctl : list N -> bool) : list N -> Prop :=
| cl_end : cleaned ctl [10]
| cl_mark o : cleaned ctl o -> cleaned ctl (63 :: o)
| cl_char w o : ctl w = false -> w <> [10] -> cleaned ctl o -> cleaned ctl (w ++ o).

(** ** a run *)
Definition genv_ok (W : gworld) : Prop :=
  length (gw_iribuf W) = 1027%nat /\ length (gw_buf W) = 2048%nat /\ bytes (gw_buf W) /\
  Forall (fun r => bytes (gives r)) (gw_read W).
(** the options do not contradict each other and the certificate can be loaded *)
Definition gopts_ok (W : gworld) (o : gopts) : Prop :=
  (g_2 o && g_3 o = false) /\
  match g_cert o, g_key o with Some c, Some k => gw_keypair W c k = true | None, None => True | _, _ => False end /\
  match g_proxy o with Some a => exists h p, proxy_arg a h p | None => True end.
