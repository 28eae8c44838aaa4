(** Uploading with titan(1), independently of the code. *)
From Verif Require Import Base IriSpec Titan.
Local Open Scope N_scope.

(** ** the request *)

(** [ds] is the decimal notation of [n] *)
Definition numeral (n : N) (ds : list N) : Prop :=
  forallb is_digit ds = true /\ decimal ds = n /\ ds <> [] /\ (hd 0 ds = 48 -> ds = [48]).
Definition param (name : string) (v : option (list N)) : list N :=
  match v with Some t => s2b ";" ++ s2b name ++ s2b "=" ++ t | None => [] end.
(** the line that asks to store [size] (in digits) bytes as the resource [c] *)
Definition titan_line (c : comps) (size : list N) (token mime : option (list N)) : list N :=
  s2b "titan://" ++ c_host c ++ s2b "/" ++ c_path c ++
  param "size" (Some size) ++ param "token" token ++ param "mime" mime ++
  (match c_query c with [] => [] | q => s2b "?" ++ q end) ++ [13; 10].
Definition prefix (a b : list N) : Prop := exists r, b = a ++ r.

(** ** the answer *)

(** the header of an answer: what precedes the first CRLF, within the first 1025
    bytes *)
Inductive header : list N -> list N -> Prop :=
| hdr h b : (forall x y, h ++ [13] <> x ++ [13; 10] ++ y) -> (length h + 2 <= 1025)%nat ->
    header (h ++ [13; 10] ++ b) h.
(** a header: two digits making the code, a space, the meta text *)
Definition says (h : list N) (code : N) (meta : list N) : Prop :=
  exists d1 d2, h = d1 :: d2 :: 32 :: meta /\ is_digit d1 = true /\ is_digit d2 = true /\ code = decimal [d1; d2].
(** titan(1), EXIT STATUS; the target of a redirection is printed *)
Inductive outcome (rep : list N) : nat -> list N -> Prop :=
| oc_success h code meta : header rep h -> says h code meta -> 20 <= code < 30 -> outcome rep 0 []
| oc_redirect h code meta txt : header rep h -> says h code meta -> 30 <= code < 40 ->
    nonul txt -> meta = txt \/ prefix (txt ++ [0]) meta -> outcome rep 0 (txt ++ [10])
| oc_refused h code meta : header rep h -> says h code meta -> 10 <= code < 20 \/ 40 <= code < 70 -> outcome rep 2 []
| oc_garbage : (forall h code meta, header rep h -> says h code meta -> code < 10 \/ 70 <= code) -> outcome rep 1 [].

(** ** the network *)

(** what a turn delivers *)
Definition delivers (t : turn) : list N := match t_read t with Rgot b bs => b :: bs | _ => [] end.
(** nothing goes wrong in this turn, and the server does not close *)
Definition calm (t : turn) : Prop :=
  t_poll t = Pready /\ t_write t <> Werr /\ t_write t <> Wzero /\ t_read t <> Rerr /\ t_read t <> Reof.
(** the server sends [rep] and closes the connection *)
Inductive answers : list turn -> list N -> Prop :=
| an a t b : Forall (fun u => t_read u <> Rerr /\ t_read u <> Reof) a -> t_read t = Reof ->
    answers (a ++ t :: b) (concat (map delivers a)).
(** ... and nothing goes wrong until then *)
Inductive calmly_answers : list turn -> list N -> Prop :=
| can a t b : Forall calm a -> t_poll t = Pready -> t_read t = Reof ->
    calmly_answers (a ++ t :: b) (concat (map delivers a)).
(** the server says nothing in this turn *)
Definition silent (t : turn) : Prop := calm t /\ t_read t = Rwant.
(** the number of turns in which something is taken *)
Fixpoint takes (s : list turn) : nat :=
  match s with [] => O | t :: s => match t_write t with Wtook _ => S (takes s) | _ => takes s end end.

(** ** a run *)

(** the bytes are bytes and the buffers have their size *)
Definition env_ok (W : world) : Prop :=
  length (w_iribuf W) = 1025%nat /\ length (w_reqbuf W) = 1025%nat /\ length (w_resbuf W) = 1025%nat /\
  bytes (w_resbuf W) /\ Forall (fun t => bytes (delivers t)) (w_talk W).
(** the arguments are C strings *)
Definition nonul_opt (o : option (list N)) : Prop := match o with Some s => nonul s | None => True end.
Definition args_ok (o : opts) (url : list N) : Prop := nonul url /\ bytes url /\ nonul_opt (o_token o) /\ nonul_opt (o_mime o).
(** the standard port is 1965 *)
Definition default_port (p : list N) : list N := match p with [] => s2b "1965" | p => p end.
(** nothing goes wrong in this turn while the request is sent *)
Definition sending (t : turn) : Prop := t_poll t = Pready /\ t_write t <> Werr /\ t_write t <> Wzero.
(** the certificate and key files in use *)
Definition credentials (o : opts) : option (list N * list N) :=
  match o_cert o with Some f => Some (f, match o_key o with Some k => k | None => f end) | None => None end.
(** the same world, with the talk cut short *)
Definition until (W : world) (s : list turn) : world :=
  mkW (w_ip6 W) (w_iribuf W) (w_reqbuf W) (w_resbuf W) (w_keypair W) (w_dial W) (w_start W) (w_send W) s.
