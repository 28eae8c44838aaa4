(** What is promised of replies relayed from FastCGI applications and from
    upstream servers. *)
From Verif Require Import Base Iri IriSpec IriObs Puny Conf Server ServerSpec RequestSpec BodySpec.
Local Open Scope N_scope.

(** ** the records of an application, for request 1: version, type, id,
    length, padding length, reserved; contents; padding *)
Inductive frames : list N -> list (N * list N) -> Prop :=
| fr_nil : frames [] []
| fr_cons ver ty l1 l0 pad rsv content padding s rs :
    l1 < 256 -> l0 < 256 -> N.of_nat (length content) = 256 * l1 + l0 -> N.of_nat (length padding) = pad ->
    frames s rs -> frames ([ver; ty; 0; 1; l1; l0; pad; rsv] ++ content ++ padding ++ s) ((ty, content) :: rs).

(** the standard output: type 6 *)
Definition stdout (rs : list (N * list N)) : list N := flat_map (fun r => if fst r =? 6 then snd r else []) rs.
(** only standard output and standard error (type 7) *)
Definition outputs (rs : list (N * list N)) : Prop := Forall (fun r => fst r = 6 \/ fst r = 7) rs.

(** ** a status line: two digits, a space, the meta *)
Definition status_line (code : N) (meta line : list N) : Prop :=
  10 <= code < 70 /\ nonul meta /\ line = [48 + code / 10; 48 + code mod 10; 32] ++ meta.

(** ** the bytes a peer sent in the course of a history *)
Definition app_bytes (es : list event) : list N :=
  flat_map (fun e => match e with EvFcgi _ x => x | _ => [] end) es.
Definition app_ended (es : list event) : bool :=
  existsb (fun e => match e with EvFcgiEnd _ => true | _ => false end) es.
Definition up_bytes (es : list event) : list N :=
  flat_map (fun e => match e with EvUp x => x | _ => [] end) es.
Definition up_ended (es : list event) : bool :=
  existsb (fun e => match e with EvUpEnd => true | _ => false end) es.

(** the client sends nothing more *)
Definition quiet (es : list event) : Prop :=
  Forall (fun e => match e with EvRead _ _ => False | _ => True end) es.

(** ** the shape of what an application may add after its records *)
(** a record that is not complete yet *)
Definition partial_record (x : list N) : Prop := x = [] \/ exists y r, y <> [] /\ frames (x ++ y) [r].
(** the end of the request (type 3, eight bytes), or something that is not a
    record for request 1 of a known type *)
Definition stopper (x : list N) : Prop :=
  (exists e content y, frames e [(3, content)] /\ length content = 8%nat /\ x = e ++ y) \/
  (exists ver ty i1 i0 l1 l0 pad rsv y, i0 + 256 * i1 <> 1 /\ x = [ver; ty; i1; i0; l1; l0; pad; rsv] ++ y) \/
  (exists e ty content y, frames e [(ty, content)] /\ ty <> 3 /\ ty <> 6 /\ ty <> 7 /\ x = e ++ y).

(** not the start of a status line *)
Definition bad_status (line : list N) : Prop :=
  ~ exists code rest, 10 <= code < 70 /\ line = [48 + code / 10; 48 + code mod 10; 32] ++ rest.

(** ** the status line of an upstream: any white space separates the code *)
Definition blank (c : N) : Prop := c = 32 \/ 9 <= c <= 13.
Definition upstream_line (code : N) (meta line : list N) : Prop :=
  10 <= code < 70 /\ nonul meta /\ exists b, blank b /\ line = [48 + code / 10; 48 + code mod 10; b] ++ meta.
Definition bad_upstream_line (line : list N) : Prop :=
  ~ exists code b rest, 10 <= code < 70 /\ blank b /\ line = [48 + code / 10; 48 + code mod 10; b] ++ rest.
