(** Vocabulary of C89: what a TLS configuration should hold, said without the model of the
    code; and what may be left behind in memory. *)
From Verif Require Import Base Arr ArrSpec Keys.
Local Open Scope N_scope.

(** the bytes a source gives, if it does: a file must be read to its end *)
Definition content (s : src) : option (list N) :=
  match s with
  | Mem d => Some d
  | Disk (File size (Some d)) => if size <=? N.of_nat (length d) then Some (firstn (N.to_nat size) d) else None
  | Disk _ => None
  end.
Definition got (s : option src) : option (list N) := match s with Some s => content s | None => None end.
Definition delivered (s : option src) := s <> None -> got s <> None.

Section Effect.
(** the text of the hash of a certificate's public key, if it can be had *)
Variable pubkey : list N -> option (list N).
(** ... as a C string *)
Definition hashed (c : option (list N)) : option (list N) :=
  match c with Some d => match pubkey d with Some h => Some (h ++ [0]) | None => None end | None => None end.
Definition hashes (c : option (list N)) := c <> None -> hashed c <> None.

(** one keypair: certificate, private key, OCSP staple, hash of the public key *)
Definition pair : Type := option (list N) * option (list N) * option (list N) * option (list N).
(** [vs] becomes [vs'] when the operation answers [ok] *)
Definition effect (o : op) (ok : bool) (vs vs' : list pair) : Prop :=
  match o, ok, vs with
  | OCert a, true, (_, k, s, _) :: r => delivered a /\ hashes (got a) /\ vs' = (got a, k, s, hashed (got a)) :: r
  | OCert a, false, (_, k, s, h) :: r => exists c h', In (c, h') [(None, h); (got a, None)] /\ vs' = (c, k, s, h') :: r
  | OKey b, true, (c, _, s, h) :: r => delivered b /\ vs' = (c, got b, s, h) :: r
  | OKey b, false, (c, _, s, h) :: r => vs' = (c, None, s, h) :: r
  | OSet a b t, true, (_, _, s, _) :: r => delivered a /\ hashes (got a) /\ delivered b /\ delivered t /\
      vs' = (got a, got b, match t with None => s | Some _ => got t end, hashed (got a)) :: r
  | OSet a b t, false, (_, k, s, h) :: r =>
      exists c' k' s' h', In (c', k', s', h')
        [(None, k, s, h); (got a, k, s, None); (got a, None, s, hashed (got a)); (got a, got b, None, hashed (got a))] /\ vs' = (c', k', s', h') :: r
  | OAdd a b t, true, vs => delivered a /\ hashes (got a) /\ delivered b /\ delivered t /\ vs' = vs ++ [(got a, got b, got t, hashed (got a))]
  | OAdd _ _ _, false, vs => vs' = vs
  | OClear, ok, vs => ok = true /\ vs' = map (fun '(c, _, s, h) => (c, None, s, h)) vs
  | ORef, ok, vs | OFree, ok, vs => ok = true /\ vs' = vs
  | _, _, _ => False
  end.
Inductive effects : list op -> list bool -> list pair -> list pair -> Prop :=
| ef_nil vs : effects [] [] vs vs
| ef_cons o ok ops oks vs vs1 vs' : effect o ok vs vs1 -> effects ops oks vs1 vs' -> effects (o :: ops) (ok :: oks) vs vs'.
End Effect.

(** a field in memory *)
Definition reads (m : mem) (f : fld) (c : option (list N)) : Prop :=
  match c with
  | None => f = (None, 0)
  | Some d => fst f <> None /\ snd f = N.of_nat (length d) /\ load m (fst f) 0 (snd f) = OK (map By d)
  end.
(** a C string *)
Definition reads_str (m : mem) (p : option nat) (c : option (list N)) : Prop :=
  match c with None => p = None | Some d => p <> None /\ load m p 0 (N.of_nat (length d)) = OK (map By d) end.
Definition holds (m : mem) (k : keypair) (v : pair) : Prop :=
  let '(c, key, s, h) := v in reads m (kp_cert k) c /\ reads m (kp_key k) key /\ reads m (kp_staple k) s /\ reads_str m (kp_hash k) h.

(** references left after the operations; [None]: the last one was given back *)
Fixpoint refs (n : nat) (ops : list op) : option nat :=
  match ops with
  | [] => Some n
  | ORef :: r => refs (S n) r
  | OFree :: r => if (n <=? 1)%nat then None else refs (n - 1) r
  | _ :: r => refs n r
  end.

(** the certificates and the staples an operation is given *)
Definition certs (o : op) : list (option src) := match o with OCert a | OSet a _ _ | OAdd a _ _ => [a] | _ => [] end.
Definition staples (o : op) : list (option src) := match o with OSet _ _ t | OAdd _ _ t => [t] | _ => [] end.
(** what is no secret: zeros, the certificates, the staples, and the hashes of public keys *)
Definition public (pubkey : list N -> option (list N)) (ops : list op) (c : list cell) : Prop :=
  Forall (eq (By 0)) c \/
  exists o s d, In o ops /\ got s = Some d /\
    (In s (certs o ++ staples o) /\ c = map By d \/ In s (certs o) /\ exists h, pubkey d = Some h /\ c = map By (h ++ [0])).

(** nothing stands in the way of the operation *)
Definition fit (s : option src) := match s with
  | Some (Mem d) => N.of_nat (length d) < 2 ^ 57 | Some (Disk (File size _)) => size < 2 ^ 57 | _ => True end.
Definition fine (s : option src) := fit s /\ delivered s.
Definition possible (pubkey : list N -> option (list N)) (o : op) : Prop :=
  let cert a := fine a /\ forall d, got a = Some d -> exists h, pubkey d = Some h /\ N.of_nat (length (h ++ [0])) < 2 ^ 57 in
  match o with
  | OCert a => cert a | OKey b => fine b
  | OSet a b t | OAdd a b t => cert a /\ fine b /\ fine t
  | _ => True
  end.
