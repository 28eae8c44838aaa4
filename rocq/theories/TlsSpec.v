(** Certificates: which names they cover, and which one a client should see. *)
From Verif Require Import Base Conf Config Tls.
Local Open Scope N_scope.

(** names are compared without regard to (ASCII) case *)
Definition same_letter (a b : N) : Prop := a = b \/ (65 <= a <= 90 /\ b = a + 32) \/ (65 <= b <= 90 /\ a = b + 32).
Definition same_name : list N -> list N -> Prop := Forall2 same_letter.

(** RFC 6125: "*.domain.tld" stands for exactly one label in front of
    ".domain.tld"; the domain must have at least two labels itself *)
Definition two_labels (d : list N) : Prop := exists x y, d = x ++ 46 :: y /\ x <> [] /\ ~ In 46 x /\ hd 0 y <> 46.
Definition covers (pattern name : list N) : Prop :=
  same_name pattern name \/
  exists d host d', pattern = 42 :: 46 :: d /\ two_labels d /\ name = host ++ 46 :: d' /\ host <> [] /\ ~ In 46 host /\ same_name d d'.

(** the certificate is for this name: by its subjectAltName if it lists any name
    or address, by its common name otherwise.  [ip]: the name is an address. *)
Definition listed (c : cert) (a : altname) : Prop := exists l, x_alts c = Some (Some l) /\ In a l.
Definition lists_some (c : cert) : Prop := (exists i d, listed c (ADns i d)) \/ exists d, listed c (AIp d).
Definition certified (ip : option (list N)) (c : cert) (name : list N) : Prop :=
  match ip with
  | None => (exists d, listed c (ADns true d) /\ covers d name) \/
            (~ lists_some c /\ exists cn, x_cns c = [Some cn] /\ covers cn name)
  | Some a => listed c (AIp a) \/ (~ lists_some c /\ x_cns c = [Some name])
  end.

(** nothing in the certificate is malformed *)
Definition sound (c : cert) : Prop :=
  x_alts c <> Some None /\
  (forall d, listed c (ADns true d) -> ~ In 0 d /\ d <> [32]) /\
  (x_cns c = [] \/ exists cn, x_cns c = [Some cn] /\ (1 <= length cn <= 64)%nat /\ ~ In 0 cn).

(** a host listens on an address *)
Definition listens (h : chost) (a : addr) : Prop := exists b, In b (ch_addrs h) /\ ad_ai b = ad_ai a.
(** the key pair of a host *)
Definition pair_of (h : chost) : keypair := mkKp (ch_cert h) (ch_key h) (ch_ocsp h).

(** [ours a hs l]: [l] are those of [hs] that listen on [a], in the same order *)
Inductive listening (a : addr) : list chost -> list chost -> Prop :=
| ls_nil : listening a [] []
| ls_yes h hs l : listens h a -> listening a hs l -> listening a (h :: hs) (h :: l)
| ls_no h hs l : ~ listens h a -> listening a hs l -> listening a (h :: hs) l.

(** the parser keeps the addresses of a host distinct (parse.y:1358-1371) *)
Definition addresses_distinct (hs : list chost) : Prop := Forall (fun h => NoDup (map ad_ai (ch_addrs h))) hs.

(** [opened opendir chroot l l']: [l'] is [l], all of it, but that its root, if it
    has one, was opened: below the chroot if there is one *)
Definition opened (opendir : list N -> option N) (chroot : option (list N)) (l l' : location) : Prop :=
  l_match l' = l_match l /\ l_lang l' = l_lang l /\ l_default_mime l' = l_default_mime l /\ l_index l' = l_index l /\
  l_auto_index l' = l_auto_index l /\ l_block_code l' = l_block_code l /\ l_block_fmt l' = l_block_fmt l /\
  l_strip l' = l_strip l /\ l_reqca l' = l_reqca l /\ l_disable_log l' = l_disable_log l /\ l_fcgi l' = l_fcgi l /\
  l_nofcgi l' = l_nofcgi l /\ l_fcgi_strip l' = l_fcgi_strip l /\ l_params l' = l_params l /\ l_dir l' = l_dir l /\
  ((l_dir l = [] /\ l_dirfd l' = l_dirfd l) \/
   (l_dir l <> [] /\ exists fd, l_dirfd l' = Some fd /\
      opendir (match chroot with Some ((_ :: _) as root) => root ++ [47] ++ l_dir l | _ => l_dir l end) = Some fd)).
