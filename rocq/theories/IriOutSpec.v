(** Specification of percent-encoding, independent of the code. *)
From Verif Require Import Base IriSpec.
Local Open Scope N_scope.

Definition HEX : list N := s2b "0123456789ABCDEF".

(** encode everything that may not stand for itself in a path *)
Definition pct_encode (p : list N) : list N :=
  flat_map (fun c => if g_path c then [c]
                     else [37; nth (N.to_nat (c / 16)) HEX 0; nth (N.to_nat (c mod 16)) HEX 0]) p.

(** decoding of a query string: '+' is a space, %XX (not %00) a byte *)
Fixpoint url_decode (s : list N) : list N :=
  match s with
  | 43 :: r => 32 :: url_decode r
  | 37 :: ((a :: b :: r) as t) =>
    if is_xdigit a && is_xdigit b && negb ((a =? 48) && (b =? 48))
    then (16 * hexval a + hexval b) :: url_decode r
    else 37 :: url_decode t
  | c :: r => c :: url_decode r
  | [] => []
  end.

(** the request line that asks for the resource [c] *)
Definition request_line (c : comps) : list N :=
  c_scheme c ++ s2b "://" ++ c_host c ++ s2b "/" ++ c_path c ++
  match c_query c with [] => [] | q => s2b "?" ++ q end.
