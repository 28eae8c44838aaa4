(** Independent specification of UTF-8 (RFC 3629): the encoding of a Unicode
    scalar value. *)
From Verif Require Import Base.
Local Open Scope N_scope.

Definition scalar (cp : N) : Prop := cp < 55296 \/ 57344 <= cp <= 1114111.

Definition utf8_encode (cp : N) : list N :=
  if cp <? 128 then [cp]
  else if cp <? 2048 then [192 + cp / 64; 128 + cp mod 64]
  else if cp <? 65536 then [224 + cp / 4096; 128 + (cp / 64) mod 64; 128 + cp mod 64]
  else [240 + cp / 262144; 128 + (cp / 4096) mod 64; 128 + (cp / 64) mod 64;
        128 + cp mod 64].

(** Well-formed multibyte sequences, byte by byte (RFC 3629 section 4). *)
Definition inr (lo hi c : N) : bool := (lo <=? c) && (c <=? hi).
Definition cont (c : N) : bool := inr 128 191 c.
Definition wf2 (a b : N) : bool := inr 194 223 a && cont b.
Definition wf3 (a b c : N) : bool :=
  ((a =? 224) && inr 160 191 b || inr 225 236 a && cont b
   || (a =? 237) && inr 128 159 b || inr 238 239 a && cont b) && cont c.
Definition wf4 (a b c d : N) : bool :=
  ((a =? 240) && inr 144 191 b || inr 241 243 a && cont b
   || (a =? 244) && inr 128 143 b) && cont c && cont d.

(** Length of the well-formed multibyte sequence at the head of a string, if any. *)
Definition mb_len (s : list N) : option nat :=
  match s with
  | a :: b :: t =>
    if wf2 a b then Some 2%nat
    else match t with
    | c :: t' =>
      if wf3 a b c then Some 3%nat
      else match t' with
      | d :: _ => if wf4 a b c d then Some 4%nat else None
      | [] => None
      end
    | [] => None
    end
  | _ => None
  end.
