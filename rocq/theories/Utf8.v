(** Model of utf8.c. *)
From Verif Require Import Base.
Local Open Scope N_scope.

(** utf8.c:33-48 — the DFA table [utf8d] (400 entries). *)
Definition utf8d : list N := [
 0;0;0;0;0;0;0;0;0;0;0;0;0;0;0;0;0;0;0;0;0;0;0;0;0;0;0;0;0;0;0;0;
 0;0;0;0;0;0;0;0;0;0;0;0;0;0;0;0;0;0;0;0;0;0;0;0;0;0;0;0;0;0;0;0;
 0;0;0;0;0;0;0;0;0;0;0;0;0;0;0;0;0;0;0;0;0;0;0;0;0;0;0;0;0;0;0;0;
 0;0;0;0;0;0;0;0;0;0;0;0;0;0;0;0;0;0;0;0;0;0;0;0;0;0;0;0;0;0;0;0;
 1;1;1;1;1;1;1;1;1;1;1;1;1;1;1;1;9;9;9;9;9;9;9;9;9;9;9;9;9;9;9;9;
 7;7;7;7;7;7;7;7;7;7;7;7;7;7;7;7;7;7;7;7;7;7;7;7;7;7;7;7;7;7;7;7;
 8;8;2;2;2;2;2;2;2;2;2;2;2;2;2;2;2;2;2;2;2;2;2;2;2;2;2;2;2;2;2;2;
 10;3;3;3;3;3;3;3;3;3;3;3;3;4;3;3;
 11;6;6;6;5;8;8;8;8;8;8;8;8;8;8;8;
 0;1;2;3;5;8;7;1;1;1;4;6;1;1;1;1;
 1;1;1;1;1;1;1;1;1;1;1;1;1;1;1;1;1;0;1;1;1;1;1;0;1;0;1;1;1;1;1;1;
 1;2;1;1;1;1;1;2;1;2;1;1;1;1;1;1;1;1;1;1;1;1;1;2;1;1;1;1;1;1;1;1;
 1;2;1;1;1;1;1;1;1;2;1;1;1;1;1;1;1;1;1;1;1;1;1;3;1;3;1;1;1;1;1;1;
 1;3;1;1;1;1;1;3;1;3;1;1;1;1;1;1;1;3;1;1;1;1;1;1;1;1;1;1;1;1;1;1].

(** utf8.c:50-60 — [utf8_decode]: new (state, codepoint).  The code point is a
    uint32_t: the left shift wraps. Reading outside the table is UB. *)
Definition utf8_decode (state cp byte : N) : res (N * N) :=
  let* ty := rd utf8d (N.to_nat byte) in
  let cp' := if negb (state =? 0)
             then N.lor (N.land byte 63) (N.shiftl cp 6 mod 2^32)
             else N.land (N.shiftr 255 ty) byte in
  let* st' := rd utf8d (N.to_nat (256 + state * 16 + ty)) in
  OK (st', cp').

(** utf8.c:66-70 — the loop of [valid_multibyte_utf8]; returns the final
    position, state and code point. *)
Fixpoint utf8_loop (fuel : nat) (m : list N) (pos : nat) (state cp : N)
  : res (nat * N * N) :=
  match fuel with
  | O => Fuel
  | S f =>
    let* c := rd m pos in
    if c =? 0 then OK (pos, state, cp)
    else
      let* (st', cp') := utf8_decode state cp c in
      if st' =? 0 then OK (pos, st', cp')
      else utf8_loop f m (S pos) st' cp'
  end.

(** utf8.c:63-80 — outcome of [valid_multibyte_utf8]: new position, whether
    it accepts, whether it sets the error. *)
Definition valid_multibyte_utf8 (m : list N) (pos : nat) : res (nat * bool * bool) :=
  let* (pos', state, cp) := utf8_loop (S (length m)) m pos 0 0 in
  if negb (state =? 0) || (cp <=? 127)
  then OK (pos', false, negb (state =? 0))
  else OK (pos', true, false).

(** utf8.c:82-97 — [utf8_nth]: pointer to the nth code point, or NULL. *)
Fixpoint utf8_nth_loop (fuel : nat) (m : list N) (pos i n : nat) (state cp : N)
  : res (nat * nat * N) :=
  match fuel with
  | O => Fuel
  | S f =>
    let* c := rd m pos in
    if (c =? 0) || negb (i <? n)%nat then OK (pos, i, state)
    else
      let* (st', cp') := utf8_decode state cp c in
      utf8_nth_loop f m (S pos) (if st' =? 0 then S i else i) n st' cp'
  end.

Definition utf8_nth (m : list N) (pos n : nat) : res (option nat) :=
  let* (pos', i, state) := utf8_nth_loop (S (length m)) m pos 0 n 0 0 in
  if negb (state =? 0) then OK None
  else if (i =? n)%nat then OK (Some pos') else OK None.
