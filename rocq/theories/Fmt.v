(** Model of the `block return' text: server.c [fmtbuf] and the checks of
    parse.y. *)
From Verif Require Import Base IriOut Conf.
Local Open Scope N_scope.

(** printf(3) "%d" *)
Fixpoint digits (fuel : nat) (n : N) : list N :=
  match fuel with
  | O => []
  | S f => if n <? 10 then [48 + n] else digits f (n / 10) ++ [48 + n mod 10]
  end.
Definition dec (n : N) : list N := digits (S (N.to_nat (N.log2 n))) n.
Definition decz (z : Z) : list N := if (z <? 0)%Z then 45 :: dec (Z.to_N (- z)) else dec (Z.to_N z).

(** gmid.h:124 — the port of an address is an int16_t *)
Definition int16 (port : N) : Z := if port <? 32768 then Z.of_N port else (Z.of_N port - 65536)%Z.

(** strlcat(3) on a destination of [len] bytes holding the string [b] (see C37) *)
Definition cat (len : nat) (b s : list N) : list N := b ++ firstn (len - 1 - length b) s.

(** what fmtbuf reads of the client *)
Record fmtctx := mkFmt { x_path : list N; x_query : list N; x_port : N; x_name : list N }.

(** server.c:432-481 — [fmtbuf]: [t] is the string in [tmp], of length [i].  A
    lone '%' at the end steps over the terminating NUL: undefined. *)
Fixpoint fmt_loop (x : fmtctx) (len : nat) (fmt buf t : list N) : res (list N) :=
  match fmt with
  | [] => OK (match t with [] => buf | _ => cat len buf t end)
  | c :: r =>
    let flush := (length t =? 31)%nat || (c =? 37) in
    let buf := if flush then cat len buf t else buf in
    let t := if flush then [] else t in
    if negb (c =? 37) then fmt_loop x len r buf (t ++ [c])
    else
      match r with
      | [] => UB
      | d :: r =>
        if d =? 37 then fmt_loop x len r (cat len buf [37]) t
        else if d =? 112 then
          let buf := match x_path x with 47 :: _ => buf | _ => cat len buf [47] end in
          fmt_loop x len r (cat len buf (x_path x)) t
        else if d =? 113 then fmt_loop x len r (cat len buf (x_query x)) t
        else if d =? 80 then fmt_loop x len r (cat len buf (firstn 31 (decz (int16 (x_port x))))) t
        else if d =? 78 then fmt_loop x len r (cat len buf (x_name x)) t
        else fmt_loop x len r buf t
      end
  end.

Definition fmtbuf (x : fmtctx) (len : nat) (fmt : list N) : res (list N) := fmt_loop x len fmt [] [].

(** parse.y:1227-1232 — [check_block_code]: no error reported *)
Definition check_block_code (n : Z) : bool :=
  negb ((n <? 10)%Z || (n >=? 70)%Z || ((n >=? 20)%Z && (n <=? 29)%Z)).

(** parse.y:1234-1257 — [check_block_fmt]: [OK true] when no error is reported.
    As above a lone '%' at the end makes the loop run past the string; the
    error has been reported then, and the outcome of the scan is undefined. *)
Fixpoint check_block_fmt (fmt : list N) : res bool :=
  match fmt with
  | [] => OK true
  | c :: r =>
    if negb (c =? 37) then check_block_fmt r
    else match r with
         | [] => UB
         | d :: r =>
           let ok := (d =? 37) || (d =? 112) || (d =? 113) || (d =? 80) || (d =? 78) in
           let* rest := check_block_fmt r in OK (ok && rest)
         end
  end.
