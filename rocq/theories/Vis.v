(** Model of compat/vis.c: [isvisible], [vis] and [strnvis].  A C [int] holding
    a [char] is a [Z] between -128 and 127 (char is signed, as on amd64);
    [Z.land] is the [&] of two's complement. *)
From Verif Require Import Base.
Local Open Scope Z_scope.

(** compat/vis/vis.h — the flags *)
Definition VIS_OCTAL := 1. Definition VIS_CSTYLE := 2. Definition VIS_SP := 4. Definition VIS_TAB := 8.
Definition VIS_NL := 16. Definition VIS_SAFE := 32. Definition VIS_NOSLASH := 64. Definition VIS_GLOB := 256.
Definition VIS_DQ := 512. Definition VIS_ALL := 1024. Definition VIS_WHITE := 28.
Definition has (flag f : Z) : bool := negb (Z.land flag f =? 0).

(** conversion of a [char] to [int], and of an [int] to [u_char] or [char] *)
Definition sx (b : N) : Z := if (b <? 128)%N then Z.of_N b else Z.of_N b - 256.
Definition u8 (c : Z) : N := Z.to_N (c mod 256).

(** ctype(3), "C" locale *)
Definition isgraph (b : N) : bool := ((33 <=? b) && (b <=? 126))%N.
Definition iscntrl (b : N) : bool := ((b <? 32) || (b =? 127))%N.

(** compat/vis.c:49-77 — [isoctal], [isvisible] *)
Definition isoctal (c : Z) : bool := ((48 <=? u8 c) && (u8 c <=? 55))%N.
Definition globc (c : Z) : bool := (c =? 42) || (c =? 63) || (c =? 91) || (c =? 35).
Definition isvisible (c flag : Z) : bool :=
  ((c =? 92) || negb (has flag VIS_ALL)) &&
  (((0 <=? c) && (c <=? 255) && (u8 c <? 128)%N && (negb (globc c) || negb (has flag VIS_GLOB)) && isgraph (u8 c))
   || (negb (has flag VIS_SP) && (c =? 32))
   || (negb (has flag VIS_TAB) && (c =? 9))
   || (negb (has flag VIS_NL) && (c =? 10))
   || (has flag VIS_SAFE && ((c =? 8) || (c =? 7) || (c =? 13) || isgraph (u8 c)))).

(** compat/vis.c:83-166 — [vis]: the bytes written before the NUL; [nextc] is
    the following character *)
Definition cstyle (c nextc : Z) : option (list N) :=
  if c =? 10 then Some [92; 110]%N else if c =? 13 then Some [92; 114]%N else
  if c =? 8 then Some [92; 98]%N else if c =? 7 then Some [92; 97]%N else
  if c =? 11 then Some [92; 118]%N else if c =? 9 then Some [92; 116]%N else
  if c =? 12 then Some [92; 102]%N else if c =? 32 then Some [92; 115]%N else
  if c =? 0 then Some ([92; 48] ++ if isoctal nextc then [48; 48] else [])%N else None.
Definition octal (b : N) : list N := [92; (b / 64) mod 8 + 48; (b / 8) mod 8 + 48; b mod 8 + 48]%N.
Definition vis_rest (c flag : Z) : list N :=
  if (Z.land c 127 =? 32) || has flag VIS_OCTAL || (has flag VIS_GLOB && globc c)
  then octal (u8 c)
  else
    let slash := if has flag VIS_NOSLASH then [] else [92%N] in
    let meta := negb (Z.land c 128 =? 0) in
    let c := if meta then Z.land c 127 else c in
    slash ++ (if meta then [77%N] else []) ++
    (if iscntrl (u8 c) then [94%N; if c =? 127 then 63%N else u8 (c + 64)] else [45%N; u8 c]).
Definition vis (c flag nextc : Z) : list N :=
  if isvisible c flag then
    (if ((c =? 34) && has flag VIS_DQ) || ((c =? 92) && negb (has flag VIS_NOSLASH)) then [92%N] else []) ++ [u8 c]
  else match (if has flag VIS_CSTYLE then cstyle c nextc else None) with
       | Some l => l
       | None => vis_rest c flag
       end.

(** a call [vis(tbuf, ...)] with [char tbuf\[5\]] *)
Definition vis_tbuf (c flag nextc : Z) : res (list N) :=
  let l := vis c flag nextc in if (length l <? 5)%nat then OK l else UB.

(** memcpy(3) to [dst + d] *)
Fixpoint wrs (dst : list N) (d : nat) (l : list N) : res (list N) :=
  match l with [] => OK dst | b :: r => let* dst := wr dst d b in wrs dst (S d) r end.

(** compat/vis.c:204-226 — the encoding loop of [strnvis]; [end_] is the offset
    of [end] from [start], -1 when [siz] is 0.  Result: dst, [dst], [src], [i]. *)
Fixpoint strnvis_loop (fuel : nat) (dst : list N) (d : nat) (src : list N) (s : nat) (end_ flag : Z) (i : nat)
  : res (list N * nat * nat * nat) :=
  match fuel with
  | O => Fuel
  | S f =>
    let* b := rd src s in
    let c := sx b in
    if (c =? 0) || negb (Z.of_nat d <? end_) then OK (dst, d, s, i) else
    if isvisible c flag then
      if ((c =? 34) && has flag VIS_DQ) || ((c =? 92) && negb (has flag VIS_NOSLASH)) then
        if Z.of_nat d + 1 >=? end_ then OK (dst, d, s, 2%nat) else
        let* dst := wr dst d 92 in
        let* dst := wr dst (S d) (u8 c) in
        strnvis_loop f dst (S (S d)) src (S s) end_ flag 1
      else
        let* dst := wr dst d (u8 c) in
        strnvis_loop f dst (S d) src (S s) end_ flag 1
    else
      let* nb := rd src (S s) in
      let* t := vis_tbuf c flag (sx nb) in
      let i := length t in
      if Z.of_nat d + Z.of_nat i <=? end_ then
        let* dst := wrs dst d t in
        strnvis_loop f dst (d + i) src (S s) end_ flag i
      else OK (dst, d, s, i)
  end.

(** compat/vis.c:229-233 — the adjustment of the return value.  The code
    advances [dst] beyond its object here, which is formally undefined but only
    the difference is used: not flagged. *)
Fixpoint strnvis_count (fuel : nat) (src : list N) (s : nat) (flag : Z) (n : nat) : res nat :=
  match fuel with
  | O => Fuel
  | S f =>
    let* b := rd src s in
    if (sx b =? 0) then OK n else
    let* nb := rd src (S s) in
    let* t := vis_tbuf (sx b) flag (sx nb) in
    strnvis_count f src (S s) flag (n + length t)
  end.

(** compat/vis.c:194-235 — [strnvis]: return value and the new [dst] *)
Definition strnvis (dst src : list N) (siz : nat) (flag : Z) : res (nat * list N) :=
  let end_ := Z.of_nat siz - 1 in
  let* (dst, d, s, i) := strnvis_loop (S (length src)) dst 0 src 0 end_ flag 0 in
  let* dst := match siz with O => OK dst | _ => wr dst d 0 end in
  if Z.of_nat d + Z.of_nat i >? end_ then
    let* n := strnvis_count (S (length src)) src s flag d in OK (n, dst)
  else OK (d, dst).
