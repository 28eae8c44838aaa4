(** Model of puny.c.  The output buffer is a list of bytes [out] with the
    current label starting at offset [o] and [len] bytes left; labels are C
    strings given by their bytes.  [char] is signed (as on amd64) and [int] is
    32 bits.  Signed overflow and division by zero in [adapt] are the outcome
    [Fault]; memory errors are [UB]. *)
From Verif Require Import Base Utf8 Compat.
Local Open Scope N_scope.

Inductive dres := Fault | Ret (ok : bool) (out : list N).

(** conversion to [int]: wrap to 32 bits, two's complement *)
Definition to_int (x : Z) : Z := ((x + 2^31) mod 2^32 - 2^31)%Z.
Definition int_ok (x : Z) : bool := ((- 2^31 <=? x) && (x <=? 2^31 - 1))%Z.

(** puny.c:44-47 — loop of [adapt] (at most 7 rounds for an int) *)
Fixpoint adapt_loop (fuel : nat) (delta k : Z) : option (Z * Z) :=
  match fuel with
  | O => None
  | S f => if (455 <? delta)%Z then adapt_loop f (Z.quot delta 35) (k + 36)%Z else Some (delta, k)
  end.

(** puny.c:31-49 — [adapt]; BASE 36, TMIN 1, TMAX 26, SKEW 38, DAMP 700 *)
Definition adapt (delta numpoints : Z) (firsttime : bool) : option Z :=
  let d := if firsttime then Z.quot delta 700 else Z.quot delta 2 in
  if (numpoints =? 0)%Z then None else
  let d := (d + Z.quot d numpoints)%Z in
  if negb (int_ok d) then None else
  match adapt_loop 32 d 0 with
  | None => None
  | Some (d, k) =>
    if negb (int_ok (36 * d)) then None
    else if (d + 38 =? 0)%Z then None
    else Some (k + Z.quot (36 * d) (d + 38))%Z
  end.

(** index of the last '-' (45), or the length if there is none (puny.c:62-67) *)
Fixpoint last_dash (s : list N) : option nat :=
  match s with
  | [] => None
  | c :: r => match last_dash r with
              | Some n => Some (S n)
              | None => if c =? 45 then Some 0%nat else None
              end
  end.

(** puny.c:69-73 — copy loop of [copy_label]; [*s > 'z'] on signed chars *)
Fixpoint copy_chars (s : list N) (out : list N) (o : nat) : res (option (list N)) :=
  match s with
  | [] => OK (Some out)
  | c :: r => if (122 <? c) && (c <? 128) then OK None
              else let* out := wr out o c in copy_chars r out (S o)
  end.

(** puny.c:51-76 — [copy_label]: the rest of the label and the buffer, or NULL *)
Definition copy_label (s : list N) (out : list N) (o len : nat) : res (option (list N * list N)) :=
  if (len <? length s)%nat then OK None else
  let t := match last_dash s with Some t => t | None => length s end in
  let* r := copy_chars (firstn t s) out o in
  OK (match r with None => None | Some out => Some (skipn t s, out) end).

(** puny.c:78-91 — [digit_value]; any other char is converted to unsigned int *)
Definition digit_value (c : N) : N :=
  if (65 <=? c) && (c <=? 90) then c - 65
  else if (97 <=? c) && (c <=? 122) then c - 97
  else if (48 <=? c) && (c <=? 57) then 26 + c - 48
  else if 128 <=? c then 2^32 - 256 + c else c.

(** puny.c:93-143 — [insert] *)
Definition insert (out : list N) (o len : nat) (cp : Z) (i : N) : res (bool * list N) :=
  if (cp <=? 127)%Z then OK (false, out) else
  if (1114111 <? cp)%Z then OK (false, out) else
  let c := Z.to_N cp in
  let l := if c <=? 2047 then 2%nat else if c <=? 65535 then 3%nat else 4%nat in
  let* t := utf8_nth out o (N.to_nat i) in
  match t with
  | None => OK (false, out)
  | Some t =>
    if (o + len <=? t + l)%nat then OK (false, out) else
    let* n := strlen out t in
    let* out := memmove out (t + l) t n in
    match l with
    | 2%nat =>
      let* out := wr out (t + 1) (N.land c 63 + 128) in
      let* out := wr out t (N.land (N.shiftr c 6) 31 + 192) in
      OK (true, out)
    | 3%nat =>
      let* out := wr out (t + 2) (N.land c 63 + 128) in
      let* out := wr out (t + 1) (N.land (N.shiftr c 6) 63 + 128) in
      let* out := wr out t (N.land (N.shiftr c 12) 15 + 224) in
      OK (true, out)
    | _ =>
      let* out := wr out (t + 3) (N.land c 63 + 128) in
      let* out := wr out (t + 2) (N.land (N.shiftr c 6) 63 + 128) in
      let* out := wr out (t + 1) (N.land (N.shiftr c 12) 63 + 128) in
      let* out := wr out t (N.land (N.shiftr c 18) 7 + 240) in
      OK (true, out)
    end
  end.

(** puny.c:181-204 — reading one variable-length integer; [i] is a size_t,
    the others unsigned ints.  [None]: label truncated. *)
Fixpoint read_int (s : list N) (i w k bias : N) : option (N * list N) :=
  match s with
  | [] => None
  | c :: r =>
    let digit := digit_value c in
    let i := (i + (digit * w) mod 2^32) mod 2^64 in
    let t := if k <=? bias then 1 else if (bias + 26) mod 2^32 <=? k then 26 else k - bias in
    if digit <? t then Some (i, r)
    else read_int r i ((w * (36 - t)) mod 2^32) ((k + 36) mod 2^32) bias
  end.

(** puny.c:176-214 — main loop of [decode] *)
Fixpoint decode_loop (fuel : nat) (s : list N) (out : list N) (o len : nat) (n i bias np : N) : res dres :=
  match fuel with
  | O => Fuel
  | S f =>
    match s with
    | [] => OK (Ret true out)
    | _ =>
      let oldi := i mod 2^32 in
      match read_int s i 1 36 bias with
      | None => OK (Ret false out)
      | Some (i, s) =>
        let delta := to_int (Z.of_N i - Z.of_N oldi) in
        match adapt delta (to_int (Z.of_N (np + 1))) (oldi =? 0) with
        | None => OK Fault
        | Some b =>
          let bias := Z.to_N (b mod 2^32) in
          let n := (n + i / (np + 1)) mod 2^32 in
          let i := i mod (np + 1) in
          let* (ok, out) := insert out o len (to_int (Z.of_N n)) i in
          if ok then decode_loop f s out o len n (i + 1) bias (np + 1)
          else OK (Ret false out)
        end
      end
    end
  end.

Definition is_prefix (p s : list N) : bool := leqb p (firstn (length p) s).

(** strncpy(3) to offset [o] *)
Definition strncpy (out : list N) (o : nat) (s : list N) (len : nat) : res (list N) :=
  if (o + len <=? length out)%nat
  then OK (firstn o out ++ firstn len (s ++ repeat 0 len) ++ skipn (o + len) out) else UB.

(** puny.c:145-217 — [decode] of one label *)
Definition decode (str : list N) (out : list N) (o len : nat) : res dres :=
  if negb (is_prefix (s2b "xn--") str) then
    let* out := strncpy out o str len in OK (Ret true out)
  else
    let str := skipn 4 str in
    let* r := (match last_dash str with
               | Some _ =>
                 let* r := copy_label str out o len in
                 OK (match r with
                     | None => None
                     | Some (s, out) => Some (match s with 45 :: s' => s' | _ => s end, out)
                     end)
               | None => OK (Some (str, out))
               end) in
    match r with
    | None => OK (Ret false out)
    | Some (s, out) =>
      let* np := strlen out o in
      decode_loop (S (length s)) s out o len 128 0 72 (N.of_nat np)
    end.

(** puny.c:219-225 — [end_of_label]: the label and what follows it ('.' = 46) *)
Fixpoint end_of_label (s : list N) : list N * list N :=
  match s with
  | [] => ([], [])
  | c :: r => if c =? 46 then ([], s) else let '(a, b) := end_of_label r in (c :: a, b)
  end.

(** gmid.h:77 *)
Definition LABEL_LEN : nat := 64.

(** puny.c:240-270 — loop of [puny_decode] *)
Fixpoint puny_loop (fuel : nat) (s : list N) (out : list N) (o len : nat) : res dres :=
  match fuel with
  | O => Fuel
  | S f =>
    let '(label, rest) := end_of_label s in
    if (LABEL_LEN <=? length label)%nat then OK (Ret false out) else
    let* d := decode label out o len in
    match d with
    | Fault => OK Fault
    | Ret false out => OK (Ret false out)
    | Ret true out =>
      match rest with
      | [] => OK (Ret true out)
      | _ :: s' =>
        let* (n, sub) := strlcat (skipn o out) (s2b "." ++ [0]) len in
        let out := firstn o out ++ sub in
        if (len <=? n)%nat then OK (Ret false out) else
        let* l := strlen out o in
        if (len <=? l)%nat then OK (Ret false out) else
        puny_loop f s' out (o + l) (len - l)
      end
    end
  end.

(** puny.c:227-271 — [puny_decode] of a non-NULL host name into a buffer of
    [len] bytes *)
Definition puny_decode (host : list N) (len : nat) : res dres :=
  puny_loop (S (length host)) host (repeat 0 len) 0 len.

