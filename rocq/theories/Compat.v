(** Model of compat/strlcpy.c, compat/strlcat.c, compat/strtonum.c,
    compat/memmem.c and of the string helpers of utils.c. *)
From Verif Require Import Base TwoWay.
Local Open Scope N_scope.

(** [while ( *src++ ) ;] of compat/strlcpy.c:43-44: position after the NUL. *)
Fixpoint skip_nul (fuel : nat) (src : list N) (s : nat) : res nat :=
  match fuel with
  | O => Fuel
  | S f => let* c := rd src s in if c =? 0 then OK (S s) else skip_nul f src (S s)
  end.

(** compat/strlcpy.c:33-36 — [while (--nleft != 0) if (( *dst++ = *src++ ) == 0) break];
    result: nleft, destination buffer, dst, src. *)
Fixpoint strlcpy_loop (nleft : nat) (dst : list N) (d : nat) (src : list N) (s : nat)
  : res (nat * list N * nat * nat) :=
  match nleft with
  | O => Fuel (* not reached: called with nleft <> 0 *)
  | S n =>
    match n with
    | O => OK (0%nat, dst, d, s)
    | S _ =>
      let* c := rd src s in
      let* dst' := wr dst d c in
      if c =? 0 then OK (n, dst', S d, S s)
      else strlcpy_loop n dst' (S d) src (S s)
    end
  end.

(** compat/strlcpy.c:27-48 — [strlcpy]; [dst] and [src] are the objects the
    two pointers point to; the result is the return value and the new [dst]. *)
Definition strlcpy (dst src : list N) (dsize : nat) : res (nat * list N) :=
  let* (nleft, dst1, d, s) :=
    match dsize with O => OK (0%nat, dst, 0%nat, 0%nat) | _ => strlcpy_loop dsize dst 0 src 0 end in
  match nleft with
  | O =>
    let* dst2 := match dsize with O => OK dst1 | _ => wr dst1 d 0 end in
    let* s' := skip_nul (S (length src)) src s in
    OK ((s' - 1)%nat, dst2)
  | _ => OK ((s - 1)%nat, dst1)
  end.

(** compat/strlcat.c:38-40 — [while (n-- != 0 && *dst != 0) dst++] *)
Fixpoint find_end (n : nat) (dst : list N) (d : nat) : res nat :=
  match n with
  | O => OK d
  | S n' => let* c := rd dst d in if c =? 0 then OK d else find_end n' dst (S d)
  end.

(** compat/strlcat.c:45-51 — the copying loop; result: dst buffer, dst, src *)
Fixpoint strlcat_loop (fuel n : nat) (dst : list N) (d : nat) (src : list N) (s : nat)
  : res (list N * nat * nat) :=
  match fuel with
  | O => Fuel
  | S f =>
    let* c := rd src s in
    if c =? 0 then OK (dst, d, s)
    else match n with
         | O => strlcat_loop f n dst d src (S s)
         | S n' => let* dst' := wr dst d c in strlcat_loop f n' dst' (S d) src (S s)
         end
  end.

(** compat/strlcat.c:29-55 — [strlcat] *)
Definition strlcat (dst src : list N) (dsize : nat) : res (nat * list N) :=
  let* dlen := find_end dsize dst 0 in
  match (dsize - dlen)%nat with
  | O => let* l := strlen src 0 in OK ((dlen + l)%nat, dst)
  | S n =>
    let* (dst1, d, s) := strlcat_loop (S (length src)) n dst dlen src 0 in
    let* dst2 := wr dst1 d 0 in
    OK ((dlen + s)%nat, dst2)
  end.

(** strtoll(3) in base 10 on a C string: value (clamped, with the ERANGE flag)
    and the unparsed rest; [None] when there are no digits. libc, not gmid:
    isspace, an optional sign, digits. *)
Definition is_space (c : N) : bool := (c =? 32) || ((9 <=? c) && (c <=? 13)).

Fixpoint drop_space (s : list N) : list N :=
  match s with c :: r => if is_space c then drop_space r else s | [] => [] end.

Fixpoint digits_val (s : list N) (acc : Z) : Z * list N :=
  match s with
  | c :: r => if is_digit c then digits_val r (acc * 10 + Z.of_N (c - 48)) else (acc, s)
  | [] => (acc, [])
  end.

Definition LLONG_MAX : Z := 9223372036854775807.
Definition LLONG_MIN : Z := (-9223372036854775808).

Definition strtoll (s : list N) : option (Z * bool * list N) :=
  let s1 := drop_space s in
  let '(neg, s2) := match s1 with
                    | c :: r => if c =? 45 then (true, r) else if c =? 43 then (false, r) else (false, s1)
                    | [] => (false, s1)
                    end in
  match s2 with
  | c :: _ =>
    if is_digit c then
      let '(v, rest) := digits_val s2 0 in
      let v := if neg then (- v)%Z else v in
      if (v <? LLONG_MIN)%Z then Some (LLONG_MIN, true, rest)
      else if (LLONG_MAX <? v)%Z then Some (LLONG_MAX, true, rest)
      else Some (v, false, rest)
    else None
  | [] => None
  end.

(** compat/strtonum.c:28-65 — [strtonum]; error strings as constructors *)
Inductive numerr := NumOk | NumInvalid | NumTooSmall | NumTooLarge.

Definition strtonum (s : list N) (minval maxval : Z) : Z * numerr :=
  let '(ll, error) :=
    if (maxval <? minval)%Z then (0%Z, NumInvalid)
    else match strtoll s with
         | None => (0%Z, NumInvalid)
         | Some (ll, erange, rest) =>
           match rest with
           | _ :: _ => (ll, NumInvalid)
           | [] =>
             if (Z.eqb ll LLONG_MIN && erange) || (ll <? minval)%Z then (ll, NumTooSmall)
             else if (Z.eqb ll LLONG_MAX && erange) || (maxval <? ll)%Z then (ll, NumTooLarge)
             else (ll, NumOk)
           end
         end in
  match error with NumOk => (ll, NumOk) | e => (0%Z, e) end.

(** memchr(3): offset of the first [c] in the first [k] bytes from [h] *)
Fixpoint memchr (m : list N) (h k : nat) (c : N) : res (option nat) :=
  match k with
  | O => OK None
  | S k' => let* x := rd m h in if x =? c then OK (Some h) else memchr m (S h) k' c
  end.

(** compat/memmem.c:31-38 — [twobyte_memmem]; the loop variable is [k], [hw]
    is a uint16_t. *)
Fixpoint twobyte_loop (k : nat) (m : list N) (h : nat) (hw nw : N) : res (option nat) :=
  match k with
  | O => OK (if hw =? nw then Some (h - 2)%nat else None)
  | S k' =>
    if hw =? nw then OK (Some (h - 2)%nat)
    else let* c := rd m h in
         twobyte_loop k' m (S h) (N.lor (N.shiftl hw 8) c mod 2^16) nw
  end.

Definition twobyte_memmem (m : list N) (h k : nat) (n0 n1 : N) : res (option nat) :=
  let* a := rd m h in
  let* b := rd m (h + 1) in
  twobyte_loop (k - 2) m (h + 2) (N.lor (N.shiftl a 8) b) (N.lor (N.shiftl n0 8) n1).

(** compat/memmem.c:40-48 — [threebyte_memmem]; [hw] is a uint32_t *)
Fixpoint threebyte_loop (k : nat) (m : list N) (h : nat) (hw nw : N) : res (option nat) :=
  match k with
  | O => OK (if hw =? nw then Some (h - 3)%nat else None)
  | S k' =>
    if hw =? nw then OK (Some (h - 3)%nat)
    else let* c := rd m h in
         threebyte_loop k' m (S h) (N.shiftl (N.lor hw c) 8 mod 2^32) nw
  end.

Definition threebyte_memmem (m : list N) (h k : nat) (n0 n1 n2 : N) : res (option nat) :=
  let* a := rd m h in
  let* b := rd m (h + 1) in
  let* c := rd m (h + 2) in
  threebyte_loop (k - 3) m (h + 3)
    (N.lor (N.lor (N.shiftl a 24) (N.shiftl b 16)) (N.shiftl c 8))
    (N.lor (N.lor (N.shiftl n0 24) (N.shiftl n1 16)) (N.shiftl n2 8)).

(** compat/memmem.c:50-58 — [fourbyte_memmem] *)
Fixpoint fourbyte_loop (k : nat) (m : list N) (h : nat) (hw nw : N) : res (option nat) :=
  match k with
  | O => OK (if hw =? nw then Some (h - 4)%nat else None)
  | S k' =>
    if hw =? nw then OK (Some (h - 4)%nat)
    else let* c := rd m h in
         fourbyte_loop k' m (S h) (N.lor (N.shiftl hw 8 mod 2^32) c) nw
  end.

Definition fourbyte_memmem (m : list N) (h k : nat) (n0 n1 n2 n3 : N) : res (option nat) :=
  let* a := rd m h in
  let* b := rd m (h + 1) in
  let* c := rd m (h + 2) in
  let* d := rd m (h + 3) in
  fourbyte_loop (k - 4) m (h + 4)
    (N.lor (N.lor (N.lor (N.shiftl a 24) (N.shiftl b 16)) (N.shiftl c 8)) d)
    (N.lor (N.lor (N.lor (N.shiftl n0 24) (N.shiftl n1 16)) (N.shiftl n2 8)) n3).

(** compat/memmem.c:164-185 — [memmem]; the haystack is the first [k] bytes of
    [m], the result an offset in [m] *)
Definition memmem (m : list N) (k : nat) (needle : list N) : res (option nat) :=
  match needle with
  | [] => OK (Some 0%nat)
  | n0 :: nr =>
    if (k <? length needle)%nat then OK None else
    let* h := memchr m 0 k n0 in
    match h with
    | None => OK None
    | Some h =>
      match nr with
      | [] => OK (Some h)
      | _ =>
        let k := (k - h)%nat in
        if (k <? length needle)%nat then OK None else
        match nr with
        | [n1] => twobyte_memmem m h k n0 n1
        | [n1; n2] => threebyte_memmem m h k n0 n1 n2
        | [n1; n2; n3] => fourbyte_memmem m h k n0 n1 n2 n3
        | _ => twoway_memmem m h (h + k) needle
        end
      end
    end
  end.

(** utils.c:43-58 — [strip_path] on a C string: the suffix it returns *)
Fixpoint from_slash (s : list N) : option (list N) :=
  match s with
  | [] => None
  | c :: r => if c =? 47 then Some s else from_slash r
  end.

Fixpoint strip_path (path : list N) (strip : nat) : list N :=
  match strip with
  | O => path
  | S n => match from_slash path with
           | None => []
           | Some t => strip_path t n
           end
  end.

(** utils.c:60-76 — [ends_with] *)
Fixpoint ends_loop (str sufx : list N) : bool :=
  match str, sufx with
  | [], _ => true
  | c :: r, d :: r' => if c =? d then ends_loop r r' else false
  | _ :: _, [] => false
  end.
Definition ends_with (str sufx : list N) : bool :=
  if (length str <? length sufx)%nat then false
  else ends_loop (skipn (length str - length sufx) str) sufx.
