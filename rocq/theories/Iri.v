(** Model of iri.c, at the level of memory: the IRI is parsed in place in one
    buffer [mem]; all [char *] are offsets into it. *)
From Verif Require Import Base Utf8.
Local Open Scope N_scope.

(** iri.c:23-31 — [unreserved] *)
Definition unreserved (c : N) : bool :=
  is_alnum c || (c =? 45) (* - *) || (c =? 46) (* . *) || (c =? 95) (* _ *)
  || (c =? 126) (* ~ *).

(** iri.c:33-47 — [sub_delimiters] *)
Definition sub_delimiters (c : N) : bool :=
  (c =? 33) (* ! *) || (c =? 36) (* $ *) || (c =? 38) (* & *) || (c =? 39) (* ' *)
  || (c =? 40) (* ( *) || (c =? 41) (* ) *) || (c =? 42) (* * *) || (c =? 43) (* + *)
  || (c =? 44) (* , *) || (c =? 59) (* ; *) || (c =? 61) (* = *).

(** iri.c:49-63 — [valid_pct_enc_string] *)
Definition valid_pct_enc_string (m : list N) (s : nat) : res bool :=
  let* c0 := rd m s in
  if negb (c0 =? 37) then OK true else
  let* c1 := rd m (s + 1) in
  if negb (is_xdigit c1) then OK false else
  let* c2 := rd m (s + 2) in
  if negb (is_xdigit c2) then OK false else
  if (c1 =? 48) && (c2 =? 48) then OK false else OK true.

(** iri.c:80-85 — [pct_decode]; sscanf "%2hhx" is modelled on the two hex
    digits its callers have checked. *)
Definition pct_decode (m : list N) (s : nat) : res (list N) :=
  let* c1 := rd m (s + 1) in
  let* c2 := rd m (s + 2) in
  let* m1 := wr m s (16 * hexval c1 + hexval c2) in
  let* n := strlen m1 (s + 3) in
  memmove m1 (s + 1) (s + 3) (n + 1).

(** gmid.h [struct iri] (iri.h:17-25): pointers are offsets. *)
Record iri := mkIri {
  i_schema : nat; i_host : nat; i_port : nat; i_port_no : N;
  i_path : nat; i_query : nat; i_fragment : nat }.

(** gmid.h [struct parser]; [perr] is [p->err != NULL] (the text is not modelled). *)
Record pst := mkP { mem : list N; pos : nat; parsed : iri; perr : bool }.

Definition set_pos (p : pst) (n : nat) := mkP (mem p) n (parsed p) (perr p).
Definition set_mem (p : pst) (m : list N) := mkP m (pos p) (parsed p) (perr p).
Definition set_parsed (p : pst) (i : iri) := mkP (mem p) (pos p) i (perr p).
Definition set_err (p : pst) := mkP (mem p) (pos p) (parsed p) true.
Definition put (p : pst) (c : N) : res pst := let* m := wr (mem p) (pos p) c in OK (set_mem p m).

(** iri.c:65-78 — [valid_pct_encoded] *)
Definition valid_pct_encoded (p : pst) : res (bool * pst) :=
  let* c := rd (mem p) (pos p) in
  if negb (c =? 37) then OK (false, p) else
  let* v := valid_pct_enc_string (mem p) (pos p) in
  if negb v then OK (false, set_err p)
  else OK (true, set_pos p (pos p + 2)).

(** iri.c:87-105 — [parse_pct_encoded] *)
Definition parse_pct_encoded (p : pst) : res (bool * pst) :=
  let* c := rd (mem p) (pos p) in
  if negb (c =? 37) then OK (false, p) else
  let* v := valid_pct_enc_string (mem p) (pos p) in
  if negb v then OK (false, set_err p) else
  let* m := pct_decode (mem p) (pos p) in
  let p1 := set_mem p m in
  let* d := rd (mem p1) (pos p1) in
  if d =? 0 then OK (false, set_err p1) else OK (true, p1).

(** utf8.c:63-80 — [valid_multibyte_utf8] acting on the parser *)
Definition p_multibyte (p : pst) : res (bool * pst) :=
  let* (n, b, e) := valid_multibyte_utf8 (mem p) (pos p) in
  OK (b, let p1 := set_pos p n in if e then set_err p1 else p1).

(** iri.c:126-135 — loop of [parse_scheme] *)
Definition scheme_char (c : N) : bool :=
  is_alnum c || (c =? 43) (* + *) || (c =? 45) (* - *) || (c =? 46) (* . *).

Fixpoint scheme_loop (fuel : nat) (p : pst) : res pst :=
  match fuel with
  | O => Fuel
  | S f =>
    let* c := rd (mem p) (pos p) in
    let* p1 := put p (to_lower c) in
    let p2 := set_pos p1 (S (pos p1)) in
    let* c' := rd (mem p2) (pos p2) in
    if scheme_char c' then scheme_loop f p2 else OK p2
  end.

(** iri.c:108-148 — [parse_scheme] *)
Definition parse_scheme (p : pst) : res (bool * pst) :=
  let i := parsed p in
  let p := set_parsed p (mkIri (pos p) (i_host i) (i_port i) (i_port_no i)
                               (i_path i) (i_query i) (i_fragment i)) in
  let* c := rd (mem p) (pos p) in
  if negb (is_alpha c) then OK (false, set_err p) else
  let* p1 := scheme_loop (S (length (mem p))) p in
  let* c1 := rd (mem p1) (pos p1) in
  if negb (c1 =? 58) (* : *) then OK (false, set_err p1) else
  let* p2 := put p1 0 in
  let* s1 := rd (mem p2) (pos p2 + 1) in
  if negb (s1 =? 47) then OK (false, set_err p2) else
  let* s2 := rd (mem p2) (pos p2 + 2) in
  if negb (s2 =? 47) then OK (false, set_err p2) else
  OK (true, set_pos p2 (pos p2 + 3)).

(** iri.c:156-164 — loop of [parse_port]; [i] is a uint32_t.
    Result: [Some i] or [None] ("port number too large"). *)
Fixpoint port_loop (fuel : nat) (p : pst) (i : N) : res (option N * pst) :=
  match fuel with
  | O => Fuel
  | S f =>
    let* c := rd (mem p) (pos p) in
    if is_digit c then
      let i' := (i * 10 + c - 48) mod 2^32 in
      if 65535 <? i' then OK (None, set_err p)
      else port_loop f (set_pos p (S (pos p))) i'
    else OK (Some i, p)
  end.

(** iri.c:151-179 — [parse_port]; [port_no] is a uint16_t. *)
Definition parse_port (p : pst) : res (bool * pst) :=
  let i := parsed p in
  let p := set_parsed p (mkIri (i_schema i) (i_host i) (pos p) (i_port_no i)
                               (i_path i) (i_query i) (i_fragment i)) in
  let* (n, p1) := port_loop (S (length (mem p))) p 0 in
  match n with
  | None => OK (false, p1)
  | Some v =>
    let* c := rd (mem p1) (pos p1) in
    if negb (c =? 47) && negb (c =? 0) then OK (false, set_err p1) else
    let i := parsed p1 in
    let p2 := set_parsed p1 (mkIri (i_schema i) (i_host i) (i_port i) (v mod 2^16)
                                   (i_path i) (i_query i) (i_fragment i)) in
    if negb (c =? 0) then
      let* p3 := put p2 0 in OK (true, set_pos p3 (S (pos p3)))
    else OK (true, p2)
  end.

(** A C condition [a(c) || b(p) || c(p)] of a scanning loop *)
Definition scan_cond (allowed : N -> bool) (pct : pst -> res (bool * pst)) (p : pst)
  : res (bool * pst) :=
  let* c := rd (mem p) (pos p) in
  if allowed c then OK (true, p) else
  let* (b, p1) := pct p in
  if b then OK (true, p1) else p_multibyte p1.

(** iri.c:208-217 — loop of [parse_authority].  [tolower] of a (negative) byte
    above 127 is taken to be the identity. *)
Definition host_char (c : N) : bool := unreserved c || sub_delimiters c.

Fixpoint host_loop (fuel : nat) (p : pst) : res pst :=
  match fuel with
  | O => Fuel
  | S f =>
    let* (b, p1) := scan_cond host_char parse_pct_encoded p in
    if b then
      let* c := rd (mem p1) (pos p1) in
      let* p2 := if (c <? 127) || (127 <? c) then put p1 (to_lower c) else OK p1 in
      host_loop f (set_pos p2 (S (pos p2)))
    else OK p1
  end.

(** strchr(3) *)
Fixpoint strchr_loop (fuel : nat) (m : list N) (p : nat) (c : N) : res (option nat) :=
  match fuel with
  | O => Fuel
  | S f =>
    let* x := rd m p in
    if x =? c then OK (Some p) else if x =? 0 then OK None else strchr_loop f m (S p) c
  end.

(** iri.c:182-241 — [parse_authority].  [ip6 host] stands for
    getaddrinfo(host, NULL, AI_NUMERICHOST) succeeding. *)
Definition parse_authority (ip6 : list N -> bool) (p : pst) : res (bool * pst) :=
  let* c := rd (mem p) (pos p) in
  let* (ok, p1) :=
    if c =? 91 (* [ *) then
      let p := set_pos p (S (pos p)) in
      let i := parsed p in
      let p := set_parsed p (mkIri (i_schema i) (pos p) (i_port i) (i_port_no i)
                                   (i_path i) (i_query i) (i_fragment i)) in
      let* e := strchr_loop (S (length (mem p))) (mem p) (pos p) 93 (* ] *) in
      match e with
      | None => OK (false, set_err p)
      | Some e =>
        let* m := wr (mem p) e 0 in
        let p := set_pos (set_mem p m) (S e) in
        match cstr_at (mem p) (i_host (parsed p)) with
        | None => UB
        | Some h => if ip6 h then OK (true, p) else OK (false, set_err p)
        end
      end
    else
      let i := parsed p in
      let p := set_parsed p (mkIri (i_schema i) (pos p) (i_port i) (i_port_no i)
                                   (i_path i) (i_query i) (i_fragment i)) in
      let* p1 := host_loop (S (length (mem p))) p in
      OK (negb (perr p1), p1) in
  if negb ok then OK (false, p1) else
  let* c := rd (mem p1) (pos p1) in
  if c =? 58 (* : *) then
    let* p2 := put p1 0 in
    parse_port (set_pos p2 (S (pos p2)))
  else
    let i := parsed p1 in
    let p2 := set_parsed p1 (mkIri (i_schema i) (i_host i) (i_port i) 1965
                                   (i_path i) (i_query i) (i_fragment i)) in
    if c =? 47 (* / *) then
      let* p3 := put p2 0 in OK (true, set_pos p3 (S (pos p3)))
    else if c =? 0 then OK (true, p2)
    else OK (false, set_err p2).

(** iri.c:250-295 — [path_clean]: loop over the two pointers p and q.
    [popq] is the inner loop [while (q > path && *--q != '/')]. *)
Definition is_at (m : list N) (i : nat) (c : N) : res bool :=
  let* x := rd m i in OK (x =? c).
Definition slash_or_end (m : list N) (i : nat) : res bool :=
  orr (is_at m i 47) (is_at m i 0).

Fixpoint popq (fuel : nat) (m : list N) (path q : nat) : res nat :=
  match fuel with
  | O => Fuel
  | S f =>
    if (path <? q)%nat then
      let* c := rd m (q - 1) in
      if c =? 47 then OK (q - 1)%nat else popq f m path (q - 1)
    else OK q
  end.

Fixpoint clean_loop (fuel : nat) (m : list N) (path p q : nat) : res (list N * nat * nat) :=
  match fuel with
  | O => Fuel
  | S f =>
    let* c := rd m p in
    if c =? 0 then OK (m, p, q) else
    let start := (q =? path)%nat in
    let* b1 := andr (OK start) (is_at m p 47) in
    if b1 then clean_loop f m path (p + 1) q else
    let* b2 := andr (OK start) (andr (is_at m p 46) (andr (is_at m (p + 1) 46)
                 (slash_or_end m (p + 2)))) in
    if b2 then
      let* s := is_at m (p + 2) 47 in
      clean_loop f m path (if s then p + 3 else p + 2)%nat q
    else
    let* b3 := andr (OK start) (andr (is_at m p 46) (slash_or_end m (p + 1))) in
    if b3 then
      let* s := is_at m (p + 1) 47 in
      clean_loop f m path (if s then p + 2 else p + 1)%nat q
    else
    let* b4 := andr (is_at m p 47) (is_at m (p + 1) 47) in
    if b4 then clean_loop f m path (p + 1) q else
    let* b5 := andr (is_at m p 47) (andr (is_at m (p + 1) 46) (andr (is_at m (p + 2) 46)
                 (slash_or_end m (p + 3)))) in
    if b5 then
      let* q' := popq (S (length m)) m path q in
      let* s := andr (OK (q' =? path)%nat) (is_at m (p + 3) 47) in
      clean_loop f m path (if s then p + 4 else p + 3)%nat q'
    else
    let* b6 := andr (is_at m p 47) (andr (is_at m (p + 1) 46) (slash_or_end m (p + 2))) in
    if b6 then clean_loop f m path (p + 2) q else
    let* m' := wr m q c in
    clean_loop f m' path (p + 1) (q + 1)
  end.

(** the trailing test that [p] is at the NUL never fires: the loop ended on NUL *)
Definition path_clean (m : list N) (path : nat) : res (bool * list N) :=
  let* (m1, p, q) := clean_loop (S (length m)) m path path path in
  let* c := rd m1 p in
  if negb (c =? 0) then OK (false, m1) else
  let* m2 := wr m1 q 0 in OK (true, m2).

(** iri.c:297-328 — [parse_query] *)
Definition query_char (c : N) : bool :=
  unreserved c || sub_delimiters c || (c =? 47) || (c =? 63) (* ? *) || (c =? 58) || (c =? 64) (* @ *).

Fixpoint scan_loop (fuel : nat) (allowed : N -> bool) (pct : pst -> res (bool * pst)) (p : pst)
  : res pst :=
  match fuel with
  | O => Fuel
  | S f =>
    let* (b, p1) := scan_cond allowed pct p in
    if b then scan_loop f allowed pct (set_pos p1 (S (pos p1))) else OK p1
  end.

Definition parse_query (p : pst) : res (bool * pst) :=
  let i := parsed p in
  let p := set_parsed p (mkIri (i_schema i) (i_host i) (i_port i) (i_port_no i)
                               (i_path i) (pos p) (i_fragment i)) in
  let* c := rd (mem p) (pos p) in
  if c =? 0 then OK (true, p) else
  let* p1 := scan_loop (S (length (mem p))) query_char valid_pct_encoded p in
  if perr p1 then OK (false, p1) else
  let* c := rd (mem p1) (pos p1) in
  if negb (c =? 0) && negb (c =? 35) (* # *) then OK (false, set_err p1) else
  if negb (c =? 0) then
    let* p2 := put p1 0 in OK (true, set_pos p2 (S (pos p2)))
  else OK (true, p1).

(** iri.c:330-336 — [parse_fragment] *)
Definition parse_fragment (p : pst) : pst :=
  let i := parsed p in
  set_parsed p (mkIri (i_schema i) (i_host i) (i_port i) (i_port_no i)
                      (i_path i) (i_query i) (pos p)).

(** iri.c:345-347 — trimming the initial slashes *)
Fixpoint trim_slashes (fuel : nat) (p : pst) : res pst :=
  match fuel with
  | O => Fuel
  | S f =>
    let* c := rd (mem p) (pos p) in
    if c =? 47 then trim_slashes f (set_pos p (S (pos p))) else OK p
  end.

(** iri.c:338-391 — [parse_path] *)
Definition path_char (c : N) : bool :=
  unreserved c || sub_delimiters c || (c =? 64) || (c =? 58) || (c =? 47).

Definition parse_path (p : pst) : res (bool * pst) :=
  let* p := trim_slashes (S (length (mem p))) p in
  let i := parsed p in
  let p := set_parsed p (mkIri (i_schema i) (i_host i) (i_port i) (i_port_no i)
                               (pos p) (i_query i) (i_fragment i)) in
  let* c := rd (mem p) (pos p) in
  if c =? 0 then
    let i := parsed p in
    OK (true, set_parsed p (mkIri (i_schema i) (i_host i) (i_port i) (i_port_no i)
                               (i_path i) (pos p) (pos p)))
  else
  let* p1 := scan_loop (S (length (mem p))) path_char parse_pct_encoded p in
  if perr p1 then OK (false, p1) else
  let* c := rd (mem p1) (pos p1) in
  if negb (c =? 0) && negb (c =? 63) && negb (c =? 35) then OK (false, set_err p1) else
  let* (ok, p2) :=
    if negb (c =? 0) then
      let* p2 := put p1 0 in
      let p2 := set_pos p2 (S (pos p2)) in
      if c =? 35 then OK (true, parse_fragment p2)
      else
        let* (b, p3) := parse_query p2 in
        if b then OK (true, parse_fragment p3) else OK (false, p3)
    else OK (true, p1) in
  if negb ok then OK (false, p2) else
  let* (b, m) := path_clean (mem p2) (i_path (parsed p2)) in
  if b then OK (true, set_mem p2 m) else OK (false, set_err (set_mem p2 m)).

(** iri.c:393-420 — [parse_iri] on a buffer starting at offset 0.  The
    [schema] field zeroed by memset is overwritten at once by [parse_scheme]. *)
Definition parse_iri (ip6 : list N -> bool) (buf : list N) : res (bool * pst) :=
  let* n := strlen buf 0 in
  let p := mkP buf 0 (mkIri 0 n n 0 n n n) false in
  let* (b1, p1) := parse_scheme p in
  if negb b1 then OK (false, p1) else
  let* (b2, p2) := parse_authority ip6 p1 in
  if negb b2 then OK (false, p2) else
  parse_path p2.

(** iri.c:449-484 — [encode_path]: the output buffer [buf] has [len] bytes and
    is zeroed first; [p] is the write pointer, [len] the room left.  The input
    C string is given by its bytes. *)
Definition hexdigit (a : N) : N := if a <=? 9 then 48 + a else 55 + a.

Definition enc_plain (c : N) : bool :=
  unreserved c || sub_delimiters c || (c =? 64) || (c =? 58) || (c =? 47).

Fixpoint encode_path_loop (buf : list N) (p len : nat) (path : list N) : res (Z * list N) :=
  match path with
  | [] => OK (0%Z, buf)
  | c :: r =>
    if (len =? 1)%nat then OK ((-1)%Z, buf)
    else if enc_plain c then
      let* buf := wr buf p c in
      encode_path_loop buf (p + 1) (len - 1) r
    else if (len <? 4)%nat then OK ((-1)%Z, buf)
    else
      let* buf := wr buf p 37 in
      let* buf := wr buf (p + 1) (hexdigit (N.shiftr (N.land c 240) 4)) in
      let* buf := wr buf (p + 2) (hexdigit (N.land c 15)) in
      encode_path_loop buf (p + 3) (len - 3) r
  end.

Definition encode_path (len : nat) (path : list N) : res (Z * list N) :=
  encode_path_loop (repeat 0 len) 0 len path.

(** iri.c:486-499 — [pct_decode_str] *)
Fixpoint pct_decode_str_loop (fuel : nat) (m : list N) (t : nat) : res (list N) :=
  match fuel with
  | O => Fuel
  | S f =>
    let* c := rd m t in
    if c =? 0 then OK m else
    if c =? 43 then let* m' := wr m t 32 in pct_decode_str_loop f m' (S t) else
    if c =? 37 then
      let* v := valid_pct_enc_string m t in
      if v then let* m' := pct_decode m t in pct_decode_str_loop f m' (S t)
      else pct_decode_str_loop f m (S t)
    else pct_decode_str_loop f m (S t)
  end.
Definition pct_decode_str (m : list N) : res (list N) := pct_decode_str_loop (S (length m)) m 0.
