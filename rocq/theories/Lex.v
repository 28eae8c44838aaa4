(** Model of the lexer of the configuration file, parse.y:701-1120.

    A file being read is the bytes still to come: those pushed back by lungetc
    in front of those of the stream (getc(3) at the end keeps saying EOF, the
    stream does not change while it is read).  EOF is [None].  Line numbers,
    which only messages show, are left out; so are the messages, but not the
    count of errors.  Memory allocation does not fail.  ctype(3): "C" locale. *)
From Verif Require Import Base BaseLemmas Compat Mime Parse.
Local Open Scope N_scope.

(** parse.y:45-56 — [struct file] *)
Record lfile := mkLf { lf_text : list N; lf_eof : bool; lf_errors : nat }.
(** [file] and the files that include it, innermost first ([] when file ==
    topfile); [expanding]; the macros *)
Record lex := mkLex { lx_cur : lfile; lx_outer : list lfile; lx_exp : bool; lx_syms : list sym }.

Definition set_cur (f : lfile) (e : bool) (l : lex) : lex := mkLex f (lx_outer l) e (lx_syms l).
Definition set_text (s : list N) (e : bool) (l : lex) : lex := set_cur (mkLf s (lf_eof (lx_cur l)) (lf_errors (lx_cur l))) e l.
Definition text (l : lex) : list N := lf_text (lx_cur l).

(** parse.y:762-773 — [yyerror] *)
Definition yyerror (l : lex) : lex := set_cur (mkLf (text l) (lf_eof (lx_cur l)) (S (lf_errors (lx_cur l)))) (lx_exp l) l.

(** parse.y:702-760 — the keywords *)
Inductive kw :=
| ACCESS | ALIAS | AUTO | BLOCK | CA | CERT | CGI | CHROOT | CLIENT | DEFAULT | FACILITY | FASTCGI | FOR_HOST
| INCLUDE | INDEX | IPV6 | KEY | LANG | LISTEN | LOCATION | LOG | OCSP | OFF | ON | PARAM | PORT | PREFORK
| PROTO | PROTOCOLS | PROXY | PROXYV1 | RELAY_TO | REQUIRE | RETURN | ROOT | SERVER | SNI | SOCKET | STRIP | STYLE
| SYSLOG | TCP | TOEXT | TYPE | TYPES | USE_TLS | USER | VERIFYNAME.
Definition keywords : list (list N * kw) := map (fun p => (s2b (fst p), snd p))
  [("access", ACCESS); ("alias", ALIAS); ("auto", AUTO); ("block", BLOCK); ("ca", CA); ("cert", CERT); ("cgi", CGI);
   ("chroot", CHROOT); ("client", CLIENT); ("default", DEFAULT); ("facility", FACILITY); ("fastcgi", FASTCGI);
   ("for-host", FOR_HOST); ("include", INCLUDE); ("index", INDEX); ("ipv6", IPV6); ("key", KEY); ("lang", LANG);
   ("listen", LISTEN); ("location", LOCATION); ("log", LOG); ("ocsp", OCSP); ("off", OFF); ("on", ON); ("param", PARAM);
   ("port", PORT); ("prefork", PREFORK); ("proto", PROTO); ("protocols", PROTOCOLS); ("proxy", PROXY);
   ("proxy-v1", PROXYV1); ("relay-to", RELAY_TO); ("require", REQUIRE); ("return", RETURN); ("root", ROOT);
   ("server", SERVER); ("sni", SNI); ("socket", SOCKET); ("strip", STRIP); ("style", STYLE); ("syslog", SYSLOG);
   ("tcp", TCP); ("to-ext", TOEXT); ("type", TYPE); ("types", TYPES); ("use-tls", USE_TLS); ("user", USER);
   ("verifyname", VERIFYNAME)]%string.

(** what yylex returns: 0, ERROR, a character, STRING, NUM, a keyword *)
Inductive tok := TEnd | TErr | TChr (c : N) | TStr (s : list N) | TNum (z : Z) | TKw (k : kw).

(** bsearch(3) with [kw_cmp], parse.y:787-805 — [lookup]; [None] is STRING *)
Fixpoint kw_search (fuel : nat) (s : list N) (lo hi : nat) : res (option kw) :=
  match fuel with
  | O => Fuel
  | S f =>
    if (hi <=? lo)%nat then OK None else
    let mid := ((lo + hi) / 2)%nat in
    match nth_error keywords mid with
    | None => UB
    | Some e => match strcmp s (fst e) with
                | Eq => OK (Some (snd e))
                | Lt => kw_search f s lo mid
                | Gt => kw_search f s (S mid) hi
                end
    end
  end.
Definition lookup (s : list N) : res (option kw) := kw_search (S (length keywords)) s 0 (length keywords).

(** parse.y:807-808 *)
Definition START_EXPAND : N := 1.
Definition DONE_EXPAND : N := 2.

(** parse.y:812-830 — [igetc]: the next character that is no mark, and what follows *)
Fixpoint getmarks (s : list N) (e : bool) : option N * list N * bool :=
  match s with
  | [] => (None, [], e)
  | c :: r => if c =? START_EXPAND then getmarks r true else if c =? DONE_EXPAND then getmarks r false else (Some c, r, e)
  end.
Definition igetc (l : lex) : option N * lex :=
  let '(c, r, e) := getmarks (text l) (lx_exp l) in (c, set_text r e l).

(** parse.y:1104-1120 — [popfile]; [None] when [file == topfile] *)
Definition popfile (l : lex) : option lex :=
  match lx_outer l with
  | [] => None
  | p :: o => Some (mkLex (mkLf (lf_text p) (lf_eof p) (lf_errors p + lf_errors (lx_cur l))) o (lx_exp l) (lx_syms l))
  end.

(** parse.y:836-845 — [lgetc] with [quotec] not 0 *)
Definition lgetc_q (q : N) (l : lex) : option N * lex :=
  match igetc l with
  | (Some c, l) => (Some c, l)
  | (None, l) => let l := yyerror l in match popfile l with None => (None, l) | Some l => (Some q, l) end
  end.

(** parse.y:847-855 — two calls of igetc per round: [esc] after a backslash.  A
    backslash and a newline vanish; a backslash and another character are that
    character *)
Fixpoint getlines (esc : bool) (s : list N) (e : bool) : option N * list N * bool :=
  match s with
  | [] => (None, [], e)
  | c :: r =>
    if c =? START_EXPAND then getlines esc r true else if c =? DONE_EXPAND then getlines esc r false else
    if esc then (if c =? 10 then getlines false r e else (Some c, r, e))
    else if c =? 92 then getlines true r e else (Some c, r, e)
  end.
(** parse.y:867-871 — at the end of a file that had its end of line: back to the
    files that include it, until one goes on *)
Fixpoint popeof (fs : list lfile) (l : lex) : option N * lex :=
  match fs with
  | [] => (None, l)
  | _ :: fs' =>
    match popfile l with
    | None => (None, l)
    | Some l => match igetc l with (Some c, l) => (Some c, l) | (None, l) => popeof fs' l end
    end
  end.
(** parse.y:832-874 — [lgetc(0)] *)
Definition lgetc (l : lex) : option N * lex :=
  let '(c, r, e) := getlines false (text l) (lx_exp l) in
  match c with
  | Some c => (Some c, set_text r e l)
  | None =>
    if lf_eof (lx_cur l) then popeof (lx_outer l) (set_text r e l)
    else (Some 10, set_cur (mkLf r true (lf_errors (lx_cur l))) e l)
  end.

(** parse.y:876-889 — [lungetc] *)
Definition lungetc (c : option N) (l : lex) : lex :=
  match c with None => l | Some c => set_text (c :: text l) (lx_exp l) l end.

(** characters still to be read, at most *)
Definition fsize (f : lfile) : nat := (length (lf_text f) + (if lf_eof f then 0 else 1))%nat.
Definition size (l : lex) : nat := fold_right (fun f n => fsize f + n)%nat 0%nat (lx_cur l :: lx_outer l).

(** parse.y:891-907 — [findeol] *)
Fixpoint findeol_loop (fuel : nat) (l : lex) : res (tok * lex) :=
  match fuel with
  | O => Fuel
  | S f => match lgetc l with
           | (None, l) => OK (TErr, l)
           | (Some c, l) => if c =? 10 then OK (TErr, l) else findeol_loop f l
           end
  end.
Definition findeol (l : lex) : res (tok * lex) := findeol_loop (S (size l)) l.
Definition too_long (l : lex) : res (tok * lex) := findeol (yyerror l).

(** parse.y:912 — [char buf\[8096\]]; [*p++ = c] and [*p = 0] *)
Definition BUFSZ : N := 8096.
Definition blen (b : list N) : N := N.of_nat (length b).
Definition put (b : list N) (c : N) : res (list N) := if blen b <? BUFSZ then OK (b ++ [c]) else UB.
Definition terminate (b : list N) : res (list N) := if blen b <? BUFSZ then OK b else UB.

(** ctype(3) *)
Definition is_punct (c : N) : bool := (33 <=? c) && (c <=? 126) && negb (is_alnum c).
Definition name_char (c : N) : bool := is_alnum c || (c =? 95).
(** parse.y:1012-1013, 1045-1049 *)
Definition ends_number (c : N) : bool := is_space c || (c =? 41) || (c =? 44) || (c =? 47) || (c =? 125) || (c =? 61).
Definition in_string (c : N) : bool :=
  is_alnum c || (is_punct c && negb ((c =? 40) || (c =? 41) || (c =? 123) || (c =? 125) || (c =? 33) || (c =? 61) || (c =? 35) || (c =? 44) || (c =? 59))).
(** conversion of long long to int *)
Definition int32 (z : Z) : Z := ((z + 2147483648) mod 4294967296 - 2147483648)%Z.

(** parse.y:920-921 and 924-926: [while (test(c = lgetc(0)))] *)
Fixpoint skip_while (test : N -> bool) (fuel : nat) (l : lex) : res (option N * lex) :=
  match fuel with
  | O => Fuel
  | S f => match lgetc l with
           | (Some c, l) => if test c then skip_while test f l else OK (Some c, l)
           | (None, l) => OK (None, l)
           end
  end.
(** parse.y:928-942, 950-965 — the name of a macro; [inl]: yylex returns *)
Fixpoint read_name (fuel : nat) (b : list N) (l : lex) : res ((tok * lex) + (list N * lex)) :=
  match fuel with
  | O => Fuel
  | S f =>
    match lgetc l with
    | (None, l) => OK (inl (TEnd, l))
    | (Some c, l) =>
      if BUFSZ - 1 <=? blen b + 1 then let* r := too_long l in OK (inl r) else
      if name_char c then let* b := put b c in read_name f b l
      else let* b := terminate b in OK (inr (b, lungetc (Some c) l))
    end
  end.
(** parse.y:983-1010 — a quoted string *)
Fixpoint read_quoted (fuel : nat) (q : N) (b : list N) (l : lex) : res (tok * lex) :=
  match fuel with
  | O => Fuel
  | S f =>
    match lgetc_q q l with
    | (None, l) => OK (TEnd, l)
    | (Some c, l) =>
      let store c l := if BUFSZ - 1 <=? blen b + 1 then too_long l else let* b := put b c in read_quoted f q b l in
      if c =? 10 then read_quoted f q b l
      else if c =? 92 then
        match lgetc_q q l with
        | (None, l) => OK (TEnd, l)
        | (Some n, l) =>
          if (n =? q) || (n =? 32) || (n =? 9) then store n l
          else if n =? 10 then read_quoted f q b l
          else store c (lungetc (Some n) l)
        end
      else if c =? q then let* b := terminate b in OK (TStr b, l)
      else if c =? 0 then too_long l
      else store c l
    end
  end.
(** parse.y:1015-1022, 1052-1058 — [do ... while] over digits or words; [inl]: too
    long; else the characters, the next one and the rest *)
Fixpoint read_while (test : N -> bool) (fuel : nat) (c : N) (b : list N) (l : lex) : res ((tok * lex) + (list N * option N * lex)) :=
  match fuel with
  | O => Fuel
  | S f =>
    let* b := put b c in
    if BUFSZ <=? blen b then let* r := too_long l in OK (inl r) else
    match lgetc l with
    | (None, l) => OK (inr (b, None, l))
    | (Some c, l) => if test c then read_while test f c b l else OK (inr (b, Some c, l))
    end
  end.
(** parse.y:1051-1062 *)
Definition read_word (c : N) (l : lex) : res (tok * lex) :=
  let* r := read_while in_string (S (size l)) c [] l in
  match r with
  | inl r => OK r
  | inr (b, c, l) =>
    let l := lungetc c l in
    let* b := terminate b in
    let* k := lookup b in
    OK (match k with Some k => TKw k | None => TStr b end, l)
  end.
(** parse.y:1051-1070 — what starts no macro, string or number *)
Definition read_other (c : option N) (l : lex) : res (tok * lex) :=
  match c with
  | None => OK (TEnd, l)
  | Some c =>
    if is_alnum c || (c =? 58) || (c =? 95) then read_word c l
    else OK (if c =? 0 then TEnd else TChr c, l)
  end.
(** parse.y:1015-1043 *)
Definition read_number (c : N) (l : lex) : res (tok * lex) :=
  let* r := read_while is_digit (S (size l)) c [] l in
  match r with
  | inl r => OK r
  | inr (b, n, l) =>
    let l := lungetc n l in
    if negb (leqb b [45]) && match n with None => true | Some n => ends_number n end then
      let* b := terminate b in
      match strtonum b LLONG_MIN LLONG_MAX with
      | (z, NumOk) => OK (TNum (int32 z), l)
      | _ => too_long l
      end
    else
      let l := fold_left (fun l c => lungetc (Some c) l) (rev (tl b)) l in
      match b with
      | [] => UB
      | c :: _ => if c =? 45 then OK (TChr c, l) else read_other (Some c) l
      end
  end.

(** parse.y:969-976 — the value of a macro is pushed back from its last byte to its
    first, as [char]: where that is signed (as on amd64) the byte 255 is EOF to
    lungetc, which drops it *)
Definition unget (v : list N) : list N := filter (fun c => negb (c =? 255)) v.

(** parse.y:909-1070 — [yylex]; [fuel] counts the jumps to [top] *)
Fixpoint yylex_top (fuel : nat) (l : lex) : res (tok * lex) :=
  match fuel with
  | O => Fuel
  | S f =>
    let* (c, l) := skip_while (fun c => (c =? 32) || (c =? 9)) (S (size l)) l in
    let* (c, l) := match c with
                   | Some 35 => skip_while (fun c => negb (c =? 10)) (S (size l)) l
                   | _ => OK (c, l) end in
    match c with
    | None => OK (TEnd, l)
    | Some c =>
      if ((c =? 36) || (c =? 64)) && negb (lx_exp l) then
        let* r := read_name (S (size l)) [] l in
        match r with
        | inl r => OK r
        | inr (b, l) =>
          match symget b (lx_syms l) with
          | None => too_long l
          | Some v =>
            if c =? 36 then OK (TStr v, l)
            else yylex_top f (set_text (START_EXPAND :: unget v ++ DONE_EXPAND :: text l) (lx_exp l) l)
          end
        end
      else if (c =? 39) || (c =? 34) then read_quoted (S (size l)) c [] l
      else if (c =? 45) || is_digit c then read_number c l
      else read_other (Some c) l
    end
  end.
Definition yylex (l : lex) : res (tok * lex) := yylex_top (S (size l)) l.

(** parse.y:1076-1102 — [pushfile], and parse.y:165-180: the file [s] is included *)
Definition pushfile (s : list N) (l : lex) : lex :=
  mkLex (mkLf s false 0) (lx_cur l :: lx_outer l) (lx_exp l) (lx_syms l).
Definition include_file (s : list N) (l : lex) : lex := lungetc (Some 10) (pushfile s l).
