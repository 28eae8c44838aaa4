(** How tokens are written in the configuration file (gmid.conf(5)), said without
    the lexer. *)
From Verif Require Import Base BaseLemmas Compat_Proofs Lex.
Local Open Scope N_scope.

(** gmid.conf(5): the reserved words *)
Definition spelling (k : kw) : string :=
  (match k with
   | ACCESS => "access" | ALIAS => "alias" | AUTO => "auto" | BLOCK => "block" | CA => "ca" | CERT => "cert" | CGI => "cgi"
   | CHROOT => "chroot" | CLIENT => "client" | DEFAULT => "default" | FACILITY => "facility" | FASTCGI => "fastcgi"
   | FOR_HOST => "for-host" | INCLUDE => "include" | INDEX => "index" | IPV6 => "ipv6" | KEY => "key" | LANG => "lang"
   | LISTEN => "listen" | LOCATION => "location" | LOG => "log" | OCSP => "ocsp" | OFF => "off" | ON => "on"
   | PARAM => "param" | PORT => "port" | PREFORK => "prefork" | PROTO => "proto" | PROTOCOLS => "protocols"
   | PROXY => "proxy" | PROXYV1 => "proxy-v1" | RELAY_TO => "relay-to" | REQUIRE => "require" | RETURN => "return"
   | ROOT => "root" | SERVER => "server" | SNI => "sni" | SOCKET => "socket" | STRIP => "strip" | STYLE => "style"
   | SYSLOG => "syslog" | TCP => "tcp" | TOEXT => "to-ext" | TYPE => "type" | TYPES => "types" | USE_TLS => "use-tls"
   | USER => "user" | VERIFYNAME => "verifyname" end)%string.

Definition digit (c : N) : Prop := 48 <= c <= 57.
Definition letter (c : N) : Prop := 65 <= c <= 90 \/ 97 <= c <= 122.
Definition blank (c : N) : Prop := c = 32 \/ c = 9.
Definition white (c : N) : Prop := c = 32 \/ 9 <= c <= 13.

(** a word: begins with a letter, a digit, ':' or '_' and goes on over printable
    characters other than ( ) { } ! = # , ; and the backslash *)
Definition word_start (c : N) : Prop := letter c \/ digit c \/ c = 58 \/ c = 95.
Definition word_char (c : N) : Prop := 33 <= c <= 126 /\ ~ In c (s2b "(){}!=#,;\").
Definition word (w : list N) : Prop := exists c r, w = c :: r /\ word_start c /\ Forall word_char r /\ N.of_nat (length w) <= 8095.
(** the reserved words are keywords, others strings *)
Definition word_token (w : list N) (t : tok) : Prop :=
  (exists k, w = s2b (spelling k) /\ t = TKw k) \/ ((forall k, w <> s2b (spelling k)) /\ t = TStr w).
(** the end of the file counts as the end of its line *)
Definition next_of (rest : list N) : N := hd 10 rest.
Definition ends_word (rest : list N) : Prop := ~ word_char (next_of rest) /\ next_of rest <> 92.
(** what a number must be followed by *)
Definition ends_num (rest : list N) : Prop := white (next_of rest) \/ In (next_of rest) (s2b "),/}=").
(** a word that begins with a number that ends there is not read as a word *)
Definition begins_number (s : list N) : Prop :=
  exists d rest, s = d ++ rest /\ d <> [] /\ Forall digit d /\ ~ digit (next_of rest) /\ ends_num rest.

(** numbers *)
Definition number (n : list N) (z : Z) : Prop :=
  is_dec n z /\ (exists d, (n = d \/ n = 45 :: d) /\ Forall digit d) /\ N.of_nat (length n) <= 8095 /\ (-2147483648 <= z <= 2147483647)%Z.

(** between quotes [q]: [quoted q text s].  Newlines are dropped; a backslash stands
    for itself unless a quote, a blank, a tab or a newline follows *)
Inductive quoted (q : N) : list N -> list N -> Prop :=
| qd_nil : quoted q [] []
| qd_chr c t s : ~ In c [q; 92; 10; 0; 1; 2] -> quoted q t s -> quoted q (c :: t) (c :: s)
| qd_nl t s : quoted q t s -> quoted q (10 :: t) s
| qd_esc c t s : In c [q; 32; 9] -> quoted q t s -> quoted q (92 :: c :: t) (c :: s)
| qd_join t s : quoted q t s -> quoted q (92 :: 10 :: t) s
| qd_bs c t s : ~ In c [q; 32; 9; 10; 1; 2] -> quoted q (c :: t) s -> quoted q (92 :: c :: t) (92 :: s).

(** a comment runs to the end of the line, unless a backslash escapes that *)
Inductive comment : list N -> Prop :=
| cm_nil : comment []
| cm_chr c s : ~ In c [10; 92; 1; 2] -> comment s -> comment (c :: s)
| cm_esc c s : ~ In c [1; 2] -> comment s -> comment (92 :: c :: s).

Definition name_byte (c : N) : Prop := letter c \/ digit c \/ c = 95.
Definition macro_name (n : list N) : Prop := Forall name_byte n /\ N.of_nat (length n) <= 8093.
Definition ends_name (rest : list N) : Prop := ~ name_byte (next_of rest) /\ next_of rest <> 92.

(** [spells val e after text ts]: [text] stands for [ts].  [val] are the macros, [e]
    says whether [text] is itself the value of a macro, [after] what comes after
    [text]. *)
Inductive spells (val : list N -> option (list N)) : bool -> list N -> list N -> list tok -> Prop :=
| sp_end e after : spells val e after [] []
| sp_blank e after c t ts : blank c -> spells val e after t ts -> spells val e after (c :: t) ts
| sp_join e after t ts : spells val e after t ts -> spells val e after (92 :: 10 :: t) ts
| sp_comment e after s t ts : comment s -> spells val e after (10 :: t) ts -> spells val e after (35 :: s ++ 10 :: t) ts
| sp_comment_eof s : comment s -> spells val false [] (35 :: s) []
| sp_word e after w k t ts : word w -> ends_word (t ++ after) -> ~ begins_number (w ++ t ++ after) -> word_token w k ->
    spells val e after t ts -> spells val e after (w ++ t) (k :: ts)
| sp_quoted e after q s b t ts : q = 34 \/ q = 39 -> quoted q s b -> N.of_nat (length b) <= 8094 ->
    spells val e after t ts -> spells val e after (q :: s ++ q :: t) (TStr b :: ts)
| sp_number e after n z t ts : number n z -> ends_num (t ++ after) ->
    spells val e after t ts -> spells val e after (n ++ t) (TNum z :: ts)
| sp_minus e after t ts : ~ digit (next_of (t ++ after)) -> next_of (t ++ after) <> 92 ->
    spells val e after t ts -> spells val e after (45 :: t) (TChr 45 :: ts)
| sp_char e after c t ts : ~ blank c -> ~ word_start c -> ~ In c [0; 1; 2; 34; 35; 39; 45; 92] -> (e = false -> c <> 36 /\ c <> 64) ->
    spells val e after t ts -> spells val e after (c :: t) (TChr c :: ts)
| sp_macro after n v t ts : macro_name n -> ends_name (t ++ after) -> val n = Some v ->
    spells val false after t ts -> spells val false after (36 :: n ++ t) (TStr v :: ts)
| sp_expand after n v t vs ts : macro_name n -> ends_name (t ++ after) -> val n = Some v -> ~ In 255 v ->
    spells val true (t ++ after) v vs -> spells val false after t ts -> spells val false after (64 :: n ++ t) (vs ++ ts).

(** the lexer gives these tokens, then goes on as from [l'] *)
Fixpoint lexes (l : lex) (ts : list tok) (l' : lex) : Prop :=
  match ts with
  | [] => yylex l = yylex l'
  | t :: ts => exists l1, yylex l = OK (t, l1) /\ lexes l1 ts l'
  end.
