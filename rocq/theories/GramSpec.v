(** What a configuration says (gmid.conf(5)): its parts, how each is written, what
    each must satisfy, and the configuration it stands for. *)
From Verif Require Import Base BaseLemmas Compat_Proofs Conf Config Mime Fmt Parse Prop_Parse Prop_Mime UpTls UpTlsSpec Lex LexSpec Gram.
Local Open Scope N_scope.

(** ** the parts *)
Inductive logopt := LgAccess (s : list N) | LgStyle (s : list N) | LgSyslog (facility : option (list N)) | LgSyslogOff.
Inductive gopt :=
| GChroot (s : list N) | GIpv6 (b : bool) | GLog (os : list logopt) | GPort (z : Z) | GPrefork (z : Z) | GProtocols (s : list N) | GUser (s : list N).
Inductive fopt := FParam (name val : list N) | FSocket (path : list N) (port : option (list N)) | FStrip (z : Z).
Inductive locopt :=
| LAuto (b : bool) | LBlock (code : Z) (meta : list N) | LType (s : list N) | LFcgi (os : list fopt) | LFcgiOff
| LIndex (s : list N) | LLang (s : list N) | LLog (b : bool) | LCa (s : list N) | LRoot (s : list N) | LStrip (z : Z).
Inductive pmatch := MProto (s : list N) | MHost (s : list N) (port : Z).
Inductive sitem :=
| SAlias (s : list N) | SCert (s : list N) | SKey (s : list N) | SOcsp (s : list N) | SParam (name val : list N)
| SListen (host : option (list N)) (port : list N) (proxyv1 : bool)
| SLoc (path : list N) (os : list locopt) | SProxy (ms : list pmatch) (os : list proxy_opt) | SOpt (o : locopt).
Inductive stmt := StOpt (o : gopt) | StServer (name : list N) (items : list sitem) | StTypes (ts : list (list N * list (list N))).

(** ** how they are written *)
(** a string: one or more, joined *)
Definition strs (s : list N) (ts : list tok) : Prop := exists ps, ps <> [] /\ ts = map TStr ps /\ s = concat ps.
(** ends of line and semicolons *)
Definition nls (ts : list tok) : Prop := Forall (fun t => t = TChr 10 \/ t = TChr 59) ts.
Inductive seq {A} (P : A -> list tok -> Prop) : list A -> list tok -> Prop :=
| sq_nil : seq P [] []
| sq_cons x xs a b c : P x a -> nls b -> seq P xs c -> seq P (x :: xs) (a ++ b ++ c).
Definition braces {A} (P : A -> list tok -> Prop) (xs : list A) (ts : list tok) : Prop :=
  exists b c, nls b /\ seq P xs c /\ ts = [TChr 123] ++ b ++ c ++ [TChr 125].
Definition flag (b : bool) : tok := TKw (if b then ON else OFF).

Inductive log_toks : logopt -> list tok -> Prop :=
| lg_access s a : strs s a -> log_toks (LgAccess s) ([TKw ACCESS] ++ a)
| lg_style s a : strs s a -> log_toks (LgStyle s) ([TKw STYLE] ++ a)
| lg_facility s a : strs s a -> log_toks (LgSyslog (Some s)) ([TKw SYSLOG; TKw FACILITY] ++ a)
| lg_syslog : log_toks (LgSyslog None) [TKw SYSLOG]
| lg_off : log_toks LgSyslogOff [TKw SYSLOG; TKw OFF].
Inductive gopt_toks : gopt -> list tok -> Prop :=
| gt_chroot s a : strs s a -> gopt_toks (GChroot s) ([TKw CHROOT] ++ a)
| gt_ipv6 b : gopt_toks (GIpv6 b) [TKw IPV6; flag b]
| gt_log o a : log_toks o a -> gopt_toks (GLog [o]) ([TKw LOG] ++ a)
| gt_logs os a : braces log_toks os a -> gopt_toks (GLog os) ([TKw LOG] ++ a)
| gt_port z : gopt_toks (GPort z) [TKw PORT; TNum z]
| gt_prefork z : gopt_toks (GPrefork z) [TKw PREFORK; TNum z]
| gt_protocols s a : strs s a -> gopt_toks (GProtocols s) ([TKw PROTOCOLS] ++ a)
| gt_user s a : strs s a -> gopt_toks (GUser s) ([TKw USER] ++ a).
Inductive fopt_toks : fopt -> list tok -> Prop :=
| ft_param n v a b : strs n a -> strs v b -> fopt_toks (FParam n v) ([TKw PARAM] ++ a ++ [TChr 61] ++ b)
| ft_socket p a : strs p a -> fopt_toks (FSocket p None) ([TKw SOCKET] ++ a)
| ft_tcp h a : strs h a -> fopt_toks (FSocket h (Some (s2b "9000"))) ([TKw SOCKET; TKw TCP] ++ a)
| ft_tcp_num h a z : strs h a -> fopt_toks (FSocket h (Some (decz z))) ([TKw SOCKET; TKw TCP] ++ a ++ [TKw PORT; TNum z])
| ft_tcp_port h a p b : strs h a -> strs p b -> fopt_toks (FSocket h (Some p)) ([TKw SOCKET; TKw TCP] ++ a ++ [TKw PORT] ++ b)
| ft_strip z : fopt_toks (FStrip z) [TKw STRIP; TNum z].
Inductive lopt_toks : locopt -> list tok -> Prop :=
| lt_auto b : lopt_toks (LAuto b) [TKw AUTO; TKw INDEX; flag b]
| lt_block : lopt_toks (LBlock 40 (s2b "temporary failure")) [TKw BLOCK]
| lt_return z : lopt_toks (LBlock z (s2b "temporary failure")) [TKw BLOCK; TKw RETURN; TNum z]
| lt_meta z s a : strs s a -> lopt_toks (LBlock z s) ([TKw BLOCK; TKw RETURN; TNum z] ++ a)
| lt_type s a : strs s a -> lopt_toks (LType s) ([TKw DEFAULT; TKw TYPE] ++ a)
| lt_fcgis os a : braces fopt_toks os a -> lopt_toks (LFcgi os) ([TKw FASTCGI] ++ a)
| lt_fcgi o a : fopt_toks o a -> lopt_toks (LFcgi [o]) ([TKw FASTCGI] ++ a)
| lt_fcgi_off : lopt_toks LFcgiOff [TKw FASTCGI; TKw OFF]
| lt_fcgi_path s a : strs s a -> lopt_toks (LFcgi [FSocket s None]) ([TKw FASTCGI] ++ a)
| lt_index s a : strs s a -> lopt_toks (LIndex s) ([TKw INDEX] ++ a)
| lt_lang s a : strs s a -> lopt_toks (LLang s) ([TKw LANG] ++ a)
| lt_log b : lopt_toks (LLog b) [TKw LOG; flag b]
| lt_ca s a : strs s a -> lopt_toks (LCa s) ([TKw REQUIRE; TKw CLIENT; TKw CA] ++ a)
| lt_root s a : strs s a -> lopt_toks (LRoot s) ([TKw ROOT] ++ a)
| lt_strip z : lopt_toks (LStrip z) [TKw STRIP; TNum z].

Section Spec.
Variable gai : option (list N) -> list N -> option (list (ainfo * list N)).
Variable service : list N -> option Z.
Variable files : list N -> option (list N).

(** a port: a number, or the name of a service *)
Definition port_named (s : list N) (z : Z) : Prop :=
  (is_dec s z /\ (0 <= z <= 65535)%Z) \/ ((forall y, is_dec s y -> ~ (0 <= y <= 65535)%Z) /\ service s = Some z).
Inductive pport_toks : Z -> list tok -> Prop :=
| pp_none : pport_toks 1965 []
| pp_num z : pport_toks z [TKw PORT; TNum z]
| pp_name s z : port_named s z -> pport_toks z [TKw PORT; TStr s].
Inductive pmatch_toks : pmatch -> list tok -> Prop :=
| mt_proto s a : strs s a -> pmatch_toks (MProto s) ([TKw PROTO] ++ a)
| mt_host s z a b : strs s a -> pport_toks z b -> pmatch_toks (MHost s z) ([TKw FOR_HOST] ++ a ++ b).
Inductive pmatches_toks : list pmatch -> list tok -> Prop :=
| ms_nil : pmatches_toks [] []
| ms_cons m ms a b : pmatch_toks m a -> pmatches_toks ms b -> pmatches_toks (m :: ms) (a ++ b).
Inductive popt_toks : proxy_opt -> list tok -> Prop :=
| pt_cert s a : strs s a -> popt_toks (PCert s) ([TKw CERT] ++ a)
| pt_key s a : strs s a -> popt_toks (PKey s) ([TKw KEY] ++ a)
| pt_protocols s a : strs s a -> popt_toks (PProtocols s) ([TKw PROTOCOLS] ++ a)
| pt_proxyv1 : popt_toks PProxyV1 [TKw PROXYV1]
| pt_relay s z a b : strs s a -> pport_toks z b -> popt_toks (PRelayTo s (decz z)) ([TKw RELAY_TO] ++ a ++ b)
| pt_ca s a : strs s a -> popt_toks (PReqCa s) ([TKw REQUIRE; TKw CLIENT; TKw CA] ++ a)
| pt_sni s a : strs s a -> popt_toks (PSni s) ([TKw SNI] ++ a)
| pt_tls b : popt_toks (PUseTls b) [TKw USE_TLS; flag b]
| pt_verify b : popt_toks (PVerifyName b) [TKw VERIFYNAME; flag b].
Definition addr_tok (h : option (list N)) : tok := match h with None => TChr 42 | Some s => TStr s end.
Inductive lport_toks : list N -> list tok -> Prop :=
| lp_none : lport_toks (s2b "1965") []
| lp_num z : lport_toks (decz z) [TKw PORT; TNum z]
| lp_name s : lport_toks s [TKw PORT; TStr s].
Inductive sitem_toks : sitem -> list tok -> Prop :=
| st_alias s a : strs s a -> sitem_toks (SAlias s) ([TKw ALIAS] ++ a)
| st_cert s a : strs s a -> sitem_toks (SCert s) ([TKw CERT] ++ a)
| st_key s a : strs s a -> sitem_toks (SKey s) ([TKw KEY] ++ a)
| st_ocsp s a : strs s a -> sitem_toks (SOcsp s) ([TKw OCSP] ++ a)
| st_param n v a b : strs n a -> strs v b -> sitem_toks (SParam n v) ([TKw PARAM] ++ a ++ [TChr 61] ++ b)
| st_listen h p x a : lport_toks p a -> sitem_toks (SListen h p x) ([TKw LISTEN; TKw ON; addr_tok h] ++ a ++ (if x then [TKw PROXYV1] else []))
| st_loc s os a b : strs s a -> braces lopt_toks os b -> sitem_toks (SLoc s os) ([TKw LOCATION] ++ a ++ b)
| st_proxy ms os a b : pmatches_toks ms a -> braces popt_toks os b -> sitem_toks (SProxy ms os) ([TKw PROXY] ++ a ++ b)
| st_opt o a : lopt_toks o a -> sitem_toks (SOpt o) a.
(** an extension: a string or a number *)
Inductive ext_tok : list N -> tok -> Prop := et_str s : ext_tok s (TStr s) | et_num z : ext_tok (decz z) (TNum z).
Inductive stmt_toks : stmt -> list tok -> Prop :=
| stm_opt o a : gopt_toks o a -> stmt_toks (StOpt o) a
| stm_server s items a b : strs s a -> braces sitem_toks items b -> stmt_toks (StServer s items) ([TKw SERVER] ++ a ++ b).

(** ** files *)
(** the macros defined so far *)
Definition val_of (syms : list sym) (n : list N) : option (list N) := symget n syms.
(** [ends text next]: [text] begins with the end of a line, after which comes [next];
    [None] at the end of the file *)
Inductive ends : list N -> option (list N) -> Prop :=
| en_nl r : ends (10 :: r) (Some r)
| en_semi r : ends (59 :: r) (Some r)
| en_comment s r : comment s -> ends (35 :: s ++ 10 :: r) (Some r)
| en_eof : ends [] None
| en_comment_eof s : comment s -> ends (35 :: s) None.
(** the name of a file, written before [rest] *)
Inductive file_name : list N -> list N -> list N -> Prop :=
| fn_quoted q s name rest : q = 34 \/ q = 39 -> quoted q s name -> N.of_nat (length name) <= 8094 -> file_name (q :: s ++ [q]) name rest
| fn_word w rest : word w -> ends_word rest -> ~ begins_number (w ++ rest) -> word_token w (TStr w) -> file_name w w rest.
(** the rest of the line of an `include' *)
Definition rest_of_line (syms : list sym) (text : list N) (next : option (list N)) : Prop :=
  exists b e, text = b ++ e /\ text <> [] /\ hd 0 text <> 92 /\ spells (val_of syms) false e b [] /\ ends e next.

(** the lines between the braces of `types'.  [close]: what comes after the closing
    brace; [None] for an included file, which ends by itself *)
Inductive types_text (syms : list sym) (close : option (list N)) : option (list N) -> list (list N * list (list N)) -> Prop :=
| tt_close b rest : close = Some rest -> spells (val_of syms) false (125 :: rest) b [] -> types_text syms close (Some (b ++ 125 :: rest)) []
| tt_end : close = None -> types_text syms close None []
| tt_blank b e next l : spells (val_of syms) false e b [] -> ends e next -> types_text syms close next l -> types_text syms close (Some (b ++ e)) l
| tt_entry b e next m es a l : spells (val_of syms) false e b (TStr m :: a) -> es <> [] -> Forall2 ext_tok es a -> ends e next ->
    types_text syms close next l -> types_text syms close (Some (b ++ e)) ((m, es) :: l)
| tt_include b w name c r next l1 l2 : spells (val_of syms) false (w ++ r) b [TKw INCLUDE] -> file_name w name r -> files name = Some c -> rest_of_line syms r next ->
    types_text syms None (Some c) l1 -> types_text syms close next l2 -> types_text syms close (Some (b ++ w ++ r)) (l1 ++ l2).

(** [conf_text syms text sts syms']: [text] says [sts]; the macros before and after *)
Inductive conf_text : list sym -> option (list N) -> list stmt -> list sym -> Prop :=
| ct_end syms : conf_text syms None [] syms
| ct_blank syms b e next sts syms' : spells (val_of syms) false e b [] -> ends e next -> conf_text syms next sts syms' -> conf_text syms (Some (b ++ e)) sts syms'
| ct_stmt syms b e next ts s sts syms' : spells (val_of syms) false e b ts -> stmt_toks s ts -> ends e next ->
    conf_text syms next sts syms' -> conf_text syms (Some (b ++ e)) (s :: sts) syms'
| ct_types syms b t rest b2 e next l sts syms' : spells (val_of syms) false t b [TKw TYPES; TChr 123] -> l <> [] -> types_text syms (Some rest) (Some t) l ->
    rest = b2 ++ e -> spells (val_of syms) false e b2 [] -> ends e next ->
    conf_text syms next sts syms' -> conf_text syms (Some (b ++ t)) (StTypes l :: sts) syms'
| ct_macro syms b e next n v a sts syms' : spells (val_of syms) false e b ([TStr n; TChr 61] ++ a) -> strs v a -> (forall c, In c (tl n) -> ~ white c) -> ends e next ->
    conf_text (symset n v false syms) next sts syms' -> conf_text syms (Some (b ++ e)) sts syms'
| ct_include syms b w name c r next sts1 syms1 sts2 syms2 : spells (val_of syms) false (w ++ r) b [TKw INCLUDE] -> file_name w name r -> files name = Some c ->
    conf_text syms (Some c) sts1 syms1 -> rest_of_line syms1 r next ->
    conf_text syms1 next sts2 syms2 -> conf_text syms (Some (b ++ w ++ r)) (sts1 ++ sts2) syms2.

(** ** what they must satisfy *)
Definition shorter (n : nat) (s : list N) : Prop := (length s < n)%nat.
Definition abs_path (s : list N) : Prop := exists r, s = 47 :: r.
(** %% and the four placeholders *)
Inductive fmt_text : list N -> Prop :=
| fm_nil : fmt_text []
| fm_chr c s : c <> 37 -> fmt_text s -> fmt_text (c :: s)
| fm_sub c s : In c (s2b "%pqPN") -> fmt_text s -> fmt_text (37 :: c :: s).
Definition valid_log (o : logopt) : Prop :=
  match o with LgStyle s => In s (map s2b ["condensed"; "common"; "combined"; "legacy"]%string) | _ => True end.
Definition valid_gopt (o : gopt) : Prop :=
  match o with
  | GChroot s => shorter 4096 s | GUser s => shorter 256 s | GLog os => Forall valid_log os
  | GPrefork z => (1 <= z <= 15)%Z | GProtocols s => tls_config_parse_protocols s <> None | _ => True
  end.
Definition valid_fopt (o : fopt) : Prop :=
  match o with FParam n v => shorter 511 n /\ shorter 511 v | FStrip z => (0 <= z)%Z | FSocket _ _ => True end.
Definition valid_lopt (o : locopt) : Prop :=
  match o with
  | LBlock z s => ((10 <= z <= 19)%Z \/ (30 <= z <= 69)%Z) /\ fmt_text s /\ shorter 1027 s /\ ((30 <= z <= 39)%Z -> s <> s2b "temporary failure")
  | LType s => shorter 128 s | LFcgi os => Forall valid_fopt os | LIndex s => shorter 4096 s | LLang s => shorter 32 s
  | LCa s => abs_path s | LRoot s => shorter 4096 s | LStrip z => (1 <= z)%Z | _ => True
  end.
Definition valid_pmatch (m : pmatch) : Prop := match m with MProto s => shorter 32 s | MHost s _ => shorter 256 s end.
Definition valid_popt (o : proxy_opt) : Prop :=
  match o with
  | PCert s | PKey s | PReqCa s => abs_path s | PProtocols s => tls_config_parse_protocols s <> None
  | PRelayTo s _ => shorter 256 s | PSni s => shorter 255 s | _ => True
  end.
Definition unslashed (s : list N) : list N := match s with 47 :: r => r | _ => s end.
Definition valid_sitem (i : sitem) : Prop :=
  match i with
  | SAlias s => shorter 256 s | SCert s | SKey s | SOcsp s => abs_path s | SParam n v => shorter 511 n /\ shorter 511 v
  | SListen _ _ _ => True
  | SLoc s os => shorter 128 (unslashed s) /\ Forall valid_lopt os
  | SProxy ms os => Forall valid_pmatch ms /\ Forall valid_popt os /\ (exists h p, In (PRelayTo h p) os) /\
      (forall h p, In (PRelayTo h p) os -> h <> []) /\
      ((exists f, In (PCert f) os) <-> (exists f, In (PKey f) os))
  | SOpt o => valid_lopt o
  end.
Definition valid_stmt (st : stmt) : Prop :=
  match st with
  | StOpt o => valid_gopt o
  | StServer s items => shorter 256 s /\ Forall valid_sitem items /\ (exists f, In (SCert f) items) /\ (exists f, In (SKey f) items)
  | StTypes l => Forall (fun e => shorter 128 (fst e) /\ Forall (shorter 128) (snd e)) l
  end.

(** ** what they stand for *)
(** the last one that says something about it *)
Fixpoint last_said {A B} (f : A -> option B) (l : list A) : option B :=
  match l with [] => None | x :: l => match last_said f l with Some b => Some b | None => f x end end.
Definition said {A B} (f : A -> option B) (l : list A) (d : B) : B := match last_said f l with Some b => b | None => d end.

Definition lparams (os : list locopt) : list (list N * list N) :=
  flat_map (fun o => match o with LFcgi fs => flat_map (fun f => match f with FParam n v => [(n, v)] | _ => [] end) fs | _ => [] end) os.
Definition fcalls (o : locopt) : list (list N * option (list N)) :=
  match o with LFcgi fs => flat_map (fun f => match f with FSocket p q => [(p, q)] | _ => [] end) fs | _ => [] end.
(** the options in force: the parts of `fastcgi' one by one *)
Inductive prim := PmOpt (o : locopt) | PmF (f : fopt).
Definition prims (os : list locopt) : list prim := flat_map (fun o => match o with LFcgi fs => map PmF fs | _ => [PmOpt o] end) os.

(** a location with these options; [t] are the FastCGI applications *)
Definition means_loc (t : list fapp) (m : list N) (os : list locopt) (ps : list (list N * list N)) (l : ploc) : Prop :=
  l_match (pl l) = m /\
  l_lang (pl l) = said (fun o => match o with LLang s => Some s | _ => None end) os [] /\
  l_default_mime (pl l) = said (fun o => match o with LType s => Some s | _ => None end) os [] /\
  l_index (pl l) = said (fun o => match o with LIndex s => Some s | _ => None end) os [] /\
  l_auto_index (pl l) = said (fun o => match o with LAuto b => Some (if b : bool then 1 else -1)%Z | _ => None end) os 0%Z /\
  Z.of_N (l_block_code (pl l)) = said (fun o => match o with LBlock z _ => Some z | _ => None end) os 0%Z /\
  l_block_fmt (pl l) = said (fun o => match o with LBlock _ s => Some s | _ => None end) os [] /\
  Z.of_nat (l_strip (pl l)) = said (fun o => match o with LStrip z => Some z | _ => None end) os 0%Z /\
  l_disable_log (pl l) = said (fun o => match o with LLog b => Some (negb b) | _ => None end) os false /\
  l_dir (pl l) = said (fun o => match o with LRoot s => Some s | _ => None end) os [] /\
  pl_ca l = said (fun o => match o with LCa s => Some (Some s) | _ => None end) os None /\
  l_params (pl l) = ps /\
  Z.of_nat (l_fcgi_strip (pl l)) = said (fun p => match p with PmF (FStrip z) => Some z | _ => None end) (prims os) 0%Z /\
  (l_nofcgi (pl l) = true <-> In LFcgiOff os) /\
  match said (fun p => match p with PmOpt LFcgiOff => Some None | PmF (FSocket p q) => Some (Some (p, q)) | _ => None end) (prims os) None with
  | None => l_fcgi (pl l) = None
  | Some x => exists i, l_fcgi (pl l) = Some i /\ nth_error t i = Some (app_of x)
  end /\
  l_reqca (pl l) = None /\ l_dirfd (pl l) = None.

(** what comes before the first `location' of a server is about the whole of it; what
    comes after a `location' {...} is about that location.  Each section: the path it
    matches, its options, its params *)
Definition section : Type := (list N * list locopt * list (list N * list N))%type.
Definition add_opts (os : list locopt) (ps : list (list N * list N)) (s : section) : section := let '(m, o, p) := s in (m, o ++ os, p ++ ps).
Fixpoint sections (cur : section) (items : list sitem) : list section :=
  match items with
  | [] => [cur]
  | SLoc m os :: r => cur :: sections (unslashed m, os, lparams os) r
  | SOpt o :: r => sections (add_opts [o] (lparams [o]) cur) r
  | SParam n v :: r => sections (add_opts [] [(n, v)] cur) r
  | _ :: r => sections cur r
  end.
Definition server_sections (items : list sitem) : list section := sections (s2b "*", [], []) items.

(** a proxy *)
Definition means_proxy (ms : list pmatch) (os : list proxy_opt) (p : pproxy) : Prop :=
  p_match_proto (px p) = said (fun m => match m with MProto s => Some s | _ => None end) ms [] /\
  p_match_host (px p) = said (fun m => match m with MHost s _ => Some s | _ => None end) ms [] /\
  p_match_port (px p) = said (fun m => match m with MHost _ z => Some (decz z) | _ => None end) ms [] /\
  p_host (px p) = said (fun o => match o with PRelayTo h _ => Some h | _ => None end) os [] /\
  p_port (px p) = said (fun o => match o with PRelayTo _ n => Some n | _ => None end) os [] /\
  p_notls (px p) = said (fun o => match o with PUseTls b => Some (negb b) | _ => None end) os false /\
  (p_proxy (px p) = true <-> In PProxyV1 os) /\
  px_sni p = said (fun o => match o with PSni s => Some s | _ => None end) os [] /\
  Some (px_protos p) = said (fun o => match o with PProtocols s => Some (tls_config_parse_protocols s) | _ => None end) os (Some 24) /\
  px_noverify p = said (fun o => match o with PVerifyName b => Some (negb b) | _ => None end) os false /\
  px_cert p = said (fun o => match o with PCert f => Some (Some f) | _ => None end) os None /\
  px_key p = said (fun o => match o with PKey f => Some (Some f) | _ => None end) os None /\
  px_ca p = said (fun o => match o with PReqCa f => Some (Some f) | _ => None end) os None.

(** a server *)
Definition proxies_in (items : list sitem) : list (list pmatch * list proxy_opt) := flat_map (fun i => match i with SProxy ms os => [(ms, os)] | _ => [] end) items.
Definition means_server (t : list fapp) (name : list N) (items : list sitem) (h : vh) : Prop :=
  vh_domain h = name /\
  vh_cert h = said (fun i => match i with SCert s => Some (Some s) | _ => None end) items None /\
  vh_key h = said (fun i => match i with SKey s => Some (Some s) | _ => None end) items None /\
  vh_ocsp h = said (fun i => match i with SOcsp s => Some (Some s) | _ => None end) items None /\
  vh_aliases h = flat_map (fun i => match i with SAlias s => [s] | _ => [] end) items /\
  Forall2 (fun s l => let '(m, os, ps) := s in means_loc t m os ps l) (server_sections items) (vh_locs h) /\
  Forall2 (fun x p => means_proxy (fst x) (snd x) p) (proxies_in items) (vh_proxies h).

(** the whole: the options, the servers (the last one first: see gmid.conf(5)... the
    code puts each in front), the addresses, the applications, the types *)
Definition gopts (sts : list stmt) : list gopt := flat_map (fun s => match s with StOpt o => [o] | _ => [] end) sts.
Definition logs (sts : list stmt) : list logopt := flat_map (fun o => match o with GLog os => os | _ => [] end) (gopts sts).
Definition servers (sts : list stmt) : list (list N * list sitem) := flat_map (fun s => match s with StServer n i => [(n, i)] | _ => [] end) sts.
Definition types_of (sts : list stmt) : list etm :=
  flat_map (fun s => match s with StTypes l => flat_map (fun e => map (fun x => (fst e, x)) (snd e)) l | _ => [] end) sts.
Definition item_calls (i : sitem) : list (list N * option (list N)) := match i with SOpt o => fcalls o | SLoc _ os => flat_map fcalls os | _ => [] end.
Definition calls (sts : list stmt) : list (list N * option (list N)) := flat_map (fun s => flat_map item_calls (snd s)) (servers sts).

(** the listen directives, with the addresses they resolve to: [None] if one does
    not.  A server without any listens on the default *)
Definition listens (items : list sitem) : list (option (list N) * list N * bool) := flat_map (fun i => match i with SListen h p x => [(h, p, x)] | _ => [] end) items.
Definition resolve (x : option (list N) * list N * bool) : option ldir :=
  let '(h, p, b) := x in match gai h p with Some (a :: l) => Some (LListen (a :: l) b) | _ => None end.
Fixpoint resolves (xs : list (option (list N) * list N * bool)) : option (list ldir) :=
  match xs with [] => Some [] | x :: xs => match resolve x, resolves xs with Some d, Some ds => Some (d :: ds) | _, _ => None end end.
Fixpoint ldirs (dh : option (list N)) (dp : Z) (sts : list stmt) : option (list ldir) :=
  match sts with
  | [] => Some []
  | StOpt (GIpv6 b) :: r => ldirs (if b then None else Some (s2b "0.0.0.0")) dp r
  | StOpt (GPort z) :: r => ldirs dh z r
  | StServer _ items :: r =>
    match resolves (match listens items with [] => [(dh, decz dp, false)] | l => l end), ldirs dh dp r with
    | Some ds, Some ds' => Some (LServer :: ds ++ ds')
    | _, _ => None
    end
  | _ :: r => ldirs dh dp r
  end.

Definition style_of (s : list N) : option N :=
  last_said (fun p => if leqb (s2b (fst p)) s then Some (snd p) else None) [("condensed", 0); ("common", 1); ("combined", 2); ("legacy", 3)]%string.
Definition facility_names : list string := ["daemon"; "ftp"; "local1"; "local2"; "local3"; "local4"; "local5"; "local6"; "local7"; "user"]%string.
(** the facility, in any case, possibly with LOG_ before it *)
Definition facility_of (s : list N) (f : list N) : Prop :=
  exists n, In n facility_names /\ f = s2b n /\ (map to_lower s = f \/ map to_lower s = s2b "log_" ++ f).

(** [ds]: the servers and the addresses they listen on *)
Definition means (sts : list stmt) (ds : list ldir) (c : core) : Prop :=
  g_chroot c = said (fun o => match o with GChroot s => Some s | _ => None end) (gopts sts) [] /\
  g_user c = said (fun o => match o with GUser s => Some s | _ => None end) (gopts sts) [] /\
  g_prefork c = said (fun o => match o with GPrefork z => Some z | _ => None end) (gopts sts) 3%Z /\
  Some (g_protos c) = said (fun o => match o with GProtocols s => Some (tls_config_parse_protocols s) | _ => None end) (gopts sts) (Some 24) /\
  g_access c = said (fun o => match o with LgAccess s => Some (Some s) | _ => None end) (logs sts) None /\
  Some (g_style c) = said (fun o => match o with LgStyle s => Some (style_of s) | _ => None end) (logs sts) (Some 3) /\
  g_syslog c = said (fun o => match o with LgSyslog _ => Some true | LgSyslogOff => Some false | _ => None end) (logs sts) true /\
  (** an unknown facility changes nothing *)
  facility_of (said (fun o => match o with LgSyslog (Some s) => if existsb (fun n => leqb (map to_lower s) (s2b n) || leqb (map to_lower s) (s2b "log_" ++ s2b n)) facility_names then Some s else None | _ => None end) (logs sts) (s2b "daemon")) (g_facility c) /\
  m_t (g_mime c) = types_of sts /\
  (** every application that is named, once *)
  NoDup (g_fcgi c) /\ (forall f, In f (g_fcgi c) <-> exists x, In x (calls sts) /\ f = app_of x) /\
  (** the addresses of all, each once, the last first; the same for each server *)
  firsts_of (map fst (given ds)) (rev (map a_ai (g_addrs c))) /\
  Forall2 (fun g h => firsts_of g (rev (map a_ai (vh_addrs h)))) (per_server ds) (g_hosts c) /\
  (forall ai p, In (ai, p) (given ds) -> exists a, In a (g_addrs c) /\ a_ai a = ai /\ a_proxy a = p) /\
  Forall2 (fun x h => means_server (g_fcgi c) (fst x) (snd x) h) (rev (servers sts)) (g_hosts c).
(** the addresses are of the Internet, and each with or without proxy-v1, not both *)
Definition addresses_ok (ds : list ldir) : Prop :=
  Forall (fun x => (i_family (fst x) = 2 \/ i_family (fst x) = 10) /\ (length (i_sa (fst x)) <= 128)%nat) (given ds) /\
  ~ exists ai, In (ai, true) (given ds) /\ In (ai, false) (given ds).
(** no name is both that of a socket and of a host; none too long *)
Definition applications_ok (l : list (list N * option (list N))) : Prop :=
  (forall path p, In (path, None) l -> In (path, Some p) l -> p = []) /\
  Forall (fun x => shorter 4096 (fst x) /\ match snd x with Some p => shorter 32 p | None => True end) l.
End Spec.
