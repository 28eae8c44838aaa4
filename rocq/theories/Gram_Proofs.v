(** The parser on the tokens of a statement. *)
From Verif Require Import Base BaseLemmas Compat Compat_Proofs Conf Config Mime Fmt FmtSpec Prop_Fmt Parse Prop_Parse Prop_Mime UpTls UpTlsSpec Lex LexSpec Iri_Last_Proofs Gram GramSpec.
Local Open Scope N_scope.

(** ** tokens to come *)
Fixpoint lexes_to (l : lex) (ts : list tok) (l' : lex) : Prop :=
  match ts with [] => l = l' | t :: ts => exists l1, yylex l = OK (t, l1) /\ lexes_to l1 ts l' end.
Definition at_ (g : gst) (ts : list tok) (L : lex) : Prop :=
  match g_la g with None => lexes_to (g_lex g) ts L | Some t => exists ts', ts = t :: ts' /\ lexes_to (g_lex g) ts' L end.
Definition st (c : core) (ts : list tok) (L : lex) (g : gst) : Prop := g_core g = c /\ at_ g ts L.
Definition wp {A} (m : M A) (g : gst) (Q : A -> gst -> Prop) : Prop := exists a g', m g = Good (a, g') /\ Q a g'.

Lemma wp_bind {A B} (m : M A) (f : A -> M B) g (Q : B -> gst -> Prop) : wp m g (fun a g' => wp (f a) g' Q) -> wp (bnd m f) g Q.
Proof. intros (a & g' & E & b & g2 & E2 & H). exists b, g2. unfold bnd. rewrite E. auto. Qed.
Lemma wp_ret {A} (a : A) g (Q : A -> gst -> Prop) : Q a g -> wp (ret a) g Q.
Proof. intros H. exists a, g. auto. Qed.
Lemma wp_mono {A} (m : M A) g (P Q : A -> gst -> Prop) : wp m g P -> (forall a g', P a g' -> Q a g') -> wp m g Q.
Proof. intros (a & g' & E & H) I. exists a, g'. auto. Qed.

Lemma wp_peek c t ts L g (Q : tok -> gst -> Prop) : st c (t :: ts) L g -> (forall g', st c (t :: ts) L g' -> Q t g') -> wp peek g Q.
Proof.
  intros (C & A) H. unfold wp, peek. unfold at_ in A. destruct (g_la g) as [u|] eqn:U.
  - destruct A as (ts' & E & A). injection E as -> <-. exists u, g. split; [reflexivity|]. apply H. split; [exact C|]. unfold at_. rewrite U. eauto.
  - destruct A as (l1 & Y & A). rewrite Y. exists t, (set_la (Some t) (set_lex l1 g)). split; [reflexivity|]. apply H. split; [exact C|]. unfold at_. cbn. eauto.
Qed.
Lemma wp_next c t ts L g (Q : tok -> gst -> Prop) : st c (t :: ts) L g -> (forall g', st c ts L g' -> Q t g') -> wp next g Q.
Proof.
  intros (C & A) H. unfold wp, next, bnd, peek. unfold at_ in A. destruct (g_la g) as [u|] eqn:U.
  - destruct A as (ts' & E & A). injection E as -> <-. exists u, (set_la None g). split; [reflexivity|]. apply H. split; [exact C|exact A].
  - destruct A as (l1 & Y & A). rewrite Y. exists t, (set_la None (set_la (Some t) (set_lex l1 g))). split; [reflexivity|]. apply H. split; [exact C|exact A].
Qed.
Lemma wp_modify f c ts L g (Q : unit -> gst -> Prop) : st c ts L g -> (forall g', st (f c) ts L g' -> Q tt g') -> wp (modify f) g Q.
Proof. intros (C & A) H. exists tt, (mkG (g_lex g) (g_la g) (f (g_core g))). split; [reflexivity|]. apply H. split; [cbn; congruence|exact A]. Qed.
Lemma wp_expect x c ts L g (Q : unit -> gst -> Prop) : st c (TChr x :: ts) L g -> (forall g', st c ts L g' -> Q tt g') -> wp (expect x) g Q.
Proof. intros S H. unfold expect. apply wp_bind, (wp_next _ _ _ _ _ _ S). intros g' S'. cbn [is_chr]. rewrite N.eqb_refl. apply wp_ret, H, S'. Qed.
Lemma kw_eqb_refl k : kw_eqb k k = true.
Proof. destruct k; reflexivity. Qed.
Lemma wp_expect_kw x c ts L g (Q : unit -> gst -> Prop) : st c (TKw x :: ts) L g -> (forall g', st c ts L g' -> Q tt g') -> wp (expect_kw x) g Q.
Proof. intros S H. unfold expect_kw. apply wp_bind, (wp_next _ _ _ _ _ _ S). intros g' S'. cbn [is_kw]. rewrite kw_eqb_refl. apply wp_ret, H, S'. Qed.
Lemma wp_num z c ts L g (Q : Z -> gst -> Prop) : st c (TNum z :: ts) L g -> (forall g', st c ts L g' -> Q z g') -> wp num g Q.
Proof. intros S H. unfold num. apply wp_bind, (wp_next _ _ _ _ _ _ S). intros g' S'. apply wp_ret, H, S'. Qed.
Lemma wp_str z c ts L g (Q : list N -> gst -> Prop) : st c (TStr z :: ts) L g -> (forall g', st c ts L g' -> Q z g') -> wp str g Q.
Proof. intros S H. unfold str. apply wp_bind, (wp_next _ _ _ _ _ _ S). intros g' S'. apply wp_ret, H, S'. Qed.
Lemma wp_bool b c ts L g (Q : bool -> gst -> Prop) : st c (flag b :: ts) L g -> (forall g', st c ts L g' -> Q b g') -> wp bool_ g Q.
Proof. intros S H. unfold bool_. apply wp_bind, (wp_next _ _ _ _ _ _ S). intros g' S'. destruct b; apply wp_ret, H, S'. Qed.
Definition is_str (t : tok) : bool := match t with TStr _ => true | _ => false end.
Lemma wp_more : forall ps n s c u r L g (Q : list N -> gst -> Prop), (length ps < n)%nat -> is_str u = false -> st c (map TStr ps ++ u :: r) L g ->
  (forall g', st c (u :: r) L g' -> Q (s ++ concat ps) g') -> wp (more_strings n s) g Q.
Proof.
  induction ps as [|p ps IH]; intros n s c u r L g Q N U S H; (destruct n as [|n]; [cbn in N; lia|]); cbn [more_strings map app] in *; apply wp_bind, (wp_peek _ _ _ _ _ _ S); clear g S; intros g S.
  - destruct u; try discriminate U; apply wp_ret; cbn [concat] in H; rewrite app_nil_r in H; apply H, S.
  - apply wp_bind, (wp_next _ _ _ _ _ _ S). clear g S. intros g S. apply (IH n (s ++ p) c u r L); [cbn in N; lia|exact U|exact S|]. intros g' S'. rewrite <- app_assoc. apply H, S'.
Qed.
Lemma strs_len s ts : strs s ts -> exists a l, ts = TStr a :: l.
Proof. intros (ps & N & -> & _). destruct ps as [|p ps]; [congruence|]. exists p, (map TStr ps). reflexivity. Qed.
Lemma wp_string s ts n c u r L g (Q : list N -> gst -> Prop) : strs s ts -> (length ts < n)%nat -> is_str u = false -> st c (ts ++ u :: r) L g ->
  (forall g', st c (u :: r) L g' -> Q s g') -> wp (string_ n) g Q.
Proof.
  intros (ps & NE & -> & ->) N U S H. destruct ps as [|p ps]; [congruence|]. unfold string_. cbn [map app] in S. apply wp_bind, (wp_next _ _ _ _ _ _ S). clear g S. intros g S.
  apply (wp_more ps n p c u r L); [cbn in N; rewrite map_length in N; lia|exact U|exact S|exact H].
Qed.
Lemma wp_copy n s g (Q : list N -> gst -> Prop) : shorter n s -> Q s g -> wp (copy n s) g Q.
Proof.
  unfold shorter. intros H K. unfold copy. apply wp_bind. unfold err_if. destruct (Nat.leb_spec n (length s)); [lia|]. apply wp_ret, wp_ret.
  rewrite firstn_all2 by lia. exact K.
Qed.
Lemma wp_abs s g (Q : list N -> gst -> Prop) : abs_path s -> Q s g -> wp (absolute s) g Q.
Proof. intros (r & ->) K. unfold absolute. apply wp_bind. cbn. apply wp_ret, wp_ret, K. Qed.
Lemma wp_noerr b g (Q : unit -> gst -> Prop) : b = false -> Q tt g -> wp (err_if b) g Q.
Proof. intros -> K. apply wp_ret, K. Qed.

Lemma is_nl_or t : t = TChr 10 \/ t = TChr 59 -> is_nl t = true.
Proof. intros [->| ->]; reflexivity. Qed.
Lemma wp_optnl : forall b n c u r L g (Q : unit -> gst -> Prop), nls b -> (length b < n)%nat -> is_nl u = false -> st c (b ++ u :: r) L g ->
  (forall g', st c (u :: r) L g' -> Q tt g') -> wp (optnl n) g Q.
Proof.
  induction b as [|t b IH]; intros n c u r L g Q B N U S H; (destruct n as [|n]; [cbn in N; lia|]); cbn [optnl app] in *; apply wp_bind, (wp_peek _ _ _ _ _ _ S); clear g S; intros g S.
  - rewrite U. apply wp_ret, H, S.
  - inversion B; subst. rewrite is_nl_or by assumption. apply wp_bind, (wp_next _ _ _ _ _ _ S). clear g S. intros g S. apply (IH n c u r L); auto. cbn in N. lia.
Qed.

(** ** what an item does *)
Definition runs (F : tok -> bool) (item : M unit) (ts : list tok) (c c' : core) : Prop :=
  forall u r L g, F u = true -> st c (ts ++ u :: r) L g -> wp item g (fun _ g' => st c' (u :: r) L g').
Fixpoint ofold {A S} (ev : A -> S -> option S) (xs : list A) (s : S) : option S :=
  match xs with [] => Some s | x :: xs => match ev x s with Some s => ofold ev xs s | None => None end end.

(** begins with a token that ends another item *)
Definition starts (F : tok -> bool) (ts : list tok) : Prop := exists u r, ts = u :: r /\ F u = true /\ is_nl u = false /\ is_chr 125 u = false.

Lemma items_run {A} (P : A -> list tok -> Prop) F item ev m :
  F (TChr 10) = true -> F (TChr 59) = true -> F (TChr 125) = true ->
  forall xs ts, seq P xs ts -> forall n c c',
  (forall x ts' c c', In x xs -> P x ts' -> (length ts' <= length ts)%nat -> ev x c = Some c' -> runs F item ts' c c' /\ starts F ts') ->
  (length ts < n)%nat -> (length ts < m)%nat -> ofold ev xs c = Some c' ->
  forall r L g, st c (ts ++ TChr 125 :: r) L g -> wp (items item n m) g (fun _ g' => st c' r L g').
Proof.
  intros F1 F2 F3 xs ts S. induction S as [|x xs a b cc PX B S IH]; intros n c c' R N M E r L g G; (destruct n as [|n]; [lia|]); cbn [items ofold] in *.
  - injection E as <-. apply wp_bind, (wp_peek _ _ _ _ _ _ G). clear g G. intros g G. cbn [is_chr N.eqb Pos.eqb]. apply wp_bind, (wp_next _ _ _ _ _ _ G). clear g G. intros g G. apply wp_ret. exact G.
  - destruct (ev x c) as [c1|] eqn:EX; [|discriminate]. rewrite !app_length in *.
    destruct (R x a c c1 (or_introl eq_refl) PX ltac:(lia) EX) as (RX & u & ra & -> & U1 & U2 & U3).
    rewrite <- !app_assoc in G. cbn [app] in G. apply wp_bind, (wp_peek _ _ _ _ _ _ G). clear g G. intros g G. rewrite U3.
    assert (ST : exists v w, cc ++ TChr 125 :: r = v :: w /\ F v = true /\ is_nl v = false).
    { destruct S as [|x2 xs a2 b2 c2 P2 B2 S2].
      - exists (TChr 125), r. auto.
      - cbn [ofold] in E. destruct (ev x2 c1) as [c3|] eqn:E3; [|discriminate].
        destruct (R x2 a2 c1 c3 ltac:(right; left; reflexivity) P2 ltac:(rewrite !app_length; lia) E3) as (_ & v & w & -> & V1 & V2 & V3). cbn [app]. exists v. eexists. split; [reflexivity|]. auto. }
    destruct ST as (v & w & EV & V1 & V2). rewrite EV in G.
    assert (STB : exists v2 w2, b ++ v :: w = v2 :: w2 /\ F v2 = true).
    { destruct b as [|t b]; cbn [app]; [eauto|]. exists t. eexists. split; [reflexivity|]. inversion B; subst. match goal with H : _ \/ _ |- _ => destruct H as [->| ->]; assumption end. }
    destruct STB as (v2 & w2 & EB & VB).
    apply wp_bind. assert (G2 : st c ((u :: ra) ++ v2 :: w2) L g) by (rewrite <- EB; exact G). clear G.
    refine (wp_mono _ _ _ _ (RX v2 w2 L g VB G2) _). clear g G2. intros _ g G. rewrite <- EB in G.
    apply wp_bind. apply (wp_optnl b m c1 v w L g _ B); [clear - M; lia|exact V2|exact G|]. clear g G. intros g G. rewrite <- EV in G.
    cbn [length] in N, M. assert (NN : (length cc < n)%nat) by (clear - N; lia). assert (MM : (length cc < m)%nat) by (clear - M; lia).
    apply (IH n c1 c'); [|exact NN|exact MM|exact E|exact G]. intros y ty d d' IY PY LY EY. apply (R y ty d d'); [right; exact IY|exact PY|clear - LY; lia|exact EY].
Qed.
Lemma block_run {A} (P : A -> list tok -> Prop) F item ev n xs ts c c' :
  F (TChr 10) = true -> F (TChr 59) = true -> F (TChr 125) = true -> braces P xs ts ->
  (forall x ts' c c', In x xs -> P x ts' -> (length ts' < length ts)%nat -> ev x c = Some c' -> runs F item ts' c c' /\ starts F ts') ->
  (length ts < n)%nat -> ofold ev xs c = Some c' ->
  forall r L g, st c (ts ++ r) L g -> wp (block item n) g (fun _ g' => st c' r L g').
Proof.
  intros F1 F2 F3 (b & cc & B & S & ->) R N E r L g G. unfold block. cbn [app] in G. rewrite !app_length in *. cbn [length app] in *.
  apply wp_bind, (wp_expect _ _ _ _ _ _ G). clear g G. intros g G. rewrite <- !app_assoc in G. cbn [app] in G.
  assert (ST : exists v w, cc ++ TChr 125 :: r = v :: w /\ is_nl v = false).
  { destruct S as [|x2 xs a2 b2 c2 P2 B2 S2].
    - exists (TChr 125), r. auto.
    - cbn [ofold] in E. destruct (ev x2 c) as [c3|] eqn:E3; [|discriminate].
      destruct (R x2 a2 c c3 ltac:(left; reflexivity) P2 ltac:(rewrite !app_length in *; cbn [length]; lia) E3) as (_ & v & w & -> & V1 & V2 & V3). cbn [app]. exists v. eexists. split; [reflexivity|]. auto. }
  destruct ST as (v & w & EV & V2). rewrite EV in G. apply wp_bind, (wp_optnl b n c v w L g _ B ltac:(lia) V2 G). clear g G. intros g G. rewrite <- EV in G.
  refine (items_run P F item ev n F1 F2 F3 xs cc S n c c' _ _ _ E r L g G); try lia.
  intros x ty d d' IX PX LX EX. apply (R x ty d d'); auto. cbn [length]. lia.
Qed.

(** ** what each does to the configuration *)
Definition cur_host (f : vh -> vh) (c : core) : option core :=
  match g_hosts c with [] => None | h :: r => Some (set_hosts (g_addrs c) (f h :: r) c) end.
Definition cur_loc (f : ploc -> ploc) : core -> option core := cur_host (fun h => set_locs (on_last f (vh_locs h)) h).
Definition cur_proxy (f : pproxy -> pproxy) : core -> option core := cur_host (fun h => set_proxies (on_last f (vh_proxies h)) h).

Definition ev_log (o : logopt) (c : core) : option core :=
  match o with
  | LgAccess s => Some (set_log (Some s) (g_style c) (g_syslog c) (g_facility c) c)
  | LgStyle s => match style s with Some f => Some (set_log (g_access c) f (g_syslog c) (g_facility c) c) | None => None end
  | LgSyslog None => Some (set_log (g_access c) (g_style c) true (g_facility c) c)
  | LgSyslog (Some s) => Some (set_log (g_access c) (g_style c) true (match facility s with Some f => f | None => g_facility c end) c)
  | LgSyslogOff => Some (set_log (g_access c) (g_style c) false (g_facility c) c)
  end.
Definition ev_gopt (o : gopt) (c : core) : option core :=
  match o with
  | GChroot s => Some (set_globals s (g_user c) (g_prefork c) (g_protos c) c)
  | GIpv6 b => Some (set_defaults (if b then None else Some (s2b "0.0.0.0")) (g_dport c) (g_media c) c)
  | GLog os => ofold ev_log os c
  | GPort z => Some (set_defaults (g_dhost c) z (g_media c) c)
  | GPrefork z => Some (set_globals (g_chroot c) (g_user c) z (g_protos c) c)
  | GProtocols s => match tls_config_parse_protocols s with Some p => Some (set_globals (g_chroot c) (g_user c) (g_prefork c) p c) | None => None end
  | GUser s => Some (set_globals (g_chroot c) s (g_prefork c) (g_protos c) c)
  end.
Definition ev_call (p : list N) (q : option (list N)) (c : core) : option core :=
  match fastcgi_conf p q (g_fcgi c) with
  | OK (i, t, O) => cur_loc (lmap (fun l => with_fcgi (Some i) (l_nofcgi l) l)) (set_fcgis t c)
  | _ => None
  end.
Definition ev_param (n v : list N) : core -> option core := cur_loc (lmap (fun l => with_params (l_params l ++ [(n, v)]) l)).
Definition ev_fopt (o : fopt) (c : core) : option core :=
  match o with
  | FParam n v => ev_param n v c
  | FSocket p q => ev_call p q c
  | FStrip z => cur_loc (lmap (with_fstrip (Z.to_nat z))) c
  end.
Definition ev_lopt (o : locopt) (c : core) : option core :=
  match o with
  | LAuto b => cur_loc (lmap (with_auto (if b : bool then 1 else -1)%Z)) c
  | LBlock z s => cur_loc (lmap (with_block (Z.to_N z) s)) c
  | LType s => cur_loc (lmap (with_mime s)) c
  | LFcgi os => ofold ev_fopt os c
  | LFcgiOff => cur_loc (lmap (with_fcgi None true)) c
  | LIndex s => cur_loc (lmap (with_index s)) c
  | LLang s => cur_loc (lmap (with_lang s)) c
  | LLog b => cur_loc (lmap (with_nolog (negb b))) c
  | LCa s => cur_loc (fun l => mkPloc (pl l) (Some s)) c
  | LRoot s => cur_loc (lmap (with_dir s)) c
  | LStrip z => cur_loc (lmap (with_strip (Z.to_nat z))) c
  end.
Definition ev_pmatch (m : pmatch) : core -> option core :=
  match m with
  | MProto s => cur_proxy (pmap (fun x => mkProxy s (p_match_host x) (p_match_port x) (p_host x) (p_port x) (p_notls x) (p_proxy x) (p_reqca x)))
  | MHost s z => cur_proxy (pmap (fun x => mkProxy (p_match_proto x) s (decz z) (p_host x) (p_port x) (p_notls x) (p_proxy x) (p_reqca x)))
  end.
Definition ev_popt (o : proxy_opt) (c : core) : option core :=
  match g_hosts c with
  | [] => None
  | h :: r =>
    match rev (vh_proxies h) with
    | [] => None
    | p :: q => let '(p', ok) := proxy_option o (p, true) in
                if ok then Some (set_hosts (g_addrs c) (set_proxies (rev q ++ [p']) h :: r) c) else None
    end
  end.
Definition proxy_fine (c : core) : bool :=
  match g_hosts c with
  | h :: _ => match rev (vh_proxies h) with
              | p :: _ => negb (isnil (p_host (px p))) && (match px_cert p, px_key p with Some _, None | None, Some _ => false | _, _ => true end)
              | [] => false end
  | [] => false end.
Definition set_addrs a (h : vh) : vh := mkVh (vh_domain h) (vh_cert h) (vh_key h) (vh_ocsp h) a (vh_locs h) (vh_aliases h) (vh_proxies h).

Section Runs.
Variable gai : option (list N) -> list N -> option (list (ainfo * list N)).
Variable service : list N -> option Z.
Variable files : list N -> option (list N).

Definition ev_listen (h : option (list N)) (p : list N) (x : bool) (c : core) : option core :=
  match gai h p, g_hosts c with
  | Some l, host :: r =>
    match listen_on l x (mkL [vh_addrs host] (g_addrs c) 0) with
    | Some (mkL (a :: _) al O) => Some (set_hosts al (set_addrs a host :: r) c)
    | _ => None
    end
  | _, _ => None
  end.
Definition obind {A B} (o : option A) (f : A -> option B) : option B := match o with Some a => f a | None => None end.
Definition ev_sitem (i : sitem) (c : core) : option core :=
  match i with
  | SAlias s => cur_host (add_alias s) c
  | SCert s => cur_host (set_cert (Some s)) c
  | SKey s => cur_host (set_key (Some s)) c
  | SOcsp s => cur_host (set_ocsp (Some s)) c
  | SParam n v => ev_param n v c
  | SListen h p x => ev_listen h p x c
  | SLoc s os =>
    obind (cur_host (fun h => set_locs (vh_locs h ++ [mkPloc new_location None]) h) c)
      (fun c => obind (ofold ev_lopt os c) (cur_loc (lmap (with_match (unslashed s)))))
  | SProxy ms os =>
    obind (cur_host (fun h => set_proxies (vh_proxies h ++ [new_proxy]) h) c)
      (fun c => obind (ofold ev_pmatch ms c) (fun c => obind (ofold ev_popt os c) (fun c => if proxy_fine c then Some c else None)))
  | SOpt o => ev_lopt o c
  end.
Definition new_vh (d : list N) : vh := mkVh d None None None [] [mkPloc (with_match (s2b "*") new_location) None] [] [].
Definition ev_server (name : list N) (is : list sitem) (c : core) : option core :=
  obind (ofold ev_sitem is (set_hosts (g_addrs c) (new_vh name :: g_hosts c) c))
    (fun c => match g_hosts c with
     | h :: _ => match vh_cert h, vh_key h with
                 | Some _, Some _ => match vh_addrs h with [] => ev_listen (g_dhost c) (decz (g_dport c)) false c | _ => Some c end
                 | _, _ => None end
     | [] => None end).
Definition ev_ext (e : list N) (c : core) : option core :=
  match add_mime (g_mime c) (g_media c) e with OK (true, m) => Some (set_mime m c) | _ => None end.
Definition ev_type (e : list N * list (list N)) (c : core) : option core :=
  ofold ev_ext (snd e) (set_defaults (g_dhost c) (g_dport c) (fst e) c).
Definition ev_stmt (s : stmt) (c : core) : option core :=
  match s with StOpt o => ev_gopt o c | StServer n is => ev_server n is c | StTypes l => ofold ev_type l c end.

(** ** the items *)
Definition stop (t : tok) : bool := match t with TStr _ | TNum _ | TKw PORT | TKw RETURN | TKw FACILITY | TKw OFF => false | _ => true end.
Definition sstop (t : tok) : bool := stop t && negb (is_kw PROXYV1 t).
Lemma stop_str u : stop u = true -> is_str u = false.
Proof. destruct u; try reflexivity; discriminate. Qed.
Lemma stop_kw k u : stop u = true -> stop (TKw k) = false -> is_kw k u = false.
Proof. intros S K. destruct u as [| |c|s|z|j]; try reflexivity. cbn [is_kw]. destruct j; try discriminate S; destruct k; try discriminate K; reflexivity. Qed.
Lemma sstop_stop u : sstop u = true -> stop u = true.
Proof. unfold sstop. destruct (stop u); [reflexivity|discriminate]. Qed.
Lemma runs_weaken (F F' : tok -> bool) item ts c c' : (forall u, F' u = true -> F u = true) -> runs F item ts c c' -> runs F' item ts c c'.
Proof. intros H R u r L g U. apply R, H, U. Qed.

Lemma wp_on_host f c c' ts L g (Q : unit -> gst -> Prop) : st c ts L g -> cur_host f c = Some c' -> (forall g', st c' ts L g' -> Q tt g') -> wp (on_host f) g Q.
Proof.
  intros (C & A) E H. subst c. unfold cur_host in E. unfold wp, on_host. destruct (g_hosts (g_core g)) as [|h r] eqn:HH; [discriminate|]. injection E as <-.
  exists tt. eexists. split; [reflexivity|]. apply H. split; [reflexivity|exact A].
Qed.
Lemma wp_on_loc f c c' ts L g (Q : unit -> gst -> Prop) : st c ts L g -> cur_loc f c = Some c' -> (forall g', st c' ts L g' -> Q tt g') -> wp (on_loc f) g Q.
Proof. apply wp_on_host. Qed.
Lemma wp_on_proxy f c c' ts L g (Q : unit -> gst -> Prop) : st c ts L g -> cur_proxy f c = Some c' -> (forall g', st c' ts L g' -> Q tt g') -> wp (on_proxy f) g Q.
Proof. apply wp_on_host. Qed.
Lemma wp_call p q c c' ts L g (Q : unit -> gst -> Prop) : st c ts L g -> ev_call p q c = Some c' -> (forall g', st c' ts L g' -> Q tt g') -> wp (fcgi_conf p q) g Q.
Proof.
  intros (C & A) E H. unfold ev_call in E. unfold wp, fcgi_conf. rewrite C. destruct (fastcgi_conf p q (g_fcgi c)) as [[[i t] [|e]]| |]; try discriminate E.
  change (wp (on_loc (lmap (fun l => with_fcgi (Some i) (l_nofcgi l) l))) (set_core (set_fcgis t c) g) Q). refine (wp_on_loc _ _ _ ts L _ _ _ E H). split; [reflexivity|exact A].
Qed.
Lemma wp_listen h p x c c' ts L g (Q : unit -> gst -> Prop) : st c ts L g -> ev_listen h p x c = Some c' -> (forall g', st c' ts L g' -> Q tt g') -> wp (listen gai h p x) g Q.
Proof.
  intros (C & A) E H. unfold ev_listen in E. unfold wp, listen. destruct (gai h p) as [l|]; [|discriminate E]. rewrite C. destruct (g_hosts c) as [|ho r]; [discriminate E|].
  destruct (listen_on l x (mkL [vh_addrs ho] (g_addrs c) 0)) as [[[|a as'] al [|n]]|]; try discriminate E. injection E as <-. exists tt. eexists. split; [reflexivity|]. apply H. split; [reflexivity|exact A].
Qed.
Lemma wp_popt o c c' ts L g (Q : unit -> gst -> Prop) : st c ts L g -> ev_popt o c = Some c' -> (forall g', st c' ts L g' -> Q tt g') -> wp (proxy_act o) g Q.
Proof.
  intros (C & A) E H. unfold ev_popt in E. unfold wp, proxy_act. rewrite C. destruct (g_hosts c) as [|ho r]; [discriminate E|]. destruct (rev (vh_proxies ho)) as [|p q]; [discriminate E|].
  destruct (proxy_option o (p, true)) as [p' [|]]; [|discriminate E]. injection E as <-. exists tt. eexists. split; [reflexivity|]. apply H. split; [reflexivity|exact A].
Qed.
Lemma wp_ext e c c' ts L g (Q : unit -> gst -> Prop) : st c ts L g -> ev_ext e c = Some c' -> (forall g', st c' ts L g' -> Q tt g') -> wp (add_mime_ e) g Q.
Proof.
  intros (C & A) E H. unfold ev_ext in E. unfold wp, add_mime_. rewrite C. destruct (add_mime (g_mime c) (g_media c) e) as [[[|] m]| |]; try discriminate E. injection E as <-.
  exists tt. eexists. split; [reflexivity|]. apply H. split; [reflexivity|exact A].
Qed.

Ltac again G := let g0 := fresh "g" in intros g0 G.
(** one step of the parser with the tokens of [G] to come *)
Ltac step :=
  match goal with
  | |- wp (bnd _ _) _ _ => apply wp_bind
  | G : st _ _ _ ?g |- wp next ?g _ => apply (wp_next _ _ _ _ _ _ G); clear g G; intros g G; cbv beta iota
  | G : st _ _ _ ?g |- wp peek ?g _ => apply (wp_peek _ _ _ _ _ _ G); clear g G; intros g G; cbv beta iota
  | G : st _ _ _ ?g |- wp num ?g _ => apply (wp_num _ _ _ _ _ _ G); clear g G; intros g G
  | G : st _ _ _ ?g |- wp str ?g _ => apply (wp_str _ _ _ _ _ _ G); clear g G; intros g G
  | G : st _ _ _ ?g |- wp bool_ ?g _ => apply (wp_bool _ _ _ _ _ _ G); clear g G; intros g G
  | G : st _ _ _ ?g |- wp (expect _) ?g _ => apply (wp_expect _ _ _ _ _ _ G); clear g G; intros g G
  | G : st _ _ _ ?g |- wp (expect_kw _) ?g _ => apply (wp_expect_kw _ _ _ _ _ _ G); clear g G; intros g G
  | G : st _ _ _ ?g |- wp (modify _) ?g _ => apply (wp_modify _ _ _ _ _ _ G); clear g G; intros g G
  | G : st _ _ _ ?g, S : strs ?s ?ts |- wp (string_ _) ?g _ => refine (wp_string s ts _ _ _ _ _ _ _ S _ _ G _); [lia|first [reflexivity|apply stop_str; assumption]|clear g G; intros g G]
  | |- wp (copy _ _) _ _ => apply wp_copy; [assumption|]
  | |- wp (absolute _) _ _ => apply wp_abs; [assumption|]
  | G : st _ _ _ ?g, E : cur_loc _ _ = Some _ |- wp (on_loc _) ?g _ => apply (wp_on_loc _ _ _ _ _ _ _ G E); clear g G; intros g G
  | G : st _ _ _ ?g, E : cur_host _ _ = Some _ |- wp (on_host _) ?g _ => apply (wp_on_host _ _ _ _ _ _ _ G E); clear g G; intros g G
  | G : st _ _ _ ?g, E : cur_proxy _ _ = Some _ |- wp (on_proxy _) ?g _ => apply (wp_on_proxy _ _ _ _ _ _ _ G E); clear g G; intros g G
  | G : st _ _ _ ?g, E : ev_call _ _ _ = Some _ |- wp (fcgi_conf _ _) ?g _ => apply (wp_call _ _ _ _ _ _ _ _ G E); clear g G; intros g G
  | |- wp (ret _) _ _ => apply wp_ret
  end.
Ltac norm G := repeat (rewrite <- app_assoc in G || (progress cbn [app] in G)).
Ltac lens := rewrite ?app_length in *; cbn [length] in *.

Lemma style_some s : In s (map s2b ["condensed"; "common"; "combined"; "legacy"]%string) -> exists k, style s = Some k.
Proof. cbn [map In]. intros [<-|[<-|[<-|[<-|[]]]]]; eexists; reflexivity. Qed.

Lemma log_run n o ts c c' : log_toks o ts -> (length ts < n)%nat -> ev_log o c = Some c' -> runs stop (logopt_ n) ts c c' /\ starts stop ts.
Proof.
  intros T N E. split.
  2:{ destruct T; (eexists; eexists; split; [reflexivity|auto]). }
  intros u r L g U G. unfold logopt_. destruct T as [s a S|s a S|s a S| |]; lens; norm G; cbn [ev_log] in E.
  - repeat step. injection E as <-. exact G.
  - repeat step. destruct (style s) as [f|]; [|discriminate E]. injection E as <-. step. exact G.
  - injection E as <-. repeat step. exact G.
  - injection E as <-. step. step. step. step.
    destruct u as [| |x|s|z|k]; try discriminate U; cbv iota; try (step; exact G). destruct k; try discriminate U; step; exact G.
  - injection E as <-. repeat step. exact G.
Qed.
Lemma stops u : stop u = true -> is_kw PORT u = false /\ is_kw RETURN u = false /\ is_kw OFF u = false.
Proof. intros U. repeat split; apply stop_kw; auto. Qed.

Lemma gopt_run n o ts c c' : gopt_toks o ts -> valid_gopt o -> (length ts < n)%nat -> ev_gopt o c = Some c' -> runs stop (option_ n) ts c c'.
Proof.
  intros T V N E u r L g U G. unfold option_. destruct T as [s a S|b|o a T|os a B|z|z|s a S|s a S]; lens; norm G; cbn [ev_gopt valid_gopt] in E, V.
  - injection E as <-. repeat step. exact G.
  - injection E as <-. repeat step. exact G.
  - cbn [ofold] in E. destruct (ev_log o c) as [c1|] eqn:E1; [|discriminate]. injection E as ->. destruct (log_run n o a c c' T ltac:(lia) E1) as (R & v & w & EA & _ & _ & _).
    step. step. step. rewrite EA in G. cbn [app] in G. step. replace (is_chr 123 v) with false; [|rewrite EA in T; inversion T; subst; reflexivity].
    apply (R u r L g U). rewrite EA. exact G.
  - pose proof B as B'. destruct B' as (b & cc & _ & _ & EA). rewrite EA in G. norm G. step. step. step. step. cbn [is_chr N.eqb Pos.eqb].
    refine (block_run log_toks stop (logopt_ n) ev_log n os a c c' eq_refl eq_refl eq_refl B _ _ E (u :: r) L g _); [|lia|rewrite EA; cbn [app]; rewrite <- !app_assoc; exact G].
    intros x ts' d d' _ T LT EV. apply (log_run n x ts' d d' T); [lia|exact EV].
  - injection E as <-. repeat step. exact G.
  - injection E as <-. step. step. step. step. step. apply wp_noerr; [unfold PROC_MAX_INSTANCES; lia|]. repeat step. exact G.
  - repeat step. destruct (tls_config_parse_protocols s) as [p|]; [|discriminate E]. injection E as <-. repeat step. exact G.
  - injection E as <-. repeat step. exact G.
Qed.

Lemma wp_param n nm v a b c c' u r L g : strs nm a -> strs v b -> shorter 511 nm -> shorter 511 v -> (length a + length b < n)%nat -> ev_param nm v c = Some c' -> stop u = true ->
  st c (a ++ TChr 61 :: b ++ u :: r) L g -> wp (add_param n) g (fun _ g' => st c' (u :: r) L g').
Proof.
  intros S1 S2 V1 V2 N E U G. unfold add_param, ev_param in *. step.
  refine (wp_string nm a _ _ _ _ _ _ _ S1 _ _ G _); [lia|reflexivity|]. clear g G. intros g G. step. step. step.
  refine (wp_string v b _ _ _ _ _ _ _ S2 _ _ G _); [lia|apply stop_str, U|]. clear g G. intros g G. repeat step. exact G.
Qed.

Lemma fopt_run n o ts c c' : fopt_toks o ts -> valid_fopt o -> (length ts < n)%nat -> ev_fopt o c = Some c' -> runs stop (fastcgiopt n) ts c c' /\ starts stop ts.
Proof.
  intros T V N E. split.
  2:{ destruct T; (eexists; eexists; split; [reflexivity|auto]). }
  intros u r L g U G. destruct (stops u U) as (U1 & _). unfold fastcgiopt. destruct T as [nm v a b S1 S2|p a S|h a S|h a z S|h a p b S1 S2|z]; lens; norm G; cbn [ev_fopt valid_fopt] in E, V.
  - step. step. destruct V as (V1 & V2). apply (wp_param n nm v a b c); auto; lia.
  - step. step. step. pose proof S as S'. destruct (strs_len _ _ S') as (x & y & EX). rewrite EX in G. cbn [app] in G. step. cbn [is_kw].
    step. assert (G' : st c (a ++ u :: r) L g) by (rewrite EX; exact G). clear G. rename G' into G. repeat step. exact G.
  - step. step. step. step. cbn [is_kw]. change (kw_eqb TCP TCP) with true. cbv iota. step. step. step. step. step. step. rewrite U1. step. exact G.
  - step. step. step. step. cbn [is_kw]. change (kw_eqb TCP TCP) with true. cbv iota. step. step. step. step. step. step. cbn [is_kw]. change (kw_eqb PORT PORT) with true. cbv iota. repeat step. exact G.
  - step. step. step. step. cbn [is_kw]. change (kw_eqb TCP TCP) with true. cbv iota. step. step. step.
    refine (wp_string h a _ _ _ _ _ _ _ S1 _ _ G _); [lia|reflexivity|]. clear g G. intros g G. step. step. cbn [is_kw]. change (kw_eqb PORT PORT) with true. cbv iota.
    step. step. step. pose proof S2 as S'. destruct (strs_len _ _ S') as (x & y & EX). rewrite EX in G. cbn [app] in G. step. step.
    assert (G' : st c (b ++ u :: r) L g) by (rewrite EX; exact G). clear G. rename G' into G.
    refine (wp_string p b _ _ _ _ _ _ _ S2 _ _ G _); [lia|apply stop_str, U|]. clear g G. intros g G. step. exact G.
  - repeat step. exact G.
Qed.

Lemma fmt_wf s : fmt_text s -> check_block_fmt s = OK true.
Proof.
  intros F. apply c19_check_exact. induction F as [|c s C F IH|c s C F IH].
  - constructor.
  - apply wf_char; assumption.
  - vm_compute in C. destruct C as [<-|[<-|[<-|[<-|[<-|[]]]]]]; apply wf_spec; cbn [In]; auto 8.
Qed.
Definition lkws : list tok := map TKw [AUTO; BLOCK; DEFAULT; FASTCGI; INDEX; LANG; LOG; REQUIRE; ROOT; STRIP].
Lemma lopt_run n o ts c c' : lopt_toks o ts -> valid_lopt o -> (length ts < n)%nat -> ev_lopt o c = Some c' ->
  exists t r, ts = t :: r /\ In t lkws /\ runs stop (locopt_ n t) r c c'.
Proof.
  intros T V N E. unfold lkws. cbn [map In].
  destruct T as [b| |z|z s a S|s a S|os a B|o a T| |s a S|s a S|s a S|b|s a S|s a S|z]; (eexists; eexists; split; [reflexivity|split; [auto 20|]]);
    intros u r L g U G; destruct (stops u U) as (U1 & U2 & U3); unfold locopt_; lens; norm G; cbn [ev_lopt valid_lopt] in E, V.
  - repeat step. exact G.
  - step. step. rewrite U2. step. exact G.
  - destruct V as (V1 & V2 & V3 & V4). step. step. cbn [is_kw]. change (kw_eqb RETURN RETURN) with true. cbv iota. step. step. step. step. step. step.
    assert (K : wp (err_if (negb (check_block_code z));; on_loc (lmap (with_block (Z.to_N z) TEMPFAIL));; err_if ((30 <=? z)%Z && (z <? 40)%Z)) g (fun _ g' => st c' (u :: r) L g')).
    { step. apply wp_noerr; [apply c19_check_code in V1; rewrite V1; reflexivity|]. step. step. apply wp_noerr; [|exact G].
      destruct ((30 <=? z)%Z && (z <? 40)%Z) eqn:Q; [|reflexivity]. exfalso. apply V4; [lia|reflexivity]. }
    destruct u; try discriminate U; exact K.
  - destruct V as (V1 & V2 & V3 & V4). step. step. cbn [is_kw]. change (kw_eqb RETURN RETURN) with true. cbv iota. step. step. step. step.
    pose proof S as S'. destruct (strs_len _ _ S') as (x & y & EX). rewrite EX in G. cbn [app] in G. step. step. step.
    assert (G' : st c (a ++ u :: r) L g) by (rewrite EX; exact G). clear G. rename G' into G. step. step.
    exists true, g. rewrite (fmt_wf s V2). split; [reflexivity|]. step. apply wp_noerr; [reflexivity|]. step. step. step.
    apply wp_noerr; [apply c19_check_code in V1; rewrite V1; reflexivity|]. step. exact G.
  - repeat step. exact G.
  - pose proof B as B'. destruct B' as (b & cc & _ & _ & EA). rewrite EA in G. norm G. step. step.
    refine (block_run fopt_toks stop (fastcgiopt n) ev_fopt n os a c c' eq_refl eq_refl eq_refl B _ _ E (u :: r) L g _); [|lia|rewrite EA; cbn [app]; rewrite <- !app_assoc; exact G].
    intros x ts' d d' IX T LT EV. rewrite Forall_forall in V. apply (fopt_run n x ts' d d' T (V x IX)); [lia|exact EV].
  - cbn [ofold] in E. destruct (ev_fopt o c) as [c1|] eqn:E1; [|discriminate]. injection E as ->. inversion V; subst.
    destruct (fopt_run n o a c c' T ltac:(assumption) ltac:(lia) E1) as (R & v & w & EA & _ & _ & _).
    step. rewrite EA in G. cbn [app] in G. step.
    assert (K : wp (fastcgiopt n) g (fun _ g' => st c' (u :: r) L g')) by (apply (R u r L g U); rewrite EA; exact G).
    rewrite EA in T. inversion T; subst; exact K.
  - repeat step. exact G.
  - cbn [ofold ev_fopt] in E. destruct (ev_call s None c) as [c1|] eqn:E1; [|discriminate]. injection E as ->.
    pose proof S as S'. destruct (strs_len _ _ S') as (x & y & EX). rewrite EX in G. cbn [app] in G. step. step. step.
    assert (G' : st c (a ++ u :: r) L g) by (rewrite EX; exact G). clear G. rename G' into G. repeat step. exact G.
  - repeat step. exact G.
  - repeat step. exact G.
  - repeat step. exact G.
  - repeat step. exact G.
  - repeat step. exact G.
  - step. step. step. apply wp_noerr; [lia|]. step. exact G.
Qed.

Lemma port_getservice s z : port_named service s z -> getservice service s = Some z.
Proof.
  unfold port_named, getservice. intros [(D & R)|(N & S)].
  - destruct (strtonum_spec s 0 65535 z ltac:(unfold LLONG_MIN; lia) ltac:(unfold LLONG_MAX; lia)) as (_ & H). rewrite H by auto. reflexivity.
  - destruct (strtonum s 0 65535) as [v e] eqn:Q. destruct e; try exact S.
    apply strtonum_spec in Q; [|unfold LLONG_MIN; lia|unfold LLONG_MAX; lia]. destruct Q as (D & R). exfalso. exact (N v D R).
Qed.
Lemma wp_port n z b c u r L g (Q : Z -> gst -> Prop) : pport_toks service z b -> is_kw PORT u = false -> st c (b ++ u :: r) L g ->
  (forall g', st c (u :: r) L g' -> Q z g') -> wp (proxy_port service n) g Q.
Proof.
  intros P U G H. unfold proxy_port. destruct P as [|z|s z P]; norm G.
  - step. step. rewrite U. step. apply H, G.
  - step. step. cbn [is_kw]. change (kw_eqb PORT PORT) with true. cbv iota. repeat step. apply H, G.
  - step. step. cbn [is_kw]. change (kw_eqb PORT PORT) with true. cbv iota. step. step. step. step. rewrite (port_getservice s z P). step. apply H, G.
Qed.

Lemma pmatches_run : forall ms ts, pmatches_toks service ms ts -> forall n m c c', Forall valid_pmatch ms -> (length ms < n)%nat -> (length ts < m)%nat -> ofold ev_pmatch ms c = Some c' ->
  forall r L g, st c (ts ++ TChr 123 :: r) L g -> wp (proxy_matches service n m) g (fun _ g' => st c' (TChr 123 :: r) L g').
Proof.
  intros ms ts T. induction T as [|x ms a b PX T IH]; intros n m c c' V N M E r L g G; (destruct n as [|n]; [cbn [length] in N; lia|]); cbn [proxy_matches ofold] in *.
  - injection E as <-. step. step. step. exact G.
  - destruct (ev_pmatch x c) as [c1|] eqn:E1; [|discriminate]. inversion V; subst. lens. norm G.
    assert (ST : exists v w, b ++ TChr 123 :: r = v :: w /\ is_str v = false /\ is_kw PORT v = false).
    { destruct T as [|x2 ms a2 b2 P2 T2]; [exists (TChr 123), r; auto|]. inversion P2; subst; cbn [app]; (eexists; eexists; split; [reflexivity|auto]). }
    destruct ST as (v & w & EV & V1 & V2). destruct PX as [s sa S|s z sa sb S P]; norm G; rewrite EV in G; lens; cbn [ev_pmatch] in E1.
    + step. step. step. step. step. refine (wp_string s sa _ _ _ _ _ _ _ S _ _ G _); [lia|exact V1|]. clear g G. intros g G.
      step. step. step. step. rewrite <- EV in G. apply (IH n m c1 c'); auto; lia.
    + step. step. step. step. step.
      assert (ST2 : exists v2 w2, sb ++ v :: w = v2 :: w2 /\ is_str v2 = false) by (destruct P; cbn [app]; (eexists; eexists; split; [reflexivity|auto])).
      destruct ST2 as (v2 & w2 & EV2 & V3). rewrite EV2 in G. refine (wp_string s sa _ _ _ _ _ _ _ S _ _ G _); [lia|exact V3|]. clear g G. intros g G. rewrite <- EV2 in G.
      step. apply (wp_port m z sb c v w L); auto. clear g G. intros g G.
      step. step. step. step. rewrite <- EV in G. apply (IH n m c1 c'); auto; lia.
Qed.

Lemma popt_run n o ts c c' : popt_toks service o ts -> valid_popt o -> (length ts < n)%nat -> ev_popt o c = Some c' -> runs stop (proxy_opt_ service n) ts c c' /\ starts stop ts.
Proof.
  intros T V N E. split.
  2:{ destruct T; (eexists; eexists; split; [reflexivity|auto]). }
  intros u r L g U G. destruct (stops u U) as (U1 & _). unfold proxy_opt_. destruct T as [s a S|s a S|s a S| |s z a b S P|s a S|s a S|b|b]; lens; norm G; cbn [valid_popt] in V;
    try (repeat step; refine (wp_popt _ _ _ _ _ _ _ G E _); intros g' G'; exact G').
  step. step. step.
  assert (ST2 : exists v2 w2, b ++ u :: r = v2 :: w2 /\ is_str v2 = false) by (destruct P; cbn [app]; (eexists; eexists; split; [reflexivity|]); auto; apply stop_str; exact U).
  destruct ST2 as (v2 & w2 & EV2 & V3). rewrite EV2 in G. refine (wp_string s a _ _ _ _ _ _ _ S _ _ G _); [lia|exact V3|]. clear g G. intros g G. rewrite <- EV2 in G.
  step. apply (wp_port n z b c u r L); auto. clear g G. intros g G. refine (wp_popt _ _ _ _ _ _ _ G E _). intros g' G'. exact G'.
Qed.
Lemma sstops u : sstop u = true -> stop u = true /\ is_kw PROXYV1 u = false.
Proof. unfold sstop. intros H. apply andb_true_iff in H. destruct H as (A & B). split; [exact A|]. destruct (is_kw PROXYV1 u); [discriminate|reflexivity]. Qed.

Lemma sitem_run n i ts c c' : sitem_toks service i ts -> valid_sitem i -> (length ts < n)%nat -> ev_sitem i c = Some c' -> runs sstop (servitem gai service n) ts c c' /\ starts sstop ts.
Proof.
  intros T V N E. split.
  2:{ destruct T as [| | | | | | | |o a T]; try (eexists; eexists; split; [reflexivity|auto]). destruct T; (eexists; eexists; split; [reflexivity|auto]). }
  intros u r L g US G. destruct (sstops u US) as (U & UP). destruct (stops u U) as (U1 & U2 & U3). unfold servitem.
  destruct T as [s a S|s a S|s a S|s a S|nm v a b S1 S2|h p x a P|s os a b S B|ms os a b T B|o a T]; cbn [ev_sitem valid_sitem] in E, V; try (lens; norm G; repeat step; exact G).
  - lens. norm G. step. step. destruct V as (V1 & V2). apply (wp_param n nm v a b c); auto; lia.
  - (* listen *)
    norm G. step. step. unfold listen_opt. step. step.
    step. step. step.
    apply (wp_mono _ _ (fun h' g' => h' = h /\ st c (a ++ (if x then [TKw PROXYV1] else []) ++ u :: r) L g')).
    { destruct h; cbn [addr_tok]; cbv iota; step; split; auto; rewrite app_assoc in *; exact G. }
    clear g G. intros h' g (-> & G).
    assert (G' : exists v w, (if x then [TKw PROXYV1] else []) ++ u :: r = v :: w /\ is_kw PORT v = false) by (destruct x; cbn [app]; (eexists; eexists; split; [reflexivity|auto])).
    destruct G' as (v & w & EV & V1). rewrite EV in G.
    assert (K : forall p g2, ev_listen h p x c = Some c' -> st c (v :: w) L g2 -> wp (do t <- peek; do x <- (if is_kw PROXYV1 t then next;; ret true else ret false); listen gai h p x) g2 (fun _ g' => st c' (u :: r) L g')).
    { clear - EV UP. intros p g G2 E. rename G2 into E', E into G. rewrite <- EV in G. destruct x; cbn [app] in G.
      - step. step. cbn [is_kw]. change (kw_eqb PROXYV1 PROXYV1) with true. cbv iota. step. step. step. step. apply (wp_listen _ _ _ _ _ _ _ _ _ G E'). intros g' G'. exact G'.
      - step. step. rewrite UP. step. step. apply (wp_listen _ _ _ _ _ _ _ _ _ G E'). intros g' G'. exact G'. }
    destruct P as [|z|s]; norm G; step; step; [rewrite V1| |]; cbn [is_kw]; try change (kw_eqb PORT PORT) with true; cbv iota.
    + step. step. apply K; assumption.
    + step. step. step. step. step. step. apply K; assumption.
    + step. step. step. step. step. step. apply K; assumption.
  - (* location *)
    lens. destruct V as (V1 & V2). norm G. step. step. unfold location_.
    destruct (cur_host (fun h => set_locs (vh_locs h ++ [mkPloc new_location None]) h) c) as [c1|] eqn:E1; [|discriminate E]. cbn [obind] in E.
    destruct (ofold ev_lopt os c1) as [c2|] eqn:E2; [|discriminate E]. cbn [obind] in E. step. step. step.
    pose proof B as B'. destruct B' as (bb & cc & _ & _ & EA). rewrite EA in G. norm G.
    refine (wp_string s a _ _ _ _ _ _ _ S _ _ G _); [lia|reflexivity|]. clear g G. intros g G.
    step.
    assert (G' : st c1 (b ++ u :: r) L g) by (rewrite EA; cbn [app]; rewrite <- !app_assoc; exact G). clear G.
    refine (wp_mono _ _ _ _ (block_run lopt_toks stop (do t <- next; locopt_ n t) ev_lopt n os b c1 c2 eq_refl eq_refl eq_refl B _ _ E2 (u :: r) L g G') _); [|lia|].
    { intros x ts' d d' IX T LT EV. rewrite Forall_forall in V2. destruct (lopt_run n x ts' d d' T (V2 x IX) ltac:(lia) EV) as (t & rt & -> & IT & R). split.
      - intros v w L0 g0 VF G0. cbn [app] in G0. step. step. apply (R v w L0 g0 VF G0).
      - unfold lkws in IT. cbn [map In] in IT. exists t, rt. split; [reflexivity|]. decompose [or] IT; subst; auto; contradiction. }
    clear g G'. intros _ g G. step. change (drop_slash s) with (unslashed s). step. step. exact G.
  - (* proxy *)
    lens. destruct V as (V1 & V2 & _). norm G. step. step. unfold proxy_.
    destruct (cur_host (fun h => set_proxies (vh_proxies h ++ [new_proxy]) h) c) as [c1|] eqn:E1; [|discriminate E]. cbn [obind] in E.
    destruct (ofold ev_pmatch ms c1) as [c2|] eqn:E2; [|discriminate E]. cbn [obind] in E. destruct (ofold ev_popt os c2) as [c3|] eqn:E3; [|discriminate E]. cbn [obind] in E.
    destruct (proxy_fine c3) eqn:PF; [|discriminate E]. injection E as <-. step. step. step.
    pose proof B as B'. destruct B' as (bb & cc & _ & _ & EA). rewrite EA in G. norm G.
    assert (LM : (length ms <= length a)%nat).
    { clear - T. induction T as [|m ms a b P T IH]; [reflexivity|]. rewrite app_length. cbn [length]. destruct P; lens; lia. }
    refine (wp_mono _ _ _ _ (pmatches_run ms a T n n c1 c2 V1 _ _ E2 _ L g G) _); [lia|lia|]. clear g G. intros _ g G. step.
    assert (G' : st c2 (b ++ u :: r) L g) by (rewrite EA; cbn [app]; rewrite <- !app_assoc; exact G). clear G.
    refine (wp_mono _ _ _ _ (block_run (popt_toks service) stop (proxy_opt_ service n) ev_popt n os b c2 c3 eq_refl eq_refl eq_refl B _ _ E3 (u :: r) L g G') _); [|lia|].
    { intros x ts' d d' IX T' LT EV. rewrite Forall_forall in V2. apply (popt_run n x ts' d d' T' (V2 x IX)); [lia|exact EV]. }
    clear g G'. intros _ g G. pose proof G as (C & _). unfold wp. rewrite C. unfold proxy_fine in PF. destruct (g_hosts c3) as [|h0 r0]; [discriminate PF|]. destruct (rev (vh_proxies h0)) as [|p0 q0]; [discriminate PF|].
    apply andb_true_iff in PF. destruct PF as (P1 & P2). destruct (isnil (p_host (px p0))); [discriminate P1|].
    exists tt, g. split; [|exact G]. destruct (px_cert p0), (px_key p0); try discriminate P2; reflexivity.
  - destruct (lopt_run n o a c c' T V N E) as (t & rt & -> & IT & R). cbn [app] in G. step. step.
    pose proof (R u r L g U G) as K. unfold lkws in IT. cbn [map In] in IT. decompose [or] IT; try contradiction; subst t; exact K.
Qed.

Lemma stmt_run n s ts c c' : stmt_toks service s ts -> valid_stmt s -> (length ts < n)%nat -> ev_stmt s c = Some c' ->
  runs stop (statement gai service files n) ts c c' /\ exists t r, ts = t :: r /\ is_nl t = false /\ t <> TEnd.
Proof.
  intros T V N E. destruct T as [o a T|s is a b S B]; cbn [ev_stmt valid_stmt] in E, V.
  - pose proof (gopt_run n o a c c' T V N E) as R. destruct T; (split; [|eexists; eexists; split; [reflexivity|split; [reflexivity|discriminate]]]);
      intros u r L g U G; unfold statement; cbn [app] in G; step; step; refine (R u r L g U _); exact G.
  - split; [|eexists; eexists; split; [reflexivity|split; [reflexivity|discriminate]]].
    intros u r L g U G. lens. norm G. unfold statement. step. step. unfold vhost_. step. step. step.
    pose proof B as B'. destruct B' as (bb & cc & _ & _ & EA). rewrite EA in G. norm G.
    refine (wp_string s a _ _ _ _ _ _ _ S _ _ G _); [lia|reflexivity|]. clear g G. intros g G. destruct V as (V1 & V2 & V3 & V4). step. step. step. step. step.
    unfold ev_server in E. fold (new_vh s) in G. destruct (ofold ev_sitem is (set_hosts (g_addrs c) (new_vh s :: g_hosts c) c)) as [c1|] eqn:E1; [|discriminate E]. cbn [obind] in E.
    assert (G' : st (set_hosts (g_addrs c) (new_vh s :: g_hosts c) c) (b ++ u :: r) L g) by (rewrite EA; cbn [app]; rewrite <- !app_assoc; exact G). clear G.
    refine (wp_mono _ _ _ _ (block_run (sitem_toks service) sstop (servitem gai service n) ev_sitem n is b _ c1 eq_refl eq_refl eq_refl B _ _ E1 (u :: r) L g G') _); [|lia|].
    { intros x ts' d d' IX T' LT EV. rewrite Forall_forall in V2. apply (sitem_run n x ts' d d' T' (V2 x IX)); [lia|exact EV]. }
    clear g G'. intros _ g G. pose proof G as (C & _). unfold wp. rewrite C. destruct (g_hosts c1) as [|h0 r0]; [discriminate E|].
    destruct (vh_cert h0) as [x|]; [|discriminate E]. destruct (vh_key h0) as [y|]; [|discriminate E].
    match goal with |- context [bnd ?m ?f g] => change (wp (bnd m f) g (fun _ g' => st c' (u :: r) L g')) end. step. apply wp_noerr; [reflexivity|].
    destruct (vh_addrs h0) as [|ad al]; [apply (wp_listen _ _ _ _ _ _ _ _ _ G E); intros g' G'; exact G'|]. injection E as <-. step. exact G.
Qed.

(** a line of `types' *)
Lemma medianames_run : forall es a, Forall2 ext_tok es a -> forall n c c' u L g, (length a < n)%nat -> stop u = true -> ofold ev_ext es c = Some c' ->
  st c (a ++ [u]) L g -> wp (medianames n) g (fun _ g' => st c' [u] L g').
Proof.
  intros es a F. induction F as [|e t es a T F IH]; intros n c c' u L g N U E G; (destruct n as [|n]; [cbn [length] in N; lia|]); cbn [medianames ofold app] in *.
  - injection E as <-. step. step. destruct u; try discriminate U; step; exact G.
  - destruct (ev_ext e c) as [c1|] eqn:E1; [|discriminate]. cbn [length] in N. destruct T; step; step; step; step; step;
      refine (wp_ext _ _ _ _ _ _ _ G E1 _); clear g G; intros g G; apply (IH n c1 c'); auto; lia.
Qed.
Lemma type_run n m es a c c' u L g : es <> [] -> Forall2 ext_tok es a -> (length a < n)%nat -> stop u = true -> ev_type (m, es) c = Some c' ->
  st c (TStr m :: a ++ [u]) L g -> wp (mediaopts files n) g (fun _ g' => st c' [u] L g').
Proof.
  intros NE F N U E G. unfold mediaopts. step. step. step. step. step. step. unfold ev_type in E. cbn [fst snd] in E.
  assert (ST : exists t r, a ++ [u] = t :: r /\ (exists x, t = TStr x) \/ exists z r, a ++ [u] = TNum z :: r).
  { destruct F as [|e t es a T F]; [congruence|]. cbn [app]. destruct T; [exists (TStr s), (a ++ [u]); left; eauto|exists (TChr 0), []; right; eauto]. }
  step. destruct ST as (t & r & [(ST & x & ->)|(z & r' & ST)]); rewrite ST in G; step; rewrite <- ST in G; apply (medianames_run es a F n _ c' u L g N U E G).
Qed.
End Runs.
