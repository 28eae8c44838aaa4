(** What the statements do to the configuration is what they mean. *)
From Verif Require Import Base BaseLemmas Compat Compat_Proofs Conf Config Mime Fmt Parse Prop_Parse Prop_Mime UpTls UpTlsSpec Lex LexSpec Iri_Last_Proofs Gram GramSpec Gram_Proofs Text_Proofs.
Local Open Scope N_scope.

(** ** the last one said *)
Section Said.
Context {A B : Type} (f : A -> option B).
Lemma last_said_app a b : last_said f (a ++ b) = match last_said f b with Some x => Some x | None => last_said f a end.
Proof. induction a as [|x a IH]; cbn [last_said app]; [destruct (last_said f b); reflexivity|]. rewrite IH. destruct (last_said f b); reflexivity. Qed.
Lemma said_app a b d : said f (a ++ b) d = said f b (said f a d).
Proof. unfold said. rewrite last_said_app. destruct (last_said f b); reflexivity. Qed.
Lemma said_nil d : said f [] d = d. Proof. reflexivity. Qed.
Lemma said_one x d : said f [x] d = match f x with Some b => b | None => d end.
Proof. unfold said. cbn [last_said]. reflexivity. Qed.
Lemma said_cons x l d : said f (x :: l) d = said f l (match f x with Some b => b | None => d end).
Proof. change (x :: l) with ([x] ++ l). rewrite said_app, said_one. reflexivity. Qed.
Lemma last_said_in l b : last_said f l = Some b -> exists x, In x l /\ f x = Some b.
Proof. induction l as [|y l IH]; cbn [last_said]; [discriminate|]. destruct (last_said f l) as [z|]; intros E; [injection E as <-; destruct (IH eq_refl) as (x & I & X); exists x; split; [right; exact I|exact X]|exists y; split; [left; reflexivity|exact E]]. Qed.
Lemma last_said_none l : last_said f l = None -> forall x, In x l -> f x = None.
Proof. induction l as [|y l IH]; cbn [last_said]; intros E x I; [destruct I|]. destruct (last_said f l) as [z|]; [discriminate|]. destruct I as [<-|I]; [exact E|apply IH; auto]. Qed.
End Said.

(** ** the FastCGI applications *)
Lemma apps_app : forall a b t is t', apps (a ++ b) t = OK (is, t', 0%nat) -> exists t1 i1 i2, apps a t = OK (i1, t1, 0%nat) /\ apps b t1 = OK (i2, t', 0%nat).
Proof.
  induction a as [|[p q] a IH]; intros b t is t' E; cbn [apps app] in *; [exists t, [], is; auto|].
  destruct (fastcgi_conf p q t) as [[[i t1] e]| |]; cbn [bind] in *; try discriminate.
  destruct (apps (a ++ b) t1) as [[[is1 t2] e1]| |] eqn:A; cbn [bind] in *; try discriminate. apply OK_inj in E. injection E as E1 E2 E3. assert (e1 = 0%nat /\ e = 0%nat) as (-> & ->) by lia. subst t2.
  destruct (IH b t1 is1 t' A) as (t2 & i1 & i2 & A1 & A2). exists t2, (i :: i1), i2. rewrite A1. cbn [bind]. auto.
Qed.
Lemma apps_one p q t is t' : NoDup t -> apps [(p, q)] t = OK (is, t', 0%nat) -> exists i, fastcgi_conf p q t = OK (i, t', 0%nat) /\ nth_error t' i = Some (app_of (p, q)).
Proof.
  intros ND E. pose proof (apps_ok _ _ _ _ ND E) as (_ & _ & F). cbn [apps] in E. destruct (fastcgi_conf p q t) as [[[i t1] e]| |]; cbn [bind] in *; try discriminate.
  apply OK_inj in E. injection E as E1 E2 E3. assert (e = 0%nat) as -> by lia. subst t1 is. exists i. split; [reflexivity|]. inversion F; subst. assumption.
Qed.
Definition fext (t t' : list fapp) : Prop := exists x, t' = t ++ x.
Lemma fext_refl t : fext t t. Proof. exists []. rewrite app_nil_r. reflexivity. Qed.
Lemma fext_trans a b c : fext a b -> fext b c -> fext a c. Proof. intros (x & ->) (y & ->). exists (x ++ y). rewrite app_assoc. reflexivity. Qed.
Lemma fext_nth t t' i x : fext t t' -> nth_error t i = Some x -> nth_error t' i = Some x.
Proof. intros (y & ->) H. rewrite nth_error_app1; [exact H|]. apply nth_error_Some. congruence. Qed.
Lemma apps_ext l t is t' : NoDup t -> apps l t = OK (is, t', 0%nat) -> NoDup t' /\ fext t t'.
Proof. intros ND E. destruct (apps_ok _ _ _ _ ND E) as (A & B & _). auto. Qed.

(** ** locations *)
Lemma means_loc_ext t t' m os ps l : fext t t' -> means_loc t m os ps l -> means_loc t' m os ps l.
Proof.
  intros X. unfold means_loc. intros (A1 & A2 & A3 & A4 & A5 & A6 & A7 & A8 & A9 & A10 & A11 & A12 & A13 & A14 & A15 & A16 & A17). repeat (split; [assumption|]).
  split; [|auto]. destruct (said _ (prims os) None) as [x|]; [|exact A15]. destruct A15 as (i & I1 & I2). exists i. split; [exact I1|]. apply (fext_nth t); assumption.
Qed.
Lemma prims_app a b : prims (a ++ b) = prims a ++ prims b.
Proof. apply flat_map_app. Qed.
Lemma prims_fcgi fs : prims [LFcgi fs] = map PmF fs.
Proof. unfold prims. cbn [flat_map]. apply app_nil_r. Qed.
Lemma means_loc_new t : means_loc t [] [] [] (mkPloc new_location None).
Proof. unfold means_loc. cbn. repeat (split; [reflexivity|]). split; [split; [discriminate|intros []]|auto]. Qed.
Lemma means_loc_match t m m' os ps l : means_loc t m os ps l -> means_loc t m' os ps (lmap (with_match m') l).
Proof. unfold means_loc. cbn [lmap pl pl_ca with_match l_match l_lang l_default_mime l_index l_auto_index l_block_code l_block_fmt l_strip l_disable_log l_dir l_params l_fcgi_strip l_nofcgi l_fcgi l_reqca l_dirfd]. intros (_ & H). split; [reflexivity|exact H]. Qed.
(** [LFcgi []] says nothing *)
Lemma means_loc_empty t m os ps l : means_loc t m os ps l -> means_loc t m (os ++ [LFcgi []]) ps l.
Proof.
  unfold means_loc. rewrite !prims_app, !said_app. cbn [prims flat_map map app]. rewrite !said_nil, !said_one. cbv beta iota. intros (A1 & A2 & A3 & A4 & A5 & A6 & A7 & A8 & A9 & A10 & A11 & A12 & A13 & A14 & A15 & A16). repeat (split; [assumption|]).
  split; [|auto]. rewrite A14, in_app_iff. cbn [In]. intuition congruence.
Qed.
Ltac locfields := cbn [lmap pl pl_ca with_match with_lang with_mime with_index with_auto with_block with_strip with_nolog with_fcgi with_fstrip with_params with_dir l_match l_lang l_default_mime l_index l_auto_index l_block_code l_block_fmt l_strip l_disable_log l_dir l_params l_fcgi_strip l_nofcgi l_fcgi l_reqca l_dirfd].

(** ** the configuration while a server is read *)
Definition incore (base : core) (t : list fapp) (al : list address) (h : vh) : core := set_fcgis t (set_hosts al (h :: g_hosts base) base).
Lemma on_last_snoc {A} (f : A -> A) dn l : on_last f (dn ++ [l]) = dn ++ [f l].
Proof. unfold on_last. rewrite rev_app_distr. cbn [rev app]. rewrite rev_involutive. reflexivity. Qed.
Lemma in_loc base t al h dn l f : vh_locs h = dn ++ [l] -> cur_loc f (incore base t al h) = Some (incore base t al (set_locs (dn ++ [f l]) h)).
Proof. intros E. unfold cur_loc, cur_host, incore. cbn [g_hosts g_addrs set_fcgis set_hosts]. rewrite E, on_last_snoc. reflexivity. Qed.
Lemma off_in_fcgi os fs : In LFcgiOff (os ++ [LFcgi fs]) <-> In LFcgiOff os.
Proof. rewrite in_app_iff. cbn [In]. intuition congruence. Qed.
Lemma apps_nil t is t' : apps [] t = OK (is, t', 0%nat) -> t' = t.
Proof. cbn [apps]. intros E. apply OK_inj in E. congruence. Qed.

Ltac split_loc := intros (A1 & A2 & A3 & A4 & A5 & A6 & A7 & A8 & A9 & A10 & A11 & A12 & A13 & A14 & A15 & A16 & A17).
Lemma means_fopt base al t t' is m os fs0 ps l f h dn : vh_locs h = dn ++ [l] -> means_loc t m (os ++ [LFcgi fs0]) ps l -> valid_fopt f -> NoDup t ->
  apps (fcalls (LFcgi [f])) t = OK (is, t', 0%nat) ->
  exists l', ev_fopt f (incore base t al h) = Some (incore base t' al (set_locs (dn ++ [l']) h)) /\
             means_loc t' m (os ++ [LFcgi (fs0 ++ [f])]) (ps ++ lparams [LFcgi [f]]) l'.
Proof.
  intros H ML V ND AP. revert ML. unfold means_loc. rewrite (off_in_fcgi os fs0), !prims_app, !prims_fcgi, !map_app, !app_assoc, !said_app. cbn [map]. rewrite !said_one. cbv beta iota. split_loc.
  destruct f as [n v|p q|z]; cbn [ev_fopt fcalls flat_map app] in *.
  - apply apps_nil in AP. subst t'. eexists. split; [apply in_loc; exact H|]. locfields. rewrite (off_in_fcgi os). cbn [lparams flat_map app]. repeat (split; [assumption|]). split; [rewrite A12; reflexivity|]. repeat (split; [assumption|]). assumption.
  - destruct (apps_one _ _ _ _ _ ND AP) as (i & FC & NT). unfold ev_call. change (g_fcgi (incore base t al h)) with t. rewrite FC.
    eexists. split; [apply (in_loc base t'); exact H|]. locfields. rewrite (off_in_fcgi os). cbn [lparams flat_map app]. rewrite app_nil_r. repeat (split; [assumption|]). split; [exists i; auto|]. auto.
  - apply apps_nil in AP. subst t'. eexists. split; [apply in_loc; exact H|]. locfields. rewrite (off_in_fcgi os). cbn [lparams flat_map app]. rewrite app_nil_r. repeat (split; [assumption|]). split; [apply Z2Nat.id; exact V|]. repeat (split; [assumption|]). assumption.
Qed.
Lemma set_locs_twice a b h : set_locs a (set_locs b h) = set_locs a h.
Proof. reflexivity. Qed.
Lemma set_locs_same h : set_locs (vh_locs h) h = h.
Proof. destruct h; reflexivity. Qed.
Lemma means_fopts base al m os dn : forall fs fs0 t t' is ps l h, vh_locs h = dn ++ [l] -> means_loc t m (os ++ [LFcgi fs0]) ps l -> Forall valid_fopt fs -> NoDup t ->
  apps (fcalls (LFcgi fs)) t = OK (is, t', 0%nat) ->
  exists l', ofold ev_fopt fs (incore base t al h) = Some (incore base t' al (set_locs (dn ++ [l']) h)) /\
             means_loc t' m (os ++ [LFcgi (fs0 ++ fs)]) (ps ++ lparams [LFcgi fs]) l'.
Proof.
  induction fs as [|f fs IH]; intros fs0 t t' is ps l h H ML V ND AP.
  - apply apps_nil in AP. subst t'. exists l. cbn [ofold lparams flat_map app]. rewrite !app_nil_r, <- H, set_locs_same. auto.
  - inversion V as [|? ? V1 V2]; subst. replace (fcalls (LFcgi (f :: fs))) with (fcalls (LFcgi [f]) ++ fcalls (LFcgi fs)) in AP by (cbn [fcalls flat_map]; rewrite app_nil_r; reflexivity).
    destruct (apps_app _ _ _ _ _ AP) as (t1 & i1 & i2 & AP1 & AP2). destruct (apps_ext _ _ _ _ ND AP1) as (ND1 & _).
    destruct (means_fopt base al _ _ _ _ _ _ _ _ _ _ _ H ML V1 ND AP1) as (l1 & E1 & ML1). cbn [ofold]. rewrite E1.
    destruct (IH (fs0 ++ [f]) t1 t' i2 _ l1 (set_locs (dn ++ [l1]) h) eq_refl ML1 V2 ND1 AP2) as (l2 & E2 & ML2).
    exists l2. rewrite E2. split; [reflexivity|]. rewrite <- app_assoc in ML2. cbn [app] in ML2. replace (lparams [LFcgi (f :: fs)]) with (lparams [LFcgi [f]] ++ lparams [LFcgi fs]) by (unfold lparams; cbn [flat_map]; rewrite !app_nil_r; reflexivity). rewrite app_assoc. exact ML2.
Qed.
Lemma means_lopt base al dn m t t' is os ps l h o : vh_locs h = dn ++ [l] -> means_loc t m os ps l -> valid_lopt o -> NoDup t ->
  apps (fcalls o) t = OK (is, t', 0%nat) ->
  exists l', ev_lopt o (incore base t al h) = Some (incore base t' al (set_locs (dn ++ [l']) h)) /\ means_loc t' m (os ++ [o]) (ps ++ lparams [o]) l'.
Proof.
  intros H ML V ND AP.
  destruct o as [b|z s|s|fs| |s|s|b|s|s|z]; cbn [ev_lopt]; try exact (means_fopts base al m os dn fs [] t t' is ps l h H (means_loc_empty _ _ _ _ _ ML) V ND AP);
    cbn [fcalls] in AP; apply apps_nil in AP; subst t'; (eexists; split; [apply in_loc; exact H|]);
    revert ML; unfold means_loc; rewrite !prims_app, !said_app; cbn [prims flat_map app]; rewrite !said_one; cbv beta iota; locfields; cbn [lparams flat_map app]; rewrite ?app_nil_r, in_app_iff; cbn [In]; split_loc;
    cbn [valid_lopt] in V; (repeat (split; [first [assumption|reflexivity|rewrite Z2N.id by lia; reflexivity|rewrite Z2Nat.id by lia; reflexivity|rewrite A14; intuition congruence|intuition congruence|destruct b; reflexivity]|])); try assumption; try reflexivity.
Qed.
Lemma means_lopts base al dn m : forall os' os t t' is ps l h, vh_locs h = dn ++ [l] -> means_loc t m os ps l -> Forall valid_lopt os' -> NoDup t ->
  apps (flat_map fcalls os') t = OK (is, t', 0%nat) ->
  exists l', ofold ev_lopt os' (incore base t al h) = Some (incore base t' al (set_locs (dn ++ [l']) h)) /\ means_loc t' m (os ++ os') (ps ++ lparams os') l'.
Proof.
  induction os' as [|o os' IH]; intros os t t' is ps l h H ML V ND AP.
  - apply apps_nil in AP. subst t'. exists l. cbn [ofold lparams flat_map app]. rewrite !app_nil_r, <- H, set_locs_same. auto.
  - inversion V as [|? ? V1 V2]; subst. cbn [flat_map] in AP. destruct (apps_app _ _ _ _ _ AP) as (t1 & i1 & i2 & AP1 & AP2). destruct (apps_ext _ _ _ _ ND AP1) as (ND1 & _).
    destruct (means_lopt base al _ _ _ _ _ _ _ _ _ _ H ML V1 ND AP1) as (l1 & E1 & ML1). cbn [ofold]. rewrite E1.
    destruct (IH (os ++ [o]) t1 t' i2 _ l1 (set_locs (dn ++ [l1]) h) eq_refl ML1 V2 ND1 AP2) as (l2 & E2 & ML2).
    exists l2. rewrite E2. split; [reflexivity|]. rewrite <- app_assoc in ML2. cbn [app] in ML2. replace (lparams (o :: os')) with (lparams [o] ++ lparams os') by (unfold lparams; cbn [flat_map]; rewrite app_nil_r; reflexivity). rewrite app_assoc. exact ML2.
Qed.

(** ** proxies *)
Lemma in_proxy base t al h dn p f : vh_proxies h = dn ++ [p] -> cur_proxy f (incore base t al h) = Some (incore base t al (set_proxies (dn ++ [f p]) h)).
Proof. intros E. unfold cur_proxy, cur_host, incore. cbn [g_hosts g_addrs set_fcgis set_hosts]. rewrite E, on_last_snoc. reflexivity. Qed.
Lemma set_proxies_same h : set_proxies (vh_proxies h) h = h.
Proof. destruct h; reflexivity. Qed.
Lemma means_proxy_new : means_proxy [] [] new_proxy.
Proof. unfold means_proxy. cbn. repeat (split; [reflexivity|]). split; [split; [discriminate|intros []]|]. repeat (split; [reflexivity|]). reflexivity. Qed.
Ltac split_prx := intros (A1 & A2 & A3 & A4 & A5 & A6 & A7 & A8 & A9 & A10 & A11 & A12 & A13).
Ltac prxfields := cbn [pmap px px_sni px_protos px_noverify px_cert px_key px_ca p_match_proto p_match_host p_match_port p_host p_port p_notls p_proxy p_reqca].
Lemma means_pmatch base t al h dn p ms os x : vh_proxies h = dn ++ [p] -> means_proxy ms os p ->
  exists p', ev_pmatch x (incore base t al h) = Some (incore base t al (set_proxies (dn ++ [p']) h)) /\ means_proxy (ms ++ [x]) os p'.
Proof.
  intros H MP. destruct x as [s|s z]; cbn [ev_pmatch]; (eexists; split; [apply in_proxy; exact H|]); revert MP; unfold means_proxy; rewrite !said_app, !said_one; cbv beta iota; prxfields; split_prx; repeat (split; [first [assumption|reflexivity]|]); assumption.
Qed.
Lemma means_pmatches base t al os dn : forall ms' ms h p, vh_proxies h = dn ++ [p] -> means_proxy ms os p ->
  exists p', ofold ev_pmatch ms' (incore base t al h) = Some (incore base t al (set_proxies (dn ++ [p']) h)) /\ means_proxy (ms ++ ms') os p'.
Proof.
  induction ms' as [|x ms' IH]; intros ms h p H MP; cbn [ofold]; [exists p; rewrite app_nil_r, <- H, set_proxies_same; auto|].
  destruct (means_pmatch base t al _ _ _ _ _ x H MP) as (p1 & E1 & MP1). rewrite E1. destruct (IH _ (set_proxies (dn ++ [p1]) h) p1 eq_refl MP1) as (p2 & E2 & MP2). rewrite E2. rewrite <- app_assoc in MP2. exists p2. split; [reflexivity|exact MP2].
Qed.
Lemma means_popt base t al h dn p ms os o : vh_proxies h = dn ++ [p] -> means_proxy ms os p -> valid_popt o ->
  exists p', ev_popt o (incore base t al h) = Some (incore base t al (set_proxies (dn ++ [p']) h)) /\ means_proxy ms (os ++ [o]) p'.
Proof.
  intros H MP V. unfold ev_popt. cbn [incore g_hosts set_fcgis set_hosts]. rewrite H, rev_app_distr. cbn [rev app]. rewrite rev_involutive.
  destruct o as [s|s|s| |s z|s|s|b|b]; cbn [proxy_option valid_popt] in *;
    [| |destruct (tls_config_parse_protocols s) as [n|] eqn:TP; [|congruence]| |unfold shorter, HOST_NAME_MAX in *; rewrite (proj2 (Nat.leb_le _ _)) by lia; rewrite firstn_all2 by lia; cbn [andb]
    | |unfold shorter, HOST_NAME_MAX in *; rewrite (proj2 (Nat.leb_le _ _)) by lia; rewrite firstn_all2 by lia; cbn [andb]| |];
    (eexists; split; [reflexivity|]); revert MP; unfold means_proxy; rewrite !said_app, !said_one; cbv beta iota; prxfields; rewrite in_app_iff; cbn [In]; split_prx; repeat (split; [first [assumption|reflexivity|congruence|rewrite A7; intuition congruence|intuition congruence]|]); try assumption; try reflexivity.
Qed.
Lemma means_popts base t al ms dn : forall os' os h p, vh_proxies h = dn ++ [p] -> means_proxy ms os p -> Forall valid_popt os' ->
  exists p', ofold ev_popt os' (incore base t al h) = Some (incore base t al (set_proxies (dn ++ [p']) h)) /\ means_proxy ms (os ++ os') p'.
Proof.
  induction os' as [|x os' IH]; intros os h p H MP V; cbn [ofold]; [exists p; rewrite app_nil_r, <- H, set_proxies_same; auto|]. inversion V as [|? ? V1 V2]; subst.
  destruct (means_popt base t al _ _ _ _ _ x H MP V1) as (p1 & E1 & MP1). rewrite E1. destruct (IH _ (set_proxies (dn ++ [p1]) h) p1 eq_refl MP1 V2) as (p2 & E2 & MP2). rewrite E2. rewrite <- app_assoc in MP2. exists p2. split; [reflexivity|exact MP2].
Qed.
Lemma said_some {A B} (f : A -> option B) l : (exists x b, In x l /\ f x = Some b) -> exists x b, In x l /\ f x = Some b /\ last_said f l = Some b.
Proof. intros (x & b & I & F). destruct (last_said f l) as [b'|] eqn:E; [destruct (last_said_in f l b' E) as (y & Y1 & Y2); eauto 6|]. rewrite (last_said_none f l E x I) in F. discriminate. Qed.
Lemma proxy_is_fine base t al h dn p ms os : vh_proxies h = dn ++ [p] -> means_proxy ms os p -> valid_sitem (SProxy ms os) -> proxy_fine (incore base t al h) = true.
Proof.
  intros H MP (_ & _ & (rh & rp & RI) & RN & CK). unfold proxy_fine. cbn [incore g_hosts set_fcgis set_hosts]. rewrite H, rev_app_distr. cbn [rev app].
  destruct MP as (_ & _ & _ & A4 & _ & _ & _ & _ & _ & _ & A11 & A12 & _). apply andb_true_intro. split.
  - rewrite A4. unfold said. destruct (said_some (fun o => match o with PRelayTo h _ => Some h | _ => None end) os) as (x & b & I & F & L); [exists (PRelayTo rh rp), rh; auto|].
    rewrite L. destruct x as [s|s|s| |s z|s|s|u|u]; try discriminate F. injection F as <-. specialize (RN _ _ I). destruct s; [congruence|reflexivity].
  - rewrite A11, A12. unfold said.
    destruct (last_said (fun o => match o with PCert f => Some (Some f) | _ => None end) os) as [c|] eqn:LC; destruct (last_said (fun o => match o with PKey f => Some (Some f) | _ => None end) os) as [k|] eqn:LK; try reflexivity.
    + destruct (last_said_in _ _ _ LC) as (x & I & F). destruct x; try discriminate F. injection F as <-. destruct (last_said_in _ _ _ LK) as (x & I2 & F). destruct x; try discriminate F. injection F as <-. reflexivity.
    + destruct (last_said_in _ _ _ LC) as (x & I & F). destruct x; try discriminate F. destruct (proj1 CK ltac:(eauto)) as (f & I2). pose proof (last_said_none _ _ LK _ I2). discriminate.
    + destruct (last_said_in _ _ _ LK) as (x & I & F). destruct x; try discriminate F. destruct (proj2 CK ltac:(eauto)) as (f & I2). pose proof (last_said_none _ _ LC _ I2). discriminate.
Qed.

(** ** addresses *)
Lemma add_nonempty a ai pp x a' e : add_to_addr_queue a ai pp x = Some (a', e) -> a' <> [].
Proof.
  unfold add_to_addr_queue. destruct (SS_SIZE <? length (i_sa ai))%nat; [discriminate|]. destruct (find _ a) as [y|] eqn:F; [intros E; injection E as <- _; intros ->; discriminate|].
  destruct ((i_family ai =? AF_INET) || (i_family ai =? AF_INET6)); [|discriminate]. intros E. injection E as <- _. discriminate.
Qed.
Lemma listen_errors l x : forall s s', listen_on l x s = Some s' -> (s_errors s <= s_errors s')%nat.
Proof.
  induction l as [|[ai pp] l IH]; intros s s' E; cbn [listen_on] in E; [injection E as <-; lia|]. destruct (s_hosts s) as [|h hs]; [discriminate|].
  destruct (add_to_addr_queue h ai pp x) as [[h' e1]|]; [|discriminate]. destruct (add_to_addr_queue (s_all s) ai pp x) as [[al e2]|]; [|discriminate]. apply IH in E. cbn [s_errors] in E. lia.
Qed.
Lemma lrun_errors ds : forall s s', lrun ds s = Some s' -> (s_errors s <= s_errors s')%nat.
Proof.
  induction ds as [|d ds IH]; intros s s' E; cbn [lrun] in E; [injection E as <-; lia|]. destruct (ldo d s) as [s1|] eqn:D; [|discriminate]. apply IH in E.
  destruct d as [|l x]; cbn [ldo] in D; [injection D as <-; exact E|]. apply listen_errors in D. lia.
Qed.
Lemma lrun_app a : forall b s, lrun (a ++ b) s = match lrun a s with Some s1 => lrun b s1 | None => None end.
Proof. induction a as [|d a IH]; intros b s; cbn [lrun app]; [reflexivity|]. destruct (ldo d s); [apply IH|reflexivity]. Qed.
Lemma listen_frame X x : forall l a al s', listen_on l x (mkL (a :: X) al 0) = Some s' -> s_errors s' = 0%nat ->
  exists a' al', s' = mkL (a' :: X) al' 0 /\ listen_on l x (mkL [a] al 0) = Some (mkL [a'] al' 0) /\ (l <> [] \/ a <> [] -> a' <> []).
Proof.
  induction l as [|[ai pp] l IH]; intros a al s' E Z; cbn [listen_on s_hosts s_all s_errors] in *; [injection E as <-; exists a, al; repeat split; auto; intros [C|C]; congruence|].
  destruct (add_to_addr_queue a ai pp x) as [[h' e1]|] eqn:Q1; [|discriminate]. destruct (add_to_addr_queue al ai pp x) as [[al2 e2]|] eqn:Q2; [|discriminate].
  pose proof (listen_errors _ _ _ _ E) as L. cbn [s_errors] in L. assert (e1 = false /\ e2 = false) as (-> & ->) by (destruct e1, e2; auto; lia). cbn [Nat.add] in *.
  destruct (IH _ _ _ E Z) as (a' & al' & E1 & E2 & N). exists a', al'. split; [exact E1|]. split; [exact E2|]. intros _. apply N. right. apply (add_nonempty _ _ _ _ _ _ Q1).
Qed.

(** ** servers *)
Lemma in_host base t al h f : cur_host f (incore base t al h) = Some (incore base t al (f h)).
Proof. reflexivity. Qed.
Section Servers.
Variable gai : option (list N) -> list N -> option (list (ainfo * list N)).
Definition servs (items : list sitem) (h h' : vh) : Prop :=
  vh_domain h' = vh_domain h /\
  vh_cert h' = said (fun i => match i with SCert s => Some (Some s) | _ => None end) items (vh_cert h) /\
  vh_key h' = said (fun i => match i with SKey s => Some (Some s) | _ => None end) items (vh_key h) /\
  vh_ocsp h' = said (fun i => match i with SOcsp s => Some (Some s) | _ => None end) items (vh_ocsp h) /\
  vh_aliases h' = vh_aliases h ++ flat_map (fun i => match i with SAlias s => [s] | _ => [] end) items /\
  (exists pr, vh_proxies h' = vh_proxies h ++ pr /\ Forall2 (fun x p => means_proxy (fst x) (snd x) p) (proxies_in items) pr) /\
  (listens items <> [] \/ vh_addrs h <> [] -> vh_addrs h' <> []) /\ (listens items = [] -> vh_addrs h' = vh_addrs h).
Lemma listen_one base t al h h0 p x d X s' : resolve gai (h0, p, x) = Some d -> ldo d (mkL (vh_addrs h :: X) al 0) = Some s' -> s_errors s' = 0%nat ->
  exists a' al', s' = mkL (a' :: X) al' 0 /\ ev_listen gai h0 p x (incore base t al h) = Some (incore base t al' (set_addrs a' h)) /\ a' <> [].
Proof.
  unfold resolve. destruct (gai h0 p) as [[|a l]|] eqn:G; try discriminate. intros E. injection E as <-. cbn [ldo]. intros E Z. destruct (listen_frame X x _ _ _ _ E Z) as (a' & al' & E1 & E2 & NE).
  exists a', al'. split; [exact E1|]. split; [|apply NE; left; discriminate]. unfold ev_listen. rewrite G. cbn [incore g_hosts g_addrs set_fcgis set_hosts]. rewrite E2. reflexivity.
Qed.
Lemma servs_cons i items h h1 h' : servs [i] h h1 -> servs items h1 h' -> servs (i :: items) h h'.
Proof.
  intros (A1 & A2 & A3 & A4 & A5 & (p1 & A6 & A6') & A7 & A8) (B1 & B2 & B3 & B4 & B5 & (p2 & B6 & B6') & B7 & B8). rewrite said_one in A2, A3, A4. cbn [flat_map] in A5. rewrite app_nil_r in A5. cbn [proxies_in flat_map] in A6'. rewrite app_nil_r in A6'.
  assert (LE : listens (i :: items) = listens [i] ++ listens items) by (unfold listens; cbn [flat_map]; rewrite app_nil_r; reflexivity).
  unfold servs. rewrite !said_cons, <- A2, <- A3, <- A4. cbn [flat_map]. split; [congruence|]. repeat (split; [assumption|]). split; [rewrite B5, A5, app_assoc; reflexivity|].
  split; [exists (p1 ++ p2); split; [rewrite B6, A6, app_assoc; reflexivity|apply Forall2_app; assumption]|]. rewrite LE. split.
  - intros [C|C]; apply B7; [|right; apply A7; right; exact C]. destruct (listens [i]) as [|y ys]; [left; exact C|right; apply A7; left; discriminate].
  - intros C. apply app_eq_nil in C. destruct C as (C1 & C2). rewrite (B8 C2). apply A8, C1.
Qed.
Ltac servs_plain := unfold servs; cbn [flat_map listens proxies_in app]; rewrite !said_one; (repeat (split; [first [reflexivity|rewrite app_nil_r; reflexivity]|])); (split; [exists []; rewrite app_nil_r; split; [reflexivity|constructor]|]); (split; [intros [C|C]; [congruence|exact C]|reflexivity]).
Definition means_section (t : list fapp) (s : section) (l : ploc) : Prop := let '(m, os, ps) := s in means_loc t m os ps l.
Lemma means_items base X : forall items m os ps t t' is al h dn l ds s', vh_locs h = dn ++ [l] -> means_loc t m os ps l -> Forall valid_sitem items -> NoDup t ->
  apps (flat_map item_calls items) t = OK (is, t', 0%nat) -> resolves gai (listens items) = Some ds -> lrun ds (mkL (vh_addrs h :: X) al 0) = Some s' -> s_errors s' = 0%nat ->
  exists h' al', ofold (ev_sitem gai) items (incore base t al h) = Some (incore base t' al' h') /\ s' = mkL (vh_addrs h' :: X) al' 0 /\ servs items h h' /\
    exists ls, vh_locs h' = dn ++ ls /\ Forall2 (means_section t') (sections (m, os, ps) items) ls.
Proof.
  induction items as [|i items IH]; intros m os ps t t' is al h dn l ds s' H ML V ND AP RS LR Z.
  - apply apps_nil in AP. subst t'. cbn [listens flat_map resolves] in RS. injection RS as <-. cbn [lrun] in LR. injection LR as <-. exists h, al. split; [reflexivity|]. split; [reflexivity|].
    split; [|exists [l]; split; [exact H|]; constructor; [exact ML|constructor]]. unfold servs. cbn [flat_map listens proxies_in]. rewrite !said_nil, app_nil_r. repeat (split; [reflexivity|]). split; [exists []; rewrite app_nil_r; split; [reflexivity|constructor]|]. split; [intros [C|C]; [congruence|exact C]|reflexivity].
  - inversion V as [|? ? V1 V2]; subst. cbn [flat_map] in AP. destruct (apps_app _ _ _ _ _ AP) as (t1 & i1 & i2 & AP1 & AP2). destruct (apps_ext _ _ _ _ ND AP1) as (ND1 & X1). destruct (apps_ext _ _ _ _ ND1 AP2) as (_ & X2). cbn [ofold].
    destruct i as [s|s|s|s|n v|h0 p x|s los|ms pos|o]; cbn [ev_sitem].
    + assert (t1 = t) by (apply (apps_nil _ _ _ AP1)). subst t1. destruct (IH m os ps t t' i2 al (add_alias s h) dn l ds s' H ML V2 ND AP2 RS LR Z) as (h' & al' & E & ES & SV & LS). exists h', al'. split; [exact E|]. split; [exact ES|]. split; [|exact LS]. refine (servs_cons _ _ h _ h' _ SV). servs_plain.
    + assert (t1 = t) by (apply (apps_nil _ _ _ AP1)). subst t1. destruct (IH m os ps t t' i2 al (set_cert (Some s) h) dn l ds s' H ML V2 ND AP2 RS LR Z) as (h' & al' & E & ES & SV & LS). exists h', al'. split; [exact E|]. split; [exact ES|]. split; [|exact LS]. refine (servs_cons _ _ h _ h' _ SV). servs_plain.
    + assert (t1 = t) by (apply (apps_nil _ _ _ AP1)). subst t1. destruct (IH m os ps t t' i2 al (set_key (Some s) h) dn l ds s' H ML V2 ND AP2 RS LR Z) as (h' & al' & E & ES & SV & LS). exists h', al'. split; [exact E|]. split; [exact ES|]. split; [|exact LS]. refine (servs_cons _ _ h _ h' _ SV). servs_plain.
    + assert (t1 = t) by (apply (apps_nil _ _ _ AP1)). subst t1. destruct (IH m os ps t t' i2 al (set_ocsp (Some s) h) dn l ds s' H ML V2 ND AP2 RS LR Z) as (h' & al' & E & ES & SV & LS). exists h', al'. split; [exact E|]. split; [exact ES|]. split; [|exact LS]. refine (servs_cons _ _ h _ h' _ SV). servs_plain.
    + assert (t1 = t) by (apply (apps_nil _ _ _ AP1)). subst t1. unfold ev_param. rewrite (in_loc base t al h dn l _ H).
      assert (ML1 : means_loc t m (os ++ []) (ps ++ [(n, v)]) (lmap (fun l0 => with_params (l_params l0 ++ [(n, v)]) l0) l)).
      { revert ML. rewrite app_nil_r. unfold means_loc. locfields. split_loc. repeat (split; [assumption|]). split; [rewrite A12; reflexivity|]. repeat (split; [assumption|]). assumption. }
      match type of ML1 with means_loc _ _ _ _ ?l1 => destruct (IH m (os ++ []) (ps ++ [(n, v)]) t t' i2 al (set_locs (dn ++ [l1]) h) dn l1 ds s' eq_refl ML1 V2 ND AP2 RS LR Z) as (h' & al' & E & ES & SV & LS) end.
      exists h', al'. split; [exact E|]. split; [exact ES|]. split; [|exact LS]. refine (servs_cons _ _ h _ h' _ SV). servs_plain.
    + assert (t1 = t) by (apply (apps_nil _ _ _ AP1)). subst t1. change (listens (SListen h0 p x :: items)) with ((h0, p, x) :: listens items) in RS. cbn [resolves] in RS. destruct (resolve gai (h0, p, x)) as [d|] eqn:RE; [|discriminate]. destruct (resolves gai (listens items)) as [ds2|] eqn:R2; [|discriminate]. injection RS as <-.
      cbn [lrun] in LR. destruct (ldo d (mkL (vh_addrs h :: X) al 0)) as [s1|] eqn:LD; [|discriminate]. pose proof (lrun_errors _ _ _ LR) as LE. destruct (listen_one base t al h h0 p x d X s1 RE LD ltac:(lia)) as (a' & al1 & -> & EL & NE). rewrite EL.
      destruct (IH m os ps t t' i2 al1 (set_addrs a' h) dn l ds2 s' H ML V2 ND AP2 eq_refl LR Z) as (h' & al' & E & ES & SV & LS). exists h', al'. split; [exact E|]. split; [exact ES|]. split; [|exact LS]. refine (servs_cons _ _ h _ h' _ SV).
      unfold servs. cbn [flat_map listens proxies_in app]. rewrite !said_one. repeat (split; [first [reflexivity|rewrite app_nil_r; reflexivity]|]). split; [exists []; rewrite app_nil_r; split; [reflexivity|constructor]|]. split; [intros _; exact NE|discriminate].
    + cbn [valid_sitem] in V1. destruct V1 as (VL & VO). cbn [item_calls] in AP1. rewrite in_host. cbn [obind]. set (h1 := set_locs (vh_locs h ++ [mkPloc new_location None]) h).
      destruct (means_lopts base al (vh_locs h) [] los [] t t1 i1 [] (mkPloc new_location None) h1 eq_refl (means_loc_new t) VO ND AP1) as (l1 & E1 & ML1). rewrite E1. cbn [app obind] in *.
      rewrite (in_loc base t1 al (set_locs (vh_locs h ++ [l1]) h1) (vh_locs h) l1 _ eq_refl). pose proof (means_loc_match _ _ (unslashed s) _ _ _ ML1) as ML2.
      destruct (IH (unslashed s) los (lparams los) t1 t' i2 al (set_locs (vh_locs h ++ [lmap (with_match (unslashed s)) l1]) h) (vh_locs h) _ ds s' eq_refl ML2 V2 ND1 AP2 RS LR Z) as (h' & al' & E & ES & SV & ls & LS1 & LS2).
      exists h', al'. split; [exact E|]. split; [exact ES|]. split; [refine (servs_cons _ _ h _ h' _ SV); servs_plain|]. exists (l :: ls). split; [rewrite LS1, H, <- app_assoc; reflexivity|]. cbn [sections]. constructor; [|exact LS2]. apply (means_loc_ext t); [apply (fext_trans _ t1); assumption|exact ML].
    + assert (t1 = t) by (apply (apps_nil _ _ _ AP1)). subst t1. pose proof V1 as VP. cbn [valid_sitem] in VP. destruct VP as (_ & VO & _). rewrite in_host. cbn [obind]. set (h1 := set_proxies (vh_proxies h ++ [new_proxy]) h).
      destruct (means_pmatches base t al [] (vh_proxies h) ms [] h1 new_proxy eq_refl means_proxy_new) as (p1 & E1 & MP1). rewrite E1. cbn [app obind] in *.
      destruct (means_popts base t al ms (vh_proxies h) pos [] (set_proxies (vh_proxies h ++ [p1]) h1) p1 eq_refl MP1 VO) as (p2 & E2 & MP2). rewrite E2. cbn [app obind] in *.
      rewrite (proxy_is_fine base t al (set_proxies (vh_proxies h ++ [p2]) (set_proxies (vh_proxies h ++ [p1]) h1)) (vh_proxies h) p2 ms pos eq_refl MP2 V1).
      destruct (IH m os ps t t' i2 al (set_proxies (vh_proxies h ++ [p2]) h) dn l ds s' H ML V2 ND AP2 RS LR Z) as (h' & al' & E & ES & SV & LS). exists h', al'. split; [exact E|]. split; [exact ES|]. split; [|exact LS]. refine (servs_cons _ _ h _ h' _ SV).
      unfold servs; cbn [flat_map listens proxies_in app]; rewrite !said_one; repeat (split; [first [reflexivity|rewrite app_nil_r; reflexivity]|]). split; [exists [p2]; split; [reflexivity|constructor; [exact MP2|constructor]]|]. split; [intros [C|C]; [congruence|exact C]|reflexivity].
    + cbn [valid_sitem item_calls] in *. destruct (means_lopt base al dn m t t1 i1 os ps l h o H ML V1 ND AP1) as (l1 & E1 & ML1). rewrite E1.
      destruct (IH m (os ++ [o]) (ps ++ lparams [o]) t1 t' i2 al (set_locs (dn ++ [l1]) h) dn l1 ds s' eq_refl ML1 V2 ND1 AP2 RS LR Z) as (h' & al' & E & ES & SV & LS). exists h', al'. split; [exact E|]. split; [exact ES|]. split; [|exact LS]. refine (servs_cons _ _ h _ h' _ SV). servs_plain.
Qed.
Lemma servs_server items name h' : servs items (new_vh name) h' -> (exists f, In (SCert f) items) -> (exists f, In (SKey f) items) -> exists c k, vh_cert h' = Some c /\ vh_key h' = Some k.
Proof.
  intros (_ & A2 & A3 & _) (f & I) (f2 & I2). cbn [new_vh vh_cert vh_key] in *. unfold said in *.
  destruct (said_some (fun i => match i with SCert s => Some (Some s) | _ => None end) items) as (x & b & _ & F & L); [eexists _, _; split; [exact I|reflexivity]|]. destruct x; try discriminate F. injection F as <-. rewrite L in A2.
  destruct (said_some (fun i => match i with SKey s => Some (Some s) | _ => None end) items) as (x & b & _ & F & L2); [eexists _, _; split; [exact I2|reflexivity]|]. destruct x; try discriminate F. injection F as <-. rewrite L2 in A3. eauto.
Qed.
Lemma means_new_server name items c t' is ds s' X : valid_stmt (StServer name items) -> NoDup (g_fcgi c) -> apps (flat_map item_calls items) (g_fcgi c) = OK (is, t', 0%nat) ->
  resolves gai (match listens items with [] => [(g_dhost c, decz (g_dport c), false)] | l => l end) = Some ds -> lrun (LServer :: ds) (mkL X (g_addrs c) 0) = Some s' -> s_errors s' = 0%nat ->
  exists h' al', ev_server gai name items c = Some (incore c t' al' h') /\ s' = mkL (vh_addrs h' :: X) al' 0 /\ means_server t' name items h'.
Proof.
  intros (_ & VI & HC & HK) ND AP RS LR Z. cbn [lrun ldo s_hosts s_all s_errors] in LR. unfold ev_server.
  assert (NL : means_loc (g_fcgi c) (s2b "*") [] [] (mkPloc (with_match (s2b "*") new_location) None)) by apply (means_loc_match _ _ (s2b "*") _ _ _ (means_loc_new _)).
  change (set_hosts (g_addrs c) (new_vh name :: g_hosts c) c) with (incore c (g_fcgi c) (g_addrs c) (new_vh name)).
  assert (MS : forall h' ls, servs items (new_vh name) h' -> vh_locs h' = [] ++ ls -> Forall2 (means_section t') (sections (s2b "*", [], []) items) ls -> forall a, means_server t' name items (set_addrs a h')).
  { intros h' ls (A1 & A2 & A3 & A4 & A5 & (pr & A6 & A6') & _) E F a. unfold means_server. cbn [set_addrs vh_domain vh_cert vh_key vh_ocsp vh_aliases vh_locs vh_proxies]. cbn [new_vh vh_domain vh_cert vh_key vh_ocsp vh_aliases vh_locs vh_proxies app] in *. repeat (split; [assumption|]). split; [rewrite E; exact F|rewrite A6; exact A6']. }
  destruct (listens items) as [|x0 xs] eqn:LI.
  - cbn [resolves] in RS. destruct (resolve gai (g_dhost c, decz (g_dport c), false)) as [d|] eqn:RE; [|discriminate]. injection RS as <-. cbn [lrun] in LR. destruct (ldo d _) as [s1|] eqn:LD; [|discriminate]. injection LR as ->.
    destruct (means_items c X items (s2b "*") [] [] (g_fcgi c) t' is (g_addrs c) (new_vh name) [] _ [] (mkL ([] :: X) (g_addrs c) 0) eq_refl NL VI ND AP) as (h' & al' & E & ES & SV & ls & LS1 & LS2); [rewrite LI; reflexivity|reflexivity|reflexivity|].
    rewrite E. cbn [obind incore g_hosts set_fcgis set_hosts]. destruct (servs_server _ _ _ SV HC HK) as (ce & k & CE & KE). rewrite CE, KE.
    injection ES as EA EL. destruct (vh_addrs h') as [|a0 as0] eqn:VA; [|discriminate]. subst al'.
    change (g_dhost (set_fcgis t' (set_hosts (g_addrs c) (h' :: g_hosts c) c))) with (g_dhost c). change (g_dport (set_fcgis t' (set_hosts (g_addrs c) (h' :: g_hosts c) c))) with (g_dport c).
    rewrite <- VA in LD. destruct (listen_one c t' (g_addrs c) h' _ _ _ d X s' RE LD Z) as (a' & al1 & -> & EV & NE). fold (incore c t' (g_addrs c) h').
    exists (set_addrs a' h'), al1. split; [exact EV|]. split; [reflexivity|]. apply (MS h' ls SV LS1 LS2).
  - rewrite <- LI in RS. destruct (means_items c X items (s2b "*") [] [] (g_fcgi c) t' is (g_addrs c) (new_vh name) [] _ ds s' eq_refl NL VI ND AP RS LR Z) as (h' & al' & E & ES & SV & ls & LS1 & LS2).
    rewrite E. cbn [obind incore g_hosts set_fcgis set_hosts]. destruct (servs_server _ _ _ SV HC HK) as (ce & k & CE & KE). rewrite CE, KE.
    pose proof SV as (_ & _ & _ & _ & _ & _ & NE & _). destruct (vh_addrs h') as [|a0 as0] eqn:VA; [exfalso; apply NE; [left; rewrite LI; discriminate|reflexivity]|].
    exists h', al'. split; [reflexivity|]. split; [rewrite VA; exact ES|]. replace h' with (set_addrs (vh_addrs h') h') by (destruct h'; reflexivity). apply (MS h' ls SV LS1 LS2).
Qed.

(** ** the global options *)
Definition known_facility (s : list N) : bool := existsb (fun n => leqb (map to_lower s) (s2b n) || leqb (map to_lower s) (s2b "log_" ++ s2b n)) facility_names.
Lemma fac_in f : In f facilities <-> exists n, In n facility_names /\ f = s2b n.
Proof. unfold facilities. change (map s2b ["daemon"; "ftp"; "local1"; "local2"; "local3"; "local4"; "local5"; "local6"; "local7"; "user"]%string) with (map s2b facility_names). rewrite in_map_iff. split; intros (n & A & B); exists n; auto. Qed.
Lemma fac_short f : In f facilities -> leqb (firstn 4 f) (s2b "log_") = false.
Proof. intros H. assert (forallb (fun f => negb (leqb (firstn 4 f) (s2b "log_"))) facilities = true) as Q by (vm_compute; reflexivity). rewrite forallb_forall in Q. specialize (Q f H). destruct (leqb _ _); [discriminate|reflexivity]. Qed.
Lemma facility_some s f : facility s = Some f -> facility_of s f.
Proof.
  unfold facility. set (u := map to_lower s). intros E. apply find_some in E. destruct E as (I & E). apply leqb_eq in E. apply fac_in in I. destruct I as (n & I & F). exists n. split; [exact I|]. split; [exact F|]. fold u.
  destruct (leqb (firstn 4 u) (s2b "log_")) eqn:L; [right|left; congruence]. apply leqb_eq in L. rewrite <- L, E. symmetry. apply firstn_skipn.
Qed.
Lemma facility_known s : known_facility s = match facility s with Some _ => true | None => false end.
Proof.
  destruct (facility s) as [f|] eqn:E.
  - destruct (facility_some _ _ E) as (n & I & -> & D). unfold known_facility. apply existsb_exists. exists n. split; [exact I|]. destruct D as [->| ->]; rewrite leqb_refl; [reflexivity|apply orb_true_r].
  - unfold known_facility. destruct (existsb _ facility_names) eqn:X; [|reflexivity]. apply existsb_exists in X. destruct X as (n & I & X). exfalso.
    assert (IF : In (s2b n) facilities) by (apply fac_in; eauto). unfold facility in E. apply orb_true_iff in X. destruct X as [X|X]; apply leqb_eq in X; rewrite X in E.
    + rewrite (fac_short _ IF) in E. pose proof (find_none _ _ E _ IF) as Q. cbv beta in Q. rewrite leqb_refl in Q. discriminate.
    + change (firstn 4 (s2b "log_" ++ s2b n)) with (s2b "log_") in E. rewrite leqb_refl in E. change (skipn 4 (s2b "log_" ++ s2b n)) with (s2b n) in E. pose proof (find_none _ _ E _ IF) as Q. cbv beta in Q. rewrite leqb_refl in Q. discriminate.
Qed.
Definition said_facility (o : logopt) : option (list N) :=
  match o with LgSyslog (Some s) => if existsb (fun n => leqb (map to_lower s) (s2b n) || leqb (map to_lower s) (s2b "log_" ++ s2b n)) facility_names then Some s else None | _ => None end.
Lemma style_named s : style s = style_of s.
Proof.
  unfold style, style_of. cbn [last_said fst snd].
  assert (Q : forall a, leqb (s2b a) s = leqb s (s2b a)) by (intros a; destruct (leqb s (s2b a)) eqn:E; [apply leqb_eq in E; subst; apply leqb_refl|destruct (leqb (s2b a) s) eqn:E2; [apply leqb_eq in E2; subst; rewrite leqb_refl in E; discriminate|reflexivity]]).
  rewrite !Q. destruct (leqb s (s2b "condensed")) eqn:E1; [apply leqb_eq in E1; subst; reflexivity|]. destruct (leqb s (s2b "common")) eqn:E2; [apply leqb_eq in E2; subst; reflexivity|].
  destruct (leqb s (s2b "combined")) eqn:E3; [apply leqb_eq in E3; subst; reflexivity|]. destruct (leqb s (s2b "legacy")); reflexivity.
Qed.
Definition mcap (m : mimetab) : Prop := (16 <= m_cap m)%nat /\ (length (m_t m) <= m_cap m)%nat.
Definition globals (gs : list gopt) (ls : list logopt) (ty : list etm) (c c' : core) : Prop :=
  g_chroot c' = said (fun o => match o with GChroot s => Some s | _ => None end) gs (g_chroot c) /\
  g_user c' = said (fun o => match o with GUser s => Some s | _ => None end) gs (g_user c) /\
  g_prefork c' = said (fun o => match o with GPrefork z => Some z | _ => None end) gs (g_prefork c) /\
  Some (g_protos c') = said (fun o => match o with GProtocols s => Some (tls_config_parse_protocols s) | _ => None end) gs (Some (g_protos c)) /\
  g_access c' = said (fun o => match o with LgAccess s => Some (Some s) | _ => None end) ls (g_access c) /\
  Some (g_style c') = said (fun o => match o with LgStyle s => Some (style_of s) | _ => None end) ls (Some (g_style c)) /\
  g_syslog c' = said (fun o => match o with LgSyslog _ => Some true | LgSyslogOff => Some false | _ => None end) ls (g_syslog c) /\
  (forall s0, facility_of s0 (g_facility c) -> facility_of (said said_facility ls s0) (g_facility c')) /\
  m_t (g_mime c') = m_t (g_mime c) ++ ty /\ (mcap (g_mime c) -> mcap (g_mime c')).
Definition rest_same (c c' : core) : Prop := g_fcgi c' = g_fcgi c /\ g_addrs c' = g_addrs c /\ g_hosts c' = g_hosts c.
Lemma globals_trans gs ls ty gs' ls' ty' c c1 c2 : globals gs ls ty c c1 -> globals gs' ls' ty' c1 c2 -> globals (gs ++ gs') (ls ++ ls') (ty ++ ty') c c2.
Proof.
  intros (A1 & A2 & A3 & A4 & A5 & A6 & A7 & A8 & A9 & A10) (B1 & B2 & B3 & B4 & B5 & B6 & B7 & B8 & B9 & B10). unfold globals. rewrite !said_app.
  split; [rewrite <- A1; exact B1|]. split; [rewrite <- A2; exact B2|]. split; [rewrite <- A3; exact B3|]. split; [rewrite <- A4; exact B4|]. split; [rewrite <- A5; exact B5|]. split; [rewrite <- A6; exact B6|]. split; [rewrite <- A7; exact B7|].
  split; [intros s0 F; rewrite said_app; auto|]. split; [rewrite B9, A9, app_assoc; reflexivity|auto].
Qed.
Lemma globals_refl c : globals [] [] [] c c.
Proof. unfold globals. rewrite !said_nil, app_nil_r. repeat (split; [reflexivity|]). split; [intros s0 F; exact F|]. auto. Qed.
Ltac g_fields := unfold globals; cbn [g_chroot g_user g_prefork g_protos g_access g_style g_syslog g_facility g_mime set_globals set_log set_mime set_defaults set_fcgis set_hosts incore]; rewrite ?said_nil, ?said_one, ?app_nil_r.
Lemma log_mean o c : valid_log o -> exists c', ev_log o c = Some c' /\ globals [] [o] [] c c' /\ rest_same c c' /\ g_dhost c' = g_dhost c /\ g_dport c' = g_dport c.
Proof.
  intros V. destruct o as [s|s|[s|]|]; cbn [ev_log].
  - eexists. split; [reflexivity|]. split; [|repeat split]. g_fields. repeat (split; [reflexivity|]). split; [intros s0 F; exact F|auto].
  - rewrite style_named. destruct (style_of s) as [f|] eqn:E.
    + eexists. split; [reflexivity|]. split; [|repeat split]. g_fields. rewrite E. repeat (split; [reflexivity|]). split; [intros s0 F; exact F|auto].
    + exfalso. cbn [valid_log map In] in V. destruct V as [<-|[<-|[<-|[<-|[]]]]]; vm_compute in E; discriminate.
  - eexists. split; [reflexivity|]. split; [|repeat split]. g_fields. repeat (split; [reflexivity|]). split; [|auto]. intros s0 F. rewrite said_one. cbn [said_facility]. fold (known_facility s). rewrite facility_known. destruct (facility s) as [f|] eqn:E; [apply facility_some, E|exact F].
  - eexists. split; [reflexivity|]. split; [|repeat split]. g_fields. repeat (split; [reflexivity|]). split; [intros s0 F; exact F|auto].
  - eexists. split; [reflexivity|]. split; [|repeat split]. g_fields. repeat (split; [reflexivity|]). split; [intros s0 F; exact F|auto].
Qed.
Lemma logs_mean : forall os c, Forall valid_log os -> exists c', ofold ev_log os c = Some c' /\ globals [] os [] c c' /\ rest_same c c' /\ g_dhost c' = g_dhost c /\ g_dport c' = g_dport c.
Proof.
  induction os as [|o os IH]; intros c V; cbn [ofold]; [exists c; split; [reflexivity|]; split; [apply globals_refl|repeat split]|]. inversion V as [|? ? V1 V2]; subst.
  destruct (log_mean o c V1) as (c1 & E1 & G1 & (R1 & R2 & R3) & D1 & D2). rewrite E1. destruct (IH c1 V2) as (c2 & E2 & G2 & (Q1 & Q2 & Q3) & D3 & D4). exists c2. split; [exact E2|]. split; [exact (globals_trans [] [o] [] [] os [] _ _ _ G1 G2)|]. unfold rest_same. repeat split; congruence.
Qed.
Lemma gopt_mean o c r : valid_gopt o -> exists c', ev_gopt o c = Some c' /\ globals [o] (logs [StOpt o]) [] c c' /\ rest_same c c' /\
  ldirs gai (g_dhost c) (g_dport c) (StOpt o :: r) = ldirs gai (g_dhost c') (g_dport c') r.
Proof.
  intros V. destruct o as [s|b|os|z|z|s|s]; cbn [ev_gopt logs gopts flat_map app]; rewrite ?app_nil_r.
  - eexists. split; [reflexivity|]. split; [|repeat split]. g_fields. repeat (split; [reflexivity|]). split; [intros s0 F; exact F|auto].
  - eexists. split; [reflexivity|]. split; [|repeat split]. g_fields. repeat (split; [reflexivity|]). split; [intros s0 F; exact F|auto].
  - destruct (logs_mean os c V) as (c' & E & G & R & D1 & D2). exists c'. split; [exact E|]. split; [|split; [exact R|cbn [ldirs]; rewrite D1, D2; reflexivity]].
    destruct G as (A1 & A2 & A3 & A4 & A). unfold globals. rewrite !said_one. rewrite said_nil in *. repeat (split; [assumption|]). exact A.
  - eexists. split; [reflexivity|]. split; [|repeat split]. g_fields. repeat (split; [reflexivity|]). split; [intros s0 F; exact F|auto].
  - eexists. split; [reflexivity|]. split; [|repeat split]. g_fields. repeat (split; [reflexivity|]). split; [intros s0 F; exact F|auto].
  - cbn [valid_gopt] in V. destruct (tls_config_parse_protocols s) as [p|] eqn:E; [|congruence]. eexists. split; [reflexivity|]. split; [|repeat split]. g_fields. rewrite E. repeat (split; [reflexivity|]). split; [intros s0 F; exact F|auto].
  - eexists. split; [reflexivity|]. split; [|repeat split]. g_fields. repeat (split; [reflexivity|]). split; [intros s0 F; exact F|auto].
Qed.

(** ** the types *)
Definition same_but_mime (c c' : core) : Prop := exists m d, c' = set_mime m (set_defaults (g_dhost c) (g_dport c) d c).
Lemma same_but_trans a b c : same_but_mime a b -> same_but_mime b c -> same_but_mime a c.
Proof. intros (m & d & ->) (m2 & d2 & ->). exists m2, d2. reflexivity. Qed.
Lemma exts_mean : forall es c, shorter 128 (g_media c) -> Forall (shorter 128) es -> mcap (g_mime c) ->
  exists c', ofold ev_ext es c = Some c' /\ same_but_mime c c' /\ m_t (g_mime c') = m_t (g_mime c) ++ map (fun x => (g_media c, x)) es /\ mcap (g_mime c').
Proof.
  induction es as [|e es IH]; intros c M V (C1 & C2); cbn [ofold]; [exists c; split; [reflexivity|]; split; [exists (g_mime c), (g_media c); destruct c; reflexivity|]; cbn [map]; rewrite app_nil_r; split; [reflexivity|split; assumption]|].
  inversion V as [|? ? V1 V2]; subst. destruct (add_mimes_ok [(g_media c, e)] (g_mime c) C1 C2) as (m' & E & T & C3 & C4); [constructor; [split; assumption|constructor]|].
  cbn [add_mimes] in E. unfold ev_ext. destruct (add_mime (g_mime c) (g_media c) e) as [[ok m1]| |]; cbn [bind] in E; try discriminate. destruct ok; [|discriminate]. apply OK_inj in E. injection E as ->.
  destruct (IH (set_mime m' c)) as (c' & E2 & SB & T2 & C5); [exact M|exact V2|split; assumption|]. exists c'. split; [exact E2|]. split; [apply (same_but_trans _ (set_mime m' c)); [exists m', (g_media c); destruct c; reflexivity|exact SB]|].
  split; [|exact C5]. rewrite T2. cbn [set_mime g_mime g_media map]. rewrite T, <- app_assoc. reflexivity.
Qed.
Lemma types_mean : forall l c, Forall (fun e => shorter 128 (fst e) /\ Forall (shorter 128) (snd e)) l -> mcap (g_mime c) ->
  exists c', ofold ev_type l c = Some c' /\ same_but_mime c c' /\ m_t (g_mime c') = m_t (g_mime c) ++ flat_map (fun e => map (fun x => (fst e, x)) (snd e)) l /\ mcap (g_mime c').
Proof.
  induction l as [|e l IH]; intros c V C; cbn [ofold]; [exists c; split; [reflexivity|]; split; [exists (g_mime c), (g_media c); destruct c; reflexivity|]; cbn [flat_map]; rewrite app_nil_r; auto|].
  inversion V as [|? ? (V1 & V2) V3]; subst. unfold ev_type at 1. destruct (exts_mean (snd e) (set_defaults (g_dhost c) (g_dport c) (fst e) c) V1 V2 C) as (c1 & E1 & S1 & T1 & C1). rewrite E1.
  destruct (IH c1 V3 C1) as (c2 & E2 & S2 & T2 & C2). exists c2. split; [exact E2|]. split; [apply (same_but_trans _ c1); [|exact S2]; apply (same_but_trans _ (set_defaults (g_dhost c) (g_dport c) (fst e) c)); [exists (g_mime c), (fst e); destruct c; reflexivity|exact S1]|].
  split; [|exact C2]. rewrite T2, T1. cbn [flat_map set_defaults g_mime g_media]. rewrite <- app_assoc. reflexivity.
Qed.

(** ** the whole *)
Lemma means_server_ext t t' name items h : fext t t' -> means_server t name items h -> means_server t' name items h.
Proof.
  intros X (A1 & A2 & A3 & A4 & A5 & A6 & A7). unfold means_server. repeat (split; [assumption|]). split; [|exact A7].
  induction A6 as [|[[m os] ps] l ss ls S F IH]; constructor; [apply (means_loc_ext t); assumption|exact IH].
Qed.
Lemma types_of_cons s sts : types_of (s :: sts) = types_of [s] ++ types_of sts.
Proof. unfold types_of. cbn [flat_map]. rewrite app_nil_r. reflexivity. Qed.
Lemma gopts_cons s sts : gopts (s :: sts) = gopts [s] ++ gopts sts.
Proof. unfold gopts. cbn [flat_map]. rewrite app_nil_r. reflexivity. Qed.
Lemma logs_cons s sts : logs (s :: sts) = logs [s] ++ logs sts.
Proof. unfold logs. rewrite gopts_cons, flat_map_app. reflexivity. Qed.
Lemma stmts_mean : forall sts c t' is ds s, Forall valid_stmt sts -> NoDup (g_fcgi c) -> mcap (g_mime c) -> apps (calls sts) (g_fcgi c) = OK (is, t', 0%nat) ->
  ldirs gai (g_dhost c) (g_dport c) sts = Some ds -> lrun ds (mkL (map vh_addrs (g_hosts c)) (g_addrs c) 0) = Some s -> s_errors s = 0%nat ->
  exists c', ofold (ev_stmt gai) sts c = Some c' /\ globals (gopts sts) (logs sts) (types_of sts) c c' /\ g_fcgi c' = t' /\ s = mkL (map vh_addrs (g_hosts c')) (g_addrs c') 0 /\
    exists hs, g_hosts c' = rev hs ++ g_hosts c /\ Forall2 (fun x h => means_server t' (fst x) (snd x) h) (servers sts) hs.
Proof.
  induction sts as [|st sts IH]; intros c t' is ds s V ND MC AP LD LR Z.
  - apply apps_nil in AP. cbn [ldirs] in LD. injection LD as <-. cbn [lrun] in LR. injection LR as <-. exists c. split; [reflexivity|]. split; [apply globals_refl|]. split; [auto|]. split; [reflexivity|]. exists []. split; [reflexivity|constructor].
  - inversion V as [|? ? V1 V2]; subst. cbn [ofold]. rewrite gopts_cons, logs_cons, types_of_cons. destruct st as [o|name items|l]; cbn [ev_stmt].
    + destruct (gopt_mean o c sts V1) as (c1 & E1 & G1 & (R1 & R2 & R3) & L1). rewrite E1. rewrite L1 in LD.
      destruct (IH c1 t' is ds s V2) as (c2 & E2 & G2 & F2 & S2 & hs & H2 & H2'); rewrite ?R1, ?R2, ?R3; try assumption; [apply G1; exact MC|].
      exists c2. split; [exact E2|]. split; [exact (globals_trans _ _ _ _ _ _ _ _ _ G1 G2)|]. split; [exact F2|]. split; [exact S2|]. exists hs. rewrite <- R3. auto.
    + cbn [ldirs] in LD. destruct (resolves gai _) as [d1|] eqn:RS; [|discriminate]. destruct (ldirs gai (g_dhost c) (g_dport c) sts) as [d2|] eqn:L2; [|discriminate]. injection LD as <-.
      change (LServer :: d1 ++ d2) with ((LServer :: d1) ++ d2) in LR. rewrite lrun_app in LR. destruct (lrun (LServer :: d1) _) as [s1|] eqn:LR1; [|discriminate]. pose proof (lrun_errors _ _ _ LR) as LE.
      unfold calls in AP. cbn [servers flat_map app snd] in AP. fold (servers sts) in AP. fold (calls sts) in AP. destruct (apps_app _ _ _ _ _ AP) as (t1 & i1 & i2 & AP1 & AP2). destruct (apps_ext _ _ _ _ ND AP1) as (ND1 & X1). destruct (apps_ext _ _ _ _ ND1 AP2) as (ND2 & X2).
      destruct (means_new_server name items c t1 i1 d1 s1 _ V1 ND AP1 RS LR1 ltac:(lia)) as (h & al & E1 & -> & MS). rewrite E1.
      destruct (IH (incore c t1 al h) t' i2 d2 s V2 ND1 MC AP2 L2 LR Z) as (c2 & E2 & G2 & F2 & S2 & hs & H2 & H2').
      exists c2. split; [exact E2|]. split; [exact G2|]. split; [exact F2|]. split; [exact S2|]. exists (h :: hs). split; [rewrite H2; cbn [rev incore g_hosts set_fcgis set_hosts]; rewrite <- app_assoc; reflexivity|]. cbn [servers flat_map app]. constructor; [apply (means_server_ext t1); assumption|exact H2'].
    + destruct (types_mean l c V1 MC) as (c1 & E1 & (m & d & S1) & T1 & C1). rewrite E1. cbn [ldirs] in LD.
      destruct (IH c1 t' is ds s V2) as (c2 & E2 & G2 & F2 & S2 & hs & H2 & H2'); try exact C1; try (subst c1; assumption); try exact Z.
      exists c2. split; [exact E2|]. split; [|split; [exact F2|]; split; [exact S2|]; exists hs; split; [rewrite H2; subst c1; reflexivity|exact H2']].
      refine (globals_trans [] [] _ _ _ _ c c1 c2 _ G2). unfold globals. rewrite T1. cbn [types_of flat_map]. rewrite app_nil_r. subst c1. rewrite !said_nil. repeat (split; [reflexivity|]). split; [intros s0 F; exact F|]. split; [reflexivity|]. intros _. exact C1.
Qed.
Definition means_at (sts : list stmt) (t : list fapp) (addrs : lstate) (c : core) : Prop :=
  g_chroot c = said (fun o => match o with GChroot s => Some s | _ => None end) (gopts sts) [] /\
  g_user c = said (fun o => match o with GUser s => Some s | _ => None end) (gopts sts) [] /\
  g_prefork c = said (fun o => match o with GPrefork z => Some z | _ => None end) (gopts sts) 3%Z /\
  Some (g_protos c) = said (fun o => match o with GProtocols s => Some (tls_config_parse_protocols s) | _ => None end) (gopts sts) (Some 24) /\
  g_access c = said (fun o => match o with LgAccess s => Some (Some s) | _ => None end) (logs sts) None /\
  Some (g_style c) = said (fun o => match o with LgStyle s => Some (style_of s) | _ => None end) (logs sts) (Some 3) /\
  g_syslog c = said (fun o => match o with LgSyslog _ => Some true | LgSyslogOff => Some false | _ => None end) (logs sts) true /\
  (** an unknown facility changes nothing *)
  facility_of (said (fun o => match o with LgSyslog (Some s) => if existsb (fun n => leqb (map to_lower s) (s2b n) || leqb (map to_lower s) (s2b "log_" ++ s2b n)) facility_names then Some s else None | _ => None end) (logs sts) (s2b "daemon")) (g_facility c) /\
  m_t (g_mime c) = types_of sts /\
  g_fcgi c = t /\
  g_addrs c = s_all addrs /\
  map vh_addrs (g_hosts c) = s_hosts addrs /\
  Forall2 (fun x h => means_server t (fst x) (snd x) h) (rev (servers sts)) (g_hosts c).
Theorem stmts_means y txt sts t is ds s : Forall valid_stmt sts -> apps (calls sts) [] = OK (is, t, 0%nat) -> ldirs gai None 1965%Z sts = Some ds -> lrun ds lstart = Some s -> s_errors s = 0%nat ->
  exists c', ofold (ev_stmt gai) sts (g_core (start y txt)) = Some c' /\ means_at sts t s c'.
Proof.
  intros V AP LD LR Z. destruct (stmts_mean sts (g_core (start y txt)) t is ds s V) as (c' & E & (A1 & A2 & A3 & A4 & A5 & A6 & A7 & A8 & A9 & _) & F & S & hs & H & H'); try assumption; [constructor|split; cbn; lia|].
  exists c'. split; [exact E|]. unfold means_at. cbn [start g_core g_chroot g_user g_prefork g_protos g_access g_style g_syslog g_facility g_mime m_t app g_hosts] in *. repeat (split; [assumption|]).
  split; [apply A8; exists "daemon"%string; split; [left; reflexivity|]; split; [reflexivity|left; reflexivity]|]. split; [exact A9|]. split; [exact F|]. subst s. split; [reflexivity|]. split; [reflexivity|].
  rewrite H, app_nil_r. clear - H'. induction H' as [|x h xs hs P F IH]; cbn [rev]; [constructor|]. apply Forall2_app; [exact IH|constructor; [exact P|constructor]].
Qed.
End Servers.
