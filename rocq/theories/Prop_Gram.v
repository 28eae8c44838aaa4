(** C70: the configuration that is used is the one the files say. *)
From Verif Require Import Base BaseLemmas Compat Compat_Proofs Conf Config Mime Fmt Parse Prop_Parse Prop_Mime UpTls UpTlsSpec Lex LexSpec Lex_Proofs Prop_Lex Iri_Last_Proofs Gram GramSpec Gram_Proofs Text_Proofs Mean_Proofs.
Local Open Scope N_scope.

(** ** the conditions, in terms of what is written *)
Lemma listen_some x : forall l s, s_hosts s <> [] -> Forall (fun y => (i_family (fst y) = 2 \/ i_family (fst y) = 10) /\ (length (i_sa (fst y)) <= 128)%nat) (map (fun y => (fst y, x)) l) ->
  exists s', listen_on l x s = Some s' /\ s_hosts s' <> [].
Proof.
  assert (A : forall a ai pp, (i_family ai = 2 \/ i_family ai = 10) -> (length (i_sa ai) <= 128)%nat -> exists r, add_to_addr_queue a ai pp x = Some r).
  { intros a ai pp F L. unfold add_to_addr_queue, SS_SIZE. destruct (Nat.ltb_spec 128 (length (i_sa ai))) as [|_]; [lia|]. destruct (find _ a); [eauto|].
    replace ((i_family ai =? AF_INET) || (i_family ai =? AF_INET6)) with true; [eauto|]. unfold AF_INET, AF_INET6. destruct F as [->| ->]; reflexivity. }
  induction l as [|[ai pp] l IH]; intros s H F; cbn [listen_on map] in *; [eauto|]. inversion F as [|? ? (F1 & F2) F3]; subst. cbn [fst] in *. destruct (s_hosts s) as [|h hs]; [congruence|].
  destruct (A h ai pp F1 F2) as ([h' e1] & ->). destruct (A (s_all s) ai pp F1 F2) as ([al e2] & ->). apply IH; [discriminate|exact F3].
Qed.
Lemma lrun_some : forall ds s, (s_hosts s <> [] \/ match ds with LListen _ _ :: _ => False | _ => True end) ->
  Forall (fun x => (i_family (fst x) = 2 \/ i_family (fst x) = 10) /\ (length (i_sa (fst x)) <= 128)%nat) (given ds) -> exists s', lrun ds s = Some s'.
Proof.
  induction ds as [|d ds IH]; intros s H F; cbn [lrun]; [eauto|]. unfold given in F. cbn [flat_map] in F. apply Forall_app in F. destruct F as (F1 & F2). destruct d as [|l x]; cbn [ldo given_by] in *.
  - apply IH; [left; discriminate|exact F2].
  - destruct H as [H|[]]. destruct (listen_some x l s H F1) as (s1 & -> & H1). apply IH; [left; exact H1|exact F2].
Qed.
Lemma ldirs_start gai : forall sts dh dp ds, ldirs gai dh dp sts = Some ds -> match ds with LListen _ _ :: _ => False | _ => True end.
Proof.
  induction sts as [|s sts IH]; intros dh dp ds; cbn [ldirs]; [intros E; injection E as <-; exact I|]. destruct s as [o|n i|l]; try (destruct o; apply IH); [|apply IH].
  destruct (resolves gai _); [|discriminate]. destruct (ldirs gai dh dp sts); [|discriminate]. intros E. injection E as <-. exact I.
Qed.
Lemma addresses_run gai sts ds : ldirs gai None 1965%Z sts = Some ds -> addresses_ok ds -> exists s, lrun ds lstart = Some s /\ s_errors s = 0%nat.
Proof.
  intros L (F & NB). destruct (lrun_some ds lstart (or_intror (ldirs_start _ _ _ _ _ L)) F) as (s & R). exists s. split; [exact R|]. destruct (c39_proxy ds s R) as (_ & P). destruct (s_errors s) as [|n]; [reflexivity|]. exfalso. apply NB, P. discriminate.
Qed.
Lemma apps_zero : forall l t r, Forall (fun x : list N * option (list N) => shorter 4096 (fst x) /\ match snd x with Some p => shorter 32 p | None => True end) l -> apps l t = OK r -> snd r = 0%nat /\
  forall f, In f (snd (fst r)) <-> In f t \/ exists x, In x l /\ f = app_of x.
Proof.
  induction l as [|[path port] l IH]; intros t r F E; cbn [apps] in E; [apply OK_inj in E; subst r; cbn; split; [reflexivity|]; intros f; split; [auto|intros [X|(x & [] & _)]; exact X]|].
  inversion F as [|? ? (F1 & F2) F3]; subst. cbn [fst snd] in *. unfold fastcgi_conf in E. destruct (fcgi_find path port t 0) as [o| |] eqn:FF; cbn [bind] in E; try discriminate. pose proof (fcgi_find_spec _ _ _ _ _ FF) as FS.
  assert (AO : app_of (path, port) = mkF path (match port with Some p => p | None => [] end)) by reflexivity.
  destruct o as [i|]; cbn [bind] in E.
  - destruct (apps l t) as [[[is t1] e]| |] eqn:A; cbn [bind] in E; try discriminate. apply OK_inj in E. subst r. destruct (IH t _ F3 A) as (Z & T). cbn [fst snd] in *. split; [exact Z|]. intros f. rewrite T. destruct FS as (_ & FS). apply nth_error_In in FS. split.
    + intros [X|(x & X & ->)]; [auto|]. right. exists x. split; [right; exact X|reflexivity].
    + intros [X|(x & [<-|X] & ->)]; [auto|left; exact FS|right; exists x; auto].
  - assert (L1 : (FCGI_PATH_MAX <=? length path)%nat = false) by (apply Nat.leb_gt; exact F1). set (p := match port with Some p => p | None => [] end) in *. assert (L2 : (FCGI_PORT_MAX <=? length p)%nat = false) by (apply Nat.leb_gt; unfold p, FCGI_PORT_MAX; destruct port; [exact F2|cbn; lia]).
    rewrite L1, L2 in E. rewrite (firstn_all2 path) in E by (apply Nat.leb_gt in L1; lia). rewrite (firstn_all2 p) in E by (apply Nat.leb_gt in L2; lia).
    destruct (apps l (t ++ [mkF path p])) as [[[is t1] e]| |] eqn:A; cbn [bind] in E; try discriminate. apply OK_inj in E. subst r. destruct (IH _ _ F3 A) as (Z & T). cbn [fst snd] in *. split; [exact Z|]. intros f. rewrite T, in_app_iff. cbn [In]. split.
    + intros [[X|[<-|[]]]|(x & X & ->)]; [auto|right; exists (path, port); split; [left; reflexivity|exact (eq_sym AO)]|right; exists x; auto].
    + intros [X|(x & [<-|X] & ->)]; [auto|left; right; left; symmetry; exact AO|right; exists x; auto].
Qed.
Lemma applications_run l : applications_ok l -> exists is t, apps l [] = OK (is, t, 0%nat) /\ NoDup t /\ forall f, In f t <-> exists x, In x l /\ f = app_of x.
Proof.
  intros (C & F). destruct (c53_safe_partial l C) as (r & A). { eapply Forall_impl; [|exact F]. intros x (X & _). exact X. }
  destruct (apps_zero l [] r F A) as (Z & T). destruct r as [[is t] e]. cbn [fst snd] in *. subst e. exists is, t. split; [exact A|]. split; [apply (c53_right_application _ _ _ A)|]. intros f. rewrite T. split; [intros [[]|X]; exact X|auto].
Qed.

(** ** the theorem *)
(** For every configuration file, with the files it includes, the macros it defines
    and those of the command line, the network's and the system's names: if the
    statements it is made of are valid, parse_conf returns the configuration they
    mean (GramSpec.v), with no error, and nothing else is left over of it. *)
Theorem c70_configuration gai service files macros s sts macros' ds :
  conf_text service files macros (Some s) sts macros' -> clean_macros macros -> Forall valid_stmt sts ->
  applications_ok (calls sts) -> ldirs gai None 1965%Z sts = Some ds -> addresses_ok ds ->
  exists c enough, means sts ds c /\ forall n, (enough <= n)%nat -> parse_conf gai service files n macros s = Good c.
Proof.
  intros T M V A L D. destruct (applications_run _ A) as (is & t & AP & ND & TI). destruct (addresses_run _ _ _ L D) as (a & LR & Z).
  destruct (stmts_means gai macros s sts t is ds a V AP L LR Z) as (c & E & MA). destruct (text_parsed gai service files macros s sts macros' c T (clean_macros_ok _ M) V E) as (d & P).
  exists c, d. split; [|exact P]. destruct MA as (A1 & A2 & A3 & A4 & A5 & A6 & A7 & A8 & A9 & A10 & A11 & A12 & A13). unfold means. repeat (split; [assumption|]). rewrite A10. split; [exact ND|]. split; [exact TI|].
  destruct (c39_once _ _ LR) as (F1 & F2). destruct (c39_proxy _ _ LR) as (P1 & _). rewrite A11. split; [exact F1|]. split; [|split; [exact (P1 Z)|exact A13]].
  rewrite <- A12 in F2. clear - F2. revert F2. generalize (per_server ds) (g_hosts c). intros gs hs. revert gs. induction hs as [|h hs IH]; intros gs F; inversion F; subst; constructor; auto.
Qed.
