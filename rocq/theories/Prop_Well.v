(** C71: a configuration that is accepted is well formed, and reaches the servers. *)
From Verif Require Import Base BaseLemmas Conf Config Prop_Config Mime Fmt Prop_Fmt Parse Prop_Parse UpTls Lex Prop_Lex Lex_Nul Gram GramSpec Gram_Proofs Prop_Gram WellSpec Well_Proofs Gram_Case.
Local Open Scope N_scope.

(** Whatever text, included files and macros (without NUL), whatever the resolver
    answers (never an empty list): if parse_conf accepts, the configuration is well
    formed (WellSpec.v). *)
Theorem c71_accepted gai service files n macros s c :
  (forall h p, gai h p <> Some []) -> ~ In 0 s -> (forall f t, files f = Some t -> ~ In 0 t) -> (forall m, In m macros -> ~ In 0 (y_val m)) ->
  parse_conf gai service files n macros s = Good c -> well_formed c.
Proof. intros G S F M. apply (accepted_fine gai service files G F); [exact S|]. apply Forall_forall. exact M. Qed.

(** no request makes the text of `block return' of such a configuration go wrong *)
Theorem c71_block_texts c h l x len : well_formed c -> In h (g_hosts c) -> In l (vh_locs h) -> l_block_code (pl l) <> 0 ->
  exists out, fmtbuf x len (l_block_fmt (pl l)) = OK out.
Proof.
  intros (_ & _ & _ & _ & _ & _ & _ & _ & W) H L B. rewrite Forall_forall in W. destruct (W h H) as (_ & _ & _ & _ & _ & _ & _ & _ & WL & _). rewrite Forall_forall in WL. destruct (WL l L) as (_ & _ & _ & _ & _ & [Z|(_ & F & _)] & _); [congruence|].
  apply c19_safe, fmt_wf, F.
Qed.

Lemma phosts_some hs : Forall (fun h => vh_cert h <> None /\ vh_key h <> None) hs -> exists ps, phosts hs = Some ps /\ Forall2 (fun h p => phost_of h = Some p) hs ps.
Proof.
  induction 1 as [|h hs (C & K) F IH]; [exists []; split; [reflexivity|constructor]|]. destruct IH as (ps & E & P). cbn [phosts]. rewrite E. unfold phost_of at 1. destruct (vh_cert h) as [c|] eqn:EC; [|congruence]. destruct (vh_key h) as [k|] eqn:EK; [|congruence]. eexists. split; [reflexivity|]. constructor; [unfold phost_of; rewrite EC, EK; reflexivity|exact P].
Qed.
(** what is sent of it *)
Definition sent_as (privsep : bool) (c : core) (p : pconf) : Prop :=
  pc_logfmt p = g_style c /\ pc_mime p = m_t (g_mime c) /\ pc_protos p = g_protos c /\ pc_addrs p = map addr_of (g_addrs c) /\
  pc_fcgi p = map (fun f => mkFcgi (Parse.f_path f) (Parse.f_port f)) (g_fcgi c) /\ pc_privsep_crypto p = privsep /\
  Forall2 (fun h q => ph_domain q = vh_domain h /\ vh_cert h = Some (ph_cert q) /\ vh_key h = Some (ph_key q) /\ ph_ocsp q = vh_ocsp h /\
                      ph_addrs q = map addr_of (vh_addrs h) /\ ph_locs q = vh_locs h /\ ph_aliases q = vh_aliases h /\ ph_proxies q = vh_proxies h) (g_hosts c) (pc_hosts p).
Lemma sent_some privsep c : Forall (fun h => vh_cert h <> None /\ vh_key h <> None) (g_hosts c) -> exists p, pconf_of privsep c = Some p /\ sent_as privsep c p.
Proof.
  intros F. destruct (phosts_some _ F) as (ps & E & P). unfold pconf_of. rewrite E. eexists. split; [reflexivity|]. unfold sent_as. cbn [pc_logfmt pc_mime pc_protos pc_addrs pc_fcgi pc_privsep_crypto pc_hosts]. repeat (split; [reflexivity|]).
  clear E F. induction P as [|h p hs ps H P IH]; constructor; [|exact IH]. unfold phost_of in H. destruct (vh_cert h); [|discriminate]. destruct (vh_key h); [|discriminate]. assert (X := f_equal (fun o => match o with Some q => q | None => p end) H). cbv beta iota in X. subst p. cbn. repeat split.
Qed.
(** From the file to the server processes: once the main process got through sending
    it, every server process has exactly what was accepted. *)
Theorem c71_served gai service files n macros s c privsep :
  (forall h p, gai h p <> Some []) -> ~ In 0 s -> (forall f t, files f = Some t -> ~ In 0 t) -> (forall m, In m macros -> ~ In 0 (y_val m)) ->
  parse_conf gai service files n macros s = Good c ->
  exists p, sent_as privsep c p /\
    forall fs supported load_ca pubkey_hash load_pkey prefork ok ms i st,
      perform fs ok 0 (main_configure fs supported prefork p) = (ms, Done) -> (i < prefork)%nat -> cas_load fs load_ca p ->
      exists st', recv_all load_ca pubkey_hash load_pkey false (sent_to TServer i ms) st = Took st' /\
        k_acks st' = S (k_acks st) /\ same_conf fs supported load_ca p (k_conf st').
Proof.
  intros G S F M E. pose proof (c71_accepted _ _ _ _ _ _ _ G S F M E) as (_ & _ & _ & _ & _ & _ & _ & _ & W). destruct (sent_some privsep c) as (p & PC & SA).
  { eapply Forall_impl; [|exact W]. intros h (_ & _ & (ce & C & _) & (ke & K & _) & _). rewrite C, K. split; discriminate. }
  exists p. split; [exact SA|]. intros. eapply c29_servers; eassumption.
Qed.

(** The same for a file that is written in the language and valid: every server process
    ends up with what the statements mean (C70). *)
Lemma last_said_in {A B} (f : A -> option B) l x b : In x l -> f x = Some b -> last_said f l <> None.
Proof. induction l as [|y l IH]; [intros []|]. cbn [last_said]. intros [->|I] E; destruct (last_said f l) eqn:L; try discriminate; [rewrite E; discriminate|]. exfalso. exact (IH I E eq_refl). Qed.
Theorem c70_served gai service files macros s sts macros' ds privsep :
  conf_text service files macros (Some s) sts macros' -> clean_macros macros -> Forall valid_stmt sts ->
  applications_ok (calls sts) -> ldirs gai None 1965%Z sts = Some ds -> addresses_ok ds ->
  exists c p enough, means sts ds c /\ sent_as privsep c p /\ (forall n, (enough <= n)%nat -> parse_conf gai service files n macros s = Good c) /\
    forall fs supported load_ca pubkey_hash load_pkey prefork ok ms i st,
      perform fs ok 0 (main_configure fs supported prefork p) = (ms, Done) -> (i < prefork)%nat -> cas_load fs load_ca p ->
      exists st', recv_all load_ca pubkey_hash load_pkey false (sent_to TServer i ms) st = Took st' /\
        k_acks st' = S (k_acks st) /\ same_conf fs supported load_ca p (k_conf st').
Proof.
  intros T M V A L D. destruct (c70_configuration _ _ _ _ _ _ _ _ T M V A L D) as (c & enough & MN & P). destruct (sent_some privsep c) as (p & PC & SA).
  { destruct MN as (_ & _ & _ & _ & _ & _ & _ & _ & _ & _ & _ & _ & _ & _ & MS).
    assert (VS : Forall (fun x => (exists f, In (SCert f) (snd x)) /\ (exists f, In (SKey f) (snd x))) (rev (servers sts))).
    { apply Forall_rev. unfold servers. clear - V. induction V as [|st sts H V IH]; [constructor|]. cbn [flat_map]. apply Forall_app. split; [|exact IH]. destruct st; constructor; [|constructor]. apply H. }
    clear - MS VS. revert VS. induction MS as [|x h xs hs (_ & C & K & _) MS IH]; intros VS; [constructor|]. inversion VS as [|? ? ((f & F) & (g & G)) VS']; subst. constructor; [|apply IH, VS']. rewrite C, K. unfold said. split.
    - pose proof (last_said_in (fun i => match i with SCert s => Some (Some s) | _ => None end) _ _ _ F eq_refl) as X. destruct (last_said _ (snd x)) as [[y|]|] eqn:E; try congruence. exfalso. clear - E. induction (snd x) as [|i l IH]; [discriminate|]. cbn [last_said] in E. destruct (last_said _ l) as [q|] eqn:Q; [injection E as ->; apply IH; reflexivity|]. destruct i; discriminate.
    - pose proof (last_said_in (fun i => match i with SKey s => Some (Some s) | _ => None end) _ _ _ G eq_refl) as X. destruct (last_said _ (snd x)) as [[y|]|] eqn:E; try congruence. exfalso. clear - E. induction (snd x) as [|i l IH]; [discriminate|]. cbn [last_said] in E. destruct (last_said _ l) as [q|] eqn:Q; [injection E as ->; apply IH; reflexivity|]. destruct i; discriminate. }
  exists c, p, enough. split; [exact MN|]. split; [exact SA|]. split; [exact P|]. intros. eapply c29_servers; eassumption.
Qed.

(** ** cases *)
Lemma in_existsb_false c l : existsb (N.eqb c) l = false -> ~ In c l.
Proof. intros E I. assert (existsb (N.eqb c) l = true) by (apply existsb_exists; exists c; split; [exact I|apply N.eqb_refl]). congruence. Qed.
Example c71_applies : match parse_conf ex_gai ex_service ex_files 300 [] ex_text with Good c => well_formed c /\ length (g_hosts c) = 1%nat | _ => False end.
Proof.
  assert (E : match parse_conf ex_gai ex_service ex_files 300 [] ex_text with Good c => length (g_hosts c) = 1%nat | _ => False end) by (vm_compute; reflexivity).
  destruct (parse_conf ex_gai ex_service ex_files 300 [] ex_text) as [c| | | |] eqn:P; try exact E. split; [|exact E]. revert P. apply c71_accepted.
  - discriminate.
  - intros I. apply (in_existsb_false 0 ex_text); [vm_compute; reflexivity|exact I].
  - intros f t. unfold ex_files. destruct (leqb f (s2b "/etc/types")); [|discriminate]. intros H. assert (t = ex_inc) as -> by congruence. apply in_existsb_false. vm_compute. reflexivity.
  - intros m [].
Qed.

(** A NUL byte in an included file ends everything there, and only the errors of that
    file count: the error before the `include' is forgotten. *)
Definition nul_text : list N := ln "prefork 99" ++ ln "include ""/x""".
Definition nul_files (n : list N) : option (list N) := Some [0].
Theorem c71_nul_refuted : exists c, parse_conf ex_gai ex_service nul_files 50 [] nul_text = Good c /\ g_prefork c = 99%Z /\ ~ well_formed c.
Proof.
  destruct (parse_conf ex_gai ex_service nul_files 50 [] nul_text) as [c| | | |] eqn:P; try (exfalso; revert P; vm_compute; discriminate). exists c.
  assert (Z : g_prefork c = 99%Z). { assert (X : match parse_conf ex_gai ex_service nul_files 50 [] nul_text with Good c => g_prefork c | _ => 0%Z end = 99%Z) by (vm_compute; reflexivity). rewrite P in X. exact X. }
  split; [reflexivity|]. split; [exact Z|]. intros (_ & _ & W & _). lia.
Qed.
(** The check of a configuration can itself go wrong: a text that ends in a lone
    percent sign is read past its end (parse.y:1227-1245). *)
Theorem c71_check_refuted : parse_conf ex_gai ex_service nul_files 50 [] (s2b "server ""a"" { block return 40 ""50%""" ++ [10]) = Wrong.
Proof. vm_compute. reflexivity. Qed.
