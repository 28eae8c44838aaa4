(** C79: gmid -n; and cases for C78. *)
From Verif Require Import Base BaseLemmas Compat Fmt Conf Config Mime Prop_Mime Parse Tls TlsSpec Prop_Tls Gram Proc Main MainSpec Main_Proofs MainTest_Proofs WellSpec Prop_Main.
From Verif Require GramSpec Gram_Case Prop_Well.
Local Open Scope N_scope.

(** With -n gmid only looks: it never starts anything. *)
Theorem c79_only_looks W args : In On (fst (getopt (w_posix W) args)) -> exists code s, gmid_main W args = Exit code s.
Proof.
  intros I. unfold gmid_main. destruct (take_all W (fst (getopt (w_posix W) args)) no_opts) as [o|code s] eqn:T; [|eauto].
  destruct (last_path _ _ _ _ T) as (_ & _ & C & _). cbn [no_opts o_test Nat.add] in C.
  assert (L : (0 <? o_test o)%nat = true).
  { apply Nat.ltb_lt. rewrite C. assert (X : In On (filter (fun x => match x with On => true | _ => false end) (fst (getopt (w_posix W) args)))) by (apply filter_In; auto).
    destruct (filter _ _); [destruct X|cbn; lia]. }
  rewrite L. destruct (Nat.eqb_spec (o_role o) Proc.PARENT) as [_|_].
  - destruct (w_parse W (o_path o) (o_syms o)) as [c|]; [|eauto]. cbv zeta.
    destruct (g_chroot c), (g_user c); try (eauto; fail); destruct (find_user W _ _); eauto; match goal with |- context [config_test W ?x] => generalize (config_test W x) end; intros []; eauto.
  - destruct (negb _ || negb _); [eauto|]. destruct (find_user W _ _) as [r|p r|]; [| |eauto]; unfold as_child; rewrite L; match goal with |- context [config_test W ?x] => generalize (config_test W x) end; intros []; eauto.
Qed.

(** It says "config OK" exactly if: the file is accepted; a user, if any, can be
    switched to; the certificate and the key of every server can be read and, for
    each address, libtls accepts those of the servers that have it; the root of each
    location can be opened, below the chroot if there is one. *)
Theorem c79_config_ok W args : parses_well W -> for_users W args -> In On (fst (getopt (w_posix W) args)) ->
  (gmid_main W args = Exit 0 ConfigOK <->
   exists o c r, take_all W (fst (getopt (w_posix W) args)) no_opts = Goes o /\
     named_by sel_c (fst (getopt (w_posix W) args)) (w_cwd W) (Some (s2b "/etc/gmid.conf")) (Some (o_path o)) /\
     w_parse W (o_path o) (o_syms o) = Some c /\ settled W c r /\ sane W c r).
Proof.
  intros PWL F I. unfold gmid_main. destruct (take_all W (fst (getopt (w_posix W) args)) no_opts) as [o|code s] eqn:T.
  2:{ split; [|intros (o & c & r & X & _); discriminate X]. intros H. exfalso. revert T. rewrite (f_equal (fun x => match x with Exit a _ => a | _ => 0 end) H : code = 0).
      assert (s = ConfigOK) as -> by congruence. clear. generalize (fst (getopt (w_posix W) args)) no_opts. induction l as [|x l IH]; intros o; cbn [take_all]; [discriminate|].
      destruct (take W x o) as [o1|code s] eqn:TX; [apply IH|]. intros H. destruct o as [pa sy de ve te pi ro ins n u c]. destruct x; cbn [take] in TX; try congruence;
        try (destruct (Ge.absolutify_path (w_cwd W) s0) as [q|]; [congruence|]); try (destruct (cmdline_symset s0 sy) as [q|]; [congruence|]);
        try (destruct (strtonum s0 0 PROC_MAX_INSTANCES) as [vz []]); try (destruct (proc_getid s0)); congruence. }
  destruct (last_path _ _ _ _ T) as (A & _ & C & _ & IN). cbn [no_opts o_test Nat.add] in C. specialize (IN F).
  assert (L : (0 <? o_test o)%nat = true).
  { apply Nat.ltb_lt. rewrite C. assert (X : In On (filter (fun x => match x with On => true | _ => false end) (fst (getopt (w_posix W) args)))) by (apply filter_In; auto).
    destruct (filter _ _); [destruct X|cbn; lia]. }
  assert (R : o_role o = Proc.PARENT) by (unfold inner in IN; injection IN as R _ _ _ _; exact R). rewrite R, Nat.eqb_refl, L.
  destruct (w_parse W (o_path o) (o_syms o)) as [c|] eqn:P.
  2:{ split; [discriminate|]. intros (o' & c & r & X & _ & Y & _). injection X as <-. congruence. }
  pose proof (PWL _ _ _ P) as WF.
  assert (FH : Forall (fun h => NoDup (map a_ai (vh_addrs h)) /\ vh_locs h <> []) (g_hosts c)).
  { destruct WF as (_ & _ & _ & _ & _ & _ & _ & _ & W9). eapply Forall_impl; [|exact W9]. intros h (_ & _ & _ & _ & _ & _ & (ND & _) & (l0 & q & E & _) & _). split; [exact ND|rewrite E; discriminate]. }
  assert (CT : forall r, config_test W (set_globals r (g_user c) (g_prefork c) (g_protos c) c) = true <-> sane W c r).
  { intros r. exact (config_test_iff W (set_globals r (g_user c) (g_prefork c) (g_protos c) c) FH). }
  assert (EQ : forall r, settled W c r -> ((if config_test W (set_globals r (g_user c) (g_prefork c) (g_protos c) c) then Exit 0 ConfigOK else Exit 1 Complaint) = Exit 0 ConfigOK <->
    exists o' c' r', @Goes o = Goes o' /\ named_by sel_c (fst (getopt (w_posix W) args)) (w_cwd W) (Some (s2b "/etc/gmid.conf")) (Some (o_path o')) /\ w_parse W (o_path o') (o_syms o') = Some c' /\ settled W c' r' /\ sane W c' r')).
  { intros r S. pose proof (CT r) as K. generalize dependent (config_test W (set_globals r (g_user c) (g_prefork c) (g_protos c) c)). intros b K. destruct b.
    - split; [intros _|reflexivity]. exists o, c, r. split; [reflexivity|]. split; [exact A|]. split; [exact P|]. split; [exact S|]. apply K. reflexivity.
    - split; [discriminate|]. intros (o' & c' & r' & X & _ & Y & S' & Z). injection X as <-. assert (c' = c) as -> by congruence.
      assert (r' = r) as -> by (inversion S; inversion S'; subst; congruence). apply K in Z. discriminate Z. }
  cbv zeta. pose proof (find_user_inv W c) as FU.
  assert (NS : (~ exists r, settled W c r) -> (Exit 1 Complaint = Exit 0 ConfigOK <->
    exists o' c' r', @Goes o = Goes o' /\ named_by sel_c (fst (getopt (w_posix W) args)) (w_cwd W) (Some (s2b "/etc/gmid.conf")) (Some (o_path o')) /\ w_parse W (o_path o') (o_syms o') = Some c' /\ settled W c' r' /\ sane W c' r')).
  { intros N. split; [discriminate|]. intros (o' & c' & r' & X & _ & Y & S' & _). injection X as <-. assert (c' = c) as -> by congruence. exfalso. apply N. eauto. }
  assert (MID : (g_chroot c <> [] /\ g_user c = [] /\ ~ exists r, settled W c r) \/ (g_chroot c = [] \/ g_user c <> [])).
  { destruct (g_chroot c) eqn:E1; [auto|]. destruct (g_user c) eqn:E2; [|right; right; discriminate]. left. split; [discriminate|]. split; [reflexivity|]. intros (r & S). inversion S; congruence. }
  destruct MID as [(M1 & M2 & M3)|M].
  - destruct (g_chroot c) eqn:E1; [congruence|]. rewrite M2. apply NS, M3.
  - match goal with |- (?x = _) <-> _ => assert (GM : x = match find_user W (g_user c) (g_chroot c) with
          | NoUser chroot => if config_test W (set_globals chroot (g_user c) (g_prefork c) (g_protos c) c) then Exit 0 ConfigOK else Exit 1 Complaint
          | User p chroot => if config_test W (set_globals chroot (g_user c) (g_prefork c) (g_protos c) c) then Exit 0 ConfigOK else Exit 1 Complaint
          | Refused => Exit 1 Complaint end) end.
    { destruct (g_chroot c), (g_user c); try reflexivity. destruct M; congruence. }
    rewrite GM. clear GM. destruct (find_user W (g_user c) (g_chroot c)) as [r|p r|].
    + destruct FU as (U & ->). apply EQ. destruct M as [M|M]; [|congruence]. rewrite M. apply se_nobody; assumption.
    + apply EQ. apply FU.
    + apply NS, FU.
Qed.

(** ** cases *)
Definition ex_conf (more : list N) : list N :=
  Gram_Case.ln "user ""www""" ++ Gram_Case.ln "chroot ""/var/g""" ++ Gram_Case.ln "prefork 2" ++ Gram_Case.ln "server ""a.org"" {" ++
  Gram_Case.ln "cert ""/c""" ++ Gram_Case.ln "key ""/k""" ++ Gram_Case.ln "root ""/docs""" ++ more ++ Gram_Case.ln "}".
Definition ex_parse (text : list N) : option core :=
  match parse_conf Gram_Case.ex_gai Gram_Case.ex_service (fun _ => None) 200 [] text with Good c => Some c | _ => None end.
Definition www (dir : word) : passwd := mkPw (s2b "www") 67 68 dir.
Definition wheel : passwd := mkPw (s2b "root") 0 0 (s2b "/root").
Definition ex_world (text : list N) (home : word) : world :=
  mkW true (Some (s2b "/here")) (fun p _ => if leqb p (s2b "/here/g.conf") then ex_parse text else None) true
    (fun u => if leqb u (s2b "www") then Some (www home) else if leqb u (s2b "root") then Some wheel else None)
    (fun p => if leqb p (s2b "/c") then Some [1] else if leqb p (s2b "/k") then Some [2] else None)
    (fun d => if leqb d [1] then Some (mkCert None [Some (s2b "a.org")]) else None)
    (fun _ => true) (fun d => if leqb d (s2b "/var/g//docs") then Some 9 else None) (fun l => l).
Definition ex_args (more : list string) : list word := map s2b (["-c"; "g.conf"]%string ++ more).

Lemma ex_parses text home : forallb (fun b => negb (b =? 0)) text = true -> parses_well (ex_world text home).
Proof.
  intros NZ p s c. cbn [ex_world w_parse]. destruct (leqb p (s2b "/here/g.conf")); [|discriminate]. unfold ex_parse.
  destruct (parse_conf Gram_Case.ex_gai Gram_Case.ex_service (fun _ => None) 200 [] text) as [c0| | | |] eqn:E; try discriminate. intros H. assert (c0 = c) as -> by congruence.
  revert E. apply Prop_Well.c71_accepted; [discriminate| |discriminate|intros m []]. intros I. rewrite forallb_forall in NZ. specialize (NZ 0 I). discriminate NZ.
Qed.
Lemma some_inj_ {A} (x y : A) : Some x = Some y -> x = y. Proof. congruence. Qed.
Definition plain_text : list N := ex_conf [].
Definition seen (W : world) (args : list word) : option (word * word * word * bool * list outcome) :=
  match gmid_main W args with Started c path _ dbg cs => Some (g_user c, g_chroot c, path, dbg, map (gmid_main W) cs) | _ => None end.
Lemma seen_started W args u r p d l : seen W args = Some (u, r, p, d, l) -> exists c pid cs, gmid_main W args = Started c p pid d cs /\ g_user c = u /\ g_chroot c = r /\ map (gmid_main W) cs = l.
Proof. unfold seen. destruct (gmid_main W args) as [|c path pid dbg cs|]; try discriminate. intros H. assert (X := some_inj_ _ _ H). exists c, pid, cs. repeat split; congruence. Qed.

Example c78_case : parses_well (ex_world plain_text (s2b "/home")) /\ users_named (ex_world plain_text (s2b "/home")) /\ users_housed (ex_world plain_text (s2b "/home")) /\
  for_users (ex_world plain_text (s2b "/home")) (ex_args ["-fv"%string]) /\
  seen (ex_world plain_text (s2b "/home")) (ex_args ["-fv"%string]) =
  Some (s2b "www", s2b "/var/g", s2b "/here/g.conf", true,
    let who := Some (www (s2b "/home"), s2b "/var/g") in [Child Proc.SERVER 0 2 who; Child Proc.SERVER 1 2 who; Child Proc.CRYPTO 0 2 who; Child Proc.LOGGER 0 2 who]).
Proof.
  split; [apply ex_parses; vm_compute; reflexivity|]. split; [|split; [|split]].
  - intros u p. cbn [ex_world w_pw]. destruct (leqb u (s2b "www")) eqn:E; [apply leqb_eq in E; intros H; injection H as <-; symmetry; exact E|].
    destruct (leqb u (s2b "root")) eqn:E2; [apply leqb_eq in E2; intros H; injection H as <-; symmetry; exact E2|discriminate].
  - intros u p. cbn [ex_world w_pw]. destruct (leqb u (s2b "www")); [intros H; injection H as <-; discriminate|]. destruct (leqb u (s2b "root")); [intros H; injection H as <-; discriminate|discriminate].
  - unfold for_users. vm_compute. repeat constructor.
  - vm_compute. reflexivity.
Qed.

(** Without the condition on the command line it is false: the main process does not
    look at -U and -X, but hands them on, after its own. *)
Theorem c78_any_command_line_refuted : exists W args c path pid dbg cs p,
  parses_well W /\ users_named W /\ users_housed W /\ gmid_main W args = Started c path pid dbg cs /\
  w_pw W (g_user c) = Some p /\ pw_uid p = 67 /\ Forall (fun a => exists role inst n q, gmid_main W a = Child role inst n (Some q) /\ pw_uid (fst q) = 0) cs /\ cs <> [].
Proof.
  destruct c78_case as (A & B & C & _). assert (S : seen (ex_world plain_text (s2b "/home")) (ex_args ["-U"; "root"]%string) = Some (s2b "www", s2b "/var/g", s2b "/here/g.conf", false,
    let who := Some (wheel, s2b "/var/g") in [Child Proc.SERVER 0 2 who; Child Proc.SERVER 1 2 who; Child Proc.CRYPTO 0 2 who; Child Proc.LOGGER 0 2 who])) by (vm_compute; reflexivity).
  apply seen_started in S. destruct S as (c & pid & cs & ST & U & _ & M). exists (ex_world plain_text (s2b "/home")), (ex_args ["-U"; "root"]%string), c, (s2b "/here/g.conf"), pid, false, cs, (www (s2b "/home")).
  split; [exact A|]. split; [exact B|]. split; [exact C|]. split; [exact ST|]. rewrite U. split; [reflexivity|]. split; [reflexivity|]. split.
  - assert (X : forall a, In a cs -> In (gmid_main (ex_world plain_text (s2b "/home")) a) (let who := Some (wheel, s2b "/var/g") in [Child Proc.SERVER 0 2 who; Child Proc.SERVER 1 2 who; Child Proc.CRYPTO 0 2 who; Child Proc.LOGGER 0 2 who])).
    { intros a I. rewrite <- M. apply in_map. exact I. }
    apply Forall_forall. intros a I. apply X in I. cbv zeta in I. revert I. generalize (gmid_main (ex_world plain_text (s2b "/home")) a). intros o' I.
    destruct I as [<-|[<-|[<-|[<-|[]]]]]; do 4 eexists; (split; [reflexivity|reflexivity]).
  - intros ->. discriminate M.
Qed.
(** Nor for a user without a home, when no chroot is configured: the list of
    arguments then ends after -X, and every process ends with a usage message. *)
Definition homeless_text : list N := Gram_Case.ln "user ""www""" ++ Gram_Case.ln "server ""a.org"" {" ++ Gram_Case.ln "cert ""/c""" ++ Gram_Case.ln "key ""/k""" ++ Gram_Case.ln "}".
Theorem c78_homeless_refuted : parses_well (ex_world homeless_text []) /\ users_named (ex_world homeless_text []) /\ for_users (ex_world homeless_text []) (ex_args []) /\
  seen (ex_world homeless_text []) (ex_args []) = Some (s2b "www", [], s2b "/here/g.conf", false, repeat (Exit 1 Usage) 5).
Proof.
  split; [apply ex_parses; vm_compute; reflexivity|]. split; [|split; [unfold for_users; vm_compute; repeat constructor|vm_compute; reflexivity]].
  intros u p. cbn [ex_world w_pw]. destruct (leqb u (s2b "www")) eqn:E; [apply leqb_eq in E; intros H; injection H as <-; symmetry; exact E|].
  destruct (leqb u (s2b "root")) eqn:E2; [apply leqb_eq in E2; intros H; injection H as <-; symmetry; exact E2|discriminate].
Qed.

(** "config OK", for a configuration with a chroot; a missing key, and a root that
    is not below the chroot, are found *)
Definition elsewhere : list N := Gram_Case.ln "location ""/x/*"" {" ++ Gram_Case.ln "root ""/other""" ++ Gram_Case.ln "}".
Example c79_case : gmid_main (ex_world plain_text (s2b "/home")) (ex_args ["-n"%string]) = Exit 0 ConfigOK /\
  gmid_main (ex_world (ex_conf elsewhere) (s2b "/home")) (ex_args ["-n"%string]) = Exit 1 Complaint /\
  gmid_main (ex_world (ex_conf (Gram_Case.ln "key ""/missing""")) (s2b "/home")) (ex_args ["-n"%string]) = Exit 1 Complaint.
Proof. vm_compute. auto. Qed.

(** But a configuration that is OK may not be one to start with: other files, such
    as the OCSP staple, are not looked at, and the daemon ends when they are missing. *)
Definition ocsp_text : list N := ex_conf (Gram_Case.ln "ocsp ""/missing""").
Theorem c79_startable_refuted : exists W args c path pid dbg cs p, parses_well W /\
  gmid_main W (args ++ [s2b "-n"]) = Exit 0 ConfigOK /\ gmid_main W args = Started c path pid dbg cs /\ pconf_of true c = Some p /\
  forall supported, snd (perform (w_file W) (fun _ => true) 0 (main_configure (w_file W) supported 2 p)) = Exited.
Proof.
  assert (S : match gmid_main (ex_world ocsp_text (s2b "/home")) (ex_args []) with
    | Started c _ _ _ _ => match pconf_of true c with
       | Some p => forall supported, snd (perform (w_file (ex_world ocsp_text (s2b "/home"))) (fun _ => true) 0 (main_configure (w_file (ex_world ocsp_text (s2b "/home"))) supported 2 p)) = Exited
       | None => False end
    | _ => False end).
  { vm_compute. intros []; reflexivity. }
  destruct (gmid_main (ex_world ocsp_text (s2b "/home")) (ex_args [])) as [|c path pid dbg cs|] eqn:ST; try contradiction.
  destruct (pconf_of true c) as [p|] eqn:P; [|contradiction].
  exists (ex_world ocsp_text (s2b "/home")), (ex_args []), c, path, pid, dbg, cs, p. split; [apply ex_parses; vm_compute; reflexivity|]. split; [vm_compute; reflexivity|]. auto.
Qed.

Print Assumptions c78_children_partial.
Print Assumptions c78_daemon_partial.
Print Assumptions c78_privileges.
Print Assumptions c78_for_good.
Print Assumptions c78_any_command_line_refuted.
Print Assumptions c79_config_ok.
Print Assumptions c79_startable_refuted.
