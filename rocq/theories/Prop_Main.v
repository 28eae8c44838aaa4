(** C78: the processes gmid starts, and as whom they run.
    C79: gmid -n. *)
From Verif Require Import Base BaseLemmas Compat Fmt Conf Config Mime Prop_Mime Parse Tls TlsSpec Prop_Tls Gram Proc Main MainSpec Main_Proofs WellSpec.
From Verif Require GramSpec.
Local Open Scope N_scope.

(** what the parser accepts (C71), and users have a home *)
Definition parses_well (W : world) : Prop := forall p s c, w_parse W p s = Some c -> well_formed c.
Definition users_housed (W : world) : Prop := forall u p, w_pw W u = Some p -> pw_dir p <> [].

Lemma settled_len W c r : (length (g_chroot c) < 4096)%nat -> settled W c r -> (length r < 4096)%nat.
Proof. intros L S. inversion S; subst; [cbn; lia|exact L|]. rewrite firstn_length. lia. Qed.

Definition child_outcome (W : world) (o : opts) : outcome :=
  let fits size w := match w with Some s => (length s <? size)%nat | None => true end in
  if negb (fits LOGIN_NAME_MAX (o_user o)) || negb (fits Fcgi.PATH_MAX (o_chroot o)) then Exit 1 Complaint else
  match find_user W (match o_user o with Some u => u | None => [] end) (match o_chroot o with Some r => r | None => [] end) with
  | Refused => Exit 1 Complaint
  | NoUser chroot => as_child W o None chroot
  | User p chroot => as_child W o (Some p) chroot
  end.
Lemma main_as_child W args o : take_all W (fst (getopt (w_posix W) args)) no_opts = Goes o -> o_role o <> Proc.PARENT ->
  gmid_main W args = child_outcome W o.
Proof. intros T R. unfold gmid_main. rewrite T. destruct (Nat.eqb_spec (o_role o) Proc.PARENT) as [X|_]; [contradiction|]. reflexivity. Qed.

(** one child *)
Lemma child_runs W args o title id r n i pw who :
  take_all W (fst (getopt (w_posix W) args)) no_opts = Goes o -> o_test o = 0%nat -> for_users W args ->
  (n <= 16)%nat -> (i <= 16)%nat -> proc_getid title = Some id -> id <> Proc.PARENT ->
  match pw with
  | None => who = None
  | Some p => r <> [] /\ (length r < 4096)%nat /\ (length (pw_name p) < 256)%nat /\ pw_name p <> [] /\ w_root W = true /\ w_pw W (pw_name p) = Some p /\ who = Some (p, r)
  end ->
  gmid_main W (child_args title pw r n i args) = Child id i (Z.of_nat n) who.
Proof.
  intros T TST F LN LI ID NP PW.
  assert (NE : r <> [] \/ pw = None) by (destruct pw; [left; apply PW|right; reflexivity]).
  pose proof (child_getopt (w_posix W) title pw r n i args NE) as G.
  set (o1 := mkO default_path [] false false 0 None id i (Z.of_nat n) (option_map pw_name pw) (match pw with Some _ => Some r | None => None end)).
  assert (PRE : take_all W (OT title :: match pw with Some p => [OU (pw_name p); OX r] | None => [] end ++ [OJ (dec (N.of_nat n)); OI (dec (N.of_nat i))]) no_opts = Goes o1).
  { cbn [take_all]. unfold no_opts. cbn [take]. rewrite ID. destruct pw as [p|]; cbn [app take_all take]; rewrite (read_back n LN); cbn [take_all take]; rewrite (read_back i LI); cbn [take_all]; rewrite Nat2Z.id; reflexivity. }
  destruct (take_all_keeps W _ _ _ o1 F T eq_refl) as (_ & o2 & T2 & OU2 & IN2).
  assert (T3 : take_all W (fst (getopt (w_posix W) (child_args title pw r n i args))) no_opts = Goes o2).
  { rewrite G. change (OT title :: match pw with Some p => [OU (pw_name p); OX r] | None => [] end ++ [OJ (dec (N.of_nat n)); OI (dec (N.of_nat i))] ++ fst (getopt (w_posix W) args))
      with ((OT title :: match pw with Some p => [OU (pw_name p); OX r] | None => [] end) ++ [OJ (dec (N.of_nat n)); OI (dec (N.of_nat i))] ++ fst (getopt (w_posix W) args)).
    rewrite app_assoc. rewrite take_all_app. change ((OT title :: match pw with Some p => [OU (pw_name p); OX r] | None => [] end) ++ [OJ (dec (N.of_nat n)); OI (dec (N.of_nat i))])
      with (OT title :: match pw with Some p => [OU (pw_name p); OX r] | None => [] end ++ [OJ (dec (N.of_nat n)); OI (dec (N.of_nat i))]).
    rewrite PRE. exact T2. }
  unfold inner in IN2. injection IN2 as R2 I2 N2 U2 C2. unfold o1 in R2, I2, N2, U2, C2. cbn [o_role o_inst o_n o_user o_chroot] in R2, I2, N2, U2, C2.
  assert (TE : o_test o2 = 0%nat) by (unfold outer in OU2; congruence).
  rewrite (main_as_child W _ o2 T3) by congruence. unfold child_outcome. rewrite U2, C2. destruct pw as [p|]; cbn [option_map].
  - destruct PW as (NR & LR & LP & NP' & WR & WP & ->).
    destruct (Nat.ltb_spec (length (pw_name p)) LOGIN_NAME_MAX) as [_|X]; [|exfalso; unfold LOGIN_NAME_MAX in X; lia].
    destruct (Nat.ltb_spec (length r) Fcgi.PATH_MAX) as [_|X]; [|exfalso; unfold Fcgi.PATH_MAX in X; lia]. cbn [negb orb].
    unfold find_user. rewrite WR, WP. cbn [negb]. destruct (pw_name p) as [|a b]; [congruence|]. destruct r as [|x xs]; [congruence|].
    unfold as_child. rewrite TE, R2, I2, N2. reflexivity.
  - subst who. cbn [negb orb find_user]. unfold as_child. rewrite TE, R2, I2, N2. reflexivity.
Qed.

(** A daemon that starts has, besides the main process, exactly as many servers as
    configured, numbered from 0, one crypto process and one logger; they all run as
    the user configured, confined to the chroot (the user's home if none is
    configured), or as who started it if no user is configured. *)
Theorem c78_children_partial W args c path pid dbg cs :
  parses_well W -> users_named W -> users_housed W -> for_users W args ->
  gmid_main W args = Started c path pid dbg cs ->
  exists who, runs_as W c who /\
    map (gmid_main W) cs = map (fun x => Child (fst x) (snd x) (g_prefork c) who) (processes (Z.to_nat (g_prefork c))).
Proof.
  intros PWL UN UH F ST. destruct (started_inv _ _ _ _ _ _ _ ST) as (o & c0 & r & pw & T & R & TE & -> & -> & -> & P & S & -> & PW & ->).
  destruct (PWL _ _ _ P) as (LC & LU & PF & _).
  assert (LR : (length r < 4096)%nat) by (eapply settled_len; [|exact S]; exact LC).
  exists (match pw with Some p => Some (p, r) | None => None end). split.
  { destruct pw as [p|]; [destruct PW as (U & X); exact (ra_user W (set_globals r (g_user c0) (g_prefork c0) (g_protos c0) c0) p U X)|exact (ra_nobody W (set_globals r (g_user c0) (g_prefork c0) (g_protos c0) c0) PW)]. }
  cbn [g_prefork set_globals]. set (who := match pw with Some p => Some (p, r) | None => None end).
  assert (K : forall title id i, (i <= 16)%nat -> proc_getid title = Some id -> id <> Proc.PARENT ->
     gmid_main W (child_args title pw r (Z.to_nat (g_prefork c0)) i args) = Child id i (g_prefork c0) who).
  { intros title id i LI ID NP. replace (g_prefork c0) with (Z.of_nat (Z.to_nat (g_prefork c0))) at 2 by lia.
    apply (child_runs W args o); auto; [lia|]. unfold who. destruct pw as [p|]; [|reflexivity]. destruct PW as (U & X).
    pose proof (UN _ _ X) as NM. split; [|split; [exact LR|split; [rewrite NM; exact LU|split; [congruence|split; [|split; [rewrite NM; exact X|reflexivity]]]]]].
    - inversion S; subst; try congruence. intros E. apply (UH _ _ H1). destruct (pw_dir p0); [reflexivity|discriminate E].
    - inversion S; subst; congruence. }
  assert (I1 : Proc.instances (Z.to_nat (g_prefork c0)) Proc.SERVER = Z.to_nat (g_prefork c0)).
  { unfold Proc.instances. change (Proc.SERVER =? Proc.SERVER)%nat with true. cbv iota. destruct (Nat.ltb_spec (Z.to_nat (g_prefork c0)) 1); lia. }
  unfold proc_exec, titles. cbn [flat_map fst snd]. rewrite I1, app_nil_r.
  change (Proc.instances (Z.to_nat (g_prefork c0)) Proc.CRYPTO) with 1%nat. change (Proc.instances (Z.to_nat (g_prefork c0)) Proc.LOGGER) with 1%nat.
  unfold processes. rewrite !map_app, !map_map. f_equal.
  - apply map_ext_in. intros i I. apply in_seq in I. cbn [fst snd]. apply K; [lia|reflexivity|discriminate].
  - cbn [List.seq map fst snd app].
    rewrite (K (s2b "crypto") Proc.CRYPTO 0%nat), (K (s2b "logger") Proc.LOGGER 0%nat) by (try lia; try reflexivity; discriminate). reflexivity.
Qed.

(** ** privileges *)
Lemma attempt_all ok l done : attempt ok l = (done, true) -> done = l /\ Forall (fun c => ok c = true) l.
Proof.
  revert done. induction l as [|c l IH]; intros done; cbn [attempt]; [intros H; injection H as <-; auto|].
  destruct (ok c) eqn:O; [|discriminate]. destruct (attempt ok l) as [d b]. intros H. injection H as <- ->. destruct (IH d eq_refl) as (-> & F). auto.
Qed.

(** Whatever calls fail: a process that gets to its work is the user, only the user,
    and sees only what is below the root. *)
Theorem c78_privileges ok who done k k' : proc_run ok who = (done, true) -> becomes k done k' ->
  match who with None => k' = k | Some (p, root) => confined p k root k' end.
Proof.
  unfold proc_run. intros A B. apply attempt_all in A. destruct A as (-> & _). destruct who as [[p root]|].
  - cbn [drop] in B. repeat match goal with H : becomes _ (_ :: _) _ |- _ => inversion H; clear H; subst | H : becomes _ [] _ |- _ => inversion H; clear H; subst end.
    unfold confined. cbn. repeat split; reflexivity.
  - cbn [drop] in B. inversion B; subst. reflexivity.
Qed.
(** If the kernel has no other reason to refuse, root does get there: the order is
    one in which every call is still permitted. *)
Theorem c78_possible who k : euid k = 0 -> exists k', proc_run (fun _ => true) who = (drop who, true) /\ becomes k (drop who) k'.
Proof.
  intros E. destruct who as [[p root]|]; [|exists k; split; [reflexivity|constructor]]. eexists. split; [reflexivity|]. cbn [drop].
  repeat (apply bc_cons; [unfold permitted, euid in *; destruct k as [[[r e] s] g gr ro be]; cbn in *; subst; reflexivity|]). apply bc_nil.
Qed.
(** And there is no way back for a user other than root: whatever calls of these
    kinds the process could make later leave it as it is. *)
Lemma one_of_same x u : one_of x (u, u, u) = true -> x = u.
Proof. unfold one_of. rewrite !orb_true_iff, !N.eqb_eq. intuition. Qed.
Theorem c78_for_good p k0 root k l k' : confined p k0 root k -> pw_uid p <> 0 -> becomes k l k' ->
  k_uid k' = k_uid k /\ k_gid k' = k_gid k /\ k_groups k' = k_groups k /\ k_root k' = k_root k.
Proof.
  intros (U & G & _) NZ B. revert U G. induction B as [k|k c l k' P B IH]; intros U G; [auto|].
  unfold permitted, euid in P. rewrite U in P. cbn [fst snd] in P. destruct (N.eqb_spec (pw_uid p) 0) as [Z|_]; [contradiction|]. cbn [orb] in P.
  assert (E : k_uid (effect k c) = k_uid k /\ k_gid (effect k c) = k_gid k /\ k_groups (effect k c) = k_groups k /\ k_root (effect k c) = k_root k).
  { destruct c as [d|d|gl|r e s|r e s]; try discriminate P.
    - cbn [effect]. destruct d as [|x d]; [auto|]. destruct (N.eq_dec x 47) as [->|NE]; [auto|].
      assert (X : effect k (Chdir (x :: d)) = k) by (cbn [effect]; destruct x as [|q]; [reflexivity|]; do 6 (try (destruct q as [q|q|]; try reflexivity)); congruence).
      cbn [effect] in X. rewrite X. auto.
    - rewrite G in P. apply andb_true_iff in P. destruct P as (P & P3). apply andb_true_iff in P. destruct P as (P1 & P2).
      apply one_of_same in P1, P2, P3. subst. cbn. rewrite G. auto.
    - apply andb_true_iff in P. destruct P as (P & P3). apply andb_true_iff in P. destruct P as (P1 & P2).
      apply one_of_same in P1, P2, P3. subst. cbn. rewrite U. auto. }
  destruct E as (E1 & E2 & E3 & E4). destruct IH as (I1 & I2 & I3 & I4); [congruence|congruence|]. repeat split; congruence.
Qed.

(** Together: every process of a daemon whose configuration names a user, once it
    works, runs as that user in the root configured. *)
Theorem c78_daemon_partial W args c path pid dbg cs a : parses_well W -> users_named W -> users_housed W -> for_users W args ->
  gmid_main W args = Started c path pid dbg cs -> In a cs ->
  exists role inst n who, gmid_main W a = Child role inst n who /\
    forall ok done k k', proc_run ok who = (done, true) -> becomes k done k' ->
      (g_user c = [] -> k' = k) /\ (g_user c <> [] -> exists p, w_pw W (g_user c) = Some p /\ confined p k (g_chroot c) k').
Proof.
  intros A B C D ST I. destruct (c78_children_partial _ _ _ _ _ _ _ A B C D ST) as (who & RA & E).
  assert (J : In (gmid_main W a) (map (fun x => Child (fst x) (snd x) (g_prefork c) who) (processes (Z.to_nat (g_prefork c))))) by (rewrite <- E; apply in_map; exact I).
  apply in_map_iff in J. destruct J as (x & EX & _). exists (fst x), (snd x), (g_prefork c), who. split; [symmetry; exact EX|].
  intros ok done k k' R BC. pose proof (c78_privileges _ _ _ _ _ R BC) as P. inversion RA as [U|p U X]; subst.
  - split; [intros _; exact P|congruence].
  - split; [congruence|]. intros _. exists p. auto.
Qed.

(** It starts only if the user can be switched to: as root, and the user exists; a
    chroot without a user is refused. *)
Theorem c78_refuses W args c path pid dbg cs : gmid_main W args = Started c path pid dbg cs ->
  (g_user c = [] /\ g_chroot c = []) \/
  (w_root W = true /\ exists p, w_pw W (g_user c) = Some p /\ (g_chroot c <> [] \/ pw_dir p = [])).
Proof.
  intros ST. destruct (started_inv _ _ _ _ _ _ _ ST) as (o & c0 & r & pw & _ & _ & _ & _ & _ & _ & _ & S & -> & _ & _). cbn [g_user g_chroot set_globals].
  inversion S; subst; [left; auto| |]; right; split; auto; exists p; split; auto. destruct (pw_dir p); [auto|left; discriminate].
Qed.

(** ** the command line *)
(** -f, -n, -v; the last -c and -P count, relative ones below the working directory *)
Definition named_by (sel : opt -> option word) (l : list opt) (cwd : option word) (dflt : option word) (got : option word) : Prop :=
  match fold_left (fun acc x => match sel x with Some s => Some s | None => acc end) l None with
  | None => got = dflt
  | Some s => exists p, got = Some p /\ match s with 47 :: _ => p = s | _ => exists d, cwd = Some d /\ p = d ++ [47] ++ s end
  end.
Definition sel_c (x : opt) := match x with Oc s => Some s | _ => None end.
Definition sel_P (x : opt) := match x with OP s => Some s | _ => None end.

Lemma abs_spec cwd s p : Ge.absolutify_path cwd s = Some p -> match s with 47 :: _ => p = s | _ => exists d, cwd = Some d /\ p = d ++ [47] ++ s end.
Proof.
  unfold Ge.absolutify_path. destruct s as [|x s].
  - destruct cwd as [d|]; [|discriminate]. intros H. injection H as <-. eauto.
  - assert (G : match cwd with Some wd => Some (wd ++ [47] ++ x :: s) | None => None end = Some p -> exists d, cwd = Some d /\ p = d ++ [47] ++ x :: s).
    { destruct cwd as [d|]; [|discriminate]. intros H. injection H as <-. eauto. }
    destruct x as [|q]; [exact G|]. do 6 (try (destruct q as [q|q|]; try exact G)). intros H. injection H as <-. reflexivity.
Qed.
Lemma last_path W l : forall o o', take_all W l o = Goes o' -> named_by sel_c l (w_cwd W) (Some (o_path o)) (Some (o_path o')) /\ named_by sel_P l (w_cwd W) (o_pid o) (o_pid o') /\
  o_test o' = (o_test o + length (filter (fun x => match x with On => true | _ => false end) l))%nat /\ 
  o_debug o' = (o_debug o || existsb (fun x => match x with Of => true | _ => false end) l)%bool /\
  (Forall (fun x => internal x = false) l -> inner o' = inner o).
Proof.
  induction l as [|x l IH] using rev_ind; intros o o' H.
  - cbn [take_all] in H. injection H as <-. unfold named_by. cbn. rewrite orb_false_r. repeat split; auto.
  - rewrite take_all_app in H. destruct (take_all W l o) as [o1|] eqn:T; [|discriminate]. destruct (IH o o1 T) as (A & B & C & D & E). cbn [take_all] in H.
    destruct (take W x o1) as [o2|] eqn:TX; [|discriminate]. injection H as <-. unfold named_by in *. rewrite !fold_left_app, filter_app, app_length, existsb_app. cbn [fold_left].
    assert (AP : forall P : opt -> Prop, Forall P (l ++ [x]) -> Forall P l /\ P x) by (intros P F; apply Forall_app in F; destruct F as (F1 & F2); inversion F2; auto).
    destruct o1 as [pa sy de ve te pi ro ins n u c]. cbn [o_path o_syms o_debug o_verbose o_test o_pid] in *.
    destruct x; cbn [take] in TX; try discriminate TX; cbn [sel_c sel_P filter existsb length];
      try (destruct (Ge.absolutify_path (w_cwd W) s) as [q|] eqn:AB; [|discriminate TX]; apply abs_spec in AB); try (destruct (cmdline_symset s sy) as [q|]; [|discriminate TX]);
      try (destruct (strtonum s 0 PROC_MAX_INSTANCES) as [vz []]; try discriminate TX); try (destruct (proc_getid s); [|discriminate TX]);
      injection TX as <-; cbn [o_path o_debug o_test o_pid]; rewrite ?orb_false_r, ?orb_true_r, ?Nat.add_0_r;
      (split; [first [exact A|exists q; split; [reflexivity|exact AB]]|]); (split; [first [exact B|exists q; split; [reflexivity|exact AB]]|]);
      (split; [first [exact C|lia]|]); (split; [first [exact D|reflexivity]|]);
      intros F; destruct (AP _ F) as (F1 & F2); cbn [internal] in F2; try discriminate F2; rewrite <- (E F1); reflexivity.
Qed.
Theorem c78_options W args c path pid dbg cs : for_users W args -> gmid_main W args = Started c path pid dbg cs ->
  let l := fst (getopt (w_posix W) args) in
  named_by sel_c l (w_cwd W) (Some (s2b "/etc/gmid.conf")) (Some path) /\ named_by sel_P l (w_cwd W) None pid /\
  ~ In On l /\ (dbg = true <-> In Of l).
Proof.
  intros F ST. destruct (started_inv _ _ _ _ _ _ _ ST) as (o & c0 & r & pw & T & _ & TE & -> & -> & -> & _). cbv zeta. destruct (last_path _ _ _ _ T) as (A & B & C & D & _).
  split; [exact A|]. split; [exact B|]. rewrite TE in C. cbn [no_opts o_test Nat.add] in C. split.
  - intros I. assert (X : In On (filter (fun x => match x with On => true | _ => false end) (fst (getopt (w_posix W) args)))) by (apply filter_In; auto).
    destruct (filter _ _); [destruct X|discriminate C].
  - rewrite D. cbn [no_opts o_debug orb]. rewrite existsb_exists. split; [intros (x & I & E); destruct x; try discriminate; exact I|intros I; exists Of; auto].
Qed.
(** -h and -V, and a wrong option, end it at once, when what comes before them is
    right *)
Theorem c78_ends W args l1 x l2 o : fst (getopt (w_posix W) args) = l1 ++ x :: l2 -> take_all W l1 no_opts = Goes o ->
  gmid_main W args = match x with Oh => Exit 0 Usage | OV => Exit 0 Version | Obad => Exit 1 Usage | _ => gmid_main W args end.
Proof.
  intros G T. destruct x; try reflexivity; unfold gmid_main; rewrite G, take_all_app, T; cbn [take_all]; destruct o; reflexivity.
Qed.
