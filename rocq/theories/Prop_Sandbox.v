(** C83: before they do anything else the processes of gmid confine themselves, on
    Linux with Landlock: a server can only read, and only what is beneath its root;
    the crypto and the logger process have no access to files at all. *)
From Verif Require Import Base Sandbox.
From Verif Require Main.
Local Open Scope nat_scope.

(** this version of Landlock is there, and no call pretends it is not *)
Definition has_landlock (k : kernel) (abi : nat) : Prop :=
  k_abi k = inl abi /\ k_prctl k <> Some ENOSYS /\ k_prctl k <> Some EOPNOTSUPP /\ k_create k <> Some ENOSYS /\ k_create k <> Some EOPNOTSUPP.
(** what is the root of the process *)
Definition root_of (dir : Main.word -> path) (who : option (Main.passwd * Main.word)) : path := match who with Some (_, d) => dir d | None => [] end.

Lemma right_beq_spec a b : Bool.reflect (a = b) (right_beq a b).
Proof. destruct a, b; cbn; constructor; congruence. Qed.

Lemma attempt_all ok l done : Main.attempt ok l = (done, true) -> done = l.
Proof.
  revert done. induction l as [|c r IH]; intros done H; cbn [Main.attempt] in H; [congruence|]. destruct (ok c); [|congruence]. destruct (Main.attempt ok r) as [d b]. injection H as <- ->. rewrite (IH d eq_refl). reflexivity.
Qed.
Lemma until_inv ok dir k who r layers p : until_dispatch ok dir k who r layers = Goes p -> sandbox r k (mkP 0 (mkRules [] []) false layers (root_of dir who)) = Goes p.
Proof.
  unfold until_dispatch. destruct (Main.proc_run ok who) as [calls on] eqn:E. destruct on; [|discriminate]. unfold Main.proc_run in E. apply attempt_all in E. subst calls. destruct who as [[pw d]|]; cbn; auto.
Qed.

(** what the process handles: everything it knows and the kernel too *)
Definition handles (abi : nat) : list right := let h := if abi <? 2 then without Refer all_rights else all_rights in if abi <? 3 then without Truncate h else h.
Lemma handles_mem abi a : mem a (handles abi) = negb (right_beq a IoctlDev) && negb (right_beq a Refer && (abi <? 2)) && negb (right_beq a Truncate && (abi <? 3)).
Proof. unfold handles. destruct (abi <? 2), (abi <? 3), a; reflexivity. Qed.
Lemma init_ok k p abi : k_prctl k = None -> k_abi k = inl abi -> landlock_init k p = (create_ruleset k abi (handles abi), set_state 1 (mkP (p_state p) (p_fd p) true (p_layers p) (p_root p))).
Proof. intros A B. unfold landlock_init. rewrite A, B. reflexivity. Qed.
Lemma handles_since abi : 1 <= abi -> forallb (fun a => since a <=? abi) (handles abi) = true.
Proof. intros L. unfold handles. destruct abi as [|[|[|n]]]; [lia|reflexivity|reflexivity|reflexivity]. Qed.

Definition confined_to (r : role) (abi : nat) (root : path) : ruleset := mkRules (handles abi) (match r with Server => [(root, [ReadFile; ReadDir])] | _ => [] end).
Lemma add_rule_eq k d p abi : handled (p_fd p) = handles abi -> add_rule k d [ReadFile; ReadDir] p =
  match k_rule k with None => (None, set_fd (mkRules (handles abi) ((d, [ReadFile; ReadDir]) :: rules (p_fd p))) p) | Some e => (Some e, p) end.
Proof. intros H. unfold add_rule. rewrite H. cbn [forallb]. rewrite !handles_mem. reflexivity. Qed.
(** the first call *)
Lemma unveil_first k root p abi : has_landlock k abi -> p_state p = 0%Z -> landlock_unveil k root p =
  match k_prctl k with
  | Some e => (Some e, set_state (-1) p)
  | None =>
    let p := mkP 1 (mkRules (handles abi) []) true (p_layers p) (p_root p) in
    match create_ruleset k abi (handles abi) with
    | inr e => (Some e, mkP (-1) (p_fd (snd (landlock_init k p))) true (p_layers p) (p_root p))
    | inl _ => if negb root then landlock_lock k p else match k_open k with Some e => (Some e, p) | None => add_rule k (p_root p) [ReadFile; ReadDir] p end
    end
  end \/ exists e q, landlock_unveil k root p = (Some e, q).
Proof.
  intros (HA & P1 & P2 & C1 & C2) Z. unfold landlock_unveil. rewrite Z. cbn [Z.eqb]. unfold landlock_init. rewrite HA. fold (handles abi).
  destruct (k_prctl k) as [e|]; [right; destruct e; try congruence; eauto|]. unfold create_ruleset. destruct (forallb (fun a => since a <=? abi) (handles abi)); [|right; eauto].
  destruct (k_create k) as [e|]; [right; destruct e; try congruence; eauto|]. left. reflexivity.
Qed.
Lemma lock_layers k p q : p_nnp p = true -> landlock_lock k p = (None, q) -> p_layers q = p_fd p :: p_layers p.
Proof. intros N. unfold landlock_lock, restrict_self. rewrite N. destruct (k_restrict k); intros H; inversion H. reflexivity. Qed.
Lemma unveil_lock k p : p_state p = 1%Z -> landlock_unveil k false p = landlock_lock k p.
Proof. intros Z. unfold landlock_unveil. rewrite Z. cbn [Z.eqb]. rewrite Z. reflexivity. Qed.
Lemma first_goes k root p abi q : has_landlock k abi -> p_state p = 0%Z -> landlock_unveil k root p = (None, q) ->
  let p1 := mkP 1 (mkRules (handles abi) []) true (p_layers p) (p_root p) in
  if root then q = set_fd (mkRules (handles abi) [(p_root p, [ReadFile; ReadDir])]) p1 else landlock_lock k p1 = (None, q).
Proof.
  intros HL Z H. destruct (unveil_first k root p abi HL Z) as [E|(e & q' & E)]; rewrite H in E; [|discriminate E]. cbv zeta.
  destruct (k_prctl k); [discriminate E|]. cbv zeta in E. destruct (create_ruleset k abi (handles abi)); [|discriminate E]. destruct root; cbn [negb] in E; [|symmetry; exact E].
  destruct (k_open k); [discriminate E|]. rewrite (add_rule_eq k _ _ abi) in E by reflexivity. destruct (k_rule k); [discriminate E|]. injection E as ->. reflexivity.
Qed.
Lemma sandbox_layers r k root layers abi p : has_landlock k abi -> sandbox r k (mkP 0 (mkRules [] []) false layers root) = Goes p -> p_layers p = confined_to r abi root :: layers.
Proof.
  intros HL H. unfold sandbox, sandbox_logger_process, sandbox_server_process, sandbox_crypto_process in H. set (p0 := mkP 0 (mkRules [] []) false layers root) in *.
  assert (CR : forall q, landlock_unveil k false p0 = (None, q) -> p_layers q = mkRules (handles abi) [] :: layers).
  { intros q E. apply (first_goes k false p0 abi q HL eq_refl) in E. apply lock_layers in E; [exact E|reflexivity]. }
  destruct r.
  - destruct (landlock_unveil k true p0) as [[e|] q] eqn:E; [discriminate H|]. apply (first_goes k true p0 abi q HL eq_refl) in E. cbv zeta in E. subst q.
    rewrite unveil_lock in H by reflexivity. destruct (landlock_lock k _) as [[e|] q2] eqn:E2; [discriminate H|]. injection H as <-. apply lock_layers in E2; [exact E2|reflexivity].
  - destruct (landlock_unveil k false p0) as [[e|] q] eqn:E; [discriminate H|]. injection H as <-. exact (CR q eq_refl).
  - destruct (landlock_unveil k false p0) as [[e|] q] eqn:E; [discriminate H|]. injection H as <-. exact (CR q eq_refl).
Qed.

(** ** the theorems *)
(** With Landlock a process that gets to its work can, of files, only read, if it is a
    server, what is beneath its root.  (What the kernel cannot restrict is excepted:
    truncate(2) before version 3; and ioctl(2) on devices, which gmid does not ask
    for.)  [layers]: what it was confined to before. *)
Theorem c83_confined ok dir k who r layers p abi f a : has_landlock k abi -> until_dispatch ok dir k who r layers = Goes p -> permits (p_layers p) f a = true ->
  (r = Server /\ (a = ReadFile \/ a = ReadDir) /\ beneath (root_of dir who) f = true) \/ (a = Truncate /\ abi < 3) \/ a = IoctlDev.
Proof.
  intros HL H PE. apply until_inv in H. rewrite (sandbox_layers _ _ _ _ _ _ HL H) in PE. cbn [permits forallb] in PE. apply andb_true_iff in PE. destruct PE as (PE & _). apply orb_true_iff in PE. destruct PE as [G|G].
  - left. unfold grants, confined_to in G. destruct r; cbn [rules existsb fst snd] in G; try discriminate G. rewrite orb_false_r in G. apply andb_true_iff in G. destruct G as (G1 & G2). split; [reflexivity|]. split; [|exact G1].
    destruct a; cbn in G2; try discriminate G2; auto.
  - right. apply andb_true_iff in G. destruct G as (G1 & G2). cbn [confined_to handled] in G1. rewrite handles_mem in G1. apply negb_true_iff in G1, G2. rewrite G2 in G1. cbn [andb negb] in G1. rewrite andb_true_r in G1.
    destruct (right_beq_spec a IoctlDev) as [->|]; [right; reflexivity|]. destruct (right_beq_spec a Truncate) as [->|]; [|discriminate G1]. left. split; [reflexivity|]. cbn [negb andb] in G1. apply negb_false_iff, Nat.ltb_lt in G1. exact G1.
Qed.

(** by then it has given up its privileges: every call of C78 was made, and none failed *)
Theorem c83_after_drop ok dir k who r layers p : until_dispatch ok dir k who r layers = Goes p -> Main.proc_run ok who = (Main.drop who, true) /\ forall c, In c (Main.drop who) -> ok c = true.
Proof.
  unfold until_dispatch. destruct (Main.proc_run ok who) as [calls on] eqn:E. destruct on; [|discriminate]. intros _. unfold Main.proc_run in E. pose proof (attempt_all _ _ _ E) as ->. split; [reflexivity|].
  revert E. generalize (Main.drop who). induction l as [|c r0 IH]; intros E x X; [destruct X|]. cbn [Main.attempt] in E. destruct (ok c) eqn:OC; [|discriminate E]. destruct (Main.attempt ok r0) as [d b] eqn:A. injection E as -> ->. destruct X as [<-|X]; [exact OC|]. apply IH; [reflexivity|exact X].
Qed.

(** and a server can read all that, as far as it could before *)
Theorem c83_reads ok dir k who layers p abi f a : has_landlock k abi -> until_dispatch ok dir k who Server layers = Goes p ->
  a = ReadFile \/ a = ReadDir -> beneath (root_of dir who) f = true -> permits (p_layers p) f a = permits layers f a.
Proof.
  intros HL H A B. apply until_inv in H. rewrite (sandbox_layers _ _ _ _ _ _ HL H). cbn [permits forallb]. unfold grants. cbn [confined_to rules existsb fst snd]. rewrite B. destruct A as [-> | ->]; reflexivity.
Qed.

(** A process that does its work without being confined: the kernel said it has no
    Landlock. *)
Theorem c83_unconfined ok dir k who r layers p : until_dispatch ok dir k who r layers = Goes p -> p_layers p = layers ->
  forall abi, ~ has_landlock k abi.
Proof.
  intros H E abi HL. apply until_inv in H. rewrite (sandbox_layers _ _ _ _ _ _ HL H) in E. apply (f_equal (@length _)) in E. cbn in E. lia.
Qed.

(** It is no obstacle: with any version of Landlock, when no call fails, every process
    gets to its work. *)
Theorem c83_starts dir k who r layers abi : k_abi k = inl abi -> 1 <= abi ->
  k_prctl k = None -> k_create k = None -> k_open k = None -> k_rule k = None -> k_restrict k = None ->
  exists p, until_dispatch (fun _ => true) dir k who r layers = Goes p.
Proof.
  intros HA L E1 E2 E3 E4 E5. unfold until_dispatch.
  assert (X : exists calls, Main.proc_run (fun _ => true) who = (calls, true)) by (destruct who as [[pw d]|]; eexists; reflexivity). destruct X as (calls & ->).
  match goal with |- context [fold_left ?f calls []] => set (root := fold_left f calls []) end. unfold sandbox, sandbox_logger_process, sandbox_server_process, sandbox_crypto_process, landlock_unveil. cbn [p_state Z.eqb].
  rewrite (init_ok k _ abi E1 HA). cbn [p_state p_fd p_nnp p_layers p_root]. unfold create_ruleset. rewrite (handles_since abi L), E2.
  cbn [set_fd set_state p_state p_fd p_nnp p_layers p_root Z.eqb negb]. rewrite E3. unfold add_rule, landlock_lock, restrict_self. cbn [p_fd p_root handled]. rewrite E4, E5.
  assert (M : forallb (fun a => mem a (handles abi)) [ReadFile; ReadDir] = true) by (cbn [forallb]; rewrite !handles_mem; reflexivity).
  destruct r; cbn [set_fd set_state p_state p_fd p_nnp p_layers p_root Z.eqb negb handled]; [rewrite M; cbn; eauto|eauto|eauto].
Qed.
(** nor without Landlock *)
Theorem c83_absent dir k who r layers e : k_abi k = inr e -> e = ENOSYS \/ e = EOPNOTSUPP -> k_prctl k = None ->
  exists p, until_dispatch (fun _ => true) dir k who r layers = Goes p /\ p_layers p = layers.
Proof.
  intros HA EE E1. unfold until_dispatch.
  assert (X : exists calls, Main.proc_run (fun _ => true) who = (calls, true)) by (destruct who as [[pw d]|]; eexists; reflexivity). destruct X as (calls & ->).
  match goal with |- context [fold_left ?f calls []] => set (root := fold_left f calls []) end. unfold sandbox, sandbox_logger_process, sandbox_server_process, sandbox_crypto_process, landlock_unveil, landlock_init. cbn [p_state Z.eqb]. rewrite E1, HA.
  destruct EE as [-> | ->], r; cbn; eexists; split; reflexivity.
Qed.

(** "A server cannot change a file": not before version 3. *)
Theorem c83_truncate_refuted : exists k p f, has_landlock k 2 /\ until_dispatch (fun _ => true) (fun _ => []) k None Server [] = Goes p /\ permits (p_layers p) f Truncate = true /\ permits (p_layers p) f WriteFile = false.
Proof. exists (mkK (inl 2) None None None None None). eexists. exists []. split; [unfold has_landlock; repeat split; discriminate|]. split; [reflexivity|]. split; reflexivity. Qed.

(** ** a case *)
Example c83_case : exists p,
  until_dispatch (fun _ => true) (fun d => [d]) (mkK (inl 4) None None None None None) (Some (Main.mkPw (s2b "gmid") 1000 1000 (s2b "srv"), s2b "srv")) Server [] = Goes p /\
  permits (p_layers p) [s2b "srv"; s2b "a"] ReadFile = true /\ permits (p_layers p) [s2b "etc"; s2b "a"] ReadFile = false /\
  permits (p_layers p) [s2b "srv"; s2b "a"] WriteFile = false /\ permits (p_layers p) [s2b "srv"] Truncate = false.
Proof. eexists. split; [vm_compute; reflexivity|]. vm_compute. auto. Qed.
