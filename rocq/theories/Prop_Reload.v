(** C31 and C55: reloading. *)
From Coq Require Import Lia.
From Verif Require Import Base BaseLemmas Reload.
Local Open Scope N_scope.

(** histories in which every file is correct and every configuration gets sent *)
Definition fine (e : event) : Prop := match e with Hup (Good _) SentAll => True | Hup _ _ => False | _ => True end.

Definition inv31 (m : main) : Prop := mc_prefork (m_conf m) = m_workers m /\ mc_reload (m_conf m) = m_pending m /\ (m_pending m <= m_workers m + 1)%nat.
Lemma start_inv home f m : start home f = Some m -> inv31 m /\ m_started m = 1%nat.
Proof.
  unfold start, main_configure, main_send_logfd. cbn. intros E. injection E as <-. unfold inv31. cbn. repeat split; lia.
Qed.
Lemma step_inv31 e m : inv31 m -> fine e -> exists m', step e m = Some m' /\ inv31 m' /\ m_workers m' = m_workers m.
Proof.
  intros (P & R & L) F. destruct e as [p s| |]; cbn [step].
  - destruct p as [f|f]; [|destruct F]. destruct s; try destruct F. unfold main_reload. destruct (Nat.eqb_spec (mc_reload (m_conf m)) 0) as [Z|NZ]; cbn [negb]; [|exists m; repeat split; auto; lia].
    unfold main_configure, main_send_logfd. cbn. eexists. split; [reflexivity|]. unfold inv31. cbn. rewrite Z in R. repeat split; try lia; auto.
  - eexists. split; [reflexivity|]. unfold inv31, main_send_logfd. cbn. repeat split; auto.
  - unfold main_configure_done. destruct (m_pending m) as [|k] eqn:E; [exists m; unfold inv31; rewrite E; repeat split; auto|]. eexists. split; [reflexivity|]. unfold inv31. cbn. rewrite R. cbn. repeat split; auto; lia.
Qed.
Lemma run_inv31 es : forall m, inv31 m -> Forall fine es -> exists m', run es m = Some m' /\ inv31 m' /\ m_workers m' = m_workers m.
Proof.
  induction es as [|e es IH]; intros m I F; [exists m; repeat split; auto; apply I|]. inversion F as [|? ? F1 F2]; subst. destruct (step_inv31 e m I F1) as (m1 & E & I1 & W). cbn [run]. rewrite E.
  destruct (IH m1 I1 F2) as (m2 & E2 & I2 & W2). exists m2. repeat split; try apply I2; auto. congruence.
Qed.

(** ** C31 *)
(** A request to reload starts a new configuration iff every worker has
    acknowledged the last one; while one has not it changes nothing.  There are
    never more acknowledgements due than workers. *)
Theorem c31_handshake_partial home f0 m0 es m f : start home f0 = Some m0 -> Forall fine es -> run es m0 = Some m ->
  (m_pending m <= m_workers m0 + 1)%nat /\
  (m_pending m = 0%nat -> exists m', step (Hup (Good f) SentAll) m = Some m' /\ m_started m' = S (m_started m) /\ m_pending m' = (m_workers m0 + 1)%nat) /\
  (m_pending m <> 0%nat -> step (Hup (Good f) SentAll) m = Some m).
Proof.
  intros S F R. destruct (start_inv _ _ _ S) as [I _]. destruct (run_inv31 es m0 I F) as (m' & R' & (P & RL & L) & W). rewrite R in R'. injection R' as <-.
  split; [lia|]. cbn [step]. unfold main_reload. rewrite RL. split.
  - intros Z. rewrite Z. cbn [Nat.eqb negb]. unfold main_configure, main_send_logfd. cbn. eexists. split; [reflexivity|]. cbn. split; [reflexivity|]. lia.
  - intros NZ. destruct (Nat.eqb_spec (m_pending m) 0); [contradiction|]. reflexivity.
Qed.
(** with three servers: a reload during the first one is ignored, the one after it is not *)
Example c31_case : exists m0 m1 m2, let f := mkFile None false [] None in
  start [] f = Some m0 /\ run [Ack; Hup (Good f) SentAll; Ack; Ack; Usr1] m0 = Some m1 /\ m_started m1 = 1%nat /\ m_pending m1 = 1%nat /\
  run [Ack; Hup (Good f) SentAll] m1 = Some m2 /\ m_started m2 = 2%nat /\ m_pending m2 = 4%nat.
Proof. do 3 eexists. cbv zeta. repeat (split; [vm_compute; reflexivity|]). vm_compute. reflexivity. Qed.

(** After a file with a syntax error the number of servers is forgotten: the next
    reload counts one acknowledgement only, and another one is started while
    servers are still busy with it. *)
Theorem c31_failed_parse_refuted : exists f m0 m1 m2,
  start [] f = Some m0 /\ run [Ack; Ack; Ack; Ack; Hup (Bad (mkFile None false [] None)) SentAll; Hup (Good f) SentAll; Ack] m0 = Some m1 /\ m_pending m1 = 3%nat /\
  step (Hup (Good f) SentAll) m1 = Some m2 /\ m_started m2 = S (m_started m1) /\ m_pending m2 = 7%nat.
Proof. exists (mkFile None false [] None). do 3 eexists. repeat (split; [vm_compute; reflexivity|]). vm_compute. reflexivity. Qed.

(** Once sending a configuration failed (with the workers otherwise alive) no
    reload is ever honoured again. *)
Theorem c31_failed_send_refuted m f es m1 m' : mc_reload (m_conf m) = 0%nat -> m_pending m = 0%nat ->
  step (Hup (Good f) SentSome) m = Some m1 -> run es m1 = Some m' -> m_started m' = m_started m1.
Proof.
  intros Z P S R. cbn [step] in S. unfold main_reload in S. rewrite Z in S. cbn [Nat.eqb negb] in S. unfold main_configure, main_send_logfd in S. cbn in S. injection S as <-.
  set (m1 := mkMain _ _ _ _ _) in *. assert (I : m_pending m1 = 0%nat /\ mc_reload (m_conf m1) <> 0%nat) by (cbn; split; [exact P|lia]). clearbody m1. clear Z P.
  revert m1 I R. induction es as [|e es IH]; intros m1 [P NZ] R; [injection R as <-; reflexivity|]. cbn [run] in R.
  assert (E : exists m2, step e m1 = Some m2 /\ (m_pending m2 = 0%nat /\ mc_reload (m_conf m2) <> 0%nat) /\ m_started m2 = m_started m1).
  { destruct e as [p s| |]; cbn [step].
    - unfold main_reload. destruct (Nat.eqb_spec (mc_reload (m_conf m1)) 0); [contradiction|]. exists m1. auto.
    - eexists. split; [reflexivity|]. auto.
    - unfold main_configure_done. rewrite P. exists m1. auto. }
  destruct E as (m2 & E & I & ST). rewrite E in R. rewrite <- ST. apply (IH m2 I R).
Qed.
Example c31_failed_send_case : exists m0 m m1 m', let f := mkFile (Some 2%nat) false [] None in
  start [] f = Some m0 /\ run [Ack; Ack; Ack] m0 = Some m /\ m_pending m = 0%nat /\ mc_reload (m_conf m) = 0%nat /\ step (Hup (Good f) SentSome) m = Some m1 /\ run [Hup (Good f) SentAll; Ack; Hup (Good f) SentAll] m1 = Some m' /\ m_started m' = 2%nat.
Proof. do 4 eexists. cbv zeta. repeat (split; [vm_compute; reflexivity|]). vm_compute. reflexivity. Qed.

(** ** C55 *)
(** the log file a configuration asks for, under its chroot *)
Definition wants (f : file) (l : option (list N)) : Prop :=
  match f_log f with
  | None => l = None
  | Some x => l = Some (match f_chroot f with [] => x | r => r ++ 47 :: x end)
  end.
(** the configuration in force: the last one that was honoured; it is [g] after
    events [es] from [m] where it was [f] *)
Inductive in_force : list event -> main -> file -> main -> file -> Prop :=
| if_nil m f : in_force [] m f m f
| if_hup g s m1 es m m' f f' : step (Hup (Good g) s) m = Some m1 -> in_force es m1 (if Nat.eqb (m_started m1) (m_started m) then f else g) m' f' -> in_force (Hup (Good g) s :: es) m f m' f'
| if_bad g s m1 es m m' f f' : step (Hup (Bad g) s) m = Some m1 -> in_force es m1 f m' f' -> in_force (Hup (Bad g) s :: es) m f m' f'
| if_other e m1 es m m' f f' : (e = Usr1 \/ e = Ack) -> step e m = Some m1 -> in_force es m1 f m' f' -> in_force (e :: es) m f m' f'.
(** files that either need no user or name the directory to chroot to, with
    paths short enough to be opened *)
Definition plain (f : file) : Prop := (f_user f = true -> f_chroot f <> []) /\
  match f_log f with Some x => N.of_nat (length (f_chroot f)) + N.of_nat (length x) < 4095 | None => True end.
Definition plain_event (e : event) : Prop := match e with Hup (Good f) SentAll => plain f | Hup _ _ => False | _ => True end.

Definition logs (m : main) (f : file) : Prop := mc_chroot (m_conf m) = f_chroot f /\ mc_log (m_conf m) = f_log f.
Lemma log_wants c f : plain f -> mc_chroot c = f_chroot f -> mc_log c = f_log f -> wants f (log_path c).
Proof.
  intros [_ L] C G. unfold wants, log_path. rewrite C, G. destruct (f_log f) as [x|]; [|reflexivity].
  match goal with |- (if 4096 <=? ?n then _ else _) = _ => assert (n < 4096) end.
  { rewrite !app_length. destruct (f_chroot f); cbn [length] in *; lia. }
  destruct (N.leb_spec 4096 (N.of_nat (length (f_chroot f ++ match f_chroot f with [] => [] | _ :: _ => [47] end ++ x)))); [lia|]. f_equal. destruct (f_chroot f); reflexivity.
Qed.
Lemma apply_purged f : mc_chroot (apply_file purged f) = f_chroot f /\ mc_log (apply_file purged f) = f_log f.
Proof. unfold apply_file, purged. cbn. destruct (f_chroot f), (f_log f); auto. Qed.
Lemma in_force_inv es m f m' f' : in_force es m f m' f' -> Forall plain_event es -> plain f -> logs m f -> wants f (m_logged m) -> plain f' /\ logs m' f' /\ wants f' (m_logged m').
Proof.
  intros I. induction I as [m f|g s m1 es m m' f f' E I IH|g s m1 es m m' f f' E I IH|e m1 es m m' f f' OE E I IH]; intros F PF L W; auto.
  - inversion F as [|? ? F1 F2]; subst. cbn in F1. destruct s; try contradiction. apply IH; auto.
    + destruct (Nat.eqb (m_started m1) (m_started m)); auto.
    + cbn [step] in E. unfold main_reload in E. destruct (negb (Nat.eqb (mc_reload (m_conf m)) 0)).
      * injection E as <-. rewrite Nat.eqb_refl. exact L.
      * unfold main_configure, main_send_logfd in E. cbn [m_conf m_started m_logged m_workers m_pending] in E. injection E as <-. cbn [m_started]. destruct (Nat.eqb_spec (S (m_started m)) (m_started m)); [lia|].
        destruct (apply_purged g). unfold logs. cbn. auto.
    + cbn [step] in E. unfold main_reload in E. destruct (negb (Nat.eqb (mc_reload (m_conf m)) 0)).
      * injection E as <-. rewrite Nat.eqb_refl. exact W.
      * unfold main_configure, main_send_logfd in E. cbn [m_conf m_started m_logged m_workers m_pending] in E. injection E as <-. cbn [m_started m_logged]. destruct (Nat.eqb_spec (S (m_started m)) (m_started m)); [lia|].
        destruct (apply_purged g) as [A B]. apply (log_wants _ g F1); cbn; auto.
  - inversion F as [|? ? F1 F2]; subst. destruct F1.
  - inversion F as [|? ? F1 F2]; subst. apply IH; auto.
    + destruct OE as [->| ->]; cbn [step] in E; injection E as <-; [exact L|]. unfold main_configure_done. destruct (m_pending m); [exact L|]. exact L.
    + destruct OE as [->| ->]; cbn [step] in E; injection E as <-.
      * unfold main_send_logfd. cbn [m_logged]. destruct L. apply log_wants; auto.
      * unfold main_configure_done. destruct (m_pending m); exact W.
Qed.
(** Whatever is reloaded and rotated, the logger writes to the file the
    configuration in force names. *)
Theorem c55_log_partial home f0 m0 es m f : plain f0 -> start home f0 = Some m0 -> Forall plain_event es -> in_force es m0 f0 m f -> wants f (m_logged m).
Proof.
  intros PF S F I. assert (Q : logs m0 f0 /\ wants f0 (m_logged m0)); [|destruct Q as [Q1 Q2]; apply (in_force_inv _ _ _ _ _ I F PF Q1 Q2)].
  unfold start, main_configure, main_send_logfd in S. cbn [m_conf m_started m_logged m_workers m_pending] in S. injection S as <-.
  assert (A : mc_chroot (mkMconf (mc_prefork (apply_file (mkMconf 3 [] None 0) f0)) (if f_user f0 then match mc_chroot (apply_file (mkMconf 3 [] None 0) f0) with [] => home | n :: l => n :: l end else mc_chroot (apply_file (mkMconf 3 [] None 0) f0)) (mc_log (apply_file (mkMconf 3 [] None 0) f0)) 0) = f_chroot f0).
  { cbn. destruct PF as [P _]. destruct (f_user f0); destruct (f_chroot f0); auto. exfalso. apply P; reflexivity. }
  assert (B : mc_log (apply_file (mkMconf 3 [] None 0) f0) = f_log f0) by (cbn; destruct (f_log f0); reflexivity).
  split; [split; [exact A|exact B]|]. cbn [m_logged]. apply log_wants; [exact PF|exact A|exact B].
Qed.
Example c55_case : exists m0 m, let f := mkFile None true (s2b "/srv") (Some (s2b "log")) in let g := mkFile None true (s2b "/var") (Some (s2b "acc")) in
  start (s2b "/home") f = Some m0 /\ m_logged m0 = Some (s2b "/srv/log") /\ run [Hup (Good g) SentAll; Usr1] m0 = Some m /\ m_logged m = Some (s2b "/srv/log").
Proof. do 2 eexists. cbv zeta. repeat (split; [vm_compute; reflexivity|]). vm_compute. reflexivity. Qed.
Example c55_case2 : exists m0 m, let f := mkFile None true (s2b "/srv") (Some (s2b "log")) in let g := mkFile None true (s2b "/var") (Some (s2b "acc")) in
  start (s2b "/home") f = Some m0 /\ run [Ack; Ack; Ack; Ack; Hup (Good g) SentAll] m0 = Some m /\ m_logged m = Some (s2b "/var/acc").
Proof. do 2 eexists. cbv zeta. repeat (split; [vm_compute; reflexivity|]). vm_compute. reflexivity. Qed.
(** With a user and no chroot directive the log is under the user's home until
    the first reload, at the root of the file system afterwards. *)
Theorem c55_home_refuted : exists f m0 m, f_user f = true /\
  start (s2b "/home") f = Some m0 /\ m_logged m0 = Some (s2b "/home/log") /\ run [Ack; Ack; Ack; Ack; Hup (Good f) SentAll] m0 = Some m /\ m_logged m = Some (s2b "log").
Proof. exists (mkFile None true [] (Some (s2b "log"))). do 2 eexists. repeat (split; [vm_compute; reflexivity|]). vm_compute. reflexivity. Qed.
(** After a file with an error, which leaves the old configuration in force,
    rotating the log switches it off. *)
Theorem c55_failed_parse_refuted : exists f m0 m,
  start [] f = Some m0 /\ m_logged m0 = Some (s2b "log") /\ run [Ack; Ack; Ack; Ack; Hup (Bad (mkFile None false [] None)) SentAll; Usr1] m0 = Some m /\ m_logged m = None.
Proof. exists (mkFile None false [] (Some (s2b "log"))). do 2 eexists. repeat (split; [vm_compute; reflexivity|]). vm_compute. reflexivity. Qed.
