(** C90: where the access log goes. *)
From Verif Require Import Base Log Logger LoggerSpec.
From Coq Require Import Permutation.
Local Open Scope N_scope.

Definition pair2 (a b : option nat) : table := match a, b with Some n, Some f => [(n, f)] | _, _ => [] end.
Definition agree (a b : option nat) : Prop := (a = None <-> b = None).
Definition qpair (q : peer * imsg * option nat) : table := pair2 (snd q) (i_file (snd (fst q))).
Lemma qpair_eq p m fd : qpair (p, m, fd) = pair2 fd (i_file m).
Proof. reflexivity. Qed.

Record inv90 (t0 : table) (s : lg) (tr : list (peer * imsg)) : Prop := Inv90 {
  i_nodup : NoDup (map fst (l_tab s));
  i_tab : Permutation (l_tab s) (t0 ++ pair2 (l_fd s) (log_file tr) ++ flat_map qpair (l_queue s));
  i_log : agree (l_fd s) (log_file tr);
  i_q : Forall (fun q => agree (snd q) (i_file (snd (fst q)))) (l_queue s);
  i_fac : l_fac s = log_facility tr;
  i_sys : log_syslog tr = negb (l_syslog s =? 0) }.

Lemma perm_filter A (f : A -> bool) l l' : Permutation l l' -> Permutation (filter f l) (filter f l').
Proof.
  induction 1; cbn; auto.
  - destruct (f x); auto.
  - destruct (f x), (f y); auto. constructor.
  - etransitivity; eauto.
Qed.

Lemma filter_notin n (r : table) : ~ In n (map fst r) -> filter (fun e => negb (Nat.eqb (fst e) n)) r = r.
Proof.
  induction r as [|[a b] r IH]; cbn; intros H; [reflexivity|].
  destruct (Nat.eqb a n) eqn:E; cbn.
  - apply Nat.eqb_eq in E. tauto.
  - rewrite IH; [reflexivity|tauto].
Qed.

Lemma close_ok t n f r : NoDup (map fst t) -> Permutation t ((n, f) :: r) ->
  exists t', close t n = OK t' /\ Permutation t' r /\ NoDup (map fst t').
Proof.
  intros ND P. unfold close.
  assert (E : existsb (fun e => Nat.eqb (fst e) n) t = true).
  { apply existsb_exists. exists (n, f). split; [|apply Nat.eqb_refl].
    apply (Permutation_in (l := (n, f) :: r)); [symmetry; exact P|left; reflexivity]. }
  rewrite E. eexists. split; [reflexivity|].
  assert (ND' : NoDup (map fst ((n, f) :: r))).
  { eapply Permutation_NoDup; [apply Permutation_map; exact P|exact ND]. }
  cbn in ND'. inversion ND'; subst.
  assert (Q : Permutation (filter (fun e => negb (Nat.eqb (fst e) n)) t) r).
  { etransitivity; [apply perm_filter; exact P|]. cbn. rewrite Nat.eqb_refl. cbn. rewrite filter_notin; auto. }
  split; [exact Q|]. eapply Permutation_NoDup; [apply Permutation_map; symmetry; exact Q|assumption].
Qed.

Lemma file_of_ok t n f : NoDup (map fst t) -> In (n, f) t -> file_of t n = OK f.
Proof.
  unfold file_of. induction t as [|[a b] t IH]; cbn; intros ND I; [tauto|].
  inversion ND; subst. destruct (Nat.eqb a n) eqn:E.
  - apply Nat.eqb_eq in E. subst. destruct I as [I|I]; [injection I as ->; reflexivity|].
    exfalso. apply H1. apply (in_map fst) in I. exact I.
  - destruct I as [I|I]; [injection I as -> ->; rewrite Nat.eqb_refl in E; discriminate|]. apply IH; auto.
Qed.

(** releasing what [pair2] says is there *)
Lemma free_ok t a b r : NoDup (map fst t) -> agree a b -> Permutation t (pair2 a b ++ r) ->
  exists t', imsg_free t a = OK t' /\ Permutation t' r /\ NoDup (map fst t').
Proof.
  intros ND A P. destruct a as [n|], b as [f|]; cbn in *.
  - apply close_ok with (f := f); auto.
  - destruct A as [_ A]. discriminate (A eq_refl).
  - destruct A as [A _]. discriminate (A eq_refl).
  - eauto.
Qed.

Lemma split_nth A (l : list A) i x : nth_error l i = Some x -> l = firstn i l ++ x :: skipn (S i) l.
Proof. revert l. induction i; intros [|y l] E; cbn in *; try discriminate; [injection E as ->; reflexivity|]. f_equal. auto. Qed.

Lemma find_snoc A (f : A -> bool) l x : find f (rev (l ++ [x])) = if f x then Some x else find f (rev l).
Proof. rewrite rev_app_distr. cbn. destruct (f x); reflexivity. Qed.

Lemma cstr_upto l : cstr (l ++ [0]) = Some (upto_nul l).
Proof.
  induction l as [|c l IH]; [reflexivity|]. cbn [app cstr upto_nul]. destruct (c =? 0) eqn:E; [reflexivity|].
  rewrite IH. reflexivity.
Qed.

Lemma logger_write_text d : logger_write d = if Nat.eqb (length d) 0 then None else Some (text d ++ [10]).
Proof. destruct d as [|c d]; [reflexivity|]. unfold logger_write. rewrite cstr_upto. reflexivity. Qed.

(** what one message does *)
Definition says (tr : list (peer * imsg)) (o : option (peer * imsg)) : list (nat * list N) * list (N * list N) :=
  match o with
  | Some (Server, mkImsg LOG_REQUEST d _) =>
    (match log_file tr with Some f => [(f, text d ++ [10])] | None => [] end,
     if log_syslog tr then [(N.lor (log_facility tr) 5, text d)] else [])
  | _ => ([], [])
  end.

Section P.
Variable alloc : table -> nat.
Hypothesis fresh : forall t, ~ In (alloc t) (map fst t).
Variable t0 : table.

Lemma recv_inv s tr p m : inv90 t0 s tr -> inv90 t0 (recv alloc s p m) tr.
Proof.
  intros [ND T L Q F Y]. unfold recv. destruct (i_file m) as [f|] eqn:E.
  - constructor; cbn; auto.
    + constructor; auto.
    + rewrite flat_map_app. cbn [flat_map]. rewrite qpair_eq, E, app_nil_r. cbn [pair2].
      rewrite !app_assoc in *. etransitivity; [|apply Permutation_cons_append]. constructor. rewrite <- ?app_assoc in *. exact T.
    + apply Forall_app. split; [exact Q|]. constructor; [|constructor]. cbn. rewrite E. split; discriminate.
  - constructor; cbn; auto.
    + rewrite flat_map_app. cbn [flat_map]. rewrite qpair_eq, E, !app_nil_r. exact T.
    + apply Forall_app. split; [exact Q|]. constructor; [|constructor]. cbn. rewrite E. split; reflexivity.
Qed.

(** the middle one first *)
Lemma perm_mid A (a b c d e : list A) : Permutation (a ++ b ++ c ++ d ++ e) (d ++ a ++ b ++ c ++ e).
Proof.
  rewrite !app_assoc. apply Permutation_app_tail.
  etransitivity; [apply Permutation_app_comm|]. rewrite !app_assoc. reflexivity.
Qed.

Lemma step_inv s tr e : inv90 t0 s tr ->
  match step alloc s e with
  | OK (Some (s', o)) => inv90 t0 s' (tr ++ opt_list o) /\ (forall x, o = Some x -> bad x = false) /\
                         l_out s' = l_out s ++ fst (says tr o) /\ l_sys s' = l_sys s ++ snd (says tr o)
  | OK None => exists i q, e = Disp i /\ nth_error (l_queue s) i = Some q /\ bad (fst q) = true
  | _ => False
  end.
Proof.
  intros I. destruct e as [p m|i]; cbn [step].
  { cbn [opt_list]. rewrite app_nil_r. split; [apply recv_inv; exact I|]. split; [discriminate|]. cbn. rewrite !app_nil_r.
    unfold recv. destruct (i_file m); auto. }
  destruct (nth_error (l_queue s) i) as [[[p m] fd]|] eqn:E.
  2:{ cbn [opt_list]. rewrite app_nil_r. split; [exact I|]. split; [discriminate|]. cbn. rewrite !app_nil_r. auto. }
  destruct I as [ND T L Q F Y].
  pose proof (split_nth _ _ _ _ E) as SP. set (q' := firstn i (l_queue s) ++ skipn (S i) (l_queue s)).
  assert (Q' : Forall (fun q => agree (snd q) (i_file (snd (fst q)))) q' /\ agree fd (i_file m)).
  { rewrite SP in Q. apply Forall_app in Q. destruct Q as [Q1 Q2]. inversion Q2; subst. split; [apply Forall_app; auto|assumption]. }
  destruct Q' as [Q' A].
  assert (T' : Permutation (l_tab s) (pair2 fd (i_file m) ++ t0 ++ pair2 (l_fd s) (log_file tr) ++ flat_map qpair q')).
  { etransitivity; [exact T|]. rewrite SP at 1. unfold q'. rewrite !flat_map_app. cbn [flat_map]. rewrite qpair_eq.
    apply perm_mid. }
  clearbody q'. destruct m as [ty d fi]. cbn [i_file] in *.
  destruct p.
  - unfold logger_dispatch_parent. cbn [i_type i_data l_fd l_tab set_queue l_queue l_syslog l_fac l_out l_sys].
    destruct ty; cbn [bind]; try (exists i; eexists; split; [reflexivity|split; [exact E|reflexivity]]).
    + (* access *)
      assert (H : exists t', imsg_free (l_tab s) (l_fd s) = OK t' /\ Permutation t' (pair2 fd fi ++ t0 ++ flat_map qpair q') /\ NoDup (map fst t')).
      { apply free_ok with (b := log_file tr); auto. etransitivity; [exact T'|].
        exact (perm_mid _ (pair2 fd fi) t0 [] (pair2 (l_fd s) (log_file tr)) (flat_map qpair q')). }
      destruct H as (t' & E1 & P1 & N1). unfold imsg_free in E1. rewrite E1. cbn [bind opt_list].
      assert (LF : log_file (tr ++ [(Parent, mkImsg LOG_ACCESS d fi)]) = fi) by (unfold log_file; rewrite find_snoc; reflexivity).
      split; [|split; [intros x Hx; injection Hx as <-; reflexivity|cbn; rewrite !app_nil_r; auto]].
      constructor; cbn [l_fd l_tab set_queue l_queue l_syslog l_fac]; rewrite ?LF; auto.
      * etransitivity; [exact P1|]. rewrite !app_assoc. apply Permutation_app_tail, Permutation_app_comm.
      * rewrite F. unfold log_facility. rewrite find_snoc. reflexivity.
      * rewrite <- Y. unfold log_syslog. rewrite find_snoc. reflexivity.
    + destruct (Nat.eqb (length d) 4) eqn:E4.
      2:{ cbn [bind]. exists i; eexists; split; [reflexivity|split; [exact E|]]. cbn. rewrite E4. reflexivity. }
      destruct (free_ok _ _ _ _ ND A T') as (t' & E1 & P1 & N1). rewrite E1. cbn [bind opt_list].
      split; [|split; [intros x Hx; injection Hx as <-; cbn; rewrite E4; reflexivity|cbn; rewrite !app_nil_r; auto]].
      assert (LF : log_file (tr ++ [(Parent, mkImsg LOG_SYSLOG d fi)]) = log_file tr) by (unfold log_file; rewrite find_snoc; reflexivity).
      constructor; cbn [l_fd l_tab set_queue l_queue l_syslog l_fac]; rewrite ?LF; auto.
      * rewrite F. unfold log_facility. rewrite find_snoc. reflexivity.
      * unfold log_syslog. rewrite find_snoc. reflexivity.
    + destruct (Nat.eqb (length d) 4) eqn:E4.
      2:{ cbn [bind]. exists i; eexists; split; [reflexivity|split; [exact E|]]. cbn. rewrite E4. reflexivity. }
      destruct (free_ok _ _ _ _ ND A T') as (t' & E1 & P1 & N1). rewrite E1. cbn [bind opt_list].
      split; [|split; [intros x Hx; injection Hx as <-; cbn; rewrite E4; reflexivity|cbn; rewrite !app_nil_r; auto]].
      assert (LF : log_file (tr ++ [(Parent, mkImsg LOG_FACILITY d fi)]) = log_file tr) by (unfold log_file; rewrite find_snoc; reflexivity).
      constructor; cbn [l_fd l_tab set_queue l_queue l_syslog l_fac]; rewrite ?LF; auto.
      * unfold log_facility. rewrite find_snoc. reflexivity.
      * rewrite <- Y. unfold log_syslog. rewrite find_snoc. reflexivity.
  - unfold logger_dispatch_server. cbn [i_type i_data l_fd l_tab set_queue l_queue l_syslog l_fac l_out l_sys].
    destruct ty; cbn [bind]; try (exists i; eexists; split; [reflexivity|split; [exact E|reflexivity]]).
    rewrite logger_write_text. destruct (Nat.eqb (length d) 0) eqn:E0.
    { cbn [bind]. exists i; eexists; split; [reflexivity|split; [exact E|]]. cbn. exact E0. }
    assert (O : match l_fd s with
                | Some n => let* f := file_of (l_tab s) n in OK (l_out s ++ [(f, text d ++ [10])])
                | None => OK (l_out s)
                end = OK (l_out s ++ match log_file tr with Some f => [(f, text d ++ [10])] | None => [] end)).
    { destruct (l_fd s) as [n|] eqn:EL, (log_file tr) as [f|] eqn:EF.
      - rewrite (file_of_ok _ n f); auto. eapply Permutation_in; [symmetry; exact T'|].
        apply in_or_app. right. apply in_or_app. right. left. reflexivity.
      - destruct L as [_ L]. discriminate (L eq_refl).
      - destruct L as [L _]. discriminate (L eq_refl).
      - rewrite app_nil_r. reflexivity. }
    rewrite O. cbn [bind].
    destruct (free_ok _ _ _ _ ND A T') as (t' & E1 & P1 & N1). rewrite E1. cbn [bind opt_list].
    assert (LF : log_file (tr ++ [(Server, mkImsg LOG_REQUEST d fi)]) = log_file tr) by (unfold log_file; rewrite find_snoc; reflexivity).
    split; [|split; [intros x Hx; injection Hx as <-; cbn; exact E0|]].
    + constructor; cbn [l_fd l_tab set_queue l_queue l_syslog l_fac]; rewrite ?LF; auto.
      * rewrite F. unfold log_facility. rewrite find_snoc. reflexivity.
      * rewrite <- Y. unfold log_syslog. rewrite find_snoc. reflexivity.
    + cbn [l_out l_sys says fst snd]. split; [reflexivity|]. rewrite Y, removelast_last, F.
      destruct (l_syslog s =? 0); cbn [negb]; [rewrite app_nil_r|]; reflexivity.
Qed.

Lemma init_inv : NoDup (map fst t0) -> inv90 t0 (logger_init t0) [].
Proof.
  intros ND. constructor; cbn; auto.
  - rewrite app_nil_r. reflexivity.
  - split; reflexivity.
Qed.

Lemma run_inv es : forall s tr, inv90 t0 s tr ->
  match run alloc s tr es with
  | OK (Some (s', tr')) => inv90 t0 s' tr' /\ (Forall (fun x => bad x = false) tr -> Forall (fun x => bad x = false) tr')
  | OK None => True
  | _ => False
  end.
Proof.
  induction es as [|e es IH]; intros s tr I; cbn [run]; [auto|].
  pose proof (step_inv s tr e I) as H. destruct (step alloc s e) as [[[s' o]|]| |]; try tauto; cbn [bind]; [|exact Logic.I].
  destruct H as (I' & B & _). specialize (IH s' (tr ++ opt_list o) I'). unfold opt_list in IH.
  destruct (run alloc s' _ es) as [[[s2 tr2]|]| |]; auto. destruct IH as [I2 F2]. split; [exact I2|].
  intros FT. apply F2. apply Forall_app. split; [exact FT|]. destruct o; constructor; auto.
Qed.

Lemma qfiles (l : list (peer * imsg * option nat)) : Forall (fun q => agree (snd q) (i_file (snd (fst q)))) l ->
  map snd (flat_map qpair l) = flat_map (fun q => opt_list (i_file (snd (fst q)))) l.
Proof.
  induction 1 as [|[[p m] fd] q A Q IH]; [reflexivity|]. simpl flat_map. rewrite map_app, IH. f_equal. rewrite qpair_eq.
  cbn in A. destruct fd, (i_file m); try reflexivity; destruct A as [L1 L2]; first [discriminate (L2 eq_refl)|discriminate (L1 eq_refl)].
Qed.

(** whatever comes, in whatever order, nothing is done with a descriptor that is not open *)
Theorem c90_total es : NoDup (map fst t0) ->
  exists r, run alloc (logger_init t0) [] es = OK r.
Proof.
  intros ND. pose proof (run_inv es _ _ (init_inv ND)) as H. destruct (run alloc _ [] es); try tauto. eauto.
Qed.

(** the process' descriptors are those it had, the log of the last IMSG_LOG_ACCESS
    and those of the messages still to handle *)
Theorem c90_descriptors es s tr : NoDup (map fst t0) ->
  run alloc (logger_init t0) [] es = OK (Some (s, tr)) ->
  Permutation (map snd (l_tab s)) (map snd t0 ++ files_due s tr) /\ (forall e, In e t0 -> In e (l_tab s)).
Proof.
  intros ND R. pose proof (run_inv es _ _ (init_inv ND)) as H. rewrite R in H. destruct H as [[_ T L Q _ _] _].
  split.
  - etransitivity; [apply Permutation_map; exact T|]. rewrite !map_app. apply Permutation_app_head.
    unfold files_due. apply Permutation_refl'. f_equal.
    + destruct (l_fd s), (log_file tr); try reflexivity; destruct L as [L1 L2]; first [discriminate (L2 eq_refl)|discriminate (L1 eq_refl)].
    + apply qfiles. exact Q.
  - intros e I. eapply Permutation_in; [symmetry; exact T|]. apply in_or_app. auto.
Qed.

(** a request is written as one line to the file the main process named last, if any,
    and to syslog if the main process said so last; nothing else writes *)
Theorem c90_lines es s tr e s' o : NoDup (map fst t0) ->
  run alloc (logger_init t0) [] es = OK (Some (s, tr)) -> step alloc s e = OK (Some (s', o)) ->
  match o with
  | Some (Server, mkImsg LOG_REQUEST d _) =>
    l_out s' = l_out s ++ (match log_file tr with Some f => [(f, text d ++ [10])] | None => [] end) /\
    l_sys s' = l_sys s ++ (if log_syslog tr then [(N.lor (log_facility tr) 5, text d)] else [])
  | _ => l_out s' = l_out s /\ l_sys s' = l_sys s
  end.
Proof.
  intros ND R S. pose proof (run_inv es _ _ (init_inv ND)) as H. rewrite R in H. destruct H as [I _].
  pose proof (step_inv s tr e I) as H. rewrite S in H. destruct H as (_ & _ & O & Y).
  destruct o as [[[] [[] d f]]|]; cbn [says fst snd] in O, Y; rewrite ?app_nil_r in O, Y; auto.
Qed.

(** a server process cannot redirect the log: only well-formed messages are
    handled, and its only such message is a request *)
Theorem c90_trust es s tr x : NoDup (map fst t0) ->
  run alloc (logger_init t0) [] es = OK (Some (s, tr)) -> In (Server, x) tr -> i_type x = LOG_REQUEST /\ i_data x <> [].
Proof.
  intros ND R IN. pose proof (run_inv es _ _ (init_inv ND)) as H. rewrite R in H. destruct H as [_ B].
  specialize (B (Forall_nil _)). rewrite Forall_forall in B. specialize (B _ IN). destruct x as [[] d f]; try discriminate.
  split; [reflexivity|]. intros E. cbn in E. subst d. discriminate.
Qed.

(** the process goes away only on a message that is not for it *)
Theorem c90_fatal es s tr e : NoDup (map fst t0) ->
  run alloc (logger_init t0) [] es = OK (Some (s, tr)) -> step alloc s e = OK None ->
  exists i q, e = Disp i /\ nth_error (l_queue s) i = Some q /\ bad (fst q) = true.
Proof.
  intros ND R S. pose proof (run_inv es _ _ (init_inv ND)) as H. rewrite R in H. destruct H as [I _].
  pose proof (step_inv s tr e I) as H. rewrite S in H. exact H.
Qed.

(** at the end the log is closed and nothing else *)
Theorem c90_shutdown es s tr : NoDup (map fst t0) ->
  run alloc (logger_init t0) [] es = OK (Some (s, tr)) ->
  exists t, logger_shutdown s = OK t /\
    Permutation (map snd t) (map snd t0 ++ flat_map (fun q => opt_list (i_file (snd (fst q)))) (l_queue s)).
Proof.
  intros ND R. pose proof (run_inv es _ _ (init_inv ND)) as H. rewrite R in H. destruct H as [[N1 T L Q _ _] _].
  destruct (free_ok (l_tab s) (l_fd s) (log_file tr) (t0 ++ flat_map qpair (l_queue s))) as (t & E1 & P1 & _); auto.
  { etransitivity; [exact T|]. rewrite !app_assoc. apply Permutation_app_tail, Permutation_app_comm. }
  exists t. split; [exact E1|]. etransitivity; [apply Permutation_map; exact P1|]. rewrite map_app. apply Permutation_app_head.
  apply Permutation_refl'. apply qfiles. exact Q.
Qed.
End P.

Lemma int_roundtrip x : x < 2 ^ 32 -> int_of (int_bytes x) = x.
Proof.
  intros H. unfold int_of, int_bytes.
  pose proof (N.div_mod x 256). pose proof (N.div_mod (x / 256) 256). pose proof (N.div_mod (x / 65536) 256).
  assert (x / 65536 = x / 256 / 256) by (rewrite N.div_div by lia; reflexivity).
  assert (x / 16777216 = x / 65536 / 256) by (rewrite N.div_div by lia; reflexivity).
  assert (x / 16777216 < 256) by (apply N.div_lt_upper_bound; [lia|]; change (16777216 * 256) with (2 ^ 32); exact H).
  rewrite (N.mod_small (x / 16777216)) by lia. lia.
Qed.

(** after what the main process sends at startup, on a reload and on SIGUSR1, the
    log goes where its configuration says, until it says otherwise; whatever the
    server processes sent before, between and after those messages *)
Theorem c90_reload tr ps f facility syslog :
  facility < 2 ^ 32 -> syslog < 2 ^ 32 ->
  filter (fun x => match fst x with Parent => true | Server => false end) tr = ps ++ main_send_logfd f facility syslog ->
  log_file tr = f /\ log_facility tr = facility /\ log_syslog tr = negb (syslog =? 0).
Proof.
  intros HF HS FA.
  assert (G : forall P, (forall m, P (Server, m) = false) ->
    find P (rev tr) = find P (rev (ps ++ main_send_logfd f facility syslog))).
  { intros P HP. rewrite <- FA. clear FA. induction tr as [|x l IH] using rev_ind; [reflexivity|].
    rewrite filter_app, !rev_app_distr. destruct x as [[] m]; cbn [filter fst rev app find].
    - rewrite IH. reflexivity.
    - rewrite HP. exact IH. }
  unfold log_file, log_facility, log_syslog. rewrite !G by reflexivity. rewrite !rev_app_distr.
  cbn [main_send_logfd rev app find is_access is_facility is_syslog i_file i_data].
  rewrite !int_roundtrip by assumption. auto.
Qed.

(** a reload while a request waits: the old file is closed, the line goes to the new one *)
Definition next (t : table) : nat := S (fold_right Nat.max 0%nat (map fst t)).
Lemma next_fresh t : ~ In (next t) (map fst t).
Proof.
  unfold next. intros H. assert (G : forall l x, In x l -> (x <= fold_right Nat.max 0 l)%nat).
  { induction l as [|a l IH]; cbn; intros x I; [tauto|]. destruct I as [->|I]; [lia|]. specialize (IH x I). lia. }
  apply G in H. lia.
Qed.
Definition case90 : list event :=
  map (fun x => Recv (fst x) (snd x)) (main_send_logfd (Some 7%nat) 136 1) ++ [Disp 0; Disp 0; Disp 0] ++
  [Recv Server (mkImsg LOG_REQUEST [72; 105; 0] (Some 9%nat)); Disp 0;
   Recv Server (mkImsg LOG_REQUEST [72; 111; 0] None)] ++
  map (fun x => Recv (fst x) (snd x)) (main_send_logfd (Some 8%nat) 24 0) ++ [Disp 1; Disp 0; Disp 0; Disp 0].
Example c90_case : exists s tr, run next (logger_init [(0, 1); (3, 2)]%nat) [] case90 = OK (Some (s, tr)) /\
  map snd (l_tab s) = [8; 1; 2]%nat /\ l_out s = [(7%nat, [72; 105; 10]); (8%nat, [72; 111; 10])] /\
  l_sys s = [(141, [72; 105]); (141, [72; 111])] /\ NoDup (map fst [(0, 1); (3, 2)]%nat).
Proof. eexists; eexists. split; [vm_compute; reflexivity|]. split; [reflexivity|]. split; [reflexivity|]. split; [reflexivity|].
  repeat constructor; cbn; intuition discriminate. Qed.
