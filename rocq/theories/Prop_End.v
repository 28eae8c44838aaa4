(** C81: the processes end together. *)
From Verif Require Import Base Proc End Prop_Proc.
Local Open Scope nat_scope.

(** ** what is claimed *)
(** nobody is killed or fails, nobody asks the daemon to end *)
Definition calm (es : list event) : Prop := Forall (fun e => match e with Fails _ | Asked => False | _ => True end) es.
(** what happens by itself, without anything from outside (a client makes a server
    ask) *)
Definition inside (e : event) : bool := match e with Fails _ | Asked | Ask _ => false | _ => true end.
Definition stuck (prefork : nat) (fg : bool) (s : state) : Prop := forall e t, inside e = true -> ~ step prefork fg s e t.
Definition is_ask (e : event) : bool := match e with Ask _ => true | _ => false end.

(** ** proofs *)
Lemma put_eq s p l : put s p l p = l.
Proof. unfold put. destruct (peq_spec p p); congruence. Qed.
Lemma put_ne s p l q : p <> q -> put s p l q = s q.
Proof. unfold put. destruct (peq_spec p q); congruence. Qed.
Lemma run_main pf : running pf main.
Proof. unfold running, main, PROC_MAX, PARENT. cbn. lia. Qed.
Lemma run_crypto pf : running pf (CRYPTO, 0).
Proof. unfold running, PROC_MAX, CRYPTO. cbn. lia. Qed.

Lemma kinds pf p : running pf p -> p = main \/ (exists i, p = (SERVER, i) /\ i < Nat.max 1 pf) \/ p = (CRYPTO, 0) \/ p = (LOGGER, 0).
Proof.
  destruct p as [a i]. intros (L & I). cbn [fst snd] in *. unfold PROC_MAX in L. unfold main, PARENT, SERVER, CRYPTO, LOGGER.
  destruct a as [|[|[|[|a]]]]; [| | | |lia]; unfold instances, SERVER in I; cbn [Nat.eqb] in I.
  - left. f_equal. lia.
  - right. left. exists i. split; [reflexivity|]. destruct (Nat.ltb_spec pf 1); lia.
  - right. right. left. f_equal. lia.
  - right. right. right. f_equal. lia.
Qed.
(** main and each child have sockets to each other *)
Lemma to_child pf p : running pf p -> p <> main -> exists e, end_for pf main p e.
Proof.
  intros R N. destruct (c35_topology pf) as (T & _). apply (T main p). left. destruct (kinds pf p R) as [->|[(i & -> & L)|[->| ->]]]; [congruence| | |]; constructor; auto.
Qed.
Lemma to_main pf p : running pf p -> p <> main -> exists e, end_for pf p main e.
Proof.
  intros R N. destruct (c35_topology pf) as (T & _). apply (T p main). right. destruct (kinds pf p R) as [->|[(i & -> & L)|[->| ->]]]; [congruence| | |]; constructor; auto.
Qed.
Lemma to_crypto pf i : running pf (SERVER, i) -> exists e, end_for pf (SERVER, i) (CRYPTO, 0) e.
Proof.
  intros R. destruct (c35_topology pf) as (T & _). apply (T (SERVER, i) (CRYPTO, 0)). left. destruct (kinds pf _ R) as [H|[(j & H & L)|[H|H]]]; try discriminate H. injection H as <-. constructor; auto.
Qed.
(** the peer has the other end, and it alone *)
Lemma hung_up_iff pf s p q e : end_for pf p q e -> hung_up pf s (other e) <-> open (s q) = false.
Proof.
  destruct (c35_topology pf) as (_ & T2 & T3 & _). intros U. destruct e as [k b]. unfold other. cbn [fst snd].
  pose proof (T2 p q k b U) as V. split.
  - intros H. exact (H q p V).
  - intros H p' q' U'. destruct (T3 _ _ _ _ _ U' V) as (-> & _). exact H.
Qed.
Lemma end_running pf p q e : end_for pf p q e -> running pf q.
Proof. intros U. destruct (c35_topology pf) as (_ & T2 & _). destruct e as [k b]. exact (proj1 (T2 p q k b U)). Qed.

(** which states there are *)
Definition fits (pf : nat) (s : state) : Prop := forall p, running pf p -> (s p = Busy -> exists i, p = (SERVER, i)) /\ (s p = Waits -> p = main).
Lemma fits_put pf s p l : fits pf s -> (l = Busy -> exists i, p = (SERVER, i)) -> (l = Waits -> p = main) -> fits pf (put s p l).
Proof. intros F A B q R. unfold put. destruct (peq_spec p q) as [<-|N]; [auto|apply F, R]. Qed.
Lemma leave_main p pf : running pf p -> leave p = Waits -> p = main.
Proof. intros R H. destruct (kinds pf p R) as [->|[(i & -> & _)|[->| ->]]]; [reflexivity| | |]; discriminate H. Qed.
Lemma fits_step pf fg s e t : step pf fg s e t -> fits pf s -> fits pf t.
Proof.
  intros S F. destruct S; apply fits_put; auto; try discriminate; try (intros _; eexists; reflexivity).
  - unfold leave. destruct (fst p =? PARENT); discriminate.
  - intros L. eapply leave_main; [exact (proj1 H)|exact L].
Qed.
Lemma fits_run pf fg s es t : run pf fg s es t -> fits pf s -> fits pf t.
Proof. intros R. induction R; auto. intros F. apply IHR. eapply fits_step; eauto. Qed.
Lemma fits_boot pf : fits pf started.
Proof. intros p R. split; discriminate. Qed.

(** nothing ends by itself *)
Definition all_open (pf : nat) (s : state) : Prop := forall p, running pf p -> open (s p) = true.
Lemma calm_run pf fg s es t : run pf fg s es t -> calm es -> all_open pf s -> s main = Up -> all_open pf t /\ t main = Up.
Proof.
  intros R. induction R as [|s e t es u S R IH]; intros C A M; [auto|]. inversion C as [|x y C1 C2]; subst.
  assert (K : forall p l, open l = true -> (p = main -> l = Up) -> all_open pf (put s p l) /\ put s p l main = Up).
  { intros p l O L. split; [intros q Q; unfold put; destruct (peq_spec p q); auto|]. unfold put. destruct (peq_spec p main); auto. }
  inversion S; subst; try contradiction.
  - pose proof (A p ltac:(assumption)) as O. rewrite H3 in O. discriminate O.
  - apply (hung_up_iff pf s p q e0 H) in H1. rewrite (A q (end_running _ _ _ _ H)) in H1. discriminate H1.
  - apply (hung_up_iff pf s p _ e0 H) in H1. rewrite (A _ (run_crypto pf)) in H1. discriminate H1.
  - destruct (K (SERVER, i) Busy eq_refl) as (K1 & K2); [discriminate|]. auto.
  - destruct (K (SERVER, i) Up eq_refl) as (K1 & K2); [discriminate|]. auto.
  - congruence.
Qed.

(** ** C81 *)
(** As long as no process fails or is killed and nobody asks the daemon to end, all
    of them go on. *)
Theorem c81_calm prefork fg es s : run prefork fg started es s -> calm es -> forall p, running prefork p -> s p = Up \/ s p = Busy.
Proof.
  intros R C p P. destruct (calm_run _ _ _ _ _ R C) as (A & _); [intros q _; reflexivity|reflexivity|]. specialize (A p P). destruct (s p); auto; discriminate A.
Qed.
(** Once one of them has ended, or the main one was asked to, then whatever has
    happened before and whatever the servers were doing: as long as one is left,
    something more happens by itself, ... *)
Theorem c81_together prefork fg es s : run prefork fg started es s -> (exists p, running prefork p /\ (s p = Gone \/ s p = Waits)) ->
  stuck prefork fg s -> forall p, running prefork p -> s p = Gone.
Proof.
  intros R (p0 & P0 & D) ST. pose proof (fits_run _ _ _ _ _ R (fits_boot prefork)) as F.
  assert (M : open (s main) = false).
  { destruct (peq_spec p0 main) as [->|N]; [destruct D as [-> | ->]; reflexivity|]. destruct (s main) eqn:E; try reflexivity.
    - exfalso. destruct (to_child prefork p0 P0 N) as (e & U). apply (ST (Eof main p0) (put s main (leave main)) eq_refl). eapply s_eof; [exact U|exact E|].
      apply (hung_up_iff _ _ _ _ _ U). destruct D as [-> | ->]; reflexivity.
    - exfalso. destruct (proj1 (F main (run_main _)) E) as (i & H). discriminate H. }
  assert (NU : forall p, running prefork p -> s p <> Up).
  { intros p P E. destruct (peq_spec p main) as [->|N]; [rewrite E in M; discriminate M|]. destruct (to_main prefork p P N) as (e & U).
    apply (ST (Eof p main) (put s p (leave p)) eq_refl). eapply s_eof; [exact U|exact E|]. apply (hung_up_iff _ _ _ _ _ U). exact M. }
  assert (NB : forall p, running prefork p -> s p <> Busy).
  { intros p P E. destruct (proj1 (F p P) E) as (i & ->). destruct (to_crypto prefork i P) as (e & U). apply (ST (Eof (SERVER, i) (CRYPTO, 0)) (put s (SERVER, i) Gone) eq_refl).
    eapply s_eof_busy; [exact U|exact E|]. apply (hung_up_iff _ _ _ _ _ U). pose proof (NU _ (run_crypto prefork)) as C. destruct (s (CRYPTO, 0)) eqn:EC; try reflexivity; [congruence|].
    destruct (proj1 (F _ (run_crypto prefork)) EC) as (j & H). discriminate H. }
  assert (CH : forall p, running prefork p -> p <> main -> s p = Gone).
  { intros p P N. destruct (s p) eqn:E; [destruct (NU p P E)|destruct (NB p P E)|destruct (N (proj2 (F p P) E))|reflexivity]. }
  intros p P. destruct (peq_spec p main) as [->|N]; [|apply CH; assumption]. destruct (s main) eqn:E; try discriminate M; [|reflexivity].
  exfalso. apply (ST Reaped (put s main Gone) eq_refl). apply s_reaped; [exact E|]. intros _. exact CH.
Qed.

(** ... and that comes to an end: all but the questions of servers happens a bounded
    number of times. *)
Definition weight (l : life) : nat := match l with Busy => 3 | Up => 2 | Waits => 1 | Gone => 0 end.
Definition everyone (pf : nat) : list proc := main :: map (fun i => (SERVER, i)) (seq 0 (Nat.max 1 pf)) ++ [(CRYPTO, 0); (LOGGER, 0)].
Definition total (pf : nat) (s : state) : nat := list_sum (map (fun p => weight (s p)) (everyone pf)).
Lemma everyone_in pf p : running pf p -> In p (everyone pf).
Proof.
  intros R. unfold everyone. destruct (kinds pf p R) as [->|[(i & -> & L)|[->| ->]]]; [left; reflexivity| | |]; right; apply in_or_app; [left; apply in_map_iff; exists i; split; [reflexivity|apply in_seq; lia]|right; cbn; auto..].
Qed.
Lemma everyone_nodup pf : NoDup (everyone pf).
Proof.
  unfold everyone. constructor.
  - intros I. apply in_app_or in I. destruct I as [I|I]; [apply in_map_iff in I; destruct I as (i & H & _); discriminate H|]. cbn in I. unfold main in I. intuition discriminate.
  - assert (H : forall n s, NoDup (map (fun i => (SERVER, i)) (seq s n) ++ [(CRYPTO, 0); (LOGGER, 0)])); [|apply H].
    induction n as [|n IH]; intros s; cbn [seq map app].
    + repeat constructor; cbn; intuition discriminate.
    + constructor; [|apply IH]. intros I. apply in_app_or in I. destruct I as [I|I]; [|cbn in I; intuition discriminate]. apply in_map_iff in I. destruct I as (i & H & I). injection H as ->. apply in_seq in I. lia.
Qed.
Lemma total_put pf s p l : running pf p -> total pf (put s p l) + weight (s p) = total pf s + weight l.
Proof.
  intros R. apply everyone_in in R. unfold total. pose proof (everyone_nodup pf) as D. revert R D. generalize (everyone pf). induction l0 as [|x r IH]; intros I D; [destruct I|].
  inversion D as [|a b NI D2]; subst. cbn [map list_sum fold_right]. destruct (peq_spec p x) as [<-|N].
  - rewrite put_eq. assert (E : map (fun q => weight (put s p l q)) r = map (fun q => weight (s q)) r) by (apply map_ext_in; intros q Q; rewrite put_ne; [reflexivity|intros ->; contradiction]). unfold list_sum in *. rewrite E. lia.
  - rewrite put_ne by exact N. destruct I as [I|I]; [congruence|]. specialize (IH I D2). unfold list_sum in *. lia.
Qed.
Lemma total_step pf fg s e t : step pf fg s e t -> if is_ask e then total pf t <= S (total pf s) else S (total pf t) <= total pf s.
Proof.
  intros S. inversion S; subst; cbn [is_ask].
  - pose proof (total_put pf s p Gone H) as T. cbn [weight] in T. destruct (s p); cbn [weight] in T; try lia. congruence.
  - pose proof (total_put pf s main Waits (run_main pf)) as T. rewrite H in T. cbn [weight] in T. lia.
  - pose proof (total_put pf s main Waits (run_main pf)) as T. rewrite H0 in T. cbn [weight] in T. lia.
  - pose proof (total_put pf s p (leave p) (proj1 H)) as T. rewrite H0 in T. unfold leave in *. destruct (fst p =? PARENT); cbn [weight] in T; lia.
  - pose proof (total_put pf s p Gone (proj1 H)) as T. rewrite H0 in T. cbn [weight] in T. lia.
  - pose proof (total_put pf s _ Busy H) as T. rewrite H0 in T. cbn [weight] in T. lia.
  - pose proof (total_put pf s _ Up H) as T. rewrite H0 in T. cbn [weight] in T. lia.
  - pose proof (total_put pf s main Gone (run_main pf)) as T. rewrite H in T. cbn [weight] in T. lia.
Qed.
Lemma total_boot pf : total pf started = 2 * (Nat.max 1 pf + 3).
Proof.
  unfold total, everyone, started. cbn [map list_sum fold_right weight]. rewrite map_app, map_map. cbn [map weight]. unfold list_sum. rewrite fold_right_app. cbn [fold_right].
  assert (E : forall l k, fold_right Nat.add k (map (fun _ : nat => 2) l) = 2 * length l + k) by (induction l; intros k; cbn [map fold_right length]; [lia|rewrite IHl; lia]).
  rewrite E, seq_length. lia.
Qed.
Theorem c81_bounded prefork fg es s : run prefork fg started es s ->
  length (filter (fun e => negb (is_ask e)) es) <= 2 * (Nat.max 1 prefork + 3) + length (filter is_ask es).
Proof.
  intros R. rewrite <- (total_boot prefork). induction R as [|s e t es u S R IH]; [cbn; lia|]. apply total_step in S. cbn [filter]. destruct (is_ask e); cbn [negb length]; lia.
Qed.

(** In the foreground (-f) the main process is the last, unless it was killed itself. *)
Lemma last_step pf s e t : step pf true s e t -> e <> Fails main -> fits pf s -> (s main = Gone -> forall p, running pf p -> s p = Gone) -> t main = Gone -> forall p, running pf p -> t p = Gone.
Proof.
  intros S NE F I TM. assert (D : forall q l, t = put s q l -> q <> main -> running pf q -> s q = Gone).
  { intros q l -> NQ Q. rewrite put_ne in TM by exact NQ. exact (I TM q Q). }
  assert (M : forall l, t = put s main l -> l = Gone) by (intros l ->; rewrite put_eq in TM; exact TM).
  inversion S; subst.
  - exfalso. apply H0, (D p Gone eq_refl); [congruence|exact H].
  - discriminate (M _ eq_refl).
  - discriminate (M _ eq_refl).
  - destruct (peq_spec p main) as [->|N]; [discriminate (M _ eq_refl)|]. pose proof (D p _ eq_refl N (proj1 H)). congruence.
  - destruct (proj1 (F p (proj1 H)) H0) as (i & ->). pose proof (D _ _ eq_refl ltac:(discriminate) (proj1 H)). congruence.
  - pose proof (D _ _ eq_refl ltac:(discriminate) H). congruence.
  - pose proof (D _ _ eq_refl ltac:(discriminate) H). congruence.
  - intros p P. destruct (peq_spec p main) as [->|N]; [apply put_eq|]. rewrite put_ne by congruence. apply H0; auto.
Qed.
Theorem c81_last_partial prefork es s : run prefork true started es s -> ~ In (Fails main) es -> s main = Gone -> forall p, running prefork p -> s p = Gone.
Proof.
  assert (G : forall s0, run prefork true s0 es s -> fits prefork s0 -> (s0 main = Gone -> forall p, running prefork p -> s0 p = Gone) -> ~ In (Fails main) es -> s main = Gone -> forall p, running prefork p -> s p = Gone).
  2:{ intros R N E. apply (G started R); [apply fits_boot|discriminate|exact N|exact E]. }
  intros s0 R. induction R as [|s0 e t es u S R IH]; intros F I N E; [auto|]. apply IH; [eapply fits_step; eauto| |intros H; apply N; right; exact H|exact E].
  apply (last_step _ _ _ _ S); auto. intros ->. apply N. left. reflexivity.
Qed.
(** As a daemon it is not: it ends at once when asked to (or when it sees another
    end), while the others still run and have the listening sockets; its lock on the
    pid file goes with it. *)
Theorem c81_last_refuted prefork : exists es s, run prefork false started es s /\ es = [Asked; Reaped] /\ s main = Gone /\ forall p, running prefork p -> p <> main -> s p = Up.
Proof.
  exists [Asked; Reaped], (put (put started main Waits) main Gone). split; [|split; [reflexivity|split; [apply put_eq|]]].
  - eapply r_cons; [apply s_asked; reflexivity|]. eapply r_cons; [apply s_reaped; [apply put_eq|discriminate]|]. constructor.
  - intros p _ N. rewrite !put_ne by congruence. reflexivity.
Qed.

(** ** a case *)
(** two servers; one is waiting for the crypto process, which is killed; the main
    process notices, the rest follow *)
Definition case_events : list event :=
  [Ask 1; Fails (CRYPTO, 0); Eof main (CRYPTO, 0); Eof (SERVER, 1) (CRYPTO, 0); Eof (LOGGER, 0) main; Eof (SERVER, 0) main; Reaped].
Example c81_case : exists s, run 2 true started case_events s /\ (forall p, running 2 p -> s p = Gone).
Proof.
  assert (RS : forall i, i < 2 -> running 2 (SERVER, i)) by (intros i L; unfold running, PROC_MAX, SERVER; cbn; lia).
  assert (RL : running 2 (LOGGER, 0)) by (unfold running, PROC_MAX, LOGGER; cbn; lia).
  destruct (to_child 2 (CRYPTO, 0) (run_crypto 2) ltac:(discriminate)) as (e1 & U1). destruct (to_crypto 2 1 (RS 1 ltac:(lia))) as (e2 & U2).
  destruct (to_main 2 (LOGGER, 0) RL ltac:(discriminate)) as (e3 & U3). destruct (to_main 2 (SERVER, 0) (RS 0 ltac:(lia)) ltac:(discriminate)) as (e4 & U4).
  assert (R : exists s, run 2 true started case_events s /\ s main = Gone).
  { eexists. split.
    - unfold case_events.
      eapply r_cons; [apply s_ask; [apply RS; lia|reflexivity]|]. eapply r_cons; [apply s_fails; [apply run_crypto|discriminate]|].
      eapply r_cons; [eapply s_eof; [exact U1|reflexivity|apply (hung_up_iff _ _ _ _ _ U1); reflexivity]|].
      eapply r_cons; [eapply s_eof_busy; [exact U2|reflexivity|apply (hung_up_iff _ _ _ _ _ U2); reflexivity]|].
      eapply r_cons; [eapply s_eof; [exact U3|reflexivity|apply (hung_up_iff _ _ _ _ _ U3); reflexivity]|].
      eapply r_cons; [eapply s_eof; [exact U4|reflexivity|apply (hung_up_iff _ _ _ _ _ U4); reflexivity]|].
      eapply r_cons; [apply s_reaped; [reflexivity|]|constructor]. intros _ p P N. destruct (kinds 2 p P) as [->|[(i & -> & L)|[->| ->]]]; [congruence| |reflexivity|reflexivity].
      cbn in L. destruct i as [|[|i]]; [reflexivity|reflexivity|lia].
    - reflexivity. }
  destruct R as (s & R & M). exists s. split; [exact R|]. apply (c81_last_partial 2 _ s R); [|exact M]. cbn. intuition discriminate.
Qed.

Print Assumptions c81_calm.
Print Assumptions c81_together.
Print Assumptions c81_bounded.
Print Assumptions c81_last_partial.
Print Assumptions c81_last_refuted.
