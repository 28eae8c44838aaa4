(** C80: one daemon per pid file, and its pid is in it. *)
From Verif Require Import Base BaseLemmas IriSpec Fmt FmtSpec Prop_Fmt Pid.
Local Open Scope N_scope.

(** ** what is claimed *)
(** a process that is past the lock; one that is past writing its pid: the daemon
    runs *)
Definition owner (s : sys) (p : N) : Prop := exists x, s_proc s p = Some x /\ (2 <= p_pc x)%nat.
Definition running (s : sys) (p : N) : Prop := exists x, s_proc s p = Some x /\ p_pc x = 4%nat.
(** what the file of that name holds *)
Definition content (s : sys) : option (list N) := option_map (s_data s) (s_path s).
Definition undisturbed (es : list event) : Prop := ~ In ERemove es.
(** the disk had room for the line *)
Definition roomy (e : event) : Prop := match e with ECall p fails n => fails = false /\ (length (dec p) < n)%nat | _ => True end.
Definition room (es : list event) : Prop := Forall roomy es.

(** ** invariant *)
Definition line (p : N) : list N := dec p ++ [10].
Record inv (full : bool) (s : sys) : Prop := mkInv {
  i_lock : forall i p w, In (p, w) (s_lock s i) -> w = true /\ s_lock s i = [(p, true)] /\ exists x, s_proc s p = Some x /\ (2 <= p_pc x)%nat /\ p_ino x = i;
  i_own : forall p x, s_proc s p = Some x -> (2 <= p_pc x)%nat -> In (p, true) (s_lock s (p_ino x));
  i_old : forall p x, s_proc s p = Some x -> (1 <= p_pc x)%nat -> (p_ino x < s_fresh s)%nat;
  i_path : forall i, s_path s = Some i -> (i < s_fresh s)%nat;
  i_pc : forall p x, s_proc s p = Some x -> (p_pc x <= 4)%nat;
  i_off : forall p x, s_proc s p = Some x -> (p_pc x <= 3)%nat -> p_off x = 0%nat;
  i_trunc : forall p x, s_proc s p = Some x -> p_pc x = 3%nat -> s_data s (p_ino x) = [];
  i_data : forall p x, s_proc s p = Some x -> p_pc x = 4%nat -> exists k, s_data s (p_ino x) = firstn k (line p) /\ (full = true -> (length (line p) <= k)%nat) }.

Lemma upd_eq {A} (f : nat -> A) i x : upd f i x i = x. Proof. unfold upd. rewrite Nat.eqb_refl. reflexivity. Qed.
Lemma upd_ne {A} (f : nat -> A) i x j : i <> j -> upd f i x j = f j. Proof. intros H. unfold upd. destruct (Nat.eqb_spec i j); [contradiction|reflexivity]. Qed.
Lemma updp_eq {A} (f : N -> A) i x : updp f i x i = x. Proof. unfold updp. rewrite N.eqb_refl. reflexivity. Qed.
Lemma updp_ne {A} (f : N -> A) i x j : i <> j -> updp f i x j = f j. Proof. intros H. unfold updp. destruct (N.eqb_spec i j); [contradiction|reflexivity]. Qed.

Lemma inv_boot full : inv full boot.
Proof. constructor; cbn; intros; try discriminate; contradiction. Qed.

Lemma inv_die full p s : inv full s -> inv full (die p s).
Proof.
  intros [L O A P C F T D]. assert (G : forall q x, s_proc (die p s) q = Some x -> q <> p /\ s_proc s q = Some x).
  { cbn. intros q x H. unfold updp in H. destruct (N.eqb_spec p q); [discriminate|]. split; congruence. }
  constructor; cbn [die s_lock s_path s_data s_fresh].
  - intros i q w I. apply filter_In in I. destruct I as (I & N). cbn [fst] in N. apply negb_true_iff, N.eqb_neq in N. destruct (L i q w I) as (W & E & x & X & Y). split; [exact W|].
    rewrite E. cbn [filter fst]. apply N.eqb_neq in N. rewrite N. cbn [negb]. split; [reflexivity|]. exists x. split; [|exact Y]. cbn. rewrite updp_ne; [exact X|]. apply N.eqb_neq in N. congruence.
  - intros q x H J. apply G in H. destruct H as (N & H). apply filter_In. split; [exact (O q x H J)|]. cbn [fst]. apply N.eqb_neq in N. rewrite N. reflexivity.
  - intros q x H J. apply G in H. destruct H as (_ & H). exact (A q x H J).
  - exact P.
  - intros q x H. apply G in H. destruct H as (_ & H). exact (C q x H).
  - intros q x H J. apply G in H. destruct H as (_ & H). exact (F q x H J).
  - intros q x H J. apply G in H. destruct H as (_ & H). exact (T q x H J).
  - intros q x H J. apply G in H. destruct H as (_ & H). exact (D q x H J).
Qed.

(** two owners of a file are one *)
Lemma one_owner full s p q x y : inv full s -> s_proc s p = Some x -> s_proc s q = Some y -> (2 <= p_pc x)%nat -> (2 <= p_pc y)%nat -> p_ino x = p_ino y -> p = q.
Proof.
  intros I X Y PX PY E. pose proof (i_own full s I p x X PX) as A. pose proof (i_own full s I q y Y PY) as B. rewrite <- E in B.
  destruct (i_lock full s I _ _ _ A) as (_ & EA & _). rewrite EA in B. destruct B as [B|[]]. congruence.
Qed.

Lemma write_at_0 b : write_at [] 0 b = b.
Proof. unfold write_at. rewrite skipn_nil, !app_nil_r. reflexivity. Qed.

Lemma inv_step full e s : (full = true -> roomy e) -> inv full s -> inv full (step e s).
Proof.
  intros RO I. destruct e as [p|p fails n|p|]; cbn [step].
  - destruct (s_proc s p) as [x|] eqn:X; [exact I|]. destruct I as [L O A P C F T D].
    assert (G : forall q y, updp (s_proc s) p (Some (mkP 0 0 0)) q = Some y -> (q = p /\ y = mkP 0 0 0) \/ s_proc s q = Some y).
    { intros q y H. unfold updp in H. destruct (N.eqb_spec p q); [left; split; congruence|right; exact H]. }
    constructor; cbn [next set_proc s_lock s_path s_data s_fresh s_proc].
    + intros i q w J. destruct (L i q w J) as (W & E & x & X' & Y). split; [exact W|]. split; [exact E|]. exists x. split; [|exact Y]. rewrite updp_ne; [exact X'|congruence].
    + intros q y H J. apply G in H. destruct H as [(-> & ->)|H]; [cbn in J; lia|eauto].
    + intros q y H J. apply G in H. destruct H as [(-> & ->)|H]; [cbn in J; lia|eauto].
    + exact P.
    + intros q y H. apply G in H. destruct H as [(-> & ->)|H]; [cbn; lia|eauto].
    + intros q y H J. apply G in H. destruct H as [(-> & ->)|H]; [reflexivity|eauto].
    + intros q y H J. apply G in H. destruct H as [(-> & ->)|H]; [discriminate J|eauto].
    + intros q y H J. apply G in H. destruct H as [(-> & ->)|H]; [discriminate J|eauto].
  - destruct (s_proc s p) as [x|] eqn:X; [|exact I]. destruct (nth_error (program p) (p_pc x)) as [c|] eqn:PC; [|exact I].
    destruct x as [pc i off]. cbn [p_pc] in PC.
    assert (G : forall q y z, updp (s_proc s) p (Some z) q = Some y -> (q = p /\ y = z) \/ (q <> p /\ s_proc s q = Some y)).
    { intros q y z H. unfold updp in H. destruct (N.eqb_spec p q); [left; split; congruence|right; split; [congruence|exact H]]. }
    destruct pc as [|[|[|[|pc]]]]; cbn [program nth_error] in PC; [| | | |destruct pc; discriminate PC]; injection PC as <-; unfold call; cbn [fatal_if_fails p_pc p_ino p_off].
    + (* open *)
      destruct fails; [apply inv_die; exact I|]. pose proof I as I0. destruct I as [L O A P C F T D]. destruct (s_path s) as [j|] eqn:SP.
      * pose proof (P j eq_refl) as JF. constructor; cbn [next set_proc s_lock s_path s_data s_fresh s_proc].
        -- intros k q w J. destruct (L k q w J) as (W & E & y & Y & Z). split; [exact W|]. split; [exact E|]. exists y. split; [|exact Z]. rewrite updp_ne; [exact Y|]. intros <-. rewrite X in Y. injection Y as <-. cbn in Z. lia.
        -- intros q y H J. apply G in H. destruct H as [(-> & ->)|(_ & H)]; [cbn in J; lia|eauto].
        -- intros q y H J. apply G in H. destruct H as [(-> & ->)|(_ & H)]; [exact JF|eauto].
        -- intros k H. apply P. congruence.
        -- intros q y H. apply G in H. destruct H as [(-> & ->)|(_ & H)]; [cbn; lia|eauto].
        -- intros q y H J. apply G in H. destruct H as [(-> & ->)|(_ & H)]; [reflexivity|eauto].
        -- intros q y H J. apply G in H. destruct H as [(-> & ->)|(_ & H)]; [discriminate J|eauto].
        -- intros q y H J. apply G in H. destruct H as [(-> & ->)|(_ & H)]; [discriminate J|eauto].
      * constructor; cbn [next set_proc s_lock s_path s_data s_fresh s_proc].
        -- intros k q w J. destruct (L k q w J) as (W & E & y & Y & Z). split; [exact W|]. split; [exact E|]. exists y. split; [|exact Z]. rewrite updp_ne; [exact Y|]. intros <-. rewrite X in Y. injection Y as <-. cbn in Z. lia.
        -- intros q y H J. apply G in H. destruct H as [(-> & ->)|(_ & H)]; [cbn in J; lia|eauto].
        -- intros q y H J. apply G in H. destruct H as [(-> & ->)|(_ & H)]; [cbn; lia|]. pose proof (A q y H J). lia.
        -- intros k H. injection H as <-. lia.
        -- intros q y H. apply G in H. destruct H as [(-> & ->)|(_ & H)]; [cbn; lia|eauto].
        -- intros q y H J. apply G in H. destruct H as [(-> & ->)|(_ & H)]; [reflexivity|eauto].
        -- intros q y H J. apply G in H. destruct H as [(-> & ->)|(_ & H)]; [discriminate J|]. pose proof (A q y H ltac:(lia)). rewrite upd_ne by lia. eauto.
        -- intros q y H J. apply G in H. destruct H as [(-> & ->)|(_ & H)]; [discriminate J|]. pose proof (A q y H ltac:(lia)). rewrite upd_ne by lia. eauto.
    + (* lock *)
      destruct fails; [apply inv_die; exact I|]. destruct (conflicts p true (s_lock s i)) eqn:CF; [apply inv_die; exact I|].
      assert (EM : s_lock s i = []).
      { destruct (s_lock s i) as [|[q w] r] eqn:E; [reflexivity|]. exfalso. assert (J : In (q, w) (s_lock s i)) by (rewrite E; left; reflexivity).
        destruct (i_lock full s I i q w J) as (_ & _ & y & Y & PY & _). destruct (N.eqb_spec q p) as [->|N]; [rewrite X in Y; injection Y as <-; cbn in PY; lia|].
        unfold conflicts in CF. cbn [existsb fst snd] in CF. apply N.eqb_neq in N. rewrite N in CF. discriminate CF. }
      destruct I as [L O A P C F T D]. rewrite EM. constructor; cbn [next set_proc set_lock s_lock s_path s_data s_fresh s_proc].
      * intros k q w J. destruct (Nat.eq_dec i k) as [<-|N].
        -- rewrite upd_eq in J |- *. destruct J as [J|[]]. injection J as <- <-. split; [reflexivity|]. split; [reflexivity|]. exists (mkP 2 i off). rewrite updp_eq. cbn. auto.
        -- rewrite upd_ne in J |- * by exact N. destruct (L k q w J) as (W & E & y & Y & Z). split; [exact W|]. split; [exact E|]. exists y. split; [|exact Z]. rewrite updp_ne; [exact Y|]. intros <-. rewrite X in Y. injection Y as <-. cbn in Z. lia.
      * intros q y H J. apply G in H. destruct H as [(-> & ->)|(_ & H)]; [cbn; rewrite upd_eq; left; reflexivity|]. pose proof (O q y H J) as K.
        destruct (Nat.eq_dec i (p_ino y)) as [E|N]; [rewrite <- E, EM in K; destruct K|rewrite upd_ne by exact N; exact K].
      * intros q y H J. apply G in H. destruct H as [(-> & ->)|(_ & H)]; [exact (A p _ X ltac:(cbn; lia))|eauto].
      * exact P.
      * intros q y H. apply G in H. destruct H as [(-> & ->)|(_ & H)]; [cbn; lia|eauto].
      * intros q y H J. apply G in H. destruct H as [(-> & ->)|(_ & H)]; [exact (F p _ X ltac:(cbn; lia))|eauto].
      * intros q y H J. apply G in H. destruct H as [(-> & ->)|(_ & H)]; [discriminate J|eauto].
      * intros q y H J. apply G in H. destruct H as [(-> & ->)|(_ & H)]; [discriminate J|eauto].
    + (* truncate *)
      destruct fails; [apply inv_die; exact I|]. pose proof I as I0. destruct I as [L O A P C F T D]. constructor; cbn [next set_proc set_data s_lock s_path s_data s_fresh s_proc].
      * intros k q w J. destruct (L k q w J) as (W & E & y & Y & Z & ZI). split; [exact W|]. split; [exact E|]. destruct (N.eq_dec p q) as [<-|N].
        -- rewrite X in Y. injection Y as <-. exists (mkP 3 i off). rewrite updp_eq. cbn. auto.
        -- exists y. rewrite updp_ne by exact N. auto.
      * intros q y H J. apply G in H. destruct H as [(-> & ->)|(_ & H)]; [exact (O p _ X ltac:(cbn; lia))|eauto].
      * intros q y H J. apply G in H. destruct H as [(-> & ->)|(_ & H)]; [exact (A p _ X ltac:(cbn; lia))|eauto].
      * exact P.
      * intros q y H. apply G in H. destruct H as [(-> & ->)|(_ & H)]; [cbn; lia|eauto].
      * intros q y H J. apply G in H. destruct H as [(-> & ->)|(_ & H)]; [exact (F p _ X ltac:(cbn; lia))|eauto].
      * intros q y H J. apply G in H. destruct H as [(-> & ->)|(N & H)]; [cbn; apply upd_eq|]. destruct (Nat.eq_dec i (p_ino y)) as [E|NE]; [rewrite E; apply upd_eq|rewrite upd_ne by exact NE; eauto].
      * intros q y H J. apply G in H. destruct H as [(-> & ->)|(N & H)]; [discriminate J|]. rewrite upd_ne; [eauto|]. intros E. apply N.
        eapply (one_owner full s q p); eauto; cbn; lia.
    + (* write *)
      assert (OFF : off = 0%nat) by exact (i_off full s I p _ X ltac:(cbn; lia)). subst off.
      assert (DA : s_data s i = []) by exact (i_trunc full s I p _ X eq_refl). pose proof I as I0. destruct I as [L O A P C F T D].
      assert (K : forall d z, (d = s_data s \/ d = upd (s_data s) i (firstn n (line p))) -> p_pc z = 4%nat -> p_ino z = i ->
        (full = true -> d = upd (s_data s) i (firstn n (line p))) ->
        inv full (mkS (s_path s) d (s_fresh s) (s_lock s) (updp (s_proc s) p (Some z)))).
      { intros d z DD PZ IZ DF. constructor; cbn [s_lock s_path s_data s_fresh s_proc].
        - intros k q w J. destruct (L k q w J) as (W & E & y & Y & Z & ZI). split; [exact W|]. split; [exact E|]. destruct (N.eq_dec p q) as [<-|N].
          + rewrite X in Y. injection Y as <-. exists z. rewrite updp_eq. cbn in ZI. split; [reflexivity|]. split; [lia|congruence].
          + exists y. rewrite updp_ne by exact N. auto.
        - intros q y H J. apply G in H. destruct H as [(-> & ->)|(_ & H)]; [rewrite IZ; exact (O p _ X ltac:(cbn; lia))|eauto].
        - intros q y H J. apply G in H. destruct H as [(-> & ->)|(_ & H)]; [rewrite IZ; exact (A p _ X ltac:(cbn; lia))|eauto].
        - exact P.
        - intros q y H. apply G in H. destruct H as [(-> & ->)|(_ & H)]; [lia|eauto].
        - intros q y H J. apply G in H. destruct H as [(-> & ->)|(_ & H)]; [lia|eauto].
        - intros q y H J. apply G in H. destruct H as [(-> & ->)|(N & H)]; [lia|]. destruct DD as [->| ->]; [eauto|]. rewrite upd_ne; [eauto|]. intros E. apply N. eapply (one_owner full s q p); eauto; cbn; lia.
        - intros q y H J. apply G in H. destruct H as [(-> & ->)|(N & H)].
          + rewrite IZ. destruct full.
            * rewrite (DF eq_refl). exists n. split; [apply upd_eq|]. intros _. destruct (RO eq_refl) as (_ & LN). unfold line. rewrite app_length. cbn [length]. lia.
            * destruct DD as [->| ->]; [exists 0%nat; split; [exact DA|discriminate]|exists n; split; [apply upd_eq|discriminate]].
          + destruct DD as [->| ->]; [eauto|]. rewrite upd_ne; [eauto|]. intros E. apply N. eapply (one_owner full s q p); eauto; cbn; lia. }
      destruct fails.
      * apply (K (s_data s)); auto. intros E. destruct (RO E) as (Q & _). discriminate Q.
      * rewrite DA, write_at_0. apply (K (upd (s_data s) i (firstn n (line p)))); auto.
  - apply inv_die, I.
  - destruct I as [L O A P C F T D]. constructor; cbn [s_lock s_path s_data s_fresh s_proc]; auto. discriminate.
Qed.
Lemma inv_run full es : (full = true -> room es) -> inv full (run es).
Proof.
  unfold run, room. assert (G : forall s, inv full s -> (full = true -> Forall roomy es) -> inv full (fold_left (fun s e => step e s) es s)); [|intros R; apply G; [apply inv_boot|exact R]].
  induction es as [|e es IH]; intros s I R; [exact I|]. cbn [fold_left]. apply IH; [apply inv_step; [|exact I]|]; intros F; specialize (R F); inversion R; assumption.
Qed.

(** without a removal there is one file *)
Definition single (s : sys) : Prop := forall p x, s_proc s p = Some x -> (1 <= p_pc x)%nat -> s_path s = Some (p_ino x).
Lemma single_die p s : single s -> single (die p s).
Proof. intros I q x H. cbn in H. unfold updp in H. destruct (p =? q); [discriminate|]. exact (I q x H). Qed.
Lemma single_next s0 s p y : single s -> s_path s0 = s_path s -> s_proc s0 = s_proc s -> s_path s = Some (p_ino y) -> single (next p y s0).
Proof. intros I E1 E2 PY q x H. cbn [next set_proc s_proc s_path] in *. rewrite E2 in H. unfold updp in H. destruct (N.eqb_spec p q); [injection H as <-; congruence|]. rewrite E1. exact (I q x H). Qed.
Lemma single_step e s : e <> ERemove -> single s -> single (step e s).
Proof.
  intros NR I. destruct e as [p|p fails n|p|]; cbn [step]; [| |apply single_die; exact I|congruence].
  - destruct (s_proc s p) as [x|] eqn:X; [exact I|]. intros q x H J. cbn [next set_proc s_proc s_path] in *. unfold updp in H. destruct (p =? q); [injection H as <-; cbn in J; lia|exact (I q x H J)].
  - destruct (s_proc s p) as [x|] eqn:X; [|exact I]. destruct (nth_error (program p) (p_pc x)) as [c|] eqn:PC; [|exact I]. destruct x as [pc i off]. cbn [p_pc] in PC.
    destruct pc as [|[|[|[|pc]]]]; cbn [program nth_error] in PC; [| | | |destruct pc; discriminate PC]; injection PC as <-; unfold call; cbn [fatal_if_fails p_pc p_ino p_off];
      try (pose proof (I p _ X ltac:(cbn; lia)) as PI; cbn in PI); destruct fails; try (apply single_die; exact I); try (apply (single_next _ s); auto; fail).
    + destruct (s_path s) as [j|] eqn:SP; [apply (single_next _ s); auto|]. intros q x H J. cbn [next set_proc s_proc s_path] in *. unfold updp in H. destruct (p =? q); [injection H as <-; reflexivity|]. pose proof (I q x H J). congruence.
    + destruct (conflicts p true (s_lock s i)); [apply single_die; exact I|apply (single_next _ s); auto].
Qed.
Lemma single_run es : undisturbed es -> single (run es).
Proof.
  unfold run, undisturbed. assert (G : forall s, single s -> ~ In ERemove es -> single (fold_left (fun s e => step e s) es s)); [|intros U; apply G; [intros p x H; discriminate H|exact U]].
  induction es as [|e es IH]; intros s I U; [exact I|]. cbn [fold_left]. apply IH; [apply single_step; [|exact I]|]; intros E; apply U; [left; exact E|right; exact E].
Qed.

(** ** C80 *)
(** However many are started, in whatever order their calls come and wherever they
    end: as long as nobody removes the file, at most one gets past the lock. *)
Theorem c80_one es p q : undisturbed es -> owner (run es) p -> owner (run es) q -> p = q.
Proof.
  intros U (x & X & PX) (y & Y & PY). pose proof (single_run es U) as S. assert (A := S p x X ltac:(lia)). assert (B := S q y Y ltac:(lia)).
  apply (one_owner false (run es) p q x y); auto; [apply inv_run; discriminate|congruence].
Qed.
(** While it runs, the file holds its pid and nothing else: a line, or as much of it
    as there was room for. *)
Theorem c80_content_partial es p : undisturbed es -> running (run es) p -> exists k, content (run es) = Some (firstn k (dec p ++ [10])).
Proof.
  intros U (x & X & PX). pose proof (single_run es U p x X ltac:(lia)) as S. destruct (i_data _ _ (inv_run false es ltac:(discriminate)) p x X PX) as (k & K & _).
  exists k. unfold content. rewrite S. cbn. rewrite K. reflexivity.
Qed.
Theorem c80_content es p : undisturbed es -> room es -> running (run es) p -> exists l, content (run es) = Some (l ++ [10]) /\ Forall (fun c => is_digit c = true) l /\ decimal l = p.
Proof.
  intros U R (x & X & PX). pose proof (single_run es U p x X ltac:(lia)) as S. destruct (i_data _ _ (inv_run true es (fun _ => R)) p x X PX) as (k & K & L).
  exists (dec p). split; [|split; apply dec_value]. unfold content. rewrite S. cbn. rewrite K, firstn_all2 by (apply L; reflexivity). reflexivity.
Qed.
(** Another instance started meanwhile ends at the lock, and has changed nothing. *)
Lemma run_snoc es e : run (es ++ [e]) = step e (run es).
Proof. unfold run. rewrite fold_left_app. reflexivity. Qed.
Theorem c80_other es p q e : undisturbed es -> running (run es) p -> q <> p -> (e = EStart q \/ (exists f n, e = ECall q f n) \/ e = EEnd q) ->
  content (run (es ++ [e])) = content (run es) /\ running (run (es ++ [e])) p /\
  ((exists x, s_proc (run es) q = Some x /\ p_pc x = 1%nat) -> (exists f n, e = ECall q f n) -> s_proc (run (es ++ [e])) q = None).
Proof.
  intros U R N E. rewrite run_snoc. pose proof (single_run es U) as S. pose proof (inv_run false es ltac:(discriminate)) as I. destruct R as (x & X & PX).
  assert (PP := S p x X ltac:(lia)).
  assert (RU : forall s', s_proc s' p = s_proc (run es) p -> running s' p) by (intros s' H; exists x; split; [congruence|exact PX]).
  destruct E as [->|[(f & n & ->)| ->]]; cbn [step].
  - destruct (s_proc (run es) q) eqn:Q; (split; [reflexivity|]); (split; [apply RU; try reflexivity; cbn; apply updp_ne, N|]); intros _ (f & n & H); discriminate H.
  - destruct (s_proc (run es) q) as [y|] eqn:Q; [|split; [reflexivity|split; [apply RU; reflexivity|intros (y & Y & _); discriminate Y]]].
    destruct y as [pc i off].
    assert (NO : (pc < 2)%nat). { destruct (Nat.lt_ge_cases pc 2) as [L|L]; [exact L|]. exfalso. apply N. eapply (one_owner false (run es) q p); [exact I|exact Q|exact X|exact L|lia|]. pose proof (S q _ Q ltac:(cbn; lia)). congruence. }
    assert (DQ : running (die q (run es)) p) by (apply RU; cbn; apply updp_ne, N).
    cbn [p_pc]. destruct pc as [|[|pc]]; [| |lia]; cbn [program nth_error]; unfold call; cbn [fatal_if_fails p_pc p_ino p_off].
    + destruct f; [split; [reflexivity|split; [exact DQ|]]|rewrite PP; split; [reflexivity|split; [apply RU; cbn; apply updp_ne, N|]]]; intros (y & Y & Z); injection Y as <-; discriminate Z.
    + assert (D : die q (run es) = if f then die q (run es) else if conflicts q true (s_lock (run es) i) then die q (run es) else
        next q (mkP 2 i off) (set_lock i ((q, true) :: s_lock (run es) i) (run es))).
      { destruct f; [reflexivity|]. assert (conflicts q true (s_lock (run es) i) = true) as ->; [|reflexivity]. pose proof (S q _ Q ltac:(cbn; lia)) as QI. cbn [p_ino] in QI.
        assert (i = p_ino x) as -> by congruence. pose proof (i_own _ _ I p x X ltac:(lia)) as OW. unfold conflicts. apply existsb_exists. exists (p, true). split; [exact OW|]. cbn [fst snd orb].
        rewrite andb_true_r. apply negb_true_iff, N.eqb_neq. congruence. }
      rewrite <- D. split; [reflexivity|]. split; [exact DQ|]. intros _ _. cbn. apply updp_eq.
  - split; [reflexivity|]. split; [apply RU; cbn; apply updp_ne, N|]. intros _ (f & n & H). discriminate H.
Qed.

(** ** cases *)
Definition go (p : N) : list event := [EStart p; ECall p false 100; ECall p false 100; ECall p false 100; ECall p false 100].
Definition is_running (s : sys) (p : N) : bool := match s_proc s p with Some x => (p_pc x =? 4)%nat | None => false end.
Lemma is_running_ok s p : is_running s p = true -> running s p.
Proof. unfold is_running, running. destruct (s_proc s p) as [x|]; [|discriminate]. intros H. apply Nat.eqb_eq in H. eauto. Qed.
(** a daemon of pid 12345; a second one is started; the first ends, a third is
    started, with a shorter pid *)
Example c80_case : let es := go 12345 ++ go 777 ++ [EEnd 12345] ++ go 8 in
  is_running (run (go 12345 ++ go 777)) 12345 = true /\ s_proc (run (go 12345 ++ go 777)) 777 = None /\ content (run (go 12345 ++ go 777)) = Some (s2b "12345" ++ [10]) /\
  undisturbed es /\ room es /\ running (run es) 8 /\ content (run es) = Some [56; 10].
Proof.
  cbv zeta. split; [vm_compute; reflexivity|]. split; [vm_compute; reflexivity|]. split; [vm_compute; reflexivity|]. split; [|split; [|split; [|vm_compute; reflexivity]]].
  - intros H. vm_compute in H. intuition discriminate.
  - unfold room. cbn [go app]. repeat (constructor; [cbn [roomy]; first [exact Logic.I|split; [reflexivity|vm_compute; repeat constructor]]|]). constructor.
  - apply is_running_ok. vm_compute. reflexivity.
Qed.
(** If the file is removed, a second daemon starts. *)
Theorem c80_removed_refuted : exists es p q, p <> q /\ running (run es) p /\ running (run es) q.
Proof. exists (go 5 ++ [ERemove] ++ go 6), 5, 6. split; [discriminate|]. split; apply is_running_ok; vm_compute; reflexivity. Qed.
(** If the disk is full, the daemon runs all the same, and the file is empty. *)
Theorem c80_full_disk_refuted : exists es p, undisturbed es /\ running (run es) p /\ content (run es) = Some [].
Proof.
  exists [EStart 5; ECall 5 false 9; ECall 5 false 9; ECall 5 false 9; ECall 5 true 9], 5. split; [intros H; vm_compute in H; intuition discriminate|].
  split; [apply is_running_ok; vm_compute; reflexivity|vm_compute; reflexivity].
Qed.

Print Assumptions c80_one.
Print Assumptions c80_content.
Print Assumptions c80_content_partial.
Print Assumptions c80_other.
Print Assumptions c80_removed_refuted.
Print Assumptions c80_full_disk_refuted.
