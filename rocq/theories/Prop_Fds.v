(** C65: descriptors and events of one connection do not touch another. *)
From Coq Require Import Lia.
From Verif Require Import Base BaseLemmas Fds FdsSpec.
Local Open Scope N_scope.

Lemma mem_in n l : mem n l = true <-> In n l.
Proof. unfold mem. rewrite existsb_exists. split; [intros (x & I & E); apply N.eqb_eq in E; subst; exact I|intros I; exists n; split; [exact I|apply N.eqb_refl]]. Qed.
Lemma drop_in n t e : In e (drop n t) <-> In e t /\ fst e <> n.
Proof. unfold drop. rewrite filter_In, negb_true_iff, N.eqb_neq. tauto. Qed.
Lemma drop_nodup n t : NoDup (fds t) -> NoDup (fds (drop n t)).
Proof.
  unfold fds, drop. induction t as [|e t IH]; cbn; [auto|]. intros H. inversion H; subst. destruct (negb _); cbn; [|auto]. constructor; [|auto].
  intros X. apply in_map_iff in X as (y & E & I). apply filter_In in I as [I _]. apply H2. rewrite <- E. apply in_map. exact I.
Qed.
Lemma in_fds n id t : In (n, id) t -> In n (fds t).
Proof. intros H. apply (in_map fst) in H. exact H. Qed.
Lemma owner_unique t n a b : NoDup (fds t) -> In (n, a) t -> In (n, b) t -> a = b.
Proof.
  unfold fds. induction t as [|[m x] t IH]; [intros _ []|]. cbn. intros H. inversion H; subst. intros [A|A] [B|B].
  - congruence.
  - injection A as -> ->. exfalso. apply H2. apply (in_map fst) in B. exact B.
  - injection B as -> ->. exfalso. apply H2. apply (in_map fst) in A. exact A.
  - auto.
Qed.

Lemma on_conn_split id cs a c b : on_conn id cs = Some (a, c, b) -> cs = a ++ c :: b /\ f_id c = id /\ ~ In id (map f_id a).
Proof.
  revert a c b. induction cs as [|x r IH]; cbn; [discriminate|]. intros a c b. destruct (N.eqb_spec (f_id x) id) as [E|E].
  - intros H. injection H as <- <- <-. auto.
  - destruct (on_conn id r) as [[[a' y] b']|]; [|discriminate]. intros H. injection H as <- <- <-. destruct (IH _ _ _ eq_refl) as (-> & E2 & E3).
    split; [reflexivity|]. split; [exact E2|]. intros [X|X]; contradiction.
Qed.

(** ** nothing is leaked *)
(** the open descriptors of a connection are the two it knows *)
Definition knows (c : fconn) (n : N) : Prop := n = f_fd c \/ f_pfd c = Some n.
Definition NL (p : proc) : Prop :=
  NoDup (fds (p_open p)) /\ NoDup (map f_id (p_conns p)) /\ Forall (fun c => f_id c <> 0) (p_conns p) /\
  Forall (fun c => (f_cgi c = None -> f_asked c = false -> f_pfd c = None)) (p_conns p) /\
  forall n id, In (n, id) (p_open p) -> id = 0 \/ exists c, In c (p_conns p) /\ f_id c = id /\ knows c n.

(** what calls do to the table *)
Lemma kernels_nodup ks : forall t t', kernels ks t = Some t' -> NoDup (fds t) -> NoDup (fds t').
Proof.
  induction ks as [|k r IH]; intros t t'; cbn [kernels]; [intros H; injection H as <-; auto|].
  destruct (kernel k t) as [t1|] eqn:K; [|discriminate]. intros H D. apply (IH _ _ H). destruct k as [id n|id n]; cbn in K.
  - destruct (mem n (fds t)) eqn:M; [discriminate|]. injection K as <-. cbn. constructor; [|exact D]. intros X. apply mem_in in X. change (mem n (fds t) = true) in X. congruence.
  - injection K as <-. apply drop_nodup. exact D.
Qed.

(** which numbers [id] holds after its own calls, when it held those of [H] *)
Fixpoint after (ks : list call) (id : N) (H : N -> Prop) : N -> Prop :=
  match ks with
  | [] => H
  | COpen i n :: r => after r id (if i =? id then fun m => m = n \/ H m else H)
  | CClose i n :: r => after r id (fun m => m <> n /\ H m)
  end.
Lemma after_sound ks id : forall t t' (H : N -> Prop), kernels ks t = Some t' -> (forall m, In (m, id) t -> H m) -> forall m, In (m, id) t' -> after ks id H m.
Proof.
  induction ks as [|k r IH]; intros t t' H; cbn [kernels after].
  - intros E Q. injection E as <-. exact Q.
  - destruct (kernel k t) as [t1|] eqn:K; [|discriminate]. intros E Q. destruct k as [i n|i n]; cbn in K.
    + destruct (mem n (fds t)); [discriminate|]. injection K as <-. apply (IH _ _ _ E). intros m [X|X].
      * injection X as -> ->. rewrite N.eqb_refl. auto.
      * destruct (i =? id); [right|]; auto.
    + injection K as <-. apply (IH _ _ _ E). intros m X. apply drop_in in X as [X Y]. split; [exact Y|auto].
Qed.
(** nobody else gains *)
Lemma kernels_others ks id : Forall (fun k => match k with COpen i _ => i = id | CClose i _ => i = id end) ks -> forall t t', kernels ks t = Some t' ->
  forall m x, x <> id -> In (m, x) t' -> In (m, x) t.
Proof.
  induction 1 as [|k r K0 _ IH]; intros t t'; cbn [kernels]; [intros H; injection H as <-; auto|].
  destruct (kernel k t) as [t1|] eqn:K; [|discriminate]. intros E m x NE I. specialize (IH _ _ E m x NE I). destruct k as [i n|i n]; cbn in K.
  - destruct (mem n (fds t)); [discriminate|]. injection K as <-. destruct IH as [X|X]; [congruence|exact X].
  - injection K as <-. apply drop_in in IH. apply IH.
Qed.

Definition mine (id : N) (k : call) : Prop := match k with COpen i _ => i = id | CClose i _ => i = id end.
Lemma close_opt_mine id o : Forall (mine id) (close_opt id o). Proof. destruct o; repeat constructor. Qed.
Lemma probe_mine id o : Forall (mine id) (probe id o). Proof. destruct o; repeat constructor. Qed.
Lemma callback_mine o c c' ks l : callback o c = Some (c', ks, l) -> Forall (mine (f_id c)) ks.
Proof.
  unfold callback. destruct (f_closing c).
  - destruct o; try discriminate. intros H. injection H as _ <- _. apply Forall_app. split; [apply close_opt_mine|repeat constructor].
  - destruct o; try discriminate; cbv zeta; try (destruct (f_asked c); [discriminate|]; intros H; injection H as _ <- _; repeat constructor).
    + destruct (dir_calls (f_id c) n h) as [k q] eqn:D. destruct (f_asked c); [discriminate|]. intros H. injection H as _ <- _. constructor; [reflexivity|].
      unfold dir_calls in D. destruct h; injection D as <- _; try apply probe_mine; repeat constructor. apply Forall_app. split; [apply probe_mine|repeat constructor].
    + destruct (f_cgi c); [|discriminate]. intros H. injection H as _ <- _. apply close_opt_mine.
    + destruct (f_ctx c); [|discriminate]. destruct (f_up c); [|discriminate]. intros H. injection H as _ <- _. constructor.
    + destruct (f_up c); [|discriminate]. intros H. injection H as _ <- _. apply close_opt_mine.
    + destruct (f_cgi c); cbn; destruct (f_pfd c); cbn; try destruct (f_ctx c); cbn; intros H; injection H as _ <- _; repeat constructor.
Qed.
Lemma callback_keeps o c c' ks l : callback o c = Some (Some c', ks, l) -> f_id c' = f_id c /\ f_fd c' = f_fd c.
Proof.
  unfold callback. destruct (f_closing c); [destruct o; discriminate|].
  destruct o; try discriminate; cbv zeta; try (destruct (f_asked c); [discriminate|]; intros H; injection H as <- _ _; auto).
  - destruct (dir_calls (f_id c) n h). destruct (f_asked c); [discriminate|]. intros H. injection H as <- _ _. auto.
  - destruct (f_cgi c); [|discriminate]. intros H. injection H as <- _ _. auto.
  - destruct (f_ctx c); [|discriminate]. destruct (f_up c); [|discriminate]. intros H. injection H as <- _ _. auto.
  - destruct (f_up c); [|discriminate]. intros H. injection H as <- _ _. auto.
  - destruct (f_cgi c); cbn; destruct (f_pfd c); cbn; try destruct (f_ctx c); cbn; intros H; injection H as <- _ _; auto.
Qed.

(** after the operation the connection still knows all it holds *)
Lemma after_knows o c c' ks l : callback o c = Some (c', ks, l) ->
  (f_cgi c = None -> f_asked c = false -> f_pfd c = None) ->
  match o with OReply _ | OMissing _ | OFile _ _ | ODir _ _ _ | OCgi _ _ | OCgiFail _ _ | OUp _ _ _ | OUpFail _ _ | OUpSetupFail _ _ => f_cgi c = None | _ => True end ->
  match c' with
  | Some c' => (forall n, after ks (f_id c) (knows c) n -> knows c' n) /\ (f_cgi c' = None -> f_asked c' = false -> f_pfd c' = None)
  | None => forall n, ~ after ks (f_id c) (knows c) n
  end.
Proof.
  intros H NP PO. unfold callback in H. destruct (f_closing c) eqn:FC.
  - destruct o; try discriminate. injection H as <- <- _. intros n. unfold knows. destruct (f_pfd c) as [q|]; cbn; intros X; [|].
    + destruct X as (A & B & [C|C]); [congruence|injection C; congruence].
    + destruct X as (A & [C|C]); [congruence|discriminate].
  - destruct o; try discriminate; cbv zeta in H;
      try (destruct (f_asked c) eqn:AS; [discriminate|]; specialize (NP PO eq_refl); injection H as <- <- _; cbn [after close_opt]; rewrite ?N.eqb_refl; unfold knows; cbn; rewrite ?NP;
           (split; [intros m; intuition (subst; auto; try congruence; try discriminate)|first [discriminate|auto]])).
    + destruct (dir_calls (f_id c) n h) as [k q] eqn:D. destruct (f_asked c) eqn:AS; [discriminate|]. specialize (NP PO eq_refl). injection H as <- <- _. cbn [after]. rewrite N.eqb_refl.
      unfold dir_calls in D. split; [|discriminate]. intros m.
      destruct h as [|[i|]|[i|]|[i|]|i|i]; injection D as <- <-; cbn [probe app after]; rewrite ?N.eqb_refl; unfold knows; cbn; rewrite ?NP; intuition (subst; auto; try congruence; try discriminate).
    + destruct (f_cgi c) eqn:G; [|discriminate]. injection H as <- <- _. unfold knows. cbn. split; [|discriminate]. intros m. destruct (f_pfd c); cbn; intuition (subst; auto; try congruence; try discriminate).
    + destruct (f_ctx c); [|discriminate]. destruct (f_up c); [|discriminate]. injection H as <- <- _. cbn. split; [auto|exact NP].
    + destruct (f_up c); [|discriminate]. injection H as <- <- _. unfold knows. cbn. split; [|auto]. intros m. destruct (f_pfd c); cbn; intuition (subst; auto; try congruence; try discriminate).
    + unfold knows. destruct (f_cgi c); cbn in H; destruct (f_pfd c) as [q|] eqn:PF; cbn in H; try destruct (f_ctx c); cbn in H; injection H as <- <- _; cbn; (split; [|discriminate]); intros m; rewrite ?PF; intuition (subst; auto; try congruence; try discriminate).
Qed.

Lemma fstep_NL o p p' : NL p -> polite_op p o -> fstep o p = Some p' -> NL p'.
Proof.
  intros (D & NI & NZ & NP & HO) PO. unfold fstep. destruct (calls_of o p) as [ks|] eqn:CO; [|discriminate]. destruct (kernels ks (p_open p)) as [t|] eqn:KS; [|discriminate].
  pose proof (kernels_nodup _ _ _ KS D) as D'.
  assert (GEN : match on_conn (op_id o) (p_conns p) with
        | Some (a, c, b) =>
          match callback o c with
          | Some (Some c', _, l) => Some (mkP t (a ++ c' :: b) (l ++ p_late p))
          | Some (None, _, l) => Some (mkP t (a ++ b) (l ++ p_late p))
          | None => None
          end
        | None => None
        end = Some p' -> option_map (fun x => snd (fst x)) (match on_conn (op_id o) (p_conns p) with Some (_, c, _) => callback o c | None => None end) = Some ks -> NL p').
  { destruct (on_conn (op_id o) (p_conns p)) as [[[a c] b]|] eqn:OC; [|discriminate]. apply on_conn_split in OC as (EC & EI & _).
    destruct (callback o c) as [[[c' ks'] l]|] eqn:CB; [|discriminate]. intros H K. cbn in K. injection K as ->.
    assert (PC : match o with OReply _ | OMissing _ | OFile _ _ | ODir _ _ _ | OCgi _ _ | OCgiFail _ _ | OUp _ _ _ | OUpFail _ _ | OUpSetupFail _ _ => f_cgi c = None | _ => True end).
    { assert (IC : In c (p_conns p)) by (rewrite EC; apply in_or_app; right; left; reflexivity).
      destruct o; try exact Logic.I; cbn in PO; apply PO; auto. }
    assert (NPc : f_cgi c = None -> f_asked c = false -> f_pfd c = None).
    { rewrite Forall_forall in NP. apply NP. rewrite EC. apply in_or_app. right. left. reflexivity. }
    pose proof (after_knows _ _ _ _ _ CB NPc PC) as AK. pose proof (callback_mine _ _ _ _ _ CB) as MI.
    assert (HC : forall m, In (m, f_id c) (p_open p) -> knows c m).
    { intros m I. destruct (HO _ _ I) as [Z|(x & Ix & E & Kx)].
      - exfalso. rewrite Forall_forall in NZ. apply (NZ c); [rewrite EC; apply in_or_app; right; left; reflexivity|exact Z].
      - assert (x = c); [|subst; exact Kx]. rewrite EC in Ix, NI. rewrite map_app in NI. cbn in NI. apply NoDup_remove_2 in NI.
        apply in_app_or in Ix as [Ix|[Ix|Ix]]; [|auto|]; exfalso; apply NI; rewrite <- E; apply in_or_app; [left|right]; apply in_map; exact Ix. }
    pose proof (after_sound _ _ _ _ _ KS HC) as AS.
    assert (OT : forall m x, x <> f_id c -> In (m, x) t -> In (m, x) (p_open p)) by (apply (kernels_others _ _ MI _ _ KS)).
    destruct c' as [c'|]; injection H as <-.
    - destruct (callback_keeps _ _ _ _ _ CB) as (KI & KF). destruct AK as (AK & AN).
      split; [exact D'|]. split; [cbn; rewrite EC in NI; rewrite map_app in NI |- *; cbn in NI |- *; rewrite KI; exact NI|].
      split. { cbn. rewrite EC in NZ. apply Forall_app in NZ as [Z1 Z2]. inversion Z2; subst. apply Forall_app. split; [exact Z1|constructor; [congruence|assumption]]. }
      split. { cbn. rewrite EC in NP. apply Forall_app in NP as [Z1 Z2]. inversion Z2; subst. apply Forall_app. split; [exact Z1|constructor; [exact AN|assumption]]. }
      cbn. intros m x I. destruct (N.eq_dec x (f_id c)) as [->|NE].
      + right. exists c'. split; [apply in_or_app; right; left; reflexivity|]. split; [exact KI|]. apply AK, AS, I.
      + destruct (HO _ _ (OT _ _ NE I)) as [Z|(y & Iy & E & Ky)]; [left; exact Z|]. right. exists y. split; [|auto].
        rewrite EC in Iy. apply in_app_or in Iy as [Iy|[Iy|Iy]]; [apply in_or_app; left; exact Iy|congruence|apply in_or_app; right; right; exact Iy].
    - split; [exact D'|]. split; [cbn; rewrite EC in NI; rewrite map_app in NI |- *; cbn in NI; apply NoDup_remove_1 in NI; exact NI|].
      split. { cbn. rewrite EC in NZ. apply Forall_app in NZ as [Z1 Z2]. inversion Z2; subst. apply Forall_app. auto. }
      split. { cbn. rewrite EC in NP. apply Forall_app in NP as [Z1 Z2]. inversion Z2; subst. apply Forall_app. auto. }
      cbn. intros m x I. destruct (N.eq_dec x (f_id c)) as [->|NE]; [exfalso; exact (AK m (AS m I))|].
      destruct (HO _ _ (OT _ _ NE I)) as [Z|(y & Iy & E & Ky)]; [left; exact Z|]. right. exists y. split; [|auto].
      rewrite EC in Iy. apply in_app_or in Iy as [Iy|[Iy|Iy]]; [apply in_or_app; left; exact Iy|congruence|apply in_or_app; right; exact Iy]. }
  destruct o as [id n|id n| | | | | | | | | | | | | |]; try (intros H; apply GEN; [exact H|]; unfold calls_of in CO;
    match goal with |- option_map _ (match on_conn ?i ?q with _ => _ end) = _ => destruct (on_conn i q) as [[[? ?] ?]|]; [exact CO|discriminate] end).
  - destruct ((id =? 0) || mem id (map f_id (p_conns p))) eqn:B; [discriminate|]. apply orb_false_iff in B as [B1 B2]. apply N.eqb_neq in B1.
    intros H. injection H as <-. cbn in CO. injection CO as <-. split; [exact D'|].
    split. { cbn. constructor; [|exact NI]. intros X. apply mem_in in X. congruence. }
    split; [constructor; [exact B1|exact NZ]|]. split; [constructor; [reflexivity|exact NP]|].
    cbn in KS. destruct (mem n (fds (p_open p))); [discriminate|]. injection KS as <-. cbn. intros m x [X|X].
    + injection X as <- <-. right. eexists. split; [left; reflexivity|]. split; [reflexivity|]. left. reflexivity.
    + destruct (HO _ _ X) as [Z|(y & Iy & E)]; [auto|]. right. exists y. auto.
  - destruct ((id =? 0) || mem id (map f_id (p_conns p))) eqn:B; [discriminate|]. intros H. injection H as <-. cbn in CO. injection CO as <-.
    split; [exact D'|]. split; [exact NI|]. split; [exact NZ|]. split; [exact NP|].
    cbn in KS. destruct (mem n (fds (p_open p))); [discriminate|]. injection KS as <-. cbn. rewrite N.eqb_refl. cbn.
    intros m x X. apply drop_in in X as [X _]. destruct (HO _ _ X) as [Z|(y & Iy & E)]; [auto|]. right. exists y. auto.
Qed.

Lemma serves_NL ok t os p : system_only t -> serves ok t os p -> NL p.
Proof.
  intros (D & Z) H. induction H as [|os o p p' H IH _ P S].
  - split; [exact D|]. split; [constructor|]. split; [constructor|]. split; [constructor|]. intros n id I. left. rewrite Forall_forall in Z. exact (Z _ I).
  - eapply fstep_NL; eauto.
Qed.

(** Whatever the connections of a process do, in whatever order, if clients wait
    for the application at work on their request, a descriptor
    that is open is the process's own or one of the two its connection still
    has to close: none is left when a connection is gone. *)
Theorem c65_no_leak_partial t os p n id : system_only t -> serves (fun _ => True) t os p -> In (n, id) (p_open p) ->
  id = 0 \/ exists c, In c (p_conns p) /\ f_id c = id /\ (n = f_fd c \/ f_pfd c = Some n).
Proof. intros S H I. destruct (serves_NL _ _ _ _ S H) as (_ & _ & _ & _ & X). exact (X n id I). Qed.

(** ** only one's own descriptors are closed *)
Definition holds (c : fconn) (t : list (N * N)) : Prop :=
  In (f_fd c, f_id c) t /\ forall n, f_pfd c = Some n -> In (n, f_id c) t /\ n <> f_fd c.
Definition OW (p : proc) : Prop := Forall (fun c => holds c (p_open p)) (p_conns p).

Lemma own_others id ks : Forall (mine id) ks -> forall t t', NoDup (fds t) -> closes_own ks t -> kernels ks t = Some t' ->
  forall m x, x <> id -> In (m, x) t -> In (m, x) t'.
Proof.
  induction 1 as [|k r K0 _ IH]; intros t t' D; cbn [kernels closes_own]; [intros _ H; injection H as <-; auto|].
  destruct (kernel k t) as [t1|] eqn:K; [|discriminate]. intros [O C] E m x NE I.
  assert (D1 : NoDup (fds t1)) by (apply (kernels_nodup [k] t t1); [cbn [kernels]; rewrite K; reflexivity|exact D]).
  apply (IH _ _ D1 C E m x NE). destruct k as [i n|i n]; cbn in K, K0.
  - destruct (mem n (fds t)); [discriminate|]. injection K as <-. right. exact I.
  - injection K as <-. apply drop_in. split; [exact I|]. cbn. intros ->. apply NE. rewrite <- K0. exact (owner_unique t n x i D I O).
Qed.

Lemma kernel_open id n t t' : kernel (COpen id n) t = Some t' -> ~ In n (fds t) /\ t' = (n, id) :: t.
Proof. cbn. destruct (mem n (fds t)) eqn:M; [discriminate|]. intros H. injection H as <-. split; [|reflexivity]. intros X. apply mem_in in X. congruence. Qed.

Lemma kernels_open id n r t t' : kernels (COpen id n :: r) t = Some t' -> ~ In n (fds t) /\ kernels r ((n, id) :: t) = Some t'.
Proof. cbn [kernels]. destruct (kernel (COpen id n) t) as [t1|] eqn:E; [|discriminate]. apply kernel_open in E as [F ->]. auto. Qed.
Lemma some_inj A (a b : A) : Some a = Some b -> a = b. Proof. congruence. Qed.
Ltac table := repeat (match goal with
  | H : kernels (COpen _ _ :: _) _ = Some _ |- _ => let F := fresh "F" in apply kernels_open in H as [F H]
  | H : kernels (CClose _ _ :: _) _ = Some _ |- _ => cbn [kernels kernel] in H
  | H : kernels [] _ = Some _ |- _ => cbn [kernels] in H; apply some_inj in H; subst
  | H : Some _ = Some _ |- _ => apply some_inj in H; subst
  end).

Lemma callback_own o c c' ks l t t' : callback o c = Some (c', ks, l) -> ~ lists o -> holds c t ->
  (f_cgi c = None -> f_asked c = false -> f_pfd c = None) ->
  match o with OReply _ | OMissing _ | OFile _ _ | ODir _ _ _ | OCgi _ _ | OCgiFail _ _ | OUp _ _ _ | OUpFail _ _ | OUpSetupFail _ _ => f_cgi c = None | _ => True end ->
  kernels ks t = Some t' -> closes_own ks t /\ match c' with Some c' => holds c' t' | None => True end.
Proof.
  intros H NL (F1 & F2) NP PO KS. pose proof (in_fds _ _ _ F1) as FI. unfold callback in H. destruct (f_closing c) eqn:FC.
  - destruct o; try discriminate. injection H as <- <- _. split; [|exact Logic.I]. destruct (f_pfd c) as [q|]; cbn.
    + destruct (F2 q eq_refl) as [X Y]. split; [exact X|]. split; [|exact Logic.I]. apply drop_in. split; [exact F1|]. cbn. congruence.
    + auto.
  - assert (KO : forall n t1, kernel (COpen (f_id c) n) t = Some t1 -> n <> f_fd c).
    { intros n t1 E. apply kernel_open in E as [E _]. intros ->. contradiction. }
    destruct o; try discriminate; cbv zeta in H;
      try (destruct (f_asked c) eqn:AS; [discriminate|]; specialize (NP PO eq_refl); injection H as <- <- _; unfold holds; cbn [f_fd f_pfd f_id asked set_fpfd set_fcgi set_fup]; rewrite ?NP).
    + table. split; [exact Logic.I|]. split; [exact F1|discriminate].
    + table. split; [exact Logic.I|]. split; [exact F1|discriminate].
    + table. split; [cbn; destruct (mem n (fds t)); auto|]. split; [right; exact F1|]. intros m X. injection X as <-. split; [left; reflexivity|]. intros ->. contradiction.
    + destruct (dir_calls (f_id c) n h) as [k q] eqn:D. destruct (f_asked c) eqn:AS; [discriminate|]. specialize (NP PO eq_refl). injection H as <- <- _.
      unfold holds; cbn [f_fd f_pfd f_id asked set_fpfd]. unfold dir_calls in D.
      destruct h as [|[i|]|[i|]|[i|]|i|i]; try (cbn in NL; tauto); injection D as <- <-; cbn [probe app] in KS |- *; table.
      all: repeat match goal with F : ~ In _ (fds (_ :: _)) |- _ => cbn [fds map fst In] in F end.
      all: cbn [closes_own kernel].
      all: repeat match goal with |- context[mem ?a ?b] => destruct (mem a b) end.
      all: split; [repeat split; cbn [In]; auto|split; [|intros z X; injection X as <-; split]].
      all: try (intros ->; cbn [fds map fst In] in *; tauto).
      all: rewrite ?drop_in; cbn [fst In]; repeat split; auto.
      all: intros QQ; rewrite QQ in FI; cbn [fds map fst In] in *; tauto.
    + table. split; [cbn; destruct (mem n (fds t)); auto|]. split; [right; exact F1|]. intros m X. injection X as <-. split; [left; reflexivity|]. intros ->. contradiction.
    + table. split; [cbn; destruct (mem n (fds t)); cbn; auto|]. split; [|discriminate]. apply drop_in. split; [right; exact F1|]. cbn. intros QQ. rewrite QQ in FI. contradiction.
    + destruct (f_cgi c); [|discriminate]. injection H as <- <- _. unfold holds. cbn. destruct (f_pfd c) as [q|]; cbn in *.
      * destruct (F2 q eq_refl) as [X Y]. injection KS as <-. split; [auto|]. split; [|discriminate]. apply drop_in. split; [exact F1|]. cbn. congruence.
      * injection KS as <-. split; [auto|]. split; [exact F1|discriminate].
    + table. split; [cbn; destruct (mem n (fds t)); auto|]. split; [right; exact F1|]. intros m X. injection X as <-. split; [left; reflexivity|]. intros ->. contradiction.
    + table. split; [cbn; destruct (mem n (fds t)); cbn; auto|]. split; [|discriminate]. apply drop_in. split; [right; exact F1|]. cbn. intros QQ. rewrite QQ in FI. contradiction.
    + table. split; [cbn; destruct (mem n (fds t)); auto|]. split; [right; exact F1|]. intros m X. injection X as <-. split; [left; reflexivity|]. intros ->. contradiction.
    + destruct (f_ctx c); [|discriminate]. destruct (f_up c); [|discriminate]. injection H as <- <- _. cbn in KS. injection KS as <-. split; [exact Logic.I|]. split; assumption.
    + destruct (f_up c); [|discriminate]. injection H as <- <- _. unfold holds. cbn. destruct (f_pfd c) as [q|]; cbn in *.
      * destruct (F2 q eq_refl) as [X Y]. injection KS as <-. split; [auto|]. split; [|discriminate]. apply drop_in. split; [exact F1|]. cbn. congruence.
      * injection KS as <-. split; [auto|]. split; [exact F1|discriminate].
    + unfold holds. destruct (f_cgi c); cbn in H; destruct (f_pfd c) as [q|] eqn:PF; cbn in H; try destruct (f_ctx c); cbn in H; injection H as <- <- _; cbn in *; injection KS as <-;
        try (destruct (F2 q eq_refl) as [X Y]); (split; [auto|]); (split; [rewrite ?drop_in; cbn; auto|rewrite ?PF; auto; try discriminate]).
Qed.

Lemma calls_callback o p ks : calls_of o p = Some ks -> (forall id n, o <> OAccept id n) -> (forall id n, o <> OAcceptFail id n) ->
  exists a c b c' l, on_conn (op_id o) (p_conns p) = Some (a, c, b) /\ callback o c = Some (c', ks, l).
Proof.
  intros H N1 N2. unfold calls_of in H.
  assert (G : match on_conn (op_id o) (p_conns p) with Some (_, c, _) => option_map (fun x => snd (fst x)) (callback o c) | None => None end = Some ks).
  { destruct o as [id n|id n| | | | | | | | | | | | | |]; try exact H; [exfalso; exact (N1 id n eq_refl)|exfalso; exact (N2 id n eq_refl)]. }
  destruct (on_conn (op_id o) (p_conns p)) as [[[a c] b]|]; [|discriminate]. destruct (callback o c) as [[[c' k] l]|] eqn:CB; [|discriminate].
  cbn in G. injection G as ->. eauto 10.
Qed.

Lemma polite_conn o p a c b : polite_op p o -> on_conn (op_id o) (p_conns p) = Some (a, c, b) ->
  match o with OReply _ | OMissing _ | OFile _ _ | ODir _ _ _ | OCgi _ _ | OCgiFail _ _ | OUp _ _ _ | OUpFail _ _ | OUpSetupFail _ _ => f_cgi c = None | _ => True end.
Proof.
  intros PO OC. apply on_conn_split in OC as (EC & EI & _). assert (IC : In c (p_conns p)) by (rewrite EC; apply in_or_app; right; left; reflexivity).
  destruct o; try exact Logic.I; cbn in PO; apply PO; auto.
Qed.

Lemma fstep_OW o p p' : NL p -> OW p -> polite_op p o -> ~ lists o -> fstep o p = Some p' ->
  (forall ks, calls_of o p = Some ks -> closes_own ks (p_open p)) /\ OW p'.
Proof.
  intros (D & NI & NZ & NP & HO) W PO NLI. unfold fstep. destruct (calls_of o p) as [ks|] eqn:CO; [|discriminate]. destruct (kernels ks (p_open p)) as [t|] eqn:KS; [|discriminate].
  assert (GEN : (forall id n, o <> OAccept id n) -> (forall id n, o <> OAcceptFail id n) ->
        match on_conn (op_id o) (p_conns p) with
        | Some (a, c, b) =>
          match callback o c with
          | Some (Some c', _, l) => Some (mkP t (a ++ c' :: b) (l ++ p_late p))
          | Some (None, _, l) => Some (mkP t (a ++ b) (l ++ p_late p))
          | None => None
          end
        | None => None
        end = Some p' -> closes_own ks (p_open p) /\ OW p').
  { intros N1 N2. destruct (calls_callback _ _ _ CO N1 N2) as (a & c & b & c' & l & OC & CB). rewrite OC, CB.
    pose proof (polite_conn _ _ _ _ _ PO OC) as PC. apply on_conn_split in OC as (EC & EI & _).
    assert (IC : In c (p_conns p)) by (rewrite EC; apply in_or_app; right; left; reflexivity).
    pose proof (proj1 (Forall_forall _ _) NP _ IC) as NPc. pose proof (proj1 (Forall_forall _ _) W _ IC) as Wc.
    destruct (callback_own _ _ _ _ _ _ _ CB NLI Wc NPc PC KS) as (CL & HD).
    assert (OT : forall x, In x (a ++ b) -> holds x t).
    { intros x Ix. assert (Ixp : In x (p_conns p)) by (rewrite EC; apply in_app_or in Ix; apply in_or_app; cbn; tauto).
      assert (NX : f_id x <> f_id c).
      { rewrite EC, map_app in NI. cbn in NI. apply NoDup_remove_2 in NI. intros E. apply NI. rewrite <- map_app, <- E. apply in_map. exact Ix. }
      pose proof (proj1 (Forall_forall _ _) W _ Ixp) as (X1 & X2). pose proof (own_others _ _ (callback_mine _ _ _ _ _ CB) _ _ D CL KS) as OO.
      split; [apply OO; assumption|]. intros n E. destruct (X2 n E). split; [apply OO; assumption|assumption]. }
    intros H. split; [exact CL|]. destruct c' as [c'|]; injection H as <-; unfold OW; cbn; apply Forall_forall; intros x Ix.
    - apply in_app_or in Ix as [Ix|[<-|Ix]]; [apply OT, in_or_app; auto|exact HD|apply OT, in_or_app; auto].
    - apply OT. exact Ix. }
  destruct o as [id n|id n| | | | | | | | | | | | | |];
    try (intros H; destruct (GEN ltac:(discriminate) ltac:(discriminate) H) as (G1 & G2); split; [intros ks' X; injection X as <-; exact G1|exact G2]).
  - clear GEN. destruct (_ || _); [discriminate|]. intros H. injection H as <-. cbn in CO. injection CO as <-. table.
    split; [intros ks X; injection X as <-; cbn; destruct (mem n _); auto|]. unfold OW. cbn. constructor.
    + split; [left; reflexivity|discriminate].
    + eapply Forall_impl; [|exact W]. intros c (X1 & X2). split; [right; exact X1|]. intros m E. destruct (X2 m E). split; [right; assumption|assumption].
  - clear GEN. destruct (_ || _); [discriminate|]. intros H. injection H as <-. cbn in CO. injection CO as <-. table.
    split; [intros ks X; injection X as <-; cbn; destruct (mem n _); cbn; auto|]. unfold OW. cbn. rewrite N.eqb_refl. cbn.
    eapply Forall_impl; [|exact W]. intros c (X1 & X2).
    assert (G : forall m, In (m, f_id c) (p_open p) -> In (m, f_id c) (drop n (p_open p))).
    { intros m I. apply drop_in. split; [exact I|]. cbn. intros ->. apply F. eapply in_fds; eauto. }
    split; [apply G; exact X1|]. intros m E. destruct (X2 m E). split; [apply G; assumption|assumption].
Qed.

Lemma serves_OW t os p : system_only t -> serves (fun o => ~ lists o) t os p -> OW p.
Proof.
  intros S H. induction H as [|os o p p' H IH A P ST]; [constructor|]. eapply fstep_OW; eauto. eapply serves_NL; eauto.
Qed.

(** In a process that lists no directory, every close(2) is of a descriptor that is
    open for the connection that closes it, so all the others keep theirs. *)
Theorem c65_closes_partial t os p o p' ks : system_only t -> serves (fun o => ~ lists o) t os p ->
  ~ lists o -> polite_op p o -> fstep o p = Some p' -> calls_of o p = Some ks ->
  closes_own ks (p_open p) /\ (forall c, In c (p_conns p') -> In (f_fd c, f_id c) (p_open p')).
Proof.
  intros S H A P ST K. pose proof (serves_NL _ _ _ _ S H) as N. pose proof (serves_OW _ _ _ S H) as W. destruct (fstep_OW _ _ _ N W P A ST) as (G1 & G2).
  split; [apply G1; exact K|]. intros c I. pose proof (proj1 (Forall_forall _ _) G2 _ I) as (X & _). exact X.
Qed.

(** ** events are on one's own descriptors *)
Definition wired (c : fconn) : Prop :=
  (forall n, f_cgi c = Some n -> f_pfd c = Some n) /\ (forall n, f_up c = Some n -> f_pfd c = Some n) /\
  (f_cgi c = None \/ f_up c = None) /\ (f_asked c = false -> f_up c = None).
Lemma callback_wired o c c' ks l : callback o c = Some (Some c', ks, l) -> ~ app_ends o -> wired c ->
  match o with OReply _ | OMissing _ | OFile _ _ | ODir _ _ _ | OCgi _ _ | OCgiFail _ _ | OUp _ _ _ | OUpFail _ _ | OUpSetupFail _ _ => f_cgi c = None | _ => True end ->
  wired c'.
Proof.
  intros H NE (W1 & W2 & W3 & AU) PO. unfold callback in H. destruct (f_closing c); [destruct o; discriminate|].
  destruct o; try discriminate; cbv zeta in H;
    try (destruct (f_asked c) eqn:AS; [discriminate|]; specialize (AU eq_refl); injection H as <- <- _; unfold wired; cbn; rewrite ?PO, ?AU;
         repeat split; auto; try discriminate; try congruence).
  - destruct (dir_calls (f_id c) n h) as [k q]. destruct (f_asked c) eqn:AS; [discriminate|]. specialize (AU eq_refl). injection H as <- <- _. unfold wired. cbn. rewrite PO, AU.
    repeat split; auto; discriminate.
  - exfalso. apply NE. exact Logic.I.
  - destruct (f_ctx c); [|discriminate]. destruct (f_up c); [|discriminate]. injection H as <- <- _. unfold wired. cbn. repeat split; auto; discriminate.
  - destruct (f_up c) eqn:U; [|discriminate]. injection H as <- <- _. unfold wired. cbn. destruct W3 as [W3|W3]; [|discriminate]. rewrite W3. repeat split; auto; discriminate.
  - unfold wired. destruct (f_cgi c) eqn:G; cbn in H; destruct (f_pfd c) as [q|] eqn:PF; cbn in H; try destruct (f_ctx c); cbn in H; injection H as <- <- _; cbn; rewrite ?G; repeat split; auto; discriminate.
Qed.

Lemma fstep_wired o p p' : Forall wired (p_conns p) -> polite_op p o -> ~ app_ends o -> fstep o p = Some p' -> Forall wired (p_conns p').
Proof.
  intros W PO NE. unfold fstep. destruct (calls_of o p) as [ks|] eqn:CO; [|discriminate]. destruct (kernels ks (p_open p)) as [t|] eqn:KS; [|discriminate].
  assert (GEN : (forall id n, o <> OAccept id n) -> (forall id n, o <> OAcceptFail id n) ->
        match on_conn (op_id o) (p_conns p) with
        | Some (a, c, b) =>
          match callback o c with
          | Some (Some c', _, l) => Some (mkP t (a ++ c' :: b) (l ++ p_late p))
          | Some (None, _, l) => Some (mkP t (a ++ b) (l ++ p_late p))
          | None => None
          end
        | None => None
        end = Some p' -> Forall wired (p_conns p')).
  { intros N1 N2. destruct (calls_callback _ _ _ CO N1 N2) as (a & c & b & c' & l & OC & CB). rewrite OC, CB.
    pose proof (polite_conn _ _ _ _ _ PO OC) as PC. apply on_conn_split in OC as (EC & EI & _). rewrite EC in W. apply Forall_app in W as [Wa Wb]. inversion Wb; subst.
    intros H. destruct c' as [c'|]; injection H as <-; cbn; apply Forall_app; split; auto. constructor; [|assumption]. eapply callback_wired; eauto. }
  destruct o as [id n|id n| | | | | | | | | | | | | |]; try (intros H; exact (GEN ltac:(discriminate) ltac:(discriminate) H)).
  - destruct (_ || _); [discriminate|]. intros H. injection H as <-. constructor; [|exact W]. repeat split; cbn; auto; discriminate.
  - destruct (_ || _); [discriminate|]. intros H. injection H as <-. exact W.
Qed.

Lemma serves_mono (P Q : op -> Prop) t os p : (forall o, P o -> Q o) -> serves P t os p -> serves Q t os p.
Proof. intros I H. induction H; econstructor; eauto. Qed.

(** If moreover no application finishes a reply, every event registered with
    libevent is on a descriptor that is open for the connection the event is
    for. *)
Theorem c65_events_partial t os p n id : system_only t -> serves (fun o => ~ lists o /\ ~ app_ends o) t os p -> In (n, id) (events p) -> In (n, id) (p_open p).
Proof.
  intros S H I. assert (W : Forall wired (p_conns p)).
  { clear I S. induction H as [|os o p p' H IH (A1 & A2) P ST]; [constructor|]. eapply fstep_wired; eauto. }
  apply (serves_mono _ (fun o => ~ lists o)) in H; [|tauto]. pose proof (serves_OW _ _ _ S H) as O.
  unfold events in I. apply in_flat_map in I as (c & Ic & I). pose proof (proj1 (Forall_forall _ _) W _ Ic) as (W1 & W2 & _). pose proof (proj1 (Forall_forall _ _) O _ Ic) as (O1 & O2).
  destruct I as [I|I]; [injection I as <- <-; exact O1|]. apply in_app_or in I as [I|I].
  - destruct (f_cgi c) as [m|]; [|destruct I]. destruct I as [I|[]]. injection I as <- <-. apply O2. auto.
  - destruct (f_up c) as [m|]; [|destruct I]. destruct I as [I|[]]. injection I as <- <-. apply O2. auto.
Qed.

(** And unless closing the TLS connection to an upstream has to wait, no event is
    left behind for freed memory. *)
Theorem c65_late_partial t os p : serves (fun o => ~ up_waits o) t os p -> p_late p = [].
Proof.
  intros H. induction H as [|os o p p' H IH A P ST]; [reflexivity|]. revert ST. unfold fstep. destruct (calls_of o p) as [ks|]; [|discriminate]. destruct (kernels ks (p_open p)) as [t'|]; [|discriminate].
  assert (GEN : match on_conn (op_id o) (p_conns p) with
        | Some (a, c, b) =>
          match callback o c with
          | Some (Some c', _, l) => Some (mkP t' (a ++ c' :: b) (l ++ p_late p))
          | Some (None, _, l) => Some (mkP t' (a ++ b) (l ++ p_late p))
          | None => None
          end
        | None => None
        end = Some p' -> p_late p' = []).
  { destruct (on_conn (op_id o) (p_conns p)) as [[[a c] b]|]; [|discriminate]. destruct (callback o c) as [[[c' k] l]|] eqn:CB; [|discriminate].
    assert (l = []).
    { unfold callback in CB. destruct (f_closing c); [destruct o; try discriminate; injection CB as _ _ <-; reflexivity|].
      destruct o; try discriminate; cbv zeta in CB; try (destruct (f_asked c); [discriminate|]; injection CB as _ _ <-; reflexivity).
      - destruct (dir_calls (f_id c) n h). destruct (f_asked c); [discriminate|]. injection CB as _ _ <-. reflexivity.
      - destruct (f_cgi c); [|discriminate]. injection CB as _ _ <-. reflexivity.
      - destruct (f_ctx c); [|discriminate]. destruct (f_up c); [|discriminate]. injection CB as _ _ <-. reflexivity.
      - destruct (f_up c); [|discriminate]. injection CB as _ _ <-. reflexivity.
      - destruct wait; [exfalso; apply A; exact Logic.I|].
        destruct (f_cgi c); cbn in CB; destruct (f_pfd c) as [q|]; cbn in CB; try destruct (f_ctx c); cbn in CB; injection CB as _ _ <-; reflexivity. }
    subst l. destruct c'; intros X; injection X as <-; exact IH. }
  destruct o; try exact GEN; (destruct (_ || _); [discriminate|]; intros X; injection X as <-; exact IH).
Qed.

(** ** where it fails *)
Fixpoint lowest_all (os : list op) (p : proc) : Prop :=
  match os with
  | [] => True
  | o :: r =>
    match calls_of o p with Some (COpen _ n :: _) => forall m, m < n -> In m (fds (p_open p)) | _ => True end /\
    match fstep o p with Some p' => lowest_all r p' | None => True end
  end.
Definition std : list (N * N) := [(0, 0); (1, 0); (2, 0); (3, 0)].
Lemma std_system : system_only std.
Proof. split; [repeat constructor; cbn; intuition discriminate|repeat constructor]. Qed.
Lemma fruns_serves t : forall os0 os p p', serves (fun _ => True) t os0 p -> fruns os p = Some p' ->
  (fix pol (os : list op) (p : proc) : Prop := match os with [] => True | o :: r => polite_op p o /\ match fstep o p with Some p' => pol r p' | None => True end end) os p ->
  serves (fun _ => True) t (os0 ++ os) p'.
Proof.
  intros os0 os. revert os0. induction os as [|o r IH]; intros os0 p p' H; cbn [fruns].
  - intros E _. injection E as <-. rewrite app_nil_r. exact H.
  - destruct (fstep o p) as [p1|] eqn:S; [|discriminate]. intros E (P1 & P2). replace (os0 ++ o :: r) with ((os0 ++ [o]) ++ r) by (rewrite <- app_assoc; reflexivity).
    eapply IH; [|exact E|exact P2]. eapply s_op; eauto.
Qed.

(** Connection 1 has a directory listed; connection 2 arrives and gets the number
    of the directory's descriptor; when connection 1 ends, the socket of
    connection 2 is closed. *)
Definition listed : list op := [OAccept 1 4; ODir 1 5 (DList None); OAccept 2 5; OClose 1 false; OCloseEv 1].
Theorem c65_listing_refuted : exists p c, serves (fun _ => True) std listed p /\ lowest_all listed (mkP std [] []) /\
  p_conns p = [c] /\ f_id c = 2 /\ f_closing c = false /\ ~ In (f_fd c) (fds (p_open p)).
Proof.
  eexists. eexists. split.
  - apply (fruns_serves std [] listed (mkP std [] [])); [constructor|vm_compute; reflexivity|cbn; intuition (subst; cbn; auto)].
  - split; [cbn; intuition lia|]. split; [reflexivity|]. split; [reflexivity|]. split; [reflexivity|]. cbn. intuition discriminate.
Qed.
(** Connection 1 got the whole reply of an application, which is still being sent
    to its client; connection 2 arrives and gets the number of the FastCGI
    socket: events of connection 1 fire when connection 2 is readable. *)
Definition replied_fcgi : list op := [OAccept 1 4; OCgi 1 5; OCgiEnd 1; OAccept 2 5].
Theorem c65_fastcgi_refuted : exists p, serves (fun _ => True) std replied_fcgi p /\ lowest_all replied_fcgi (mkP std [] []) /\
  In (5, 1) (events p) /\ In (5, 2) (p_open p) /\ ~ In (5, 1) (p_open p).
Proof.
  eexists. split.
  - apply (fruns_serves std [] replied_fcgi (mkP std [] [])); [constructor|vm_compute; reflexivity|cbn; intuition (subst; cbn; auto)].
  - split; [cbn; intuition lia|]. cbn. intuition discriminate.
Qed.
(** Closing the TLS connection to an upstream has to wait: the event left behind
    is on a closed descriptor, which connection 2 gets, and its context is freed. *)
Definition slow_up : list op := [OAccept 1 4; OUp 1 5 true; OClose 1 true; OCloseEv 1; OAccept 2 4; OFile 2 5].
Theorem c65_late_refuted : exists p, serves (fun _ => True) std slow_up p /\ lowest_all slow_up (mkP std [] []) /\
  In 5 (p_late p) /\ In (5, 2) (p_open p).
Proof.
  eexists. split.
  - apply (fruns_serves std [] slow_up (mkP std [] [])); [constructor|vm_compute; reflexivity|cbn; intuition (subst; cbn; auto; try discriminate)].
  - split; [cbn; intuition lia|]. cbn. intuition discriminate.
Qed.
(** Politeness is needed for the descriptors not to leak. *)
Definition greedy : list op := [OAccept 1 4; OCgi 1 5; OCgi 1 6; OClose 1 false; OCloseEv 1].
Theorem c65_leak_refuted : exists p, fruns greedy (mkP std [] []) = Some p /\ p_conns p = [] /\ In (5, 1) (p_open p).
Proof. eexists. split; [vm_compute; reflexivity|]. split; [reflexivity|]. left. reflexivity. Qed.

(** the hypotheses of the positive theorems: three connections, a file, an index,
    an application at work, an upstream *)
Definition busy : list op :=
  [OAccept 1 4; OFile 1 5; OAccept 2 6; ODir 2 7 (DIndex 8); OClose 1 false; OAccept 3 7; OCloseEv 1; OCgi 3 4; OClose 2 false; OAccept 4 5; OUp 4 9 true; OCloseEv 2].
Example c65_case : exists p, serves (fun o => ~ lists o /\ ~ app_ends o) std busy p /\ length (p_conns p) = 2%nat /\ length (events p) = 4%nat /\ length (p_open p) = 8%nat.
Proof.
  assert (X : exists p, fruns busy (mkP std [] []) = Some p /\ length (p_conns p) = 2%nat /\ length (events p) = 4%nat /\ length (p_open p) = 8%nat).
  { eexists. split; [vm_compute; reflexivity|]. vm_compute. auto. }
  destruct X as (p & R & X). exists p. split; [|exact X]. clear X.
  assert (G : serves (fun _ => True) std ([] ++ busy) p).
  { apply (fruns_serves std [] busy (mkP std [] [])); [constructor|exact R|cbn; intuition (subst; cbn in *; auto; try discriminate)]. }
  cbn [app] in G. assert (F : Forall (fun o => ~ lists o /\ ~ app_ends o) busy) by (repeat constructor; cbn; tauto). clear R.
  induction G as [|os o q q' G IH _ P ST]; [constructor|]. apply Forall_app in F as [F1 F2]. inversion F2; subst. econstructor; eauto.
Qed.

Print Assumptions c65_no_leak_partial.
Print Assumptions c65_closes_partial.
Print Assumptions c65_events_partial.
Print Assumptions c65_listing_refuted.
