(** Correctness of the two-way search: maximal suffixes, the critical factorization
    theorem, and the search loop. *)
From Verif Require Import Base BaseLemmas TwoWay.
Local Open Scope nat_scope.

Definition at_ (n : list N) (i : nat) : N := nth i n 0%N.
Lemma rd_at n i : i < length n -> rd n i = OK (at_ n i).
Proof. intros H. unfold rd, at_. destruct (nth_error n i) eqn:E; [erewrite nth_error_nth by exact E; reflexivity|]. apply nth_error_None in E. lia. Qed.
Lemma nth_firstn' (l : list N) k i : i < k -> nth i (firstn k l) 0%N = nth i l 0%N.
Proof. revert l i. induction k as [|k IH]; intros l i H; [lia|]. destruct l; [reflexivity|]. destruct i; [reflexivity|]. cbn. apply IH. lia. Qed.
Lemma skipn_at n i : i < length n -> skipn i n = at_ n i :: skipn (S i) n.
Proof.
  revert i. induction n as [|x n IH]; intros i H; [cbn in H; lia|]. destruct i; [reflexivity|]. cbn [skipn]. rewrite IH by (cbn in H; lia). reflexivity.
Qed.
Lemma at_skipn n s i : at_ (skipn s n) i = at_ n (s + i).
Proof. unfold at_. revert n. induction s; intros n; [reflexivity|]. destruct n; [destruct i; reflexivity|]. apply IHs. Qed.

Section Order.
  Context (gt : N -> N -> bool).
  Context (gt_irr : forall a, gt a a = false) (gt_tr : forall a b c, gt a b = true -> gt b c = true -> gt a c = true)
          (gt_tot : forall a b, a <> b -> gt a b = true \/ gt b a = true).

  Inductive lt : list N -> list N -> Prop :=
  | lt_nil y r : lt [] (y :: r)
  | lt_hd x y a b : gt y x = true -> lt (x :: a) (y :: b)
  | lt_tl x a b : lt a b -> lt (x :: a) (x :: b).

  Lemma lt_irrefl a : ~ lt a a.
  Proof. induction a as [|x a IH]; intros H; inversion H; subst; [congruence|auto]. Qed.
  Lemma lt_trans a b c : lt a b -> lt b c -> lt a c.
  Proof.
    intros H. revert c. induction H as [y r|x y a b G|x a b H IH]; intros c K; inversion K; subst; try (constructor; eauto; fail).
  Qed.
  Lemma lt_total a b : a = b \/ lt a b \/ lt b a.
  Proof.
    revert b. induction a as [|x a IH]; intros [|y b]; [auto|right; left; constructor|right; right; constructor|].
    destruct (N.eq_dec x y) as [->|D].
    - destruct (IH b) as [->|[H|H]]; auto using lt_tl.
    - destruct (gt_tot x y D); [right; right|right; left]; constructor; assumption.
  Qed.
  Lemma lt_app x a b : lt (x ++ a) (x ++ b) <-> lt a b.
  Proof.
    induction x as [|c x IH]; [tauto|]. cbn. split; intros H.
    - inversion H; subst; [congruence|]. apply IH. assumption.
    - apply lt_tl. apply IH. exact H.
  Qed.

  Context (n : list N).
  Let l := length n.
  Definition sf (s : nat) : list N := skipn s n.

  Lemma lt_common g s t : s + g <= l -> t + g <= l -> (forall j, j < g -> at_ n (s + j) = at_ n (t + j)) ->
    lt (sf (s + g)) (sf (t + g)) -> lt (sf s) (sf t).
  Proof.
    revert s t. induction g as [|g IH]; intros s t A B E H; [rewrite !Nat.add_0_r in H; exact H|].
    unfold sf. rewrite (skipn_at n s), (skipn_at n t) by (unfold l in *; lia).
    pose proof (E 0 ltac:(lia)) as E0. rewrite !Nat.add_0_r in E0. rewrite E0.
    apply lt_tl. apply (IH (S s) (S t)); [lia|lia| |rewrite !Nat.add_succ_comm; exact H].
    intros j J. rewrite !Nat.add_succ_comm. apply E. lia.
  Qed.
  Lemma lt_index g s t : s + g < l -> t + g < l -> (forall j, j < g -> at_ n (s + j) = at_ n (t + j)) ->
    gt (at_ n (t + g)) (at_ n (s + g)) = true -> lt (sf s) (sf t).
  Proof.
    intros A B E G. apply (lt_common g); [lia|lia|exact E|]. unfold sf.
    rewrite (skipn_at n (s + g)), (skipn_at n (t + g)) by (unfold l in *; lia). constructor. exact G.
  Qed.
  Lemma lt_prefix s t : t < s <= l -> (forall j, s + j < l -> at_ n (s + j) = at_ n (t + j)) -> lt (sf s) (sf t).
  Proof.
    intros H E. apply (lt_common (l - s)); [lia|lia|intros j J; apply E; lia|].
    unfold sf. rewrite skipn_all2 by (unfold l in *; lia). rewrite (skipn_at n (t + (l - s))) by (unfold l in *; lia). constructor.
  Qed.

  Definition beaten (s : nat) : Prop := exists t, t < l /\ lt (sf s) (sf t).
  Definition top (a : nat) : Prop := a < l /\ forall s, s < l -> s <> a -> lt (sf s) (sf a).
  Lemma sf_len s : length (sf s) = l - s.
  Proof. unfold sf. rewrite skipn_length. reflexivity. Qed.
  Lemma has_top : forall k, 0 < k <= l -> exists M, M < k /\ forall s, s < k -> s <> M -> lt (sf s) (sf M).
  Proof.
    induction k as [|k IH]; intros H; [lia|]. destruct k as [|k]. { exists 0. split; [lia|]. intros; lia. }
    destruct IH as (M & M1 & M2); [lia|]. destruct (lt_total (sf (S k)) (sf M)) as [E|[E|E]].
    - apply (f_equal (@length N)) in E. rewrite !sf_len in E. lia.
    - exists M. split; [lia|]. intros s A B. destruct (Nat.eq_dec s (S k)) as [->|D]; [exact E|apply M2; lia].
    - exists (S k). split; [lia|]. intros s A B. destruct (Nat.eq_dec s M) as [->|D]; [exact E|]. eapply lt_trans; [apply M2; lia|exact E].
  Qed.
  Lemma top_of a : 0 < l -> (forall s, s < l -> s <> a -> beaten s) -> top a.
  Proof.
    intros L H. destruct (has_top l ltac:(lia)) as (M & M1 & M2).
    assert (M = a).
    { destruct (Nat.eq_dec M a) as [|D]; [assumption|]. destruct (H M M1 D) as (t & T1 & T2). exfalso.
      destruct (Nat.eq_dec t M) as [->|D2]; [eapply lt_irrefl; eauto|]. apply (lt_irrefl (sf M)). eapply lt_trans; [exact T2|apply M2; auto]. }
    subst. split; auto.
  Qed.

  (** the loop that finds it; [b] is [jp] + 1 and [t] is [k] - 1 *)
  Definition X i := at_ n i.
  Record Inv (a b t p q : nat) : Prop := {
    i_q : 1 <= q; i_p : 1 <= p; i_b : b = a + q * p; i_t : t < p; i_l : b + t <= l;
    i_per : forall i, a <= i -> i + p < b + t -> X i = X (i + p);
    i_L : forall e, 0 < e < p -> exists g, e + g < p /\ (forall j, j < g -> X (a + e + j) = X (a + j)) /\ gt (X (a + g)) (X (a + e + g)) = true;
    i_beat : forall s, s < b -> s <> a -> beaten s }.

  Lemma per_mul a p B : (forall i, a <= i -> i + p < B -> X i = X (i + p)) -> forall r i, a <= i -> i + r * p < B -> X i = X (i + r * p).
  Proof.
    intros H. induction r as [|r IH]; intros i A C; [f_equal; lia|]. rewrite (H i A) by lia. rewrite (IH (i + p)) by lia. f_equal. lia.
  Qed.

  Lemma inv_init : 0 < l -> Inv 0 1 0 1 1.
  Proof. intros L. constructor; try lia; intros; lia. Qed.

  Lemma inv_less a b t p q : Inv a b t p q -> b + t < l -> gt (X (b + t)) (X (a + t)) = true -> Inv b (b + 1) 0 1 1.
  Proof.
    intros I L G. constructor; try lia; try (intros; lia). intros s S1 S2.
    destruct (Nat.eq_dec s a) as [->|D]; [|apply (i_beat _ _ _ _ _ I); lia].
    pose proof (i_q _ _ _ _ _ I). pose proof (i_p _ _ _ _ _ I). pose proof (i_b _ _ _ _ _ I). pose proof (i_t _ _ _ _ _ I).
    exists b. split; [lia|]. apply (lt_index t); [nia|lia| |exact G].
    intros j J. fold (X (a + j)). fold (X (b + j)). rewrite (per_mul a p (b + t) (i_per _ _ _ _ _ I) q (a + j)); [f_equal|..]; lia.
  Qed.

  Lemma inv_same a b t p q : Inv a b t p q -> b + t < l -> X (a + t) = X (b + t) ->
    if S t =? p then Inv a (b + p) 0 p (S q) else Inv a b (S t) p q.
  Proof.
    intros I L G. destruct I as [Q P B T Hl Per Lx Beat].
    assert (Per' : forall i, a <= i -> i + p < b + S t -> X i = X (i + p)).
    { intros i A C. destruct (Nat.eq_dec (i + p) (b + t)) as [E|E]; [|apply Per; lia].
      rewrite E, <- G. rewrite (per_mul a p (b + t) Per (q - 1) (a + t)); [f_equal; nia|lia|nia]. }
    destruct (Nat.eqb_spec (S t) p) as [E|E].
    - assert (PerM := per_mul a p (b + p) ltac:(intros i A C; apply Per'; lia)).
      constructor; try lia; auto.
      + intros i A C. apply Per'; lia.
      + intros s S1 S2. destruct (Nat.lt_ge_cases s b) as [Lt|Ge]; [apply Beat; auto|].
        destruct (Nat.eq_dec s b) as [->|D].
        * destruct (lt_total (sf b) (sf (b + p))) as [Q1|[Q1|Q1]].
          -- apply (f_equal (@length N)) in Q1. rewrite !sf_len in Q1. lia.
          -- exists (b + p). split; [|exact Q1]. destruct (Nat.lt_ge_cases (b + p) l) as [|Ge']; [assumption|].
             unfold sf in Q1. rewrite (skipn_all2 n (n:=b + p)) in Q1 by (unfold l in *; lia). inversion Q1.
          -- exists (b - p). split; [nia|]. apply (lt_common p); [lia|nia| |].
             ++ intros j J. fold (X (b + j)). fold (X (b - p + j)). rewrite (Per' (b - p + j)); [f_equal; nia|nia|nia].
             ++ replace (b - p + p) with b by nia. exact Q1.
        * destruct (Lx (s - b) ltac:(lia)) as (g & G1 & G2 & G3). exists b. split; [lia|]. apply (lt_index g); [lia|lia| |].
          -- intros j J. specialize (G2 j J). fold (X (s + j)). fold (X (b + j)).
             rewrite <- (f_equal X (x:=a + (s - b) + j + q * p) (y:=s + j)) by lia.
             rewrite <- (f_equal X (x:=a + j + q * p) (y:=b + j)) by lia.
             rewrite <- (PerM q (a + (s - b) + j)), <- (PerM q (a + j)) by lia. exact G2.
          -- fold (X (s + g)). fold (X (b + g)).
             rewrite <- (f_equal X (x:=a + (s - b) + g + q * p) (y:=s + g)) by lia.
             rewrite <- (f_equal X (x:=a + g + q * p) (y:=b + g)) by lia.
             rewrite <- (PerM q (a + (s - b) + g)), <- (PerM q (a + g)) by lia. exact G3.
    - constructor; try lia; auto.
  Qed.

  Lemma inv_greater a b t p q : Inv a b t p q -> b + t < l -> gt (X (a + t)) (X (b + t)) = true -> Inv a (b + t + 1) 0 (b + t + 1 - a) 1.
  Proof.
    intros I L G. destruct I as [Q P B T Hl Per Lx Beat]. assert (PerM := per_mul a p (b + t) Per).
    constructor; try nia; try (intros; lia).
    - (* unbordered *)
      intros e He. set (r := e / p). set (f := e mod p). assert (Ee : e = r * p + f) by (unfold r, f; rewrite Nat.mul_comm; apply Nat.div_mod; lia).
      assert (Hf : f < p) by (apply Nat.mod_upper_bound; lia). clearbody r f.
      assert (Hr : r <= q) by nia.
      assert (T1 : forall i, i < p -> a + r * p + i < b + t -> X (a + r * p + i) = X (a + i)).
      { intros i A C. replace (a + r * p + i) with (a + i + r * p) by lia. symmetry. apply PerM; lia. }
      destruct (Nat.eq_dec f 0) as [->|Nf].
      + exists ((q - r) * p + t). split; [nia|]. split.
        * intros j J. replace (a + e + j) with (a + j + r * p) by nia. symmetry. apply PerM; [lia|nia].
        * replace (a + e + ((q - r) * p + t)) with (b + t) by nia.
          destruct (Nat.eq_dec r 0) as [->|Nr]; [nia|].
          replace (X (a + ((q - r) * p + t))) with (X (a + t)); [exact G|].
          replace (a + ((q - r) * p + t)) with (a + t + (q - r) * p) by lia. apply PerM; [lia|nia].
      + destruct (Lx f ltac:(lia)) as (g & G1 & G2 & G3).
        destruct (Nat.lt_ge_cases (e + g) (q * p + t)) as [C|C].
        * exists g. split; [nia|]. split.
          -- intros j J. rewrite <- G2 by exact J. replace (a + e + j) with (a + r * p + (f + j)) by nia. replace (a + f + j) with (a + (f + j)) by lia.
             apply T1; nia.
          -- replace (a + e + g) with (a + r * p + (f + g)) by nia. rewrite T1 by nia. replace (a + (f + g)) with (a + f + g) by lia. exact G3.
        * assert (r = q) by nia. subst r. assert (Ft : f <= t) by nia. exists (t - f). split; [nia|]. split.
          -- intros j J. rewrite <- G2 by nia. replace (a + e + j) with (a + q * p + (f + j)) by nia. replace (a + f + j) with (a + (f + j)) by lia.
             apply T1; nia.
          -- replace (a + e + (t - f)) with (b + t) by nia. destruct (Nat.eq_dec (t - f) g) as [E|E].
             ++ subst g. replace (a + f + (t - f)) with (a + t) in G3 by lia. eapply gt_tr; eauto.
             ++ rewrite <- G2 by nia. replace (a + f + (t - f)) with (a + t) by lia. exact G.
    - intros s S1 S2. destruct (Nat.lt_ge_cases s b) as [Lt|Ge]; [apply Beat; auto|].
      exists (a + (s - b)). split; [nia|]. apply (lt_index (t - (s - b))); [lia|nia| |].
      + intros j J. fold (X (s + j)). fold (X (a + (s - b) + j)). rewrite (PerM q (a + (s - b) + j)) by lia. f_equal. lia.
      + replace (s + (t - (s - b))) with (b + t) by lia. replace (a + (s - b) + (t - (s - b))) with (a + t) by lia. exact G.
  Qed.

  Lemma inv_end a b t p q : Inv a b t p q -> b + t = l -> top a /\ 1 <= p /\ a + p <= l /\
    (forall i, a <= i -> i + p < l -> X i = X (i + p)) /\
    (forall e, 0 < e < p -> exists i, a <= i /\ i + e < l /\ X i <> X (i + e)).
  Proof.
    intros I E. destruct I as [Q P B T Hl Per Lx Beat]. assert (PerM := per_mul a p (b + t) Per).
    split; [|split; [lia|split; [nia|split]]].
    - apply top_of; [nia|]. intros s S1 S2. destruct (Nat.lt_ge_cases s b) as [Lt|Ge]; [apply Beat; auto|].
      exists (a + (s - b)). split; [nia|]. apply lt_prefix; [nia|]. intros j J. fold (X (s + j)). fold (X (a + (s - b) + j)).
      rewrite (PerM q (a + (s - b) + j)) by lia. f_equal. lia.
    - intros i A C. apply Per; lia.
    - intros e He. destruct (Lx e He) as (g & G1 & _ & G3). exists (a + g). split; [lia|]. split; [nia|].
      replace (a + g + e) with (a + e + g) by lia. intros Q2. rewrite Q2, gt_irr in G3. discriminate.
  Qed.

  Lemma maxsuf_spec : forall fuel a b t p q, Inv a b t p q -> 2 * l < fuel + (a + b + t) ->
    exists a' p', maxsuf fuel gt n l a (b - 1) (S t) p = OK (a', p') /\ top a' /\ 1 <= p' /\ a' + p' <= l /\
    (forall i, a' <= i -> i + p' < l -> X i = X (i + p')) /\
    (forall e, 0 < e < p' -> exists i, a' <= i /\ i + e < l /\ X i <> X (i + e)).
  Proof.
    induction fuel as [|fuel IH]; intros a b t p q I F.
    { destruct I. nia. }
    cbn [maxsuf]. assert (B1 : 1 <= b) by (destruct I; nia). destruct (Nat.ltb_spec (b - 1 + S t) l) as [L|L].
    2:{ exists a, p. split; [reflexivity|]. apply (inv_end a b t p q I). destruct I; lia. }
    assert (AB : a + 1 <= b /\ t < b - a) by (destruct I; nia).
    rewrite !rd_at by (unfold l in *; lia). cbn [bind].
    replace (a + S t - 1) with (a + t) by lia. replace (b - 1 + S t) with (b + t) by lia.
    fold (X (a + t)). fold (X (b + t)).
    destruct (N.eqb_spec (X (a + t)) (X (b + t))) as [E|E].
    - pose proof (inv_same a b t p q I ltac:(lia) E) as I'. destruct (S t =? p) eqn:Ep.
      + apply Nat.eqb_eq in Ep. replace (b - 1 + p) with (b + p - 1) by lia. eapply IH; [exact I'|lia].
      + eapply IH; [exact I'|lia].
    - destruct (gt (X (a + t)) (X (b + t))) eqn:G.
      + replace (b + t + 1 - a) with (b + t + 1 - a) by lia. 
        pose proof (inv_greater a b t p q I ltac:(lia) G) as I'. specialize (IH _ _ _ _ _ I' ltac:(lia)).
        replace (b + t + 1 - 1) with (b + t) in IH by lia. exact IH.
      + assert (G' : gt (X (b + t)) (X (a + t)) = true) by (destruct (gt_tot _ _ E); congruence).
        pose proof (inv_less a b t p q I ltac:(lia) G') as I'. specialize (IH _ _ _ _ _ I' ltac:(lia)).
        replace (b - 1 + 1) with (b + 1 - 1) by lia. replace (b + 1 - 1) with b in * by lia. exact IH.
  Qed.
End Order.

(** ** the critical factorization theorem *)
Definition flip (gt : N -> N -> bool) (a b : N) : bool := gt b a.
Lemma both_orders gt a b : (forall a, gt a a = false) -> (forall a b c, gt a b = true -> gt b c = true -> gt a c = true) ->
  lt gt a b -> lt (flip gt) a b -> exists q, b = a ++ q.
Proof.
  intros Irr Tr H. induction H as [y r|x y a b G|x a b H IH]; intros K; [eexists; reflexivity| |].
  - exfalso. inversion K; subst; [unfold flip in *|rewrite Irr in G; discriminate].
    assert (gt x x = true) by (eapply Tr; eauto). rewrite Irr in *. discriminate.
  - inversion K as [|? ? ? ? G|? ? ? K']; subst; [unfold flip in G; rewrite Irr in G; discriminate|]. destruct (IH K') as [q ->]. exists q. reflexivity.
Qed.
Lemma lt_common_inv gt n g s t : (forall a, gt a a = false) -> s + g <= length n -> t + g <= length n ->
  (forall j, j < g -> at_ n (s + j) = at_ n (t + j)) -> lt gt (sf n s) (sf n t) -> lt gt (sf n (s + g)) (sf n (t + g)).
Proof.
  intros Irr. revert s t. induction g as [|g IH]; intros s t A B E H; [rewrite !Nat.add_0_r; exact H|].
  unfold sf in H. rewrite (skipn_at n s), (skipn_at n t) in H by lia.
  pose proof (E 0 ltac:(lia)) as E0. rewrite !Nat.add_0_r in E0. rewrite E0 in H.
  inversion H as [|? ? ? ? G|? ? ? H']; subst; [rewrite Irr in G; discriminate|].
  replace (s + S g) with (S s + g) by lia. replace (t + S g) with (S t + g) by lia. apply IH; [lia|lia| |exact H'].
  intros j J. replace (S s + j) with (s + S j) by lia. replace (S t + j) with (t + S j) by lia. apply E. lia.
Qed.

Definition repeats (n : list N) (c d : nat) : Prop := forall i, c <= i < c + d -> d <= i -> at_ n i = at_ n (i - d).
Definition period (n : list N) (d : nat) : Prop := forall i, d <= i < length n -> at_ n i = at_ n (i - d).
Definition critical (n : list N) (c : nat) : Prop :=
  forall d, 0 < d -> c + d <= length n -> repeats n c d -> c < d /\ period n d.

Lemma top_critical gt n c c' : (forall a, gt a a = false) -> (forall a b c, gt a b = true -> gt b c = true -> gt a c = true) ->
  top gt n c -> top (flip gt) n c' -> c' <= c -> critical n c.
Proof.
  intros Irr Tr [C1 C2] [D1 D2] Le d Hd Hl R.
  destruct (Nat.le_gt_cases d c) as [A|A].
  - exfalso. pose proof (C2 (c - d) ltac:(lia) ltac:(lia)) as H.
    apply (lt_common_inv gt n d) in H; [|exact Irr|lia|lia|].
    2:{ intros j J. rewrite (R (c + j)) by lia. f_equal. lia. }
    replace (c - d + d) with c in H by lia. destruct (Nat.eq_dec (c + d) (length n)) as [E|E].
    + unfold sf in H. rewrite E, skipn_all in H. inversion H.
    + pose proof (C2 (c + d) ltac:(lia) ltac:(lia)) as H'. apply (lt_irrefl gt Irr (sf n c)). eapply lt_trans; eauto.
  - split; [exact A|]. destruct (Nat.eq_dec (c + d) (length n)) as [E|E].
    { intros i Hi. apply R; lia. }
    pose proof (C2 (c + d) ltac:(lia) ltac:(lia)) as H1. pose proof (D2 (c' + d) ltac:(lia) ltac:(lia)) as H2.
    apply (lt_common_inv (flip gt) n (c - c')) in H2; [|intros a; apply Irr|lia|lia|].
    2:{ intros j J. rewrite (R (c' + d + j)) by lia. f_equal. lia. }
    replace (c' + d + (c - c')) with (c + d) in H2 by lia. replace (c' + (c - c')) with c in H2 by lia.
    destruct (both_orders gt _ _ Irr Tr H1 H2) as [q Q].
    intros i Hi. destruct (Nat.lt_ge_cases i (c + d)) as [L|L]; [apply R; lia|].
    replace (at_ n i) with (at_ (sf n (c + d)) (i - (c + d))) by (unfold sf; rewrite at_skipn; f_equal; lia).
    replace (at_ n (i - d)) with (at_ (sf n c) (i - (c + d))) by (unfold sf; rewrite at_skipn; f_equal; lia).
    rewrite Q. unfold at_. rewrite app_nth1; [reflexivity|]. unfold sf. rewrite skipn_length. lia.
Qed.

(** the distance to move when the right half matches *)
Lemma min_period n d : 0 < d -> period n d -> exists q, 0 < q <= d /\ period n q /\ forall e, 0 < e < q -> ~ period n e.
Proof.
  induction d as [d IH] using lt_wf_ind. intros Hd P.
  assert (Dec : forall e, {period n e} + {~ period n e}).
  { intros e. destruct (forallb (fun i => (at_ n i =? at_ n (i - e))%N) (seq e (length n - e))) eqn:F.
    - left. intros i Hi. rewrite forallb_forall in F. apply N.eqb_eq. apply F. apply in_seq. lia.
    - right. intros Q. assert (forallb (fun i => (at_ n i =? at_ n (i - e))%N) (seq e (length n - e)) = true); [|congruence].
      apply forallb_forall. intros i Hi. apply in_seq in Hi. apply N.eqb_eq. apply Q. lia. }
  assert (S : (exists e, 0 < e < d /\ period n e) \/ forall e, 0 < e < d -> ~ period n e).
  { clear IH P. induction d as [|d IHd]; [lia|]. destruct (Nat.eq_dec d 0) as [->|D]; [right; intros; lia|].
    destruct IHd as [(e & E1 & E2)|H]; [lia|left; exists e; split; [lia|exact E2]|]. destruct (Dec d) as [Y|N]; [left; exists d; split; [lia|exact Y]|].
    right. intros e E. destruct (Nat.eq_dec e d) as [->|]; [exact N|apply H; lia]. }
  destruct S as [(e & E1 & E2)|S]; [destruct (IH e ltac:(lia) ltac:(lia) E2) as (q & Q1 & Q2); exists q; split; [lia|exact Q2]|].
  exists d. split; [lia|]. auto.
Qed.

Section Move.
  Context (n : list N) (c p : nat).
  Context (Cc : c < length n) (Cr : critical n c) (P1 : 1 <= p) (P2 : c + p <= length n).
  Context (Per : forall i, c <= i -> i + p < length n -> at_ n i = at_ n (i + p)).
  Context (Min : forall e, 0 < e < p -> exists i, c <= i /\ i + e < length n /\ at_ n i <> at_ n (i + e)).

  Definition full_repeats (d : nat) : Prop := forall i, c <= i < length n -> d <= i -> at_ n i = at_ n (i - d).
  Lemma period_shift d i : period n d -> i + d < length n -> at_ n i = at_ n (i + d).
  Proof. intros P L. rewrite (P (i + d)) by lia. f_equal. lia. Qed.
  Lemma period_min d : 0 < d -> period n d -> p <= d.
  Proof.
    intros Hd P. destruct (Nat.le_gt_cases p d) as [|L]; [assumption|]. destruct (Min d ltac:(lia)) as (i & _ & I2 & I3).
    exfalso. apply I3. apply period_shift; assumption.
  Qed.

  Lemma periodic_move : (forall i, i < c -> at_ n i = at_ n (i + p)) ->
    c < p /\ period n p /\ forall d, 0 < d < p -> ~ full_repeats d.
  Proof.
    intros S. assert (PP : period n p).
    { intros i Hi. destruct (Nat.lt_ge_cases (i - p) c) as [L|L].
      - rewrite (S (i - p) L). f_equal. lia.
      - rewrite (Per (i - p)) by lia. f_equal. lia. }
    destruct (Cr p ltac:(lia) P2) as [A _]. { intros i H1 H2. apply PP. lia. }
    split; [exact A|]. split; [exact PP|]. intros d Hd F.
    destruct (Cr d ltac:(lia) ltac:(lia)) as [_ Q]. { intros i H1 H2. apply F; lia. }
    pose proof (period_min d ltac:(lia) Q). lia.
  Qed.

  Lemma aperiodic_move gt : (forall a, gt a a = false) -> (forall a b c, gt a b = true -> gt b c = true -> gt a c = true) -> top gt n c ->
    ~ (forall i, i < c -> at_ n i = at_ n (i + p)) ->
    forall d, 0 < d <= Nat.max (c - 1) (length n - c) -> ~ full_repeats d.
  Proof.
    intros Irr Tr [_ T] NS d Hd F. destruct (Nat.le_gt_cases d (length n - c)) as [L|L].
    - destruct (Cr d ltac:(lia) ltac:(lia)) as [_ Pd]. { intros i H1 H2. apply F; lia. }
      destruct (min_period n d ltac:(lia) Pd) as (q & Q1 & Q2 & Q3).
      destruct (Cr q ltac:(lia) ltac:(lia)) as [Q4 _]. { intros i H1 H2. apply Q2; lia. }
      pose proof (period_min q ltac:(lia) Q2) as Q5. destruct (Nat.eq_dec p q) as [E|E].
      + apply NS. intros i Hi. rewrite E. apply period_shift; [exact Q2|lia].
      + destruct (Cr (q - p) ltac:(lia) ltac:(lia)) as [_ Q6].
        { intros i H1 H2. rewrite (period_shift q (i - (q - p)) Q2) by lia. replace (i - (q - p) + q) with (i + p) by lia. apply Per; lia. }
        apply (Q3 (q - p)); [lia|exact Q6].
    - pose proof (T (c - d) ltac:(lia) ltac:(lia)) as H. apply (lt_irrefl gt Irr (sf n c)). eapply lt_trans; [exact Tr| |exact H].
      apply lt_prefix; [lia|]. intros j J. rewrite (F (c + j)) by lia. f_equal. lia.
  Qed.
End Move.

(** ** the tables *)
Lemma tables_spec : forall n i bs sh bs' sh', tables n i bs sh = (bs', sh') -> forall e,
  (forall j, j < length n -> at_ n j <> e) /\ bs' e = bs e /\ sh' e = sh e \/
  bs' e = true /\ exists j, j < length n /\ at_ n j = e /\ sh' e = Some (i + j + 1) /\ forall k, j < k < length n -> at_ n k <> e.
Proof.
  induction n as [|x n IH]; intros i bs sh bs' sh' E e; cbn [tables] in E.
  { inversion E; subst. left. split; [cbn; intros; lia|auto]. }
  destruct (IH _ _ _ _ _ E e) as [(A & B & C)|(B & j & J1 & J2 & J3 & J4)].
  - destruct (N.eqb_spec e x) as [->|D].
    + right. split; [exact B|]. exists 0. cbn [length]. split; [lia|]. split; [reflexivity|]. split; [rewrite C; f_equal; lia|].
      intros [|k] K; [lia|]. apply A. lia.
    + left. split; [|auto]. intros [|j] J; [cbn; congruence|apply A; cbn in J; lia].
  - right. split; [exact B|]. exists (S j). cbn [length]. split; [lia|]. split; [exact J2|]. split; [rewrite J3; f_equal; lia|].
    intros [|k] K; [lia|]. apply J4. lia.
Qed.
Lemma cmp_right_spec m n h : forall d k, k + d = length n -> h + length n <= length m ->
  exists k', cmp_right d m n h k = OK k' /\ k <= k' <= length n /\ (forall i, k <= i < k' -> at_ n i = at_ m (h + i)) /\
    (k' < length n -> at_ n k' <> at_ m (h + k')).
Proof.
  induction d as [|d IH]; intros k E L; cbn [cmp_right]; [exists k; split; [reflexivity|]; split; [lia|]; split; intros; lia|].
  rewrite !rd_at by lia. cbn [bind]. destruct (N.eqb_spec (at_ n k) (at_ m (h + k))) as [Q|Q].
  - destruct (IH (S k) ltac:(lia) L) as (k' & -> & K1 & K2 & K3). exists k'. split; [reflexivity|]. split; [lia|]. split; [|exact K3].
    intros i I. destruct (Nat.eq_dec i k) as [->|]; [exact Q|apply K2; lia].
  - exists k. split; [reflexivity|]. split; [lia|]. split; [intros; lia|]. intros _. exact Q.
Qed.
Lemma cmp_left_spec mem m n h : forall k, k <= length n -> h + length n <= length m ->
  exists k', cmp_left mem m n h k = OK k' /\ k' <= k /\ (forall i, k' <= i < k -> at_ n i = at_ m (h + i)) /\
    (mem < k' -> at_ n (k' - 1) <> at_ m (h + (k' - 1))).
Proof.
  induction k as [|k IH]; intros K L; cbn [cmp_left]; [exists 0; split; [reflexivity|]; split; [lia|]; split; intros; lia|].
  destruct (Nat.ltb_spec mem (S k)) as [A|A].
  2:{ exists (S k). split; [reflexivity|]. split; [lia|]; split; intros; lia. }
  rewrite !rd_at by lia. cbn [bind]. destruct (N.eqb_spec (at_ n k) (at_ m (h + k))) as [Q|Q].
  - destruct (IH ltac:(lia) L) as (k' & -> & K1 & K2 & K3). exists k'. split; [reflexivity|]. split; [lia|]. split; [|exact K3].
    intros i I. destruct (Nat.eq_dec i k) as [->|]; [exact Q|apply K2; lia].
  - exists (S k). split; [reflexivity|]. split; [lia|]. split; [intros; lia|]. intros _. replace (S k - 1) with k by lia. exact Q.
Qed.

(** ** the search *)
Definition found (m n : list N) (z h : nat) : Prop := h + length n <= z /\ forall i, i < length n -> at_ m (h + i) = at_ n i.

Lemma search_spec m n z c p mem0 bs sh : z <= length m -> c < length n -> critical n c ->
  tables n 0 (fun _ => false) (fun _ => None) = (bs, sh) -> 1 <= p <= length n ->
  (forall d, 0 < d < p -> ~ full_repeats n c d) -> mem0 = 0 \/ (mem0 = length n - p /\ period n p /\ c <= p) ->
  forall fuel h mem, h <= z -> z - h < fuel -> (mem = 0 \/ (mem = mem0 /\ forall i, i < mem -> at_ m (h + i) = at_ n i)) ->
  exists r, search fuel m n z (length n) c p mem0 bs sh h mem = OK r /\
    match r with
    | Some i => h <= i /\ found m n z i /\ forall j, h <= j < i -> ~ found m n z j
    | None => forall j, h <= j -> ~ found m n z j
    end.
Proof.
  intros Hz Hc Cr Tb Hp Mv M0. set (l := length n) in *. induction fuel as [|fuel IH]; intros h mem Hh Fu Hm; [lia|].
  assert (Step : forall s mem', 0 < s -> h + s <= z -> (forall d, d < s -> ~ found m n z (h + d)) ->
     (mem' = 0 \/ (mem' = mem0 /\ forall i, i < mem' -> at_ m (h + s + i) = at_ n i)) ->
     exists r, search fuel m n z l c p mem0 bs sh (h + s) mem' = OK r /\
     match r with
     | Some i => h <= i /\ found m n z i /\ forall j, h <= j < i -> ~ found m n z j
     | None => forall j, h <= j -> ~ found m n z j
     end).
  { intros s mem' S1 S2 NF HM. destruct (IH (h + s) mem' S2 ltac:(lia) HM) as (r & E & R). exists r. split; [exact E|].
    assert (NF' : forall j, h <= j < h + s -> ~ found m n z j).
    { intros j J. replace j with (h + (j - h)) by lia. apply NF. lia. }
    destruct r as [i|].
    - destruct R as (R1 & R2 & R3). split; [lia|]. split; [exact R2|]. intros j J. destruct (Nat.lt_ge_cases j (h + s)); [apply NF'; lia|apply R3; lia].
    - intros j J. destruct (Nat.lt_ge_cases j (h + s)); [apply NF'; lia|apply R; lia]. }
  cbn [search]. fold l. destruct (Nat.leb_spec h z) as [_|]; [|lia]. cbn [andb]. destruct (Nat.ltb_spec (z - h) l) as [L|L].
  { exists None. split; [reflexivity|]. intros j J [F _]. fold l in F. lia. }
  rewrite rd_at by lia. cbn [bind]. set (e := at_ m (h + l - 1)).
  assert (Ml : mem < l \/ mem = 0) by (destruct Hm as [->|[-> _]]; [auto|]; destruct M0 as [->|(-> & _)]; lia).
  (* the last byte *)
  assert (Lst : forall d, d < l -> found m n z (h + d) -> at_ n (l - 1 - d) = e).
  { intros d D [_ F]. rewrite <- F by (fold l; lia). unfold e. f_equal. lia. }
  destruct (tables_spec _ _ _ _ _ _ Tb e) as [(A & B & C)|(B & j & J1 & J2 & J3 & J4)].
  { rewrite B. apply Step; [lia|lia| |auto]. intros d D F. apply (A (l - 1 - d)); [fold l; lia|]. apply Lst; [lia|exact F]. }
  rewrite B, J3. cbn [Nat.add]. fold l in J1, J4.
  destruct (Nat.eqb_spec (l - (j + 1)) 0) as [K|K]; cbn [negb].
  2:{ apply Step; [lia|lia| |auto]. intros d D F.
      destruct (Nat.lt_ge_cases d (l - (j + 1))) as [D1|D1]; [apply (J4 (l - 1 - d)); [lia|apply Lst; [lia|exact F]]|].
      destruct Hm as [->|[-> Hm]]; [lia|]. destruct M0 as [->|(E0 & PP & _)]; [lia|].
      assert (D2 : 0 < d < mem0) by lia. apply (J4 (l - 1)); [lia|].
      rewrite <- (Lst d ltac:(lia) F).
      rewrite (PP (l - 1)) by (fold l; lia). rewrite (PP (l - 1 - d)) by (fold l; lia).
      destruct F as [_ F]. replace (l - 1 - p) with (mem0 - 1) by lia. replace (l - 1 - d - p) with (mem0 - d - 1) by lia.
      rewrite <- Hm by lia. rewrite <- F by (fold l; lia). f_equal. lia. }
  set (k0 := Nat.max c mem).
  destruct (cmp_right_spec m n h (l - k0) k0 ltac:(fold l; lia) ltac:(fold l; lia)) as (k & -> & K1 & K2 & K3). cbn [bind]. fold l in K1, K3.
  assert (Rt : forall i, c <= i < k -> at_ m (h + i) = at_ n i).
  { intros i I. destruct (Nat.lt_ge_cases i k0) as [Q|Q]; [|symmetry; apply K2; lia]. destruct Hm as [->|[-> Hm]]; [lia|apply Hm; lia]. }
  destruct (Nat.ltb_spec k l) as [Lk|Lk].
  { apply Step; [lia|lia| |auto]. intros d D F. specialize (K3 Lk). destruct (Nat.eq_dec d 0) as [->|Nd].
    - apply K3. destruct F as [_ F]. rewrite <- F by (fold l; lia). f_equal. lia.
    - destruct (Cr d ltac:(lia) ltac:(fold l; lia)) as [_ PP].
      + intros i I1 I2. rewrite <- Rt by lia. destruct F as [_ F]. rewrite <- F by (fold l; lia). f_equal. lia.
      + apply K3. rewrite (PP k) by (fold l; lia). destruct F as [_ F]. rewrite <- F by (fold l; lia). f_equal. lia. }
  assert (k = l) by lia. subst k.
  destruct (cmp_left_spec mem m n h c ltac:(fold l; lia) ltac:(fold l; lia)) as (k & -> & Q1 & Q2 & Q3). cbn [bind].
  destruct (Nat.leb_spec k mem) as [Lm|Lm].
  - exists (Some h). split; [reflexivity|]. split; [lia|]. split; [|intros; lia]. split; [fold l; lia|]. fold l. intros i I.
    destruct (Nat.lt_ge_cases i c) as [A|A]; [|apply Rt; lia]. destruct (Nat.lt_ge_cases i k) as [A2|A2]; [|symmetry; apply Q2; lia].
    destruct Hm as [->|[-> Hm]]; [lia|apply Hm; lia].
  - apply Step; [lia|lia| |].
    + intros d D F. destruct (Nat.eq_dec d 0) as [->|Nd].
      * apply (Q3 Lm). destruct F as [_ F]. rewrite <- F by (fold l; lia). f_equal. lia.
      * apply (Mv d ltac:(lia)). intros i I1 I2. fold l in I1. rewrite <- Rt by lia. destruct F as [_ F]. rewrite <- F by (fold l; lia). f_equal. lia.
    + destruct M0 as [->|(E0 & PP & Cp)]; [auto|]. right. split; [reflexivity|]. intros i I. replace (h + p + i) with (h + (p + i)) by lia.
      rewrite Rt by lia. rewrite (PP (p + i)) by (fold l; lia). f_equal. lia.
Qed.

Lemma twoway_spec m n h z : z <= length m -> h <= z -> n <> [] ->
  exists r, twoway_memmem m h z n = OK r /\
    match r with
    | Some i => h <= i /\ found m n z i /\ forall j, h <= j < i -> ~ found m n z j
    | None => forall j, h <= j -> ~ found m n z j
    end.
Proof.
  intros Hz Hh Ne. unfold twoway_memmem. destruct (tables n 0 (fun _ => false) (fun _ => None)) as [bs sh] eqn:Tb.
  set (l := length n). assert (L0 : 0 < l) by (unfold l; destruct n; [congruence|cbn; lia]).
  set (g0 := fun a b : N => (b <? a)%N). set (g1 := fun a b : N => (a <? b)%N).
  assert (I0 : forall a, g0 a a = false) by (intros; apply N.ltb_irrefl).
  assert (I1 : forall a, g1 a a = false) by (intros; apply N.ltb_irrefl).
  assert (T0 : forall a b c, g0 a b = true -> g0 b c = true -> g0 a c = true) by (unfold g0; intros; lia).
  assert (T1 : forall a b c, g1 a b = true -> g1 b c = true -> g1 a c = true) by (unfold g1; intros; lia).
  assert (O0 : forall a b, a <> b -> g0 a b = true \/ g0 b a = true) by (unfold g0; intros; lia).
  assert (O1 : forall a b, a <> b -> g1 a b = true \/ g1 b a = true) by (unfold g1; intros; lia).
  destruct (maxsuf_spec g0 I0 T0 O0 n (2 * l + 1) 0 1 0 1 1 (inv_init g0 n L0) ltac:(fold l; lia)) as (c0 & p0 & E0 & X0 & P0 & Q0 & R0 & M0).
  destruct (maxsuf_spec g1 I1 T1 O1 n (2 * l + 1) 0 1 0 1 1 (inv_init g1 n L0) ltac:(fold l; lia)) as (c1 & p1 & E1 & X1 & P1 & Q1 & R1 & M1).
  change (1 - 1) with 0 in E0, E1. fold l in E0, E1. rewrite E0. cbn [bind]. rewrite E1. cbn [bind].
  assert (Sel : exists gt c p, (if c0 <? c1 then (c1, p1) else (c0, p0)) = (c, p) /\ (forall a, gt a a = false) /\
     (forall a b c, gt a b = true -> gt b c = true -> gt a c = true) /\ top gt n c /\ critical n c /\ 1 <= p /\ c + p <= l /\
     (forall i, c <= i -> i + p < l -> at_ n i = at_ n (i + p)) /\
     (forall e, 0 < e < p -> exists i, c <= i /\ i + e < l /\ at_ n i <> at_ n (i + e))).
  { destruct (Nat.ltb_spec c0 c1).
    - exists g1, c1, p1. split; [reflexivity|]. split; [exact I1|]. split; [exact T1|]. split; [exact X1|]. split; [|auto].
      apply (top_critical g1 n c1 c0 I1 T1 X1); [exact X0|lia].
    - exists g0, c0, p0. split; [reflexivity|]. split; [exact I0|]. split; [exact T0|]. split; [exact X0|]. split; [|auto].
      apply (top_critical g0 n c0 c1 I0 T0 X0); [exact X1|lia]. }
  destruct Sel as (gt & c & p & -> & Irr & Tr & Tp & Cr & Pp & Pl & Per & Min). assert (Cl : c < l) by apply Tp.
  unfold same_bytes. fold l. destruct (Nat.leb_spec c l) as [_|]; [|lia]. destruct (Nat.leb_spec (p + c) l) as [_|]; [|lia]. cbn [andb bind].
  assert (Same : leqb (firstn c n) (firstn c (skipn p n)) = true <-> forall i, i < c -> at_ n i = at_ n (i + p)).
  { rewrite leqb_eq. split.
    - intros E i Hi. apply (f_equal (fun x => at_ x i)) in E. unfold at_ in *. rewrite !nth_firstn' in E by exact Hi.
      rewrite E. change (at_ (skipn p n) i = at_ n (i + p)). rewrite at_skipn. f_equal. lia.
    - intros E. apply (nth_ext _ _ 0%N 0%N). { rewrite !firstn_length, skipn_length. fold l. lia. }
      intros i Hi. rewrite firstn_length in Hi. rewrite !nth_firstn' by lia. change (at_ n i = at_ (skipn p n) i). rewrite at_skipn, E by lia. f_equal. lia. }
  destruct (leqb (firstn c n) (firstn c (skipn p n))).
  - destruct (periodic_move n c p Cl Cr Pp Pl Per Min (proj1 Same eq_refl)) as (A1 & A2 & A3).
    apply (search_spec m n z c p (l - p) bs sh Hz Cl Cr Tb ltac:(fold l; lia) A3); [right; split; [reflexivity|split; [exact A2|lia]]|exact Hh|lia|auto].
  - assert (NS : ~ forall i, i < c -> at_ n i = at_ n (i + p)) by (intros Q; apply Same in Q; discriminate).
    destruct c as [|ms]; [exfalso; apply NS; intros; lia|].
    apply (search_spec m n z (S ms) (Nat.max ms (l - S ms) + 1) 0 bs sh Hz Cl Cr Tb ltac:(fold l; lia)); [|auto|exact Hh|lia|auto].
    intros d Hd. apply (aperiodic_move n (S ms) p Cl Cr Pp Pl Per Min gt Irr Tr Tp NS). fold l. lia.
Qed.
