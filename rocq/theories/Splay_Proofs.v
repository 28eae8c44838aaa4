(** The splay tree on memory. *)
From Verif Require Import Base BaseLemmas Splay.
From Coq Require Import Sorting.Sorted.
Local Open Scope nat_scope.

Inductive tree := Lf | Tr (l : tree) (a : nat) (k : N) (r : tree).
Fixpoint inorder (t : tree) : list (nat * N) :=
  match t with Lf => [] | Tr l a k r => inorder l ++ (a, k) :: inorder r end.
Definition addrs (t : tree) : list nat := map fst (inorder t).
Fixpoint tr (m : mem) (p : option nat) (t : tree) : Prop :=
  match t with
  | Lf => p = None
  | Tr l a k r => p = Some a /\ live m (At a) = true /\ key m (At a) = k /\ tr m (lf m (At a)) l /\ tr m (rg m (At a)) r
  end.

Fixpoint flipt (t : tree) : tree := match t with Lf => Lf | Tr l a k r => Tr (flipt r) a k (flipt l) end.
Definition flip (m : mem) : mem := mkMem (live m) (key m) (rg m) (lf m).
Lemma flipt_flipt t : flipt (flipt t) = t.
Proof. induction t; cbn; congruence. Qed.
Lemma flip_flip m : flip (flip m) = m.
Proof. destruct m; reflexivity. Qed.
Lemma inorder_flipt t : inorder (flipt t) = rev (inorder t).
Proof. induction t; cbn; [reflexivity|]. rewrite IHt1, IHt2, rev_app_distr. cbn. rewrite <- app_assoc. reflexivity. Qed.
Lemma tr_flip m : forall t p, tr m p t -> tr (flip m) p (flipt t).
Proof. induction t; cbn; intros p H; [exact H|]. destruct H as (-> & A & B & C & D). repeat split; auto. Qed.
Lemma tr_flip_inv m t p : tr (flip m) p t -> tr m p (flipt t).
Proof. intros H. apply tr_flip in H. rewrite flip_flip in H. exact H. Qed.

(** the cell at [x] is the same *)
Definition same (m m' : mem) (x : loc) : Prop :=
  live m' x = live m x /\ key m' x = key m x /\ lf m' x = lf m x /\ rg m' x = rg m x.
Lemma tr_frame m m' : forall t p, (forall a, In a (addrs t) -> same m m' (At a)) -> tr m p t -> tr m' p t.
Proof.
  induction t as [|l IHl a k r IHr]; cbn; intros p S H; [exact H|]. destruct H as (-> & A & B & C & D).
  assert (Sa : same m m' (At a)). { apply S. unfold addrs. cbn. rewrite map_app. cbn. apply in_or_app. right. left. reflexivity. }
  destruct Sa as (S1 & S2 & S3 & S4). split; [reflexivity|]. split; [congruence|]. split; [congruence|]. rewrite S3, S4. split.
  - apply IHl; [|exact C]. intros b Hb. apply S. unfold addrs. cbn. rewrite map_app. apply in_or_app. auto.
  - apply IHr; [|exact D]. intros b Hb. apply S. unfold addrs. cbn. rewrite map_app. apply in_or_app. right. right. exact Hb.
Qed.
Lemma tr_none m t : tr m None t -> t = Lf.
Proof. destruct t; cbn; [auto|]. intros (H & _). discriminate. Qed.
Lemma tr_some m a t : tr m (Some a) t -> exists l k r, t = Tr l a k r.
Proof. destruct t; cbn; [discriminate|]. intros (H & _). injection H as ->. eauto. Qed.
Lemma tr_live m a : forall t p, tr m p t -> In a (addrs t) -> live m (At a) = true.
Proof.
  induction t as [|l IHl b k r IHr]; cbn; intros p H I; [destruct I|]. destruct H as (-> & A & B & C & D).
  unfold addrs in I. cbn in I. rewrite map_app in I. apply in_app_or in I. destruct I as [I|[I|I]]; [eapply IHl; eauto|cbn in I; congruence|eapply IHr; eauto].
Qed.
Lemma tr_key m a k : forall t p, tr m p t -> In (a, k) (inorder t) -> key m (At a) = k.
Proof.
  induction t as [|l IHl b kb r IHr]; cbn; intros p H I; [destruct I|]. destruct H as (-> & A & B & C & D).
  apply in_app_or in I. destruct I as [I|[I|I]]; [eapply IHl; eauto|congruence|eapply IHr; eauto].
Qed.

(** ** the left tree under construction: a chain along the right links *)
Definition link := (tree * nat * N)%type.
Fixpoint lsp (m : mem) (from : loc) (ls : list link) (to : loc) : Prop :=
  match ls with
  | [] => to = from
  | (l, a, k) :: ls => rg m from = Some a /\ live m (At a) = true /\ key m (At a) = k /\ tr m (lf m (At a)) l /\ lsp m (At a) ls to
  end.
Fixpoint lin (ls : list link) : list (nat * N) := match ls with [] => [] | (l, a, k) :: ls => inorder l ++ (a, k) :: lin ls end.
Definition laddr (ls : list link) : list nat := map fst (lin ls).
Fixpoint lbuild (ls : list link) (t : tree) : tree := match ls with [] => t | (l, a, k) :: ls => Tr l a k (lbuild ls t) end.
Lemma lin_app a b : lin (a ++ b) = lin a ++ lin b.
Proof. induction a as [|((l, x), k) a IH]; cbn; [reflexivity|]. rewrite IH, <- app_assoc. reflexivity. Qed.
Lemma inorder_lbuild ls t : inorder (lbuild ls t) = lin ls ++ inorder t.
Proof. induction ls as [|((l, a), k) ls IH]; cbn; [reflexivity|]. rewrite IH, <- app_assoc. reflexivity. Qed.
Lemma laddr_cons l a k ls : laddr ((l, a, k) :: ls) = addrs l ++ a :: laddr ls.
Proof. unfold laddr, addrs. cbn. rewrite map_app. reflexivity. Qed.

Lemma lsp_app m : forall ls from to ls' to', lsp m from ls to -> lsp m to ls' to' -> lsp m from (ls ++ ls') to'.
Proof.
  induction ls as [|((l, a), k) ls IH]; cbn; intros from to ls' to' H H'; [subst; exact H'|].
  destruct H as (A & B & C & D & E). repeat (split; [assumption|]). eapply IH; eauto.
Qed.
Lemma lsp_build m t : forall ls from to, lsp m from ls to -> tr m (rg m to) t -> tr m (rg m from) (lbuild ls t).
Proof.
  induction ls as [|((l, a), k) ls IH]; cbn; intros from to H H'; [subst; exact H'|].
  destruct H as (A & B & C & D & E). repeat (split; [assumption|]). eapply IH; eauto.
Qed.
Lemma lsp_to m : forall ls from to, lsp m from ls to -> to = from \/ exists a, to = At a /\ In a (laddr ls) /\ live m to = true.
Proof.
  induction ls as [|((l, a), k) ls IH]; cbn [lsp]; intros from to H; [auto|]. destruct H as (A & B & C & D & E).
  rewrite laddr_cons. right. destruct (IH _ _ E) as [->|(b & -> & I & V)].
  - exists a. split; [reflexivity|]. split; [apply in_or_app; right; left; reflexivity|exact B].
  - exists b. split; [reflexivity|]. split; [apply in_or_app; right; right; exact I|exact V].
Qed.
Lemma lsp_keep m m' : forall ls from to, lsp m from ls to -> NoDup (laddr ls) -> (forall a, from = At a -> ~ In a (laddr ls)) ->
  (from <> to -> rg m' from = rg m from) ->
  (forall a, In a (laddr ls) -> live m' (At a) = live m (At a) /\ key m' (At a) = key m (At a) /\ lf m' (At a) = lf m (At a) /\ (At a <> to -> rg m' (At a) = rg m (At a))) ->
  lsp m' from ls to.
Proof.
  induction ls as [|((l, a), k) ls IH]; intros from to H ND NF F S; [exact H|]. cbn [lsp] in *. destruct H as (A & B & C & D & E).
  rewrite laddr_cons in *.
  assert (Ia : In a (addrs l ++ a :: laddr ls)) by (apply in_or_app; right; left; reflexivity).
  assert (Ft : from <> to).
  { intros ->. destruct (lsp_to _ _ _ _ E) as [->|(b & -> & I & _)]; apply (NF _ eq_refl); [exact Ia|apply in_or_app; right; right; exact I]. }
  destruct (S a Ia) as (S1 & S2 & S3 & S4).
  split; [rewrite F by exact Ft; exact A|]. split; [congruence|]. split; [congruence|]. split.
  - rewrite S3. apply (tr_frame m); [|exact D]. intros b Ib. destruct (S b ltac:(apply in_or_app; auto)) as (T1 & T2 & T3 & T4).
    split; [exact T1|]. split; [exact T2|]. split; [exact T3|]. apply T4. intros Eb.
    assert (Dj : forall x, In x (addrs l) -> ~ In x (a :: laddr ls)).
    { clear - ND. induction (addrs l) as [|y q IHq]; [intros x []|]. cbn in ND. inversion ND as [|? ? N1 N2]; subst. intros x [->|I]; [intros Q; apply N1; apply in_or_app; auto|apply IHq; auto]. }
    apply (Dj b Ib). destruct (lsp_to _ _ _ _ E) as [Q|(c & Q & I & _)]; [left; congruence|right; congruence].
  - apply IH; [exact E| | | |].
    + clear - ND. induction (addrs l); cbn in ND; inversion ND; subst; auto.
    + intros b Eb. injection Eb as <-. clear - ND. induction (addrs l); cbn in ND; inversion ND; subst; auto.
    + exact S4.
    + intros b Ib. apply S. apply in_or_app. right. right. exact Ib.
Qed.
From Coq Require Import Sorting.Permutation.

(** ** the invariant of the loop *)
Record Inv (A : list nat) (m0 m : mem) (p : option nat) (t : tree) (L R : list link) (lft rgt : loc) : Prop := {
  i_nd : NoDup A;
  i_perm : Permutation A (laddr L ++ addrs t ++ laddr R);
  i_node : live m Node = true;
  i_left : lsp m Node L lft;
  i_right : lsp (flip m) Node R rgt;
  i_tree : tr m p t;
  i_live : forall l, live m l = live m0 l;
  i_key : forall l, key m l = key m0 l;
  i_out : forall a, ~ In a A -> lf m (At a) = lf m0 (At a) /\ rg m (At a) = rg m0 (At a) }.

Lemma addrs_flipt t : addrs (flipt t) = rev (addrs t).
Proof. unfold addrs. rewrite inorder_flipt, map_rev. reflexivity. Qed.
Lemma Inv_flip A m0 m p t L R lft rgt : Inv A m0 m p t L R lft rgt -> Inv A (flip m0) (flip m) p (flipt t) R L rgt lft.
Proof.
  intros [H1 H2 H3 H4 H5 H6 H7 H8 H9]. constructor; auto.
  - eapply Permutation_trans; [exact H2|]. rewrite addrs_flipt, <- Permutation_rev.
    eapply Permutation_trans; [apply Permutation_app_comm|]. rewrite app_assoc. apply Permutation_app_tail. apply Permutation_app_comm.
  - rewrite flip_flip. exact H4.
  - apply tr_flip. exact H6.
  - intros a Ha. destruct (H9 a Ha). auto.
Qed.

(** what is where *)
Lemma Inv_in A m0 m p t L R lft rgt a : Inv A m0 m p t L R lft rgt -> In a A <-> In a (laddr L) \/ In a (addrs t) \/ In a (laddr R).
Proof.
  intros I. split.
  - intros H. apply (Permutation_in _ (i_perm _ _ _ _ _ _ _ _ _ I)) in H. rewrite !in_app_iff in H. exact H.
  - intros H. apply (Permutation_in _ (Permutation_sym (i_perm _ _ _ _ _ _ _ _ _ I))). rewrite !in_app_iff. exact H.
Qed.
Lemma nodup_app {X} (a b : list X) : NoDup (a ++ b) -> NoDup a /\ NoDup b /\ forall x, In x a -> In x b -> False.
Proof.
  induction a as [|y a IH]; cbn; intros H; [split; [constructor|]; split; [exact H|intros x []]|]. inversion H as [|? ? N1 N2]; subst.
  destruct (IH N2) as (A & B & C). split; [constructor; [intros I; apply N1, in_or_app; auto|exact A]|]. split; [exact B|].
  intros x [->|I] J; [apply N1, in_or_app; auto|eapply C; eauto].
Qed.
Lemma Inv_disj A m0 m p t L R lft rgt : Inv A m0 m p t L R lft rgt ->
  NoDup (laddr L) /\ NoDup (addrs t) /\ NoDup (laddr R) /\
  (forall a, In a (laddr L) -> ~ In a (addrs t)) /\ (forall a, In a (laddr L) -> ~ In a (laddr R)) /\ (forall a, In a (addrs t) -> ~ In a (laddr R)).
Proof.
  intros I. pose proof (Permutation_NoDup (i_perm _ _ _ _ _ _ _ _ _ I) (i_nd _ _ _ _ _ _ _ _ _ I)) as N.
  apply nodup_app in N. destruct N as (N1 & N2 & D1). apply nodup_app in N2. destruct N2 as (N2 & N3 & D2).
  split; [exact N1|]. split; [exact N2|]. split; [exact N3|]. split; [|split]; intros a X Y; [apply (D1 a X)|apply (D1 a X)|exact (D2 a X Y)]; apply in_or_app; auto.
Qed.

Lemma leq_refl l : leq l l = true.
Proof. destruct l; cbn; [reflexivity|apply Nat.eqb_refl]. Qed.
Lemma leq_eq a b : leq a b = true <-> a = b.
Proof. destruct a, b; cbn; split; try congruence. - rewrite Nat.eqb_eq. congruence. - intros E. injection E as ->. apply Nat.eqb_refl. Qed.
Lemma put_same {X} (f : loc -> X) l v : put f l v l = v.
Proof. unfold put. rewrite leq_refl. reflexivity. Qed.
Lemma put_other {X} (f : loc -> X) l v x : x <> l -> put f l v x = f x.
Proof. intros H. unfold put. destruct (leq x l) eqn:E; [apply leq_eq in E; congruence|reflexivity]. Qed.

(** the end of a chain is alive, and is the header or belongs to the chain *)
Lemma Inv_rgt A m0 m p t L R lft rgt : Inv A m0 m p t L R lft rgt -> live m rgt = true /\ (rgt = Node \/ exists a, rgt = At a /\ In a (laddr R)).
Proof.
  intros I. destruct (lsp_to _ _ _ _ (i_right _ _ _ _ _ _ _ _ _ I)) as [->|(a & -> & X & V)].
  - split; [exact (i_node _ _ _ _ _ _ _ _ _ I)|auto].
  - split; [exact V|eauto].
Qed.

(** ** the steps, on the left *)
Lemma addrs_tr l a k r : addrs (Tr l a k r) = addrs l ++ a :: addrs r.
Proof. unfold addrs. cbn. rewrite map_app. reflexivity. Qed.

Lemma rotate_inv A m0 m a ka b kb ll lr r L R lft rgt :
  Inv A m0 m (Some a) (Tr (Tr ll b kb lr) a ka r) L R lft rgt ->
  exists m', rotate_right m a b = OK (m', b) /\ Inv A m0 m' (Some b) (Tr ll b kb (Tr lr a ka r)) L R lft rgt.
Proof.
  intros I. pose proof (i_tree _ _ _ _ _ _ _ _ _ I) as T. cbn [tr] in T. destruct T as (_ & Va & Ka & (Lb & Vb & Kb & Tll & Tlr) & Trr).
  destruct (Inv_disj _ _ _ _ _ _ _ _ _ I) as (D1 & D2 & D3 & D4 & D5 & D6). rewrite !addrs_tr in *.
  assert (Ia : In a ((addrs ll ++ b :: addrs lr) ++ a :: addrs r)) by (apply in_or_app; right; left; reflexivity).
  assert (Ib : In b ((addrs ll ++ b :: addrs lr) ++ a :: addrs r)) by (apply in_or_app; left; apply in_or_app; right; left; reflexivity).
  assert (Ill : forall x, In x (addrs ll) -> In x ((addrs ll ++ b :: addrs lr) ++ a :: addrs r) /\ x <> a /\ x <> b).
  { intros x X. apply nodup_app in D2. destruct D2 as (E1 & _ & E2). apply nodup_app in E1. destruct E1 as (_ & _ & E3).
    split; [apply in_or_app; left; apply in_or_app; auto|]. split; intros ->; [apply (E2 a); [apply in_or_app; auto|left; reflexivity]|apply (E3 b X); left; reflexivity]. }
  assert (Ilr : forall x, In x (addrs lr) -> x <> a /\ x <> b).
  { intros x X. apply nodup_app in D2. destruct D2 as (E1 & _ & E2). apply nodup_app in E1. destruct E1 as (_ & E3 & _). inversion E3 as [|? ? N1 N2]; subst.
    split; intros ->; [apply (E2 a); [apply in_or_app; right; right; exact X|left; reflexivity]|exact (N1 X)]. }
  assert (Ir : forall x, In x (addrs r) -> x <> a /\ x <> b).
  { intros x X. apply nodup_app in D2. destruct D2 as (E1 & E3 & E2). inversion E3 as [|? ? N1 N2]; subst.
    split; intros ->; [exact (N1 X)|]. apply (E2 b); [apply in_or_app; right; left; reflexivity|right; exact X]. }
  assert (ab : a <> b).
  { intros ->. apply nodup_app in D2. destruct D2 as (E1 & _ & E2). apply (E2 b); [apply in_or_app; right; left; reflexivity|left; reflexivity]. }
  unfold rotate_right, get_right, set_left, set_right. rewrite Vb. cbn [bind]. rewrite Va. cbn [bind live lf rg key]. rewrite Vb. cbn [bind].
  eexists. split; [reflexivity|]. destruct I as [H1 H2 H3 H4 H5 H6 H7 H8 H9].
  constructor; cbn [live key lf rg]; auto.
  - rewrite H2, !addrs_tr. rewrite <- !app_assoc. cbn [app]. rewrite <- !app_assoc. reflexivity.
  - eapply lsp_keep; [exact H4|exact D1|intros x E; discriminate| |].
    + intros _. cbn [rg]. apply put_other. discriminate.
    + intros x X. assert (NX : forall y, In y ((addrs ll ++ b :: addrs lr) ++ a :: addrs r) -> x <> y) by (intros y Y ->; exact (D4 _ X Y)).
      cbn [live key lf rg]. split; [reflexivity|]. split; [reflexivity|]. split; [|intros _]; apply put_other; intros E; injection E; intros E'; first [exact (NX _ Ia E')|exact (NX _ Ib E')].
  - eapply lsp_keep; [exact H5|exact D3|intros x E; discriminate| |].
    + intros _. cbn [rg flip]. apply put_other. discriminate.
    + intros x X. assert (NX : forall y, In y ((addrs ll ++ b :: addrs lr) ++ a :: addrs r) -> x <> y) by (intros y Y ->; exact (D6 _ Y X)).
      cbn [live key lf rg flip]. split; [reflexivity|]. split; [reflexivity|]. split; [|intros _]; apply put_other; intros E; injection E; intros E'; first [exact (NX _ Ia E')|exact (NX _ Ib E')].
  - cbn [tr]. cbn [live key lf rg]. rewrite put_same. rewrite (put_other _ (At a)) by congruence. split; [reflexivity|]. split; [exact Vb|]. split; [exact Kb|]. split.
    + apply (tr_frame m); [|exact Tll]. intros x X. destruct (Ill x X) as (_ & N1 & N2). repeat split; cbn; apply put_other; congruence.
    + split; [reflexivity|]. split; [exact Va|]. split; [exact Ka|]. rewrite put_same. rewrite (put_other _ (At b)) by congruence. split.
      * apply (tr_frame m); [|exact Tlr]. intros x X. destruct (Ilr x X) as (N1 & N2). repeat split; cbn; apply put_other; congruence.
      * apply (tr_frame m); [|exact Trr]. intros x X. destruct (Ir x X) as (N1 & N2). repeat split; cbn; apply put_other; congruence.
  - intros x X. destruct (H9 x X) as [O1 O2].
    assert (NX : forall y, In y ((addrs ll ++ b :: addrs lr) ++ a :: addrs r) -> x <> y).
    { intros y Y ->. apply X. apply (Permutation_in _ (Permutation_sym H2)). rewrite !addrs_tr. apply in_or_app. right. apply in_or_app. left. exact Y. }
    rewrite !put_other by (intros E; injection E; intros E'; first [exact (NX _ Ia E')|exact (NX _ Ib E')]). auto.
Qed.

Lemma link_inv A m0 m a k l r L R lft rgt : l <> Lf ->
  Inv A m0 m (Some a) (Tr l a k r) L R lft rgt ->
  exists m', linkleft m a rgt = OK (m', At a, lf m (At a)) /\ Inv A m0 m' (lf m (At a)) l L (R ++ [(flipt r, a, k)]) lft (At a).
Proof.
  intros Nl I. pose proof (i_tree _ _ _ _ _ _ _ _ _ I) as T. cbn [tr] in T. destruct T as (_ & Va & Ka & Tl & Trr).
  destruct (Inv_disj _ _ _ _ _ _ _ _ _ I) as (D1 & D2 & D3 & D4 & D5 & D6). destruct (Inv_rgt _ _ _ _ _ _ _ _ _ I) as [Vr Ir].
  rewrite !addrs_tr in *. assert (Ia : In a (addrs l ++ a :: addrs r)) by (apply in_or_app; right; left; reflexivity).
  assert (Nr : forall x, In x (addrs l ++ a :: addrs r) -> At x <> rgt).
  { intros x X E. destruct Ir as [->|(b & -> & J)]; [discriminate|]. injection E as ->. exact (D6 _ X J). }
  unfold linkleft, set_left, get_left. rewrite Vr. cbn [bind live lf]. rewrite Va. cbn [bind]. rewrite put_other by (apply Nr; exact Ia).
  eexists. split; [reflexivity|]. destruct I as [H1 H2 H3 H4 H5 H6 H7 H8 H9].
  constructor; cbn [live key lf rg]; auto.
  - rewrite H2, addrs_tr. unfold laddr at 4. rewrite lin_app, map_app. fold (laddr R). cbn [lin]. rewrite map_app. cbn [map fst].
    fold (addrs (flipt r)). rewrite addrs_flipt, <- Permutation_rev.
    rewrite <- !app_assoc. apply Permutation_app_head. apply Permutation_app_head. cbn [app].
    eapply Permutation_trans; [|apply Permutation_app_comm]. rewrite <- app_assoc. cbn [app]. apply Permutation_middle.
  - eapply lsp_keep; [exact H4|exact D1|intros x E; discriminate|reflexivity|].
    intros x X. cbn [live key lf rg]. repeat split. apply put_other. intros E. destruct Ir as [->|(b & -> & J)]; [discriminate|]. injection E as ->. exact (D5 _ X J).
  - eapply lsp_app.
    + eapply lsp_keep; [exact H5|exact D3|intros x E; discriminate| |].
      * intros E. cbn [rg flip]. apply put_other. exact E.
      * intros x X. cbn [live key lf rg flip]. repeat split. intros E. apply put_other. exact E.
    + cbn [lsp flip live key lf rg]. rewrite put_same. split; [reflexivity|]. split; [exact Va|]. split; [exact Ka|]. split; [|reflexivity].
      change (tr (flip (mkMem (live m) (key m) (put (lf m) rgt (Some a)) (rg m))) (rg m (At a)) (flipt r)).
      apply tr_flip. apply (tr_frame m); [|exact Trr]. intros x X. repeat split. cbn. apply put_other. apply Nr. apply in_or_app. right. right. exact X.
  - apply (tr_frame m); [|exact Tl]. intros x X. repeat split. cbn. apply put_other. apply Nr. apply in_or_app. left. exact X.
  - intros x X. destruct (H9 x X) as [O1 O2]. split; [|exact O2]. rewrite put_other; [exact O1|]. intros E. destruct Ir as [->|(b & -> & J)]; [discriminate|]. injection E as ->.
    apply X. apply (Permutation_in _ (Permutation_sym H2)). apply in_or_app. right. apply in_or_app. right. exact J.
Qed.

(** ** and on the right, by symmetry *)
Lemma set_left_flip m l p : set_right m l p = let* m' := set_left (flip m) l p in OK (flip m').
Proof. unfold set_right, set_left. cbn [flip live]. destruct (live m l); reflexivity. Qed.
Lemma set_right_flip m l p : set_left m l p = let* m' := set_right (flip m) l p in OK (flip m').
Proof. unfold set_right, set_left. cbn [flip live]. destruct (live m l); reflexivity. Qed.
Lemma rotate_flip m a b : rotate_left m a b = let* (m', x) := rotate_right (flip m) a b in OK (flip m', x).
Proof.
  unfold rotate_left, rotate_right, get_left, get_right, set_left, set_right. cbn [flip live lf rg key].
  destruct (live m (At b)) eqn:Vb; cbn [bind]; [|reflexivity]. destruct (live m (At a)); cbn [bind live lf rg key]; [|reflexivity]. rewrite Vb. reflexivity.
Qed.
Lemma link_flip m a t : linkright m a t = let* (m', x, r) := linkleft (flip m) a t in OK (flip m', x, r).
Proof.
  unfold linkleft, linkright, get_left, get_right, set_left, set_right. cbn [flip live lf rg key].
  destruct (live m t); cbn [bind live lf rg key]; [|reflexivity]. destruct (live m (At a)); reflexivity.
Qed.

Lemma Inv_unflip A m0 m p t L R lft rgt : Inv A (flip m0) m p t R L rgt lft -> Inv A m0 (flip m) p (flipt t) L R lft rgt.
Proof. intros I. apply Inv_flip in I. rewrite flip_flip in I. exact I. Qed.
Lemma rotate_inv' A m0 m a ka b kb l rl rr L R lft rgt :
  Inv A m0 m (Some a) (Tr l a ka (Tr rl b kb rr)) L R lft rgt ->
  exists m', rotate_left m a b = OK (m', b) /\ Inv A m0 m' (Some b) (Tr (Tr l a ka rl) b kb rr) L R lft rgt.
Proof.
  intros I. apply Inv_flip in I. cbn [flipt] in I. apply rotate_inv in I. destruct I as (m' & E & I). apply Inv_unflip in I. cbn [flipt] in I. rewrite !flipt_flipt in I.
  exists (flip m'). split; [|exact I]. rewrite rotate_flip, E. reflexivity.
Qed.
Lemma link_inv' A m0 m a k l r L R lft rgt : r <> Lf ->
  Inv A m0 m (Some a) (Tr l a k r) L R lft rgt ->
  exists m', linkright m a lft = OK (m', At a, rg m (At a)) /\ Inv A m0 m' (rg m (At a)) r (L ++ [(l, a, k)]) R (At a) rgt.
Proof.
  intros Nr I. apply Inv_flip in I. cbn [flipt] in I. apply link_inv in I; [|destruct r; [congruence|discriminate]].
  destruct I as (m' & E & I). apply Inv_unflip in I. rewrite !flipt_flipt in I.
  exists (flip m'). split; [|exact I]. rewrite link_flip, E. reflexivity.
Qed.

(** ** the loop *)
Definition kl (a b : nat * N) : Prop := (snd a < snd b)%N.
Definition sorted (l : list (nat * N)) : Prop := StronglySorted kl l.
Definition below (x : N) (l : list (nat * N)) : Prop := Forall (fun y => (snd y < x)%N) l.
Definition above (x : N) (l : list (nat * N)) : Prop := Forall (fun y => (x < snd y)%N) l.
Lemma sorted_app a b : sorted (a ++ b) <-> sorted a /\ sorted b /\ forall x y, In x a -> In y b -> kl x y.
Proof.
  unfold sorted. induction a as [|u a IH]; cbn [app].
  - split; [intros H; split; [constructor|]; split; [exact H|intros x y []]|intros (_ & H & _); exact H].
  - split.
    + intros H. inversion H as [|? ? H1 H2]; subst. apply IH in H1. destruct H1 as (A & B & C). rewrite Forall_app in H2. destruct H2 as [F1 F2].
      split; [constructor; assumption|]. split; [exact B|]. intros x y [->|X] Y; [rewrite Forall_forall in F2; auto|auto].
    + intros (A & B & C). inversion A as [|? ? A1 A2]; subst. constructor.
      * apply IH. split; [exact A1|]. split; [exact B|]. intros x y X Y. apply C; [right; exact X|exact Y].
      * apply Forall_app. split; [exact A2|]. apply Forall_forall. intros y Y. apply C; [left; reflexivity|exact Y].
Qed.
Lemma sorted_tr l a k r : sorted (inorder (Tr l a k r)) <-> sorted (inorder l) /\ sorted (inorder r) /\ below k (inorder l) /\ above k (inorder r).
Proof.
  cbn [inorder]. rewrite sorted_app. unfold below, above. rewrite !Forall_forall. split.
  - intros (A & B & C). inversion B as [|? ? B1 B2]; subst. rewrite Forall_forall in B2. split; [exact A|]. split; [exact B1|]. split; [|exact B2].
    intros x X. apply (C x (a, k) X). left. reflexivity.
  - intros (A & B & C & D). split; [exact A|]. split; [constructor; [exact B|apply Forall_forall; exact D]|].
    intros x y X [<-|Y]; [exact (C x X)|]. unfold kl. specialize (C x X). specialize (D y Y). lia.
Qed.

Lemma cmp_spec m a b : live m (At a) = true -> live m (At b) = true ->
  client_tree_cmp m a b = OK (if (key m (At a) =? key m (At b))%N then Eq else if (key m (At a) <? key m (At b))%N then Lt else Gt).
Proof. intros A B. unfold client_tree_cmp, get_key. rewrite A, B. reflexivity. Qed.

Lemma above_trans x k l : (x < k)%N -> above k l -> above x l.
Proof. intros H. apply Forall_impl. intros y. lia. Qed.
Lemma below_trans x k l : (k < x)%N -> below k l -> below x l.
Proof. intros H. apply Forall_impl. intros y. lia. Qed.
Lemma above_rev x l : above x l -> above x (rev l).
Proof. unfold above. rewrite !Forall_forall. intros H y Y. apply H. apply in_rev. exact Y. Qed.

Lemma len_tr l a k r : length (inorder (Tr l a k r)) = length (inorder l) + S (length (inorder r)).
Proof. cbn [inorder]. rewrite app_length. reflexivity. Qed.

Ltac norm := repeat (rewrite <- app_assoc || cbn [app]).
Section Loop.
  Context (A : list nat) (m0 : mem) (elm : nat) (x : N).
  Context (Ve : live m0 (At elm) = true) (Ke : key m0 (At elm) = x).
  Definition good (r : nat) (t : tree) : Prop :=
    exists l k rr, t = Tr l r k rr /\ (k = x \/ (x < k)%N /\ l = Lf \/ (k < x)%N /\ rr = Lf).
  Definition done (W : list (nat * N)) (o : res (mem * nat * loc * loc)) : Prop :=
    exists m r t L R lft rgt, o = OK (m, r, lft, rgt) /\ Inv A m0 m (Some r) t L R lft rgt /\
      lin L ++ inorder t ++ rev (lin R) = W /\ below x (lin L) /\ above x (lin R) /\ sorted (inorder t) /\ good r t.

  Lemma loop_spec : forall fuel m p t L R lft rgt, Inv A m0 m p t L R lft rgt -> t <> Lf -> length (inorder t) <= fuel ->
    below x (lin L) -> above x (lin R) -> sorted (inorder t) ->
    done (lin L ++ inorder t ++ rev (lin R)) (splay_loop fuel m p elm lft rgt).
  Proof.
    induction fuel as [|fuel IH]; intros m p t L R lft rgt I Nt F BL AR S.
    { destruct t; [congruence|]. cbn [inorder] in F. rewrite app_length in F. cbn [length] in F. lia. }
    destruct t as [|l a k r]; [congruence|]. pose proof (i_tree _ _ _ _ _ _ _ _ _ I) as T. cbn [tr] in T. destruct T as (-> & Va & Ka & Tl & Tr_).
    assert (Vm : live m (At elm) = true) by (rewrite (i_live _ _ _ _ _ _ _ _ _ I); exact Ve).
    assert (Km : key m (At elm) = x) by (rewrite (i_key _ _ _ _ _ _ _ _ _ I); exact Ke).
    cbn [splay_loop deref bind]. rewrite (cmp_spec m elm a Vm Va), Km, Ka. cbn [bind].
    destruct (N.eqb_spec x k) as [E|E].
    { exists m, a, (Tr l a k r), L, R, lft, rgt. repeat (split; [assumption||reflexivity|]). exists l, k, r. auto. }
    pose proof (proj1 (sorted_tr l a k r) S) as (Sl & Sr & Bl & Ar).
    destruct (N.ltb_spec x k) as [Lt_|Gt_].
    - unfold get_left at 1. rewrite Va. cbn [bind]. destruct l as [|ll b kb lr].
      { cbn [tr] in Tl. rewrite Tl. exists m, a, (Tr Lf a k r), L, R, lft, rgt. repeat (split; [assumption||reflexivity|]). exists Lf, k, r. auto. }
      cbn [tr] in Tl. destruct Tl as (Lb & Vb & Kb & Tll & Tlr). rewrite Lb. rewrite (cmp_spec m elm b Vm Vb), Km, Kb. cbn [bind].
      assert (Plain : forall lk, lk = (let* (m, rgt, root) := linkleft m a rgt in splay_loop fuel m root elm lft rgt) ->
        done (lin L ++ inorder (Tr (Tr ll b kb lr) a k r) ++ rev (lin R)) lk).
      { intros lk ->. destruct (link_inv _ _ _ _ _ (Tr ll b kb lr) _ _ _ _ _ ltac:(discriminate) I) as (m' & -> & I'). cbn [bind].
        eassert (D : done _ _).
        { eapply IH; [exact I'|discriminate| |exact BL| |exact Sl].
          - repeat rewrite len_tr in F. repeat rewrite len_tr. lia.
          - rewrite lin_app. apply Forall_app. split; [exact AR|]. cbn [lin]. rewrite inorder_flipt. apply Forall_app.
            split; [apply above_rev; apply (above_trans x k); assumption|constructor; [exact Lt_|constructor]]. }
        replace (lin L ++ inorder (Tr (Tr ll b kb lr) a k r) ++ rev (lin R)) with (lin L ++ inorder (Tr ll b kb lr) ++ rev (lin (R ++ [(flipt r, a, k)]))); [exact D|].
        f_equal. rewrite lin_app, rev_app_distr. cbn [lin]. rewrite rev_app_distr, inorder_flipt, rev_involutive. cbn [rev app inorder]. norm. reflexivity. }
      destruct (N.eqb_spec x kb) as [E2|E2]; [apply Plain; reflexivity|]. destruct (N.ltb_spec x kb) as [Lt2|Gt2]; [|apply Plain; reflexivity]. clear Plain.
      destruct (rotate_inv _ _ _ _ _ _ _ _ _ _ _ _ _ _ I) as (m' & -> & I'). cbn [bind].
      pose proof (i_tree _ _ _ _ _ _ _ _ _ I') as T'. cbn [tr] in T'. destruct T' as (_ & Vb' & Kb' & Tll' & _).
      assert (Eq_ : inorder (Tr ll b kb (Tr lr a k r)) = inorder (Tr (Tr ll b kb lr) a k r)) by (cbn [inorder]; rewrite <- app_assoc; reflexivity).
      assert (S' : sorted (inorder (Tr ll b kb (Tr lr a k r)))) by (rewrite Eq_; exact S).
      unfold get_left at 1. rewrite Vb'. cbn [bind]. destruct ll as [|ll' c kc lr'].
      { cbn [tr] in Tll'. rewrite Tll'. exists m', b, (Tr Lf b kb (Tr lr a k r)), L, R, lft, rgt. split; [reflexivity|]. split; [exact I'|].
        split; [rewrite Eq_; reflexivity|]. repeat (split; [assumption|]). exists Lf, kb, (Tr lr a k r). auto. }
      pose proof Tll' as Tll2. cbn [tr] in Tll2. destruct Tll2 as (Lc & _). rewrite Lc.
      destruct (link_inv _ _ _ _ _ (Tr ll' c kc lr') _ _ _ _ _ ltac:(discriminate) I') as (m2 & -> & I2). cbn [bind].
      pose proof (proj1 (sorted_tr _ _ _ _) S') as (Sl' & Sr' & Bl' & Ar').
      eassert (D : done _ _).
      { eapply IH; [exact I2|discriminate| |exact BL| |exact Sl'].
        - repeat rewrite len_tr in F. repeat rewrite len_tr. lia.
        - rewrite lin_app. apply Forall_app. split; [exact AR|]. cbn [lin]. rewrite inorder_flipt. apply Forall_app.
          split; [apply above_rev; apply (above_trans x kb); assumption|constructor; [exact Lt2|constructor]]. }
      rewrite <- Eq_.
      replace (lin L ++ inorder (Tr (Tr ll' c kc lr') b kb (Tr lr a k r)) ++ rev (lin R)) with (lin L ++ inorder (Tr ll' c kc lr') ++ rev (lin (R ++ [(flipt (Tr lr a k r), b, kb)]))); [exact D|].
      f_equal. rewrite lin_app, rev_app_distr. cbn [lin]. rewrite rev_app_distr, inorder_flipt, rev_involutive. cbn [rev app inorder]. norm. reflexivity.
    - assert (Gt3 : (k < x)%N) by lia. clear Gt_. unfold get_right at 1. rewrite Va. cbn [bind]. destruct r as [|rl b kb rr].
      { cbn [tr] in Tr_. rewrite Tr_. exists m, a, (Tr l a k Lf), L, R, lft, rgt. repeat (split; [assumption||reflexivity|]). exists l, k, Lf. auto. }
      cbn [tr] in Tr_. destruct Tr_ as (Lb & Vb & Kb & Trl & Trr). rewrite Lb. rewrite (cmp_spec m elm b Vm Vb), Km, Kb. cbn [bind].
      assert (Plain : forall lk, lk = (let* (m, lft, root) := linkright m a lft in splay_loop fuel m root elm lft rgt) ->
        done (lin L ++ inorder (Tr l a k (Tr rl b kb rr)) ++ rev (lin R)) lk).
      { intros lk ->. destruct (link_inv' _ _ _ _ _ _ (Tr rl b kb rr) _ _ _ _ ltac:(discriminate) I) as (m' & -> & I'). cbn [bind].
        eassert (D : done _ _).
        { eapply IH; [exact I'|discriminate| | |exact AR|exact Sr].
          - repeat rewrite len_tr in F. repeat rewrite len_tr. lia.
          - rewrite lin_app. apply Forall_app. split; [exact BL|]. cbn [lin]. apply Forall_app.
            split; [apply (below_trans x k); assumption|constructor; [exact Gt3|constructor]]. }
        replace (lin L ++ inorder (Tr l a k (Tr rl b kb rr)) ++ rev (lin R)) with (lin (L ++ [(l, a, k)]) ++ inorder (Tr rl b kb rr) ++ rev (lin R)); [exact D|].
        rewrite lin_app. cbn [lin app inorder]. norm. reflexivity. }
      destruct (N.eqb_spec x kb) as [E2|E2]; [apply Plain; reflexivity|]. destruct (N.ltb_spec x kb) as [Lt2|Gt2]; [apply Plain; reflexivity|]. clear Plain.
      destruct (rotate_inv' _ _ _ _ _ _ _ _ _ _ _ _ _ _ I) as (m' & -> & I'). cbn [bind].
      pose proof (i_tree _ _ _ _ _ _ _ _ _ I') as T'. cbn [tr] in T'. destruct T' as (_ & Vb' & Kb' & _ & Trr').
      assert (Eq_ : inorder (Tr (Tr l a k rl) b kb rr) = inorder (Tr l a k (Tr rl b kb rr))) by (cbn [inorder]; rewrite <- app_assoc; reflexivity).
      assert (S' : sorted (inorder (Tr (Tr l a k rl) b kb rr))) by (rewrite Eq_; exact S).
      unfold get_right at 1. rewrite Vb'. cbn [bind]. destruct rr as [|rl' c kc rr'].
      { cbn [tr] in Trr'. rewrite Trr'. exists m', b, (Tr (Tr l a k rl) b kb Lf), L, R, lft, rgt. split; [reflexivity|]. split; [exact I'|].
        split; [rewrite Eq_; reflexivity|]. repeat (split; [assumption|]). exists (Tr l a k rl), kb, Lf. split; [reflexivity|]. right. right. split; [lia|reflexivity]. }
      pose proof Trr' as Trr2. cbn [tr] in Trr2. destruct Trr2 as (Lc & _). rewrite Lc.
      destruct (link_inv' _ _ _ _ _ _ (Tr rl' c kc rr') _ _ _ _ ltac:(discriminate) I') as (m2 & -> & I2). cbn [bind].
      pose proof (proj1 (sorted_tr _ _ _ _) S') as (Sl' & Sr' & Bl' & Ar').
      eassert (D : done _ _).
      { eapply IH; [exact I2|discriminate| | |exact AR|exact Sr'].
        - repeat rewrite len_tr in F. repeat rewrite len_tr. lia.
        - rewrite lin_app. apply Forall_app. split; [exact BL|]. cbn [lin]. apply Forall_app.
          split; [apply (below_trans x kb); [lia|assumption]|constructor; [cbn; lia|constructor]]. }
      rewrite <- Eq_.
      replace (lin L ++ inorder (Tr (Tr l a k rl) b kb (Tr rl' c kc rr')) ++ rev (lin R)) with (lin (L ++ [(Tr l a k rl, b, kb)]) ++ inorder (Tr rl' c kc rr') ++ rev (lin R)); [exact D|].
      rewrite lin_app. cbn [lin app inorder]. norm. reflexivity.
  Qed.
End Loop.

(** ** the whole operation *)
Lemma assemble_inv A m0 m r k l rr L R lft rgt : Inv A m0 m (Some r) (Tr l r k rr) L R lft rgt ->
  exists m', assemble m r lft rgt = OK m' /\ tr m' (Some r) (Tr (lbuild L l) r k (flipt (lbuild R (flipt rr)))) /\
    (forall x, live m' x = live m0 x) /\ (forall x, key m' x = key m0 x) /\
    (forall a, ~ In a A -> lf m' (At a) = lf m0 (At a) /\ rg m' (At a) = rg m0 (At a)).
Proof.
  intros I. pose proof (i_tree _ _ _ _ _ _ _ _ _ I) as T. cbn [tr] in T. destruct T as (_ & Vr & Kr & Tl & Trr).
  destruct (Inv_disj _ _ _ _ _ _ _ _ _ I) as (D1 & D2 & D3 & D4 & D5 & D6). destruct (Inv_rgt _ _ _ _ _ _ _ _ _ I) as [Vrg Irg].
  destruct (Inv_rgt _ _ _ _ _ _ _ _ _ (Inv_flip _ _ _ _ _ _ _ _ _ I)) as [Vlf Ilf]. cbn [flip live] in Vlf.
  pose proof (i_node _ _ _ _ _ _ _ _ _ I) as Vn. rewrite addrs_tr in *.
  apply nodup_app in D2. destruct D2 as (D21 & D22 & D23). inversion D22 as [|? ? D24 D25]; subst.
  assert (Ir : In r (addrs l ++ r :: addrs rr)) by (apply in_or_app; right; left; reflexivity).
  assert (Nl : forall y, In y (addrs l ++ r :: addrs rr) \/ In y (laddr R) -> At y <> lft).
  { intros y Y E. destruct Ilf as [->|(b & -> & J)]; [discriminate|]. injection E as ->. destruct Y as [Y|Y]; [exact (D4 _ J Y)|exact (D5 _ J Y)]. }
  assert (Nr : forall y, In y (addrs l ++ r :: addrs rr) \/ In y (laddr L) -> At y <> rgt).
  { intros y Y E. destruct Irg as [->|(b & -> & J)]; [discriminate|]. injection E as ->. destruct Y as [Y|Y]; [exact (D6 _ Y J)|exact (D5 _ Y J)]. }
  unfold assemble, get_left, get_right, set_left, set_right. rewrite Vr. cbn [bind]. rewrite Vlf. cbn [bind live key lf rg]. rewrite Vr. cbn [bind].
  rewrite Vrg. cbn [bind live key lf rg]. rewrite Vn. cbn [bind]. rewrite Vr. cbn [bind live key lf rg]. rewrite Vn. cbn [bind]. rewrite Vr.
  eexists. split; [reflexivity|].
  rewrite (put_other (rg m) lft _ (At r)) by (apply Nl; auto).
  set (m2 := mkMem (live m) (key m) (put (lf m) rgt (rg m (At r))) (put (rg m) lft (lf m (At r)))).
  rewrite (put_other _ (At r) _ Node) by discriminate.
  change (put (rg m) lft (lf m (At r)) Node) with (rg m2 Node). change (put (lf m) rgt (rg m (At r)) Node) with (lf m2 Node).
  change (put (rg m) lft (lf m (At r))) with (rg m2). change (put (lf m) rgt (rg m (At r))) with (lf m2).
  assert (TL : tr m2 (rg m2 Node) (lbuild L l)).
  { apply (lsp_build m2 l L Node lft).
    - eapply lsp_keep; [exact (i_left _ _ _ _ _ _ _ _ _ I)|exact D1|intros y E; discriminate| |].
      + intros E. cbn. apply put_other. exact E.
      + intros y Y. cbn. split; [reflexivity|]. split; [reflexivity|]. split; [apply put_other, Nr; auto|intros E; apply put_other; exact E].
    - cbn [rg m2]. rewrite put_same. apply (tr_frame m); [|exact Tl]. intros y Y. cbn. split; [reflexivity|]. split; [reflexivity|].
      split; apply put_other; [apply Nr|apply Nl]; left; apply in_or_app; auto. }
  assert (TR : tr (flip m2) (lf m2 Node) (lbuild R (flipt rr))).
  { apply (lsp_build (flip m2) (flipt rr) R Node rgt).
    - eapply lsp_keep; [exact (i_right _ _ _ _ _ _ _ _ _ I)|exact D3|intros y E; discriminate| |].
      + intros E. cbn. apply put_other. exact E.
      + intros y Y. cbn. split; [reflexivity|]. split; [reflexivity|]. split; [apply put_other, Nl; auto|intros E; apply put_other; exact E].
    - cbn [rg flip lf m2]. rewrite put_same. apply tr_flip. apply (tr_frame m); [|exact Trr]. intros y Y. cbn. split; [reflexivity|]. split; [reflexivity|].
      split; apply put_other; [apply Nr|apply Nl]; left; apply in_or_app; right; right; exact Y. }
  split; [|split; [|split]].
  - cbn [tr live key lf rg]. rewrite !put_same. split; [reflexivity|]. split; [exact Vr|]. split; [reflexivity|]. split.
    + apply (tr_frame m2); [|exact TL]. intros y Y. assert (Ny : y <> r).
      { intros ->. unfold addrs in Y. rewrite inorder_lbuild, map_app in Y. apply in_app_or in Y. destruct Y as [Y|Y]; [exact (D4 _ Y Ir)|]. apply (D23 r Y). left. reflexivity. }
      split; [reflexivity|]. split; [reflexivity|]. cbn. split; apply put_other; congruence.
    + apply (tr_frame m2); [|apply tr_flip_inv; exact TR]. intros y Y. assert (Ny : y <> r).
      { intros ->. rewrite addrs_flipt in Y. apply in_rev in Y. unfold addrs in Y. rewrite inorder_lbuild, map_app in Y. apply in_app_or in Y. destruct Y as [Y|Y]; [exact (D6 _ Ir Y)|].
        fold (addrs (flipt rr)) in Y. rewrite addrs_flipt in Y. apply in_rev in Y. exact (D24 Y). }
      split; [reflexivity|]. split; [reflexivity|]. cbn. split; apply put_other; congruence.
  - intros y. cbn. apply (i_live _ _ _ _ _ _ _ _ _ I).
  - intros y. cbn. apply (i_key _ _ _ _ _ _ _ _ _ I).
  - intros a Ha. destruct (i_out _ _ _ _ _ _ _ _ _ I a Ha) as [O1 O2]. pose proof (Inv_in _ _ _ _ _ _ _ _ _ a I) as IN. rewrite addrs_tr in IN.
    assert (a <> r) by (intros ->; apply Ha, IN; auto).
    assert (At a <> lft). { intros E. destruct Ilf as [->|(b & -> & J)]; [discriminate|]. injection E as ->. apply Ha, IN. auto. }
    assert (At a <> rgt). { intros E. destruct Irg as [->|(b & -> & J)]; [discriminate|]. injection E as ->. apply Ha, IN. auto. }
    cbn. rewrite !put_other by congruence. auto.
Qed.

(** live and key as before; the links outside of [A] too *)
Definition frame (A : list nat) (m m' : mem) : Prop :=
  (forall a, live m' (At a) = live m (At a)) /\ (forall a, key m' (At a) = key m (At a)) /\
  (forall a, ~ In a A -> lf m' (At a) = lf m (At a) /\ rg m' (At a) = rg m (At a)).

Lemma splay_spec fuel m root t elm : live m (At elm) = true -> tr m root t -> t <> Lf -> NoDup (addrs t) -> sorted (inorder t) -> length (inorder t) <= fuel ->
  exists m' r l k rr, splay fuel m root elm = OK (m', r) /\ tr m' (Some r) (Tr l r k rr) /\ inorder (Tr l r k rr) = inorder t /\
    below (key m (At elm)) (inorder l) /\ above (key m (At elm)) (inorder rr) /\ frame (addrs t) m m'.
Proof.
  intros Ve T Nt ND S F. unfold splay, set_right, set_left, node_live. cbn [live]. rewrite put_same. cbn [bind live key lf rg]. rewrite put_same. cbn [bind].
  set (m1 := mkMem (put (live m) Node true) (key m) (put (lf m) Node None) (put (rg m) Node None)).
  assert (I : Inv (addrs t) m1 m1 root t [] [] Node Node).
  { constructor; auto.
    - cbn. rewrite app_nil_r. reflexivity.
    - reflexivity.
    - reflexivity.
    - apply (tr_frame m); [|exact T]. intros a _. split; [reflexivity|]. split; [reflexivity|]. split; reflexivity. }
  destruct (loop_spec (addrs t) m1 elm (key m (At elm)) Ve eq_refl fuel m1 root t [] [] Node Node I Nt F ltac:(constructor) ltac:(constructor) S)
    as (m2 & r & t' & L & R & lft & rgt & -> & I2 & W & BL & AR & S' & (l & k & rr & -> & G)). cbn [bind].
  destruct (assemble_inv _ _ _ _ _ _ _ _ _ _ _ I2) as (m3 & -> & T3 & V3 & K3 & O3). cbn [bind].
  eexists _, r, _, k, _. split; [reflexivity|]. split; [|split; [|split; [|split]]].
  - apply (tr_frame m3); [|exact T3]. intros a _. split; [reflexivity|]. split; [reflexivity|]. split; reflexivity.
  - cbn [lin app rev] in W. rewrite app_nil_r in W. rewrite <- W. cbn [inorder]. rewrite inorder_lbuild, inorder_flipt, inorder_lbuild, rev_app_distr, inorder_flipt, rev_involutive. norm. reflexivity.
  - rewrite inorder_lbuild. apply Forall_app. split; [exact BL|]. apply sorted_tr in S'. destruct S' as (_ & _ & B & _).
    destruct G as [->|[[_ ->]|[G _]]]; [exact B|constructor|]. apply (below_trans _ k); assumption.
  - rewrite inorder_flipt. apply above_rev. rewrite inorder_lbuild. apply Forall_app. split; [exact AR|]. rewrite inorder_flipt. apply above_rev.
    apply sorted_tr in S'. destruct S' as (_ & _ & _ & B).
    destruct G as [->|[[G _]|[_ ->]]]; [exact B| |constructor]. apply (above_trans _ k); assumption.
  - split; [|split].
    + intros a. cbn. rewrite V3. reflexivity.
    + intros a. cbn. rewrite K3. reflexivity.
    + intros a Ha. cbn. destruct (O3 a Ha). auto.
Qed.

(** ** the operations *)
Definition wf (m : mem) (root : option nat) (t : tree) : Prop := tr m root t /\ NoDup (addrs t) /\ sorted (inorder t).

Lemma no_key x l a k r : k <> x -> below x (inorder l) -> above x (inorder r) -> forall b, ~ In (b, x) (inorder (Tr l a k r)).
Proof.
  intros N B A b I. cbn [inorder] in I. unfold below, above in *. rewrite Forall_forall in *. apply in_app_or in I. destruct I as [I|[I|I]].
  - apply B in I. cbn in I. lia.
  - congruence.
  - apply A in I. cbn in I. lia.
Qed.
Lemma wf_of t' t m r : tr m r t' -> inorder t' = inorder t -> NoDup (addrs t) -> sorted (inorder t) -> wf m r t'.
Proof. intros T E N S. split; [exact T|]. unfold addrs. rewrite E. auto. Qed.

Lemma find_spec fuel m root t elm : live m (At elm) = true -> wf m root t -> length (inorder t) <= fuel ->
  exists m' root' ret t', splay_find fuel m root elm = OK (m', root', ret) /\ wf m' root' t' /\ inorder t' = inorder t /\ frame (addrs t) m m' /\
    match ret with Some b => In (b, key m (At elm)) (inorder t) | None => forall b, ~ In (b, key m (At elm)) (inorder t) end.
Proof.
  intros Ve (T & ND & S) F. set (x := key m (At elm)). destruct root as [r0|].
  2:{ apply tr_none in T. subst t. exists m, None, None, Lf. split; [reflexivity|]. split; [repeat split; constructor|]. split; [reflexivity|]. split; [repeat split|intros b []]. }
  cbn [splay_find]. assert (Nt : t <> Lf) by (intros ->; discriminate T).
  destruct (splay_spec fuel m _ t elm Ve T Nt ND S F) as (m' & r & l & k & rr & -> & T' & W & B & A & Fr). cbn [bind].
  pose proof T' as (_ & Vr & Kr & _ & _). destruct Fr as (F1 & F2 & F3).
  rewrite cmp_spec; [|rewrite F1; exact Ve|exact Vr]. rewrite F2, Kr. fold x. cbn [bind].
  assert (R : frame (addrs t) m m') by (split; [exact F1|split; [exact F2|exact F3]]).
  destruct (N.eqb_spec x k) as [E|E].
  - exists m', (Some r), (Some r), (Tr l r k rr). split; [reflexivity|]. split; [eapply wf_of; eauto|]. split; [exact W|]. split; [exact R|].
    rewrite <- W. cbn [inorder]. apply in_or_app. right. left. congruence.
  - exists m', (Some r), None, (Tr l r k rr). split; [destruct (x <? k)%N; reflexivity|]. split; [eapply wf_of; eauto|]. split; [exact W|]. split; [exact R|].
    rewrite <- W. apply no_key; [congruence|exact B|exact A].
Qed.

Lemma insert_spec fuel m root t elm : live m (At elm) = true -> wf m root t -> length (inorder t) <= fuel ->
  exists m' root' ret t', splay_insert fuel m root elm = OK (m', root', ret) /\ wf m' root' t' /\ frame (elm :: addrs t) m m' /\
    match ret with
    | Some b => In (b, key m (At elm)) (inorder t) /\ inorder t' = inorder t
    | None => (forall b, ~ In (b, key m (At elm)) (inorder t)) /\ exists l1 l2, inorder t = l1 ++ l2 /\ inorder t' = l1 ++ (elm, key m (At elm)) :: l2
    end.
Proof.
  intros Ve (T & ND & S) F. set (x := key m (At elm)). destruct root as [r0|].
  { cbn [splay_insert]. assert (Nt : t <> Lf) by (intros ->; discriminate T).
    destruct (splay_spec fuel m _ t elm Ve T Nt ND S F) as (m' & r & l & k & rr & -> & T' & W & B & A & Fr). cbn [bind].
    pose proof T' as (_ & Vr & Kr & Tl & Trr). destruct Fr as (F1 & F2 & F3). assert (Ve' : live m' (At elm) = true) by (rewrite F1; exact Ve).
    rewrite cmp_spec; [|exact Ve'|exact Vr]. rewrite F2, Kr. fold x. fold x in B, A. cbn [bind].
    destruct (N.eqb_spec x k) as [E|E].
    { exists m', (Some r), (Some r), (Tr l r k rr). split; [reflexivity|]. split; [eapply wf_of; eauto|]. split.
      - split; [exact F1|]. split; [exact F2|]. intros a Ha. apply F3. intros I. apply Ha. right. exact I.
      - split; [|exact W]. rewrite <- W. cbn [inorder]. apply in_or_app. right. left. congruence. }
    pose proof (no_key x l r k rr ltac:(congruence) B A) as NK.
    assert (Ne : ~ In elm (addrs t)).
    { intros I. unfold addrs in I. apply in_map_iff in I. destruct I as ((a, k') & Ea & I). cbn in Ea. subst a. pose proof (tr_key _ _ _ _ _ T I) as Q. fold x in Q. rewrite <- W in I. rewrite <- Q in I. exact (NK _ I). }
    assert (NDt : NoDup (addrs (Tr l r k rr))) by (unfold addrs; rewrite W; exact ND). assert (Ne' : ~ In elm (addrs (Tr l r k rr))) by (unfold addrs; rewrite W; exact Ne).
    assert (S' : sorted (inorder (Tr l r k rr))) by (rewrite W; exact S). rewrite addrs_tr in NDt, Ne'.
    apply nodup_app in NDt. destruct NDt as (N1 & N2 & N3). inversion N2 as [|? ? N4 N5]; subst. apply sorted_tr in S'. destruct S' as (Sl & Sr & Bl & Ar).
    assert (er : elm <> r) by (intros ->; apply Ne', in_or_app; right; left; reflexivity).
    assert (NEl : forall y, In y (addrs l) -> At y <> At elm /\ At y <> At r).
    { intros y Y. split; intros Q; injection Q as ->; [apply Ne', in_or_app; left; exact Y|apply (N3 r Y); left; reflexivity]. }
    assert (NEr : forall y, In y (addrs rr) -> At y <> At elm /\ At y <> At r).
    { intros y Y. split; intros Q; injection Q as ->; [apply Ne', in_or_app; right; right; exact Y|exact (N4 Y)]. }
    assert (In_r : In r (addrs t)) by (unfold addrs; rewrite <- W; cbn [inorder]; rewrite map_app; apply in_or_app; right; left; reflexivity).
    destruct (N.ltb_spec x (key m' (At r))) as [Lt_|Gt_].
    - unfold get_left, set_left, set_right. rewrite Vr. cbn [bind]. rewrite Ve'. cbn [bind live key lf rg]. rewrite Ve'. cbn [bind live key lf rg]. rewrite Vr. cbn [bind].
      eexists _, _, _, (Tr l elm x (Tr Lf r (key m' (At r)) rr)). split; [reflexivity|]. split; [|split].
      + split; [|split].
        * cbn [tr live key lf rg]. split; [reflexivity|]. split; [exact Ve'|]. split; [apply F2|].
          rewrite !put_same. rewrite (put_other _ (At r) _ (At elm)) by congruence. rewrite put_same. split; [|split; [reflexivity|split; [exact Vr|split; [reflexivity|split; [reflexivity|]]]]].
          -- apply (tr_frame m'); [|exact Tl]. intros y Y. destruct (NEl y Y). split; [reflexivity|]. split; [reflexivity|]. cbn. rewrite !put_other by assumption. auto.
          -- rewrite (put_other _ (At elm) _ (At r)) by congruence. apply (tr_frame m'); [|exact Trr]. intros y Y. destruct (NEr y Y). split; [reflexivity|]. split; [reflexivity|]. cbn. rewrite !put_other by assumption. auto.
        * rewrite addrs_tr. rewrite addrs_tr. cbn [addrs inorder map app]. apply NoDup_Add with (a := elm) (l := addrs l ++ r :: addrs rr); [apply Add_app|].
          split; [|exact Ne']. unfold addrs in ND |- *. rewrite <- W in ND. cbn [inorder] in ND. rewrite map_app in ND. exact ND.
        * apply sorted_tr. split; [exact Sl|]. split; [apply sorted_tr; split; [constructor|split; [exact Sr|split; [constructor|exact Ar]]]|]. split; [exact B|].
          cbn [inorder app]. constructor; [exact Lt_|exact A].
      + split; [intros a; cbn; apply F1|]. split; [intros a; cbn; apply F2|]. intros a Ha. cbn.
        assert (At a <> At elm) by (intros Q; injection Q as ->; apply Ha; left; reflexivity). assert (At a <> At r) by (intros Q; injection Q as ->; apply Ha; right; exact In_r).
        rewrite !put_other by assumption. apply F3. intros I. apply Ha. right. exact I.
      + split; [rewrite <- W; exact NK|]. exists (inorder l), ((r, key m' (At r)) :: inorder rr). split; [rewrite <- W; reflexivity|reflexivity].
    - assert (Gt3 : (key m' (At r) < x)%N) by lia.
      unfold get_right, set_left, set_right. rewrite Vr. cbn [bind]. rewrite Ve'. cbn [bind live key lf rg]. rewrite Ve'. cbn [bind live key lf rg]. rewrite Vr. cbn [bind].
      eexists _, _, _, (Tr (Tr l r (key m' (At r)) Lf) elm x rr). split; [reflexivity|]. split; [|split].
      + split; [|split].
        * cbn [tr live key lf rg]. split; [reflexivity|]. split; [exact Ve'|]. split; [apply F2|].
          rewrite !put_same. rewrite (put_other _ (At r) _ (At elm)) by congruence. rewrite put_same. split; [split; [reflexivity|split; [exact Vr|split; [reflexivity|split; [|reflexivity]]]]|].
          -- rewrite (put_other _ (At elm) _ (At r)) by congruence. apply (tr_frame m'); [|exact Tl]. intros y Y. destruct (NEl y Y). split; [reflexivity|]. split; [reflexivity|]. cbn. rewrite !put_other by assumption. auto.
          -- apply (tr_frame m'); [|exact Trr]. intros y Y. destruct (NEr y Y). split; [reflexivity|]. split; [reflexivity|]. cbn. rewrite !put_other by assumption. auto.
        * rewrite !addrs_tr. change (NoDup ((addrs l ++ [r]) ++ elm :: addrs rr)).
          apply (Permutation_NoDup (l := elm :: (addrs l ++ [r]) ++ addrs rr)); [apply Permutation_middle|]. rewrite <- app_assoc. cbn [app]. constructor; [exact Ne'|].
          unfold addrs in ND |- *. rewrite <- W in ND. cbn [inorder] in ND. rewrite map_app in ND. exact ND.
        * apply sorted_tr. split; [apply sorted_tr; split; [exact Sl|split; [constructor|split; [exact Bl|constructor]]]|]. split; [exact Sr|]. split; [|exact A].
          cbn [inorder]. apply Forall_app. split; [exact B|constructor; [exact Gt3|constructor]].
      + split; [intros a; cbn; apply F1|]. split; [intros a; cbn; apply F2|]. intros a Ha. cbn.
        assert (At a <> At elm) by (intros Q; injection Q as ->; apply Ha; left; reflexivity). assert (At a <> At r) by (intros Q; injection Q as ->; apply Ha; right; exact In_r).
        rewrite !put_other by assumption. apply F3. intros I. apply Ha. right. exact I.
      + split; [rewrite <- W; exact NK|]. exists (inorder l ++ [(r, key m' (At r))]), (inorder rr). split; [rewrite <- W, <- app_assoc; reflexivity|reflexivity]. }
  apply tr_none in T. subst t. cbn [splay_insert]. unfold set_left, set_right. rewrite Ve. cbn [bind live key lf rg]. rewrite Ve. cbn [bind].
  eexists _, _, _, (Tr Lf elm x Lf). split; [reflexivity|]. split; [|split].
  - split; [cbn; rewrite !put_same; auto|]. split; [repeat constructor; intros []|repeat constructor].
  - split; [reflexivity|]. split; [reflexivity|]. intros a Ha. cbn. rewrite !put_other; auto; intros Q; injection Q as ->; apply Ha; left; reflexivity.
  - split; [intros b []|]. exists [], []. auto.
Qed.

Lemma remove_spec fuel m root t elm : live m (At elm) = true -> wf m root t -> length (inorder t) <= fuel ->
  exists m' root' ret t', splay_remove fuel m root elm = OK (m', root', ret) /\ wf m' root' t' /\ frame (addrs t) m m' /\
    match ret with
    | Some e => e = elm /\ exists b l1 l2, inorder t = l1 ++ (b, key m (At elm)) :: l2 /\ inorder t' = l1 ++ l2
    | None => (forall b, ~ In (b, key m (At elm)) (inorder t)) /\ inorder t' = inorder t
    end.
Proof.
  intros Ve (T & ND & S) F. set (x := key m (At elm)). destruct root as [r0|].
  2:{ apply tr_none in T. subst t. exists m, None, None, Lf. split; [reflexivity|]. split; [repeat split; constructor|]. split; [repeat split|]. split; [intros b []|reflexivity]. }
  cbn [splay_remove]. assert (Nt : t <> Lf) by (intros ->; discriminate T).
  destruct (splay_spec fuel m _ t elm Ve T Nt ND S F) as (m' & r & l & k & rr & -> & T' & W & B & A & Fr). cbn [bind].
  pose proof T' as (_ & Vr & Kr & Tl & Trr). destruct Fr as (F1 & F2 & F3). assert (Ve' : live m' (At elm) = true) by (rewrite F1; exact Ve).
  rewrite cmp_spec; [|exact Ve'|exact Vr]. rewrite F2, Kr. fold x. fold x in B, A. cbn [bind].
  destruct (N.eqb_spec x k) as [E|E].
  2:{ exists m', (Some r), None, (Tr l r k rr). split; [destruct (x <? k)%N; reflexivity|]. split; [eapply wf_of; eauto|]. split; [split; [exact F1|split; [exact F2|exact F3]]|].
      split; [|exact W]. rewrite <- W. apply no_key; [congruence|exact B|exact A]. }
  assert (NDt : NoDup (addrs (Tr l r k rr))) by (unfold addrs; rewrite W; exact ND). assert (S' : sorted (inorder (Tr l r k rr))) by (rewrite W; exact S).
  rewrite addrs_tr in NDt. apply nodup_app in NDt. destruct NDt as (N1 & N2 & N3). inversion N2 as [|? ? N4 N5]; subst. apply sorted_tr in S'. destruct S' as (Sl & Sr & Bl & Ar).
  unfold get_left at 1. rewrite Vr. cbn [bind]. destruct l as [|ll b kb lr].
  { cbn [tr] in Tl. rewrite Tl. unfold get_right. rewrite Vr. cbn [bind]. exists m', (rg m' (At r)), (Some elm), rr. split; [reflexivity|].
    split; [split; [exact Trr|split; [exact N5|exact Sr]]|]. split; [split; [exact F1|split; [exact F2|exact F3]]|]. split; [reflexivity|].
    exists r, [], (inorder rr). split; [rewrite <- W; cbn [inorder app]; congruence|reflexivity]. }
  pose proof Tl as Tl2. cbn [tr] in Tl2. destruct Tl2 as (Lb & _). rewrite Lb. unfold get_right at 1. rewrite Vr. cbn [bind]. rewrite <- Lb.
  set (l := Tr ll b kb lr) in *.
  assert (Fl : length (inorder l) <= fuel). { rewrite <- W in F. rewrite len_tr in F. lia. }
  destruct (splay_spec fuel m' _ l elm Ve' Tl ltac:(discriminate) N1 Sl Fl) as (m2 & r2 & l2 & k2 & rr2 & -> & T2 & W2 & B2 & A2 & (G1 & G2 & G3)). cbn [bind].
  rewrite F2 in B2, A2. fold x in B2, A2. pose proof T2 as (_ & Vr2 & Kr2 & Tl2 & Trr2).
  assert (rr2 = Lf).
  { destruct rr2 as [|q1 q2 q3 q4]; [reflexivity|]. exfalso. unfold above, below in A2, B. rewrite Forall_forall in A2, B.
    assert (I : In (q2, q3) (inorder (Tr q1 q2 q3 q4))) by (cbn [inorder]; apply in_or_app; right; left; reflexivity).
    specialize (A2 _ I). assert (I2 : In (q2, q3) (inorder l)) by (rewrite <- W2; cbn [inorder]; apply in_or_app; right; right; exact I). specialize (B _ I2). lia. }
  subst rr2. unfold set_right. rewrite Vr2. cbn [bind].
  assert (Wl : inorder l = inorder l2 ++ [(r2, k2)]) by (rewrite <- W2; reflexivity).
  assert (Ndl : NoDup (addrs l2 ++ [r2])) by (unfold addrs in N1; rewrite Wl, map_app in N1; exact N1).
  assert (Il : forall y, In y (addrs l) <-> In y (addrs l2) \/ y = r2).
  { intros y. unfold addrs. rewrite Wl, map_app, in_app_iff. cbn. split; [intros [Q|[Q|[]]]; auto|intros [Q|Q]; auto]. }
  apply nodup_app in Ndl. destruct Ndl as (Nd1 & _ & Nd2).
  assert (Sl2 : sorted (inorder l2) /\ below k2 (inorder l2)).
  { rewrite Wl in Sl. change (inorder l2 ++ [(r2, k2)]) with (inorder (Tr l2 r2 k2 Lf)) in Sl. apply sorted_tr in Sl. tauto. }
  eexists _, _, _, (Tr l2 r2 k2 rr). split; [reflexivity|]. split; [|split].
  - split; [|split].
    + cbn [tr live key lf rg]. rewrite put_same. split; [reflexivity|]. split; [exact Vr2|]. split; [exact Kr2|]. split.
      * apply (tr_frame m2); [|exact Tl2]. intros y Y. split; [reflexivity|]. split; [reflexivity|]. cbn. split; [reflexivity|]. apply put_other. intros Q. injection Q as ->. apply (Nd2 r2 Y). left. reflexivity.
      * apply (tr_frame m'); [|exact Trr]. intros y Y.
        assert (Ny : ~ In y (addrs l)) by (intros Q; apply (N3 y Q); right; exact Y). destruct (G3 y Ny) as [H1 H2].
        split; [apply G1|]. split; [apply G2|]. cbn. split; [exact H1|]. rewrite put_other; [exact H2|]. intros Q. injection Q as ->. apply Ny, Il. auto.
    + rewrite addrs_tr.
      apply (Permutation_NoDup (l := addrs l ++ addrs rr)).
      { unfold addrs at 1. rewrite Wl, map_app. rewrite <- app_assoc. reflexivity. }
      clear - N1 N3 N5. induction (addrs l) as [|y q IH]; [exact N5|]. cbn. inversion N1; subst. constructor.
      * intros Q. apply in_app_or in Q. destruct Q as [Q|Q]; [contradiction|]. apply (N3 y); [left; reflexivity|right; exact Q].
      * apply IH; [assumption|]. intros z Z1 Z2. apply (N3 z); [right; exact Z1|exact Z2].
    + apply sorted_tr. split; [apply Sl2|]. split; [exact Sr|]. split; [apply Sl2|]. apply (above_trans _ (key m' (At r))); [|exact Ar].
      unfold below in Bl. rewrite Forall_forall in Bl. apply (Bl (r2, k2)). rewrite Wl. apply in_or_app. right. left. reflexivity.
  - split; [intros a; cbn; rewrite G1; apply F1|]. split; [intros a; cbn; rewrite G2; apply F2|].
    assert (Sub : forall y, In y (addrs l) -> In y (addrs t)). { intros y Y. unfold addrs. rewrite <- W. cbn [inorder]. rewrite map_app. apply in_or_app. left. exact Y. }
    intros a Ha. cbn. assert (Nl : ~ In a (addrs l)) by (intros Q; apply Ha, Sub, Q). destruct (G3 a Nl) as [H1 H2]. destruct (F3 a Ha) as [H3 H4].
    rewrite put_other; [split; congruence|]. intros Q. injection Q as ->. apply Nl, Il. auto.
  - split; [reflexivity|]. exists r, (inorder l), (inorder rr). split; [rewrite <- W; cbn [inorder]; congruence|]. cbn [inorder]. rewrite Wl, <- app_assoc. reflexivity.
Qed.
