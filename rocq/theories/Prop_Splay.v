(** C74: the table of connections. *)
From Verif Require Import Base BaseLemmas Splay SplaySpec Splay_Proofs Clients Prop_Clients.
From Coq Require Import Sorting.Permutation.
Local Open Scope nat_scope.

(** ** it is a map *)
Definition table (t : tree) (T : list (N * nat)) : Prop := (forall a k, In (a, k) (inorder t) <-> In (k, a) T) /\ NoDup (map fst T).
Lemma lookup_in T k a : NoDup (map fst T) -> In (k, a) T -> lookup k T = Some a.
Proof.
  unfold lookup. induction T as [|(k', a') T IH]; intros N I; [destruct I|]. cbn. cbn in N. inversion N as [|? ? N1 N2]; subst.
  destruct (N.eqb_spec k' k) as [->|E].
  - destruct I as [I|I]; [injection I as ->; reflexivity|]. exfalso. apply N1. apply (in_map fst) in I. exact I.
  - destruct I as [I|I]; [congruence|auto].
Qed.
Lemma lookup_none T k : (forall a, ~ In (k, a) T) -> lookup k T = None.
Proof.
  unfold lookup. intros H. destruct (find _ T) as [(k', a)|] eqn:E; [|reflexivity]. apply find_some in E. destruct E as [I E]. cbn in E. apply N.eqb_eq in E. subst k'. exfalso. exact (H a I).
Qed.
Lemma table_nodup_key t T : table t T -> forall a b k, In (a, k) (inorder t) -> In (b, k) (inorder t) -> a = b.
Proof.
  intros [E N] a b k I J. apply E in I. apply E in J. apply (lookup_in _ _ _ N) in I. apply (lookup_in _ _ _ N) in J. congruence.
Qed.
Lemma table_add t t' T a k l1 l2 : table t T -> (forall b, ~ In (b, k) (inorder t)) -> inorder t = l1 ++ l2 -> inorder t' = l1 ++ (a, k) :: l2 -> table t' ((k, a) :: T).
Proof.
  intros [E N] NK W W'. split.
  - intros b kb. rewrite W', in_app_iff. cbn [In]. rewrite <- E, W, in_app_iff. split; intros H; intuition congruence.
  - cbn. constructor; [|exact N]. intros I. apply in_map_iff in I. destruct I as ((k', b) & Q & I). cbn in Q. subst k'. apply E in I. exact (NK _ I).
Qed.
Lemma table_del t t' T a k l1 l2 : table t T -> sorted (inorder t) -> inorder t = l1 ++ (a, k) :: l2 -> inorder t' = l1 ++ l2 -> table t' (filter (fun y => negb (fst y =? k)%N) T).
Proof.
  intros [E N] S W W'. split; [|apply nodup_filter; exact N].
  assert (NK : forall b kb, In (b, kb) (l1 ++ l2) -> kb <> k).
  { intros b kb I ->. rewrite W in S. apply sorted_app in S. destruct S as (_ & S2 & S3). inversion S2 as [|? ? S4 S5]; subst. rewrite Forall_forall in S5.
    apply in_app_or in I. destruct I as [I|I]; [specialize (S3 _ (a, k) I ltac:(left; reflexivity))|specialize (S5 _ I)]; unfold kl in *; cbn in *; lia. }
  intros b kb. rewrite filter_In. cbn [fst]. rewrite <- E, W, W', !in_app_iff. cbn [In]. rewrite negb_true_iff, N.eqb_neq. split.
  - intros I. split; [tauto|]. apply (NK b). apply in_app_iff. exact I.
  - intros [[I|[I|I]] Q]; [auto|congruence|auto].
Qed.

Lemma tree_run_spec fuel : forall os m root t T, (forall a, live m (At a) = true) -> wf m root t -> table t T -> length os + length (inorder t) <= fuel ->
  tree_run fuel os m root = OK (map_run (fun a => key m (At a)) os T).
Proof.
  induction os as [|o os IH]; intros m root t T V Wf Tb F; [reflexivity|]. cbn [tree_run map_run length] in *. pose proof Wf as (_ & _ & S).
  assert (Frame : forall A m' root' t' T', frame A m m' -> wf m' root' t' -> table t' T' -> length (inorder t') <= Datatypes.S (length (inorder t)) ->
    tree_run fuel os m' root' = OK (map_run (fun a => key m (At a)) os T')).
  { intros A m' root' t' T' (F1 & F2 & _) W' Tb' L. rewrite (IH m' root' t' T'); [|intros a; rewrite F1; apply V|exact W'|exact Tb'|lia]. f_equal.
    clear - F2. revert T'. induction os as [|o os IH]; intros T'; [reflexivity|]. cbn [map_run]. assert (Q : map_step (fun a => key m' (At a)) o T' = map_step (fun a => key m (At a)) o T') by (destruct o; cbn; rewrite F2; reflexivity).
    rewrite Q, IH. reflexivity. }
  destruct o as [a|a|a]; cbn [tree_step map_step].
  - destruct (insert_spec fuel m root t a (V a) Wf ltac:(lia)) as (m' & root' & ret & t' & -> & W' & Fr & R). cbn [bind]. destruct ret as [b|].
    + destruct R as [I Wi]. rewrite (lookup_in T _ b (proj2 Tb)) by (apply Tb; exact I). cbn [fst snd].
      rewrite (Frame _ m' root' t' T Fr W'); [reflexivity|unfold table; rewrite Wi; exact Tb|rewrite Wi; lia].
    + destruct R as (NK & l1 & l2 & W1 & W2). rewrite (lookup_none T) by (intros b I; apply Tb in I; exact (NK _ I)). cbn [fst snd].
      rewrite (Frame _ m' root' t' _ Fr W' (table_add _ _ _ _ _ _ _ Tb NK W1 W2)); [reflexivity|]. rewrite W1, W2, !app_length. cbn. lia.
  - destruct (remove_spec fuel m root t a (V a) Wf ltac:(lia)) as (m' & root' & ret & t' & -> & W' & Fr & R). cbn [bind]. destruct ret as [b|].
    + destruct R as (-> & b' & l1 & l2 & W1 & W2). rewrite (lookup_in T _ b' (proj2 Tb)) by (apply Tb; rewrite W1; apply in_or_app; right; left; reflexivity). cbn [fst snd].
      rewrite (Frame _ m' root' t' _ Fr W' (table_del _ _ _ _ _ _ _ Tb S W1 W2)); [reflexivity|]. rewrite W1, W2, !app_length. cbn. lia.
    + destruct R as (NK & Wi). rewrite (lookup_none T) by (intros b I; apply Tb in I; exact (NK _ I)). cbn [fst snd].
      rewrite (Frame _ m' root' t' T Fr W'); [reflexivity|unfold table; rewrite Wi; exact Tb|rewrite Wi; lia].
  - destruct (find_spec fuel m root t a (V a) Wf ltac:(lia)) as (m' & root' & ret & t' & -> & W' & Wi & Fr & R). cbn [bind fst snd].
    rewrite (Frame _ m' root' t' T Fr W'); [|unfold table; rewrite Wi; exact Tb|rewrite Wi; lia]. cbn [bind]. f_equal. f_equal. destruct ret as [b|].
    + symmetry. apply lookup_in; [apply Tb|apply Tb; exact R].
    + symmetry. apply lookup_none. intros b I. apply Tb in I. exact (R _ I).
Qed.

(** Any sequence of insertions, removals and lookups of any elements, whatever
    their keys and whatever their links were before: each returns what it would on
    a map, no memory but that of the elements is touched, and each ends. *)
Theorem c74_map : forall m os fuel, (forall a, live m (At a) = true) -> length os <= fuel ->
  tree_run fuel os m None = OK (map_run (fun a => key m (At a)) os []).
Proof.
  intros m os fuel V F. apply (tree_run_spec fuel os m None Lf []); [exact V|repeat split; constructor| |cbn; lia].
  split; [cbn; tauto|constructor].
Qed.
Print Assumptions c74_map.

(** ** in the server *)
(** the events C36 talks about *)
Definition abs1 (e : tevent) : list cevent := match e with TAccept a ok => [EAccept a ok] | TClose a => [EClose a] | TFree _ => [] end.
Definition abs (h : list tevent) : list cevent := flat_map abs1 h.

Lemma reach_tr m : forall t p a, tr m p t -> reach m p a <-> In a (addrs t).
Proof.
  induction t as [|l IHl b k r IHr]; cbn [tr]; intros p a T.
  - subst p. split; [intros R; inversion R|intros []].
  - destruct T as (-> & _ & _ & Tl & Tr_). rewrite addrs_tr, in_app_iff. cbn [In]. rewrite <- (IHl _ a Tl), <- (IHr _ a Tr_). split.
    + intros R. inversion R; subst; auto.
    + intros [R|[->|R]]; [apply reach_left; exact R|apply reach_here|apply reach_right; exact R].
Qed.

Lemma status_snoc h e a : status_of (h ++ [e]) a = status_step a (status_of h a) e.
Proof. unfold status_of. apply fold_left_app. Qed.
Lemma proper_snoc h e : proper (h ++ [e]) -> proper h /\ match e with TAccept a _ => status_of h a = Gone | TClose a => status_of h a = Opened | TFree a => status_of h a = Closing end.
Proof.
  intros P. split; [|apply (P h e []); reflexivity]. intros h1 e' h2 E. apply (P h1 e' (h2 ++ [e])). rewrite E, <- app_assoc. reflexivity.
Qed.
Lemma trun_snoc fuel e : forall h s, trun fuel (h ++ [e]) s = let* s := trun fuel h s in tstep fuel e s.
Proof.
  induction h as [|x h IH]; intros s; cbn [app trun].
  - cbn [bind]. destruct (tstep fuel e s); reflexivity.
  - destruct (tstep fuel x s); cbn [bind]; [apply IH|reflexivity|reflexivity].
Qed.
Lemma abs_snoc h e : crun (abs (h ++ [e])) = fold_left cdo (abs1 e) (crun (abs h)).
Proof. unfold abs. rewrite flat_map_app. cbn [flat_map]. rewrite app_nil_r. unfold crun. apply fold_left_app. Qed.

(** what ties the three accounts of a history together *)
Definition tinv (h : list tevent) (s : tstate) (c : ctable) (t : tree) : Prop :=
  wf (t_mem s) (t_root s) t /\ length (inorder t) <= length h /\ t_id s = ct_next c /\
  (forall a, live (t_mem s) (At a) = true <-> status_of h a <> Gone) /\
  (forall a id, In (a, id) (ct_live c) <-> status_of h a = Opened /\ key (t_mem s) (At a) = id) /\
  NoDup (map fst (ct_live c)) /\ table t (ct_tree c) /\
  (forall a id, In (id, a) (ct_tree c) -> In (a, id) (ct_live c)).

Lemma tinv_step fuel h e s c t : proper (h ++ [e]) -> length (h ++ [e]) <= fuel -> tinv h s c t ->
  exists s' t', tstep fuel e s = OK s' /\ tinv (h ++ [e]) s' (fold_left cdo (abs1 e) c) t'.
Proof.
  intros P F (Wf & Ln & Id & Lv & Op & Nd & Tb & TL). apply proper_snoc in P. destruct P as [_ P]. rewrite app_length in F. cbn [length] in F.
  destruct s as [m root next]. cbn [t_mem t_root t_id] in *. subst next. destruct e as [a ok|a|a]; cbn [abs1 fold_left cdo tstep t_mem t_root t_id].
  - set (id := ((ct_next c + 1) mod 2 ^ 32)%N). set (m1 := calloc m a id).
    assert (Na : ~ In a (addrs t)).
    { intros I. apply (tr_live _ _ _ _ (proj1 Wf)) in I. apply Lv in I. congruence. }
    assert (L1 : forall b, b <> a -> live m1 (At b) = live m (At b) /\ key m1 (At b) = key m (At b)).
    { intros b Nb. cbn. rewrite !put_other by congruence. auto. }
    assert (W1 : wf m1 root t).
    { split; [|split; apply Wf]. apply (tr_frame m); [|apply Wf]. intros b Ib. assert (b <> a) by congruence. unfold same, m1, calloc. cbn. rewrite !put_other by congruence. auto. }
    destruct ok.
    + assert (Va : live m1 (At a) = true) by (cbn; apply put_same).
      destruct (insert_spec fuel m1 root t a Va W1 ltac:(lia)) as (m' & root' & ret & t' & -> & W' & (F1 & F2 & F3) & R). cbn [bind].
      eexists _, t'. split; [reflexivity|]. assert (Ka : key m1 (At a) = id) by (cbn; apply put_same). rewrite Ka in R.
      unfold tinv, do_accept. fold id. cbn [t_mem t_root t_id ct_next ct_tree ct_live]. split; [exact W'|].
      split. { rewrite app_length. cbn. destruct ret as [b|]; [destruct R as [_ ->]; lia|]. destruct R as (_ & l1 & l2 & Q1 & ->). rewrite Q1 in Ln. rewrite app_length in *. cbn. lia. }
      split; [reflexivity|]. split.
      { intros b. rewrite F1, status_snoc. cbn [status_step]. destruct (Nat.eqb_spec a b) as [<-|Nb]; [split; [discriminate|intros _; exact Va]|].
        rewrite (proj1 (L1 b ltac:(congruence))). apply Lv. }
      split.
      { intros b k. cbn [In]. rewrite F2, status_snoc. cbn [status_step]. rewrite Op. destruct (Nat.eqb_spec a b) as [<-|Nb].
        - rewrite Ka. split; [intros [Q|[Q _]]; [split; congruence|congruence]|intros [_ Q]; left; congruence].
        - rewrite (proj2 (L1 b ltac:(congruence))). split; [intros [Q|Q]; [congruence|exact Q]|auto]. }
      split. { cbn. constructor; [|exact Nd]. intros I. apply in_map_iff in I. destruct I as ((b, k) & Q & I). cbn in Q. subst b. apply Op in I. destruct I. congruence. }
      assert (Ex : existsb (fun x => (fst x =? id)%N) (ct_tree c) = match ret with Some _ => true | None => false end).
      { destruct ret as [b|].
        - destruct R as [I _]. apply existsb_exists. exists (id, b). split; [apply Tb; exact I|apply N.eqb_refl].
        - destruct R as [NK _]. apply not_true_iff_false. intros Q. apply existsb_exists in Q. destruct Q as ((k, b) & I & Q). cbn in Q. apply N.eqb_eq in Q. subst k. apply Tb in I. exact (NK _ I). }
      unfold Clients.splay_insert. rewrite Ex. destruct ret as [b|].
      { destruct R as [I Wi]. split; [unfold table; rewrite Wi; exact Tb|]. intros b' k Q. right. apply TL. exact Q. }
      destruct R as (NK & l1 & l2 & Q1 & Q2). split; [eapply table_add; eauto|]. intros b' k [Q|Q]; [left; congruence|right; apply TL; exact Q].
    + unfold free. assert (Va : live m1 (At a) = true) by (cbn; apply put_same). rewrite Va. cbn [bind]. eexists _, t. split; [reflexivity|].
      unfold tinv, do_accept. fold id. cbn [t_mem t_root t_id ct_next ct_tree ct_live]. split.
      { split; [|split; apply Wf]. apply (tr_frame m1); [|apply W1]. intros b Ib. assert (b <> a) by congruence. unfold same. cbn. rewrite !put_other by congruence. auto. }
      split; [rewrite app_length; cbn; lia|]. split; [reflexivity|]. split.
      { intros b. rewrite status_snoc. cbn [live status_step]. destruct (Nat.eqb_spec a b) as [<-|Nb]; [rewrite put_same; split; [discriminate|congruence]|].
        rewrite put_other by congruence. rewrite (proj1 (L1 b ltac:(congruence))). apply Lv. }
      split. { intros b k. rewrite Op, status_snoc. cbn [key status_step]. destruct (Nat.eqb_spec a b) as [<-|Nb]; [split; intros [Q _]; congruence|]. rewrite (proj2 (L1 b ltac:(congruence))). tauto. }
      auto.
  - assert (Va : live m (At a) = true) by (apply Lv; congruence).
    destruct (remove_spec fuel m root t a Va Wf ltac:(lia)) as (m' & root' & ret & t' & -> & W' & (F1 & F2 & F3) & R). cbn [bind].
    eexists _, t'. split; [reflexivity|]. set (id := key m (At a)) in *.
    assert (Fa : find (fun x => (fst x =? a)%nat) (ct_live c) = Some (a, id)).
    { assert (I : In (a, id) (ct_live c)) by (apply Op; auto). clear - I Nd. induction (ct_live c) as [|(b, k) l IH]; [destruct I|]. cbn in *. inversion Nd as [|? ? N1 N2]; subst.
      destruct (Nat.eqb_spec b a) as [->|E]; [destruct I as [I|I]; [congruence|exfalso; apply N1; apply (in_map fst) in I; exact I]|]. destruct I as [I|I]; [congruence|auto]. }
    unfold tinv, do_close. rewrite Fa. cbn [t_mem t_root t_id ct_next ct_tree ct_live]. split; [exact W'|].
    split. { rewrite app_length. cbn. destruct ret as [b|]; [|destruct R as [_ ->]; lia]. destruct R as (_ & b' & l1 & l2 & Q1 & ->). rewrite Q1 in Ln. rewrite app_length in *. cbn in Ln. lia. }
    split; [reflexivity|]. split.
    { intros b. rewrite F1, status_snoc. cbn [status_step]. destruct (Nat.eqb_spec a b) as [<-|Nb]; [split; [discriminate|intros _; exact Va]|apply Lv]. }
    split.
    { intros b k. rewrite filter_In. cbn [fst]. rewrite negb_true_iff, Nat.eqb_neq, Op, F2, status_snoc. cbn [status_step]. destruct (Nat.eqb_spec a b) as [<-|Nb]; [split; [intros [_ Q]; congruence|intros [Q _]; discriminate]|]. split; [tauto|intros Q; split; [exact Q|congruence]]. }
    split; [apply nodup_filter; exact Nd|].
    assert (Tb' : table t' (Clients.splay_remove id (ct_tree c))).
    { unfold Clients.splay_remove. destruct ret as [b|].
      - destruct R as (_ & b' & l1 & l2 & Q1 & Q2). eapply table_del; eauto. apply Wf.
      - destruct R as [NK Q]. split; [|apply nodup_filter; apply Tb]. intros b k. rewrite Q, (proj1 Tb b k), filter_In. cbn [fst]. rewrite negb_true_iff, N.eqb_neq. split; [|tauto].
        intros I. split; [exact I|]. intros ->. apply Tb in I. exact (NK _ I). }
    split; [exact Tb'|]. intros b k I. unfold Clients.splay_remove in I. apply filter_In in I. destruct I as [I Q]. cbn in Q. rewrite negb_true_iff, N.eqb_neq in Q.
    apply filter_In. split; [apply TL; exact I|]. cbn. rewrite negb_true_iff, Nat.eqb_neq. intros ->. apply Q. apply TL in I. apply Op in I. destruct I as [_ <-]. reflexivity.
  - unfold free. rewrite (proj2 (Lv a)) by congruence. cbn [bind]. eexists _, t. split; [reflexivity|]. unfold tinv. cbn [t_mem t_root t_id].
    assert (Na : ~ In a (addrs t)).
    { intros I. unfold addrs in I. apply in_map_iff in I. destruct I as ((b, k) & Q & I). cbn in Q. subst b. apply Tb in I. apply TL in I. apply Op in I. destruct I. congruence. }
    split. { split; [|split; apply Wf]. apply (tr_frame m); [|apply Wf]. intros b Ib. assert (b <> a) by congruence. unfold same. cbn. rewrite !put_other by congruence. auto. }
    split; [rewrite app_length; cbn; lia|]. split; [reflexivity|]. split.
    { intros b. rewrite status_snoc. cbn [live status_step]. destruct (Nat.eqb_spec a b) as [<-|Nb]; [rewrite put_same; split; [discriminate|congruence]|]. rewrite put_other by congruence. apply Lv. }
    split. { intros b k. rewrite Op, status_snoc. cbn [key status_step]. destruct (Nat.eqb_spec a b) as [<-|Nb]; [split; intros [Q _]; congruence|]. tauto. }
    auto.
Qed.

Lemma tinv_all fuel h : proper h -> length h <= fuel -> exists s t, trun fuel h tinit = OK s /\ tinv h s (crun (abs h)) t.
Proof.
  induction h as [|e h IH] using rev_ind; intros P F.
  - exists tinit, Lf. split; [reflexivity|]. split; [repeat split; constructor|]. split; [reflexivity|]. split; [reflexivity|]. split; [intros a; cbn; split; [discriminate|congruence]|].
    split; [intros a id; cbn; split; [intros []|intros [Q _]; discriminate]|]. split; [constructor|]. split; [split; [cbn; tauto|constructor]|intros a id []].
  - destruct (IH (proj1 (proper_snoc _ _ P))) as (s & t & E & I); [rewrite app_length in F; lia|].
    destruct (tinv_step fuel h e s _ t P F I) as (s' & t' & E' & I'). exists s', t'. split; [rewrite trun_snoc, E; exact E'|]. rewrite abs_snoc. exact I'.
Qed.

(** In every history of a server process — any number of connections, in any
    order, with the counter of ids wrapping around and ids shared by connections
    that are open at the same time — no access goes to memory that is not a
    connection's, what can be reached through the table is open, neither closed nor
    freed, and the table is the one C36 describes. *)
Theorem c74_connections : forall h fuel, proper h -> length h <= fuel ->
  exists s, trun fuel h tinit = OK s /\
    (forall a, reach (t_mem s) (t_root s) a -> status_of h a = Opened) /\
    (forall a, live (t_mem s) (At a) = true <-> status_of h a <> Gone) /\
    (forall id a, reach (t_mem s) (t_root s) a /\ key (t_mem s) (At a) = id <-> In (id, a) (ct_tree (crun (abs h)))).
Proof.
  intros h fuel P F. destruct (tinv_all fuel h P F) as (s & t & E & (Wf & _ & _ & Lv & Op & _ & Tb & TL)). exists s. split; [exact E|].
  assert (R : forall a, reach (t_mem s) (t_root s) a <-> exists id, In (id, a) (ct_tree (crun (abs h))) /\ key (t_mem s) (At a) = id).
  { intros a. rewrite (reach_tr _ _ _ a (proj1 Wf)). unfold addrs. rewrite in_map_iff. split.
    - intros ((b, k) & Q & I). cbn in Q. subst b. exists k. split; [apply Tb; exact I|]. apply (tr_key _ _ _ _ _ (proj1 Wf) I).
    - intros (id & I & _). exists (a, id). split; [reflexivity|]. apply Tb. exact I. }
  split; [|split; [exact Lv|]].
  - intros a Ra. apply R in Ra. destruct Ra as (id & I & _). apply TL in I. apply Op in I. apply I.
  - intros id a. rewrite R. split; [intros [(k & I & Q1) Q2]; congruence|]. intros I. assert (K : key (t_mem s) (At a) = id) by (apply TL in I; apply Op in I; apply I). split; [exists id; auto|exact K].
Qed.
Print Assumptions c74_connections.

Lemma abs_split : forall h a x b, abs h = a ++ x :: b -> exists h1 e h2, h = h1 ++ e :: h2 /\ abs h1 = a /\ abs1 e = [x] /\ abs h2 = b.
Proof.
  induction h as [|e h IH]; intros a x b E; [destruct a; discriminate|]. cbn in E. destruct (abs1 e) as [|y [|]] eqn:Ee; [| |destruct e; discriminate].
  - destruct (IH _ _ _ E) as (h1 & e' & h2 & -> & <- & E1 & E2). exists (e :: h1), e', h2. cbn. rewrite Ee. auto.
  - cbn in E. destruct a as [|z a]; cbn in E.
    + injection E as <- <-. exists [], e, h. auto.
    + injection E as <- E. destruct (IH _ _ _ E) as (h1 & e' & h2 & -> & <- & E1 & E2). exists (e :: h1), e', h2. cbn. rewrite Ee. auto.
Qed.
Lemma opened_stays a : forall y h, proper (h ++ y) -> status_of h a = Opened -> ~ In (TClose a) y -> status_of (h ++ y) a = Opened.
Proof.
  induction y as [|e y IH]; intros h P S N; [rewrite app_nil_r; exact S|]. replace (h ++ e :: y) with ((h ++ [e]) ++ y) in * by (rewrite <- app_assoc; reflexivity).
  apply IH; [exact P| |intros I; apply N; right; exact I]. rewrite status_snoc, S. specialize (P h e y ltac:(rewrite <- app_assoc; reflexivity)).
  destruct e as [b ok|b|b]; cbn; destruct (Nat.eqb_spec b a) as [->|]; auto; try congruence. exfalso. apply N. left. reflexivity.
Qed.
Lemma proper_sane h : proper h -> sane (abs h).
Proof.
  intros P a c ok b E (x & y & E2 & N). destruct (abs_split _ _ _ _ E) as (h1 & e & h2 & -> & E1 & E3 & _). rewrite <- E1 in E2. clear E1 E.
  assert (e = TAccept c ok) by (destruct e; cbn in E3; congruence). subst e. pose proof (P h1 _ h2 eq_refl) as G. cbn in G.
  destruct (abs_split _ _ _ _ E2) as (h3 & e & h4 & -> & _ & E4 & E5). assert (e = TAccept c true) by (destruct e; cbn in E4; congruence). subst e.
  replace (h3 ++ TAccept c true :: h4) with ((h3 ++ [TAccept c true]) ++ h4) in G by (rewrite <- app_assoc; reflexivity).
  rewrite (opened_stays c h4) in G; [discriminate| | |].
  - intros u1 u u2 Eu. apply (P u1 u (u2 ++ TAccept c ok :: h2)). replace (h3 ++ TAccept c true :: h4) with ((h3 ++ [TAccept c true]) ++ h4) by (rewrite <- app_assoc; reflexivity). rewrite Eu, <- app_assoc. reflexivity.
  - rewrite status_snoc. cbn. rewrite Nat.eqb_refl. reflexivity.
  - intros I. apply N. rewrite <- E5. unfold abs. apply in_flat_map. exists (TClose c). split; [exact I|left; reflexivity].
Qed.

(** If moreover no connection stays open while 2^32 others are attempted, the
    table has every open connection. *)
Theorem c74_complete : forall h fuel, proper h -> young (abs h) -> length h <= fuel ->
  exists s, trun fuel h tinit = OK s /\ (forall a, reach (t_mem s) (t_root s) a <-> status_of h a = Opened) /\
    (forall a b, reach (t_mem s) (t_root s) a -> reach (t_mem s) (t_root s) b -> key (t_mem s) (At a) = key (t_mem s) (At b) -> a = b).
Proof.
  intros h fuel P Y F. destruct (tinv_all fuel h P F) as (s & t & E & (Wf & Q1 & Q2 & Lv & Op & Nd & Tb & TL)). exists s. split; [exact E|].
  destruct (c36_unique_ids (abs h) (proper_sane h P) Y) as (_ & U & TT).
  assert (R : forall a, reach (t_mem s) (t_root s) a <-> exists id, In (id, a) (ct_tree (crun (abs h)))).
  { intros a. rewrite (reach_tr _ _ _ a (proj1 Wf)). unfold addrs. rewrite in_map_iff. split.
    - intros ((b, k) & Q & I). cbn in Q. subst b. exists k. apply Tb. exact I.
    - intros (id & I). exists (a, id). split; [reflexivity|]. apply Tb. exact I. }
  split.
  - intros a. rewrite R. split; [intros (id & I); apply TT, Op in I; apply I|]. intros O. exists (key (t_mem s) (At a)). apply TT, Op. auto.
  - intros a b Ra Rb K. apply R in Ra. apply R in Rb. destruct Ra as (i & Ia), Rb as (j & Ib). apply TT in Ia. apply TT in Ib.
    pose proof (proj2 (proj1 (Op _ _) Ia)). pose proof (proj2 (proj1 (Op _ _) Ib)). apply (U a b i); [exact Ia|]. replace i with j by congruence. exact Ib.
Qed.
Print Assumptions c74_complete.

(** five connections, one of them refused; the memory of the second one is used again *)
Definition ex_life : list tevent := [TAccept 1 true; TAccept 2 true; TAccept 3 true; TClose 2; TAccept 4 false; TFree 2; TAccept 2 true; TClose 1].
Example c74_case : proper ex_life /\ young (abs ex_life) /\
  map (status_of ex_life) [1; 2; 3; 4] = [Closing; Opened; Opened; Gone] /\
  match trun 8 ex_life tinit with OK s => t_root s = Some 3 /\ rg (t_mem s) (At 3) = Some 2 /\ key (t_mem s) (At 2) = 5%N /\ lf (t_mem s) (At 3) = None | _ => False end.
Proof.
  split; [|split; [|split; [reflexivity|vm_compute; auto]]].
  - intros h1 e h2 E. unfold ex_life in E.
    do 8 (destruct h1 as [|? h1]; cbn in E; [injection E as <- _; reflexivity|injection E as <- E]). destruct h1; discriminate.
  - intros a c b d E _. assert (L : (attempts (abs ex_life) = 5)%N) by reflexivity. rewrite E in L. change (EAccept c true :: b) with ([EAccept c true] ++ b) in L. rewrite !attempts_app in L. lia.
Qed.
(** keys 3, 1, 2, then 2 again by another element, and lookups *)
Definition ex_keys (l : loc) : N := match l with At 1 => 3 | At 2 => 1 | At 3 | At 4 => 2 | _ => 9 end.
Example c74_map_case :
  tree_run 9 [MIns 1; MIns 2; MIns 3; MIns 4; MGet 4; MDel 1; MGet 1; MDel 4; MGet 3] (mkMem (fun _ => true) ex_keys (fun _ => None) (fun _ => None)) None =
  OK [None; None; None; Some 3; Some 3; Some 1; None; Some 4; None].
Proof. vm_compute. reflexivity. Qed.
