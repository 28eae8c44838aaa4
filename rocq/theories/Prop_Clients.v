(** C36: connections are identified uniquely. *)
From Verif Require Import Base Clients.
Local Open Scope N_scope.

Definition is_accept (e : cevent) : bool := match e with EAccept _ _ => true | _ => false end.
(** how many connections were attempted *)
Definition attempts (h : list cevent) : N := N.of_nat (length (filter is_accept h)).
(** [c] is open after [h]: accepted and not closed since *)
Definition open_after (h : list cevent) (c : nat) : Prop := exists a b, h = a ++ EAccept c true :: b /\ ~ In (EClose c) b.
(** the allocator does not return memory that is in use *)
Definition sane (h : list cevent) : Prop := forall a c ok b, h = a ++ EAccept c ok :: b -> ~ open_after a c.
(** no connection stays open while 2^32 - 1 more are attempted *)
Definition young (h : list cevent) : Prop := forall a c b d, h = (a ++ EAccept c true :: b) ++ d -> ~ In (EClose c) b -> attempts b < 2^32.

Lemma attempts_app a b : attempts (a ++ b) = attempts a + attempts b.
Proof. unfold attempts. rewrite filter_app, app_length. lia. Qed.
Lemma crun_snoc h e : crun (h ++ [e]) = cdo (crun h) e.
Proof. unfold crun. apply fold_left_app. Qed.
Lemma sane_pre h e : sane (h ++ [e]) -> sane h.
Proof. intros S a c ok b E. apply (S a c ok (b ++ [e])). rewrite E, <- app_assoc. reflexivity. Qed.
Lemma young_pre h e : young (h ++ [e]) -> young h.
Proof. intros S a c b d E. apply (S a c b (d ++ [e])). rewrite E, <- app_assoc. reflexivity. Qed.
Lemma open_snoc h e c : open_after (h ++ [e]) c <-> e = EAccept c true \/ (open_after h c /\ e <> EClose c).
Proof.
  split.
  - intros (a & b & E & N). destruct b as [|x b] using rev_ind; [apply app_inj_tail in E; destruct E as [_ ->]; auto|]. clear IHb.
    rewrite app_comm_cons, app_assoc in E. apply app_inj_tail in E. destruct E as [-> ->]. right. split; [exists a, b; split; [reflexivity|intros I; apply N, in_or_app; auto]|].
    intros ->. apply N, in_or_app. right. left. reflexivity.
  - intros [->|[(a & b & -> & N) X]]; [exists h, []; auto|]. exists a, (b ++ [e]). split; [rewrite <- app_assoc; reflexivity|].
    intros I. apply in_app_or in I. destruct I as [I|[I|[]]]; [exact (N I)|congruence].
Qed.

Definition cinv (h : list cevent) (s : ctable) : Prop :=
  ct_next s = attempts h mod 2^32 /\ NoDup (map fst (ct_live s)) /\ NoDup (map snd (ct_live s)) /\
  (forall c, In c (map fst (ct_live s)) <-> open_after h c) /\
  (forall c id, In (c, id) (ct_live s) -> exists a b, h = a ++ EAccept c true :: b /\ ~ In (EClose c) b /\ id = (attempts a + 1) mod 2^32) /\
  (forall c id, In (id, c) (ct_tree s) <-> In (c, id) (ct_live s)) /\ NoDup (map fst (ct_tree s)).

Lemma nodup_filter {A B} (f : A -> B) p l : NoDup (map f l) -> NoDup (map f (filter p l)).
Proof.
  induction l as [|x l IH]; cbn; [auto|]. intros N. inversion N as [|? ? A1 A2]; subst. destruct (p x); [|auto]. cbn. constructor; [|auto].
  intros I. apply A1. apply in_map_iff in I. destruct I as (y & <- & I). apply filter_In in I. apply in_map, I.
Qed.

Lemma cinv_step h e s : sane (h ++ [e]) -> young (h ++ [e]) -> cinv h s -> cinv (h ++ [e]) (cdo s e).
Proof.
  intros SA YO (I1 & I2 & I3 & I4 & I5 & I6 & I7). destruct e as [c ok|c]; cbn [cdo].
  - assert (NX : (ct_next s + 1) mod 2 ^ 32 = attempts (h ++ [EAccept c ok]) mod 2^32).
    { rewrite I1, attempts_app. change (attempts [EAccept c ok]) with 1. rewrite N.add_mod_idemp_l by discriminate. reflexivity. }
    assert (NO : ~ open_after h c) by (apply (SA h c ok []); reflexivity).
    unfold do_accept. destruct ok.
    + set (id := (ct_next s + 1) mod 2 ^ 32) in *.
      assert (FR : forall c' id', In (c', id') (ct_live s) -> id' <> id).
      { intros c' id' I E. destruct (I5 _ _ I) as (a & b & EH & NC & EI).
        assert (Y : attempts (b ++ [EAccept c true]) < 2^32).
        { apply (YO a c' (b ++ [EAccept c true]) []); [rewrite EH, app_nil_r, <- app_assoc; reflexivity|].
          intros X. apply in_app_or in X. destruct X as [X|[X|[]]]; [exact (NC X)|discriminate]. }
        rewrite attempts_app in Y. change (attempts [EAccept c true]) with 1 in Y.
        rewrite NX, EH in E. rewrite <- app_assoc in E. change ((EAccept c' true :: b) ++ [EAccept c true]) with ([EAccept c' true] ++ b ++ [EAccept c true]) in E.
        rewrite !attempts_app in E. change (attempts [EAccept c' true]) with 1 in E. change (attempts [EAccept c true]) with 1 in E. rewrite EI in E.
        set (x := attempts a) in *. set (y := attempts b) in *. change (2^32) with 4294967296 in *.
        pose proof (N.div_mod (x + 1) 4294967296 ltac:(discriminate)). pose proof (N.div_mod (x + (1 + (y + 1))) 4294967296 ltac:(discriminate)).
        rewrite E in H. set (q1 := (x + 1) / 4294967296) in *. set (q2 := (x + (1 + (y + 1))) / 4294967296) in *. nia. }
      assert (EX : existsb (fun x => fst x =? id) (ct_tree s) = false).
      { apply not_true_iff_false. intros X. apply existsb_exists in X. destruct X as ((i, c') & X & E). cbn in E. apply N.eqb_eq in E. subst i. apply I6 in X. exact (FR _ _ X eq_refl). }
      unfold splay_insert. rewrite EX. split; [exact NX|]. cbn [ct_live ct_tree map fst snd]. split; [constructor; [rewrite I4; exact NO|exact I2]|].
      split; [constructor; [|exact I3]; intros X; apply in_map_iff in X; destruct X as ((c', id') & E & X); cbn in E; exact (FR _ _ X E)|].
      split; [intros c'; cbn [In]; rewrite open_snoc, I4|].
      { split; [intros [->|X]; [auto|right; split; [exact X|discriminate]]|]. intros [X|[X _]]; [injection X as ->; auto|auto]. }
      split; [|split].
      * intros c' id' [X|X].
        -- injection X as <- <-. exists h, []. split; [reflexivity|]. split; [intros []|]. unfold id. rewrite I1, N.add_mod_idemp_l by discriminate. reflexivity.
        -- destruct (I5 _ _ X) as (a & b & -> & NC & EI). exists a, (b ++ [EAccept c true]). split; [rewrite <- app_assoc; reflexivity|]. split; [|exact EI].
           intros Z. apply in_app_or in Z. destruct Z as [Z|[Z|[]]]; [exact (NC Z)|discriminate].
      * intros c' id'. cbn [In]. rewrite I6. split; intros [X|X]; auto; injection X as -> ->; auto.
      * cbn [map fst]. constructor; [|exact I7]. intros X. apply in_map_iff in X. destruct X as ((i, c') & E & X). cbn in E. subst i. apply I6 in X. exact (FR _ _ X eq_refl).
    + split; [exact NX|]. cbn [ct_live ct_tree]. split; [exact I2|]. split; [exact I3|].
      split; [intros c'; rewrite open_snoc, I4; split; [intros X; right; split; [exact X|discriminate]|intros [X|[X _]]; [discriminate|exact X]]|].
      split; [|auto]. intros c' id' X. destruct (I5 _ _ X) as (a & b & -> & NC & EI). exists a, (b ++ [EAccept c false]). split; [rewrite <- app_assoc; reflexivity|]. split; [|exact EI].
      intros Z. apply in_app_or in Z. destruct Z as [Z|[Z|[]]]; [exact (NC Z)|discriminate].
  - assert (NX : ct_next s = attempts (h ++ [EClose c]) mod 2^32) by (rewrite attempts_app, N.add_0_r; exact I1).
    assert (KEEP : forall c' id', c' <> c -> In (c', id') (ct_live s) -> exists a b, h ++ [EClose c] = a ++ EAccept c' true :: b /\ ~ In (EClose c') b /\ id' = (attempts a + 1) mod 2^32).
    { intros c' id' NE X. destruct (I5 _ _ X) as (a & b & -> & NC & EI). exists a, (b ++ [EClose c]). split; [rewrite <- app_assoc; reflexivity|]. split; [|exact EI].
      intros Z. apply in_app_or in Z. destruct Z as [Z|[Z|[]]]; [exact (NC Z)|congruence]. }
    unfold do_close. destruct (find _ (ct_live s)) as [[c0 id]|] eqn:F.
    + apply find_some in F. destruct F as [F E]. apply Nat.eqb_eq in E. cbn in E. subst c0.
      assert (FL : forall x, In x (filter (fun x => negb (fst x =? c)%nat) (ct_live s)) <-> In x (ct_live s) /\ fst x <> c) by (intros x; rewrite filter_In, negb_true_iff, Nat.eqb_neq; tauto).
      split; [exact NX|]. cbn [ct_live ct_tree]. split; [apply nodup_filter, I2|]. split; [apply nodup_filter, I3|]. split; [|split; [|split]].
      * intros c'. rewrite open_snoc, <- I4. split.
        -- intros X. apply in_map_iff in X. destruct X as ((c1, i1) & <- & X). apply FL in X. cbn in *. destruct X as [X Y]. right. split; [apply in_map_iff; exists (c1, i1); auto|congruence].
        -- intros [X|[X Y]]; [discriminate|]. apply in_map_iff in X. destruct X as ((c1, i1) & <- & X). apply in_map_iff. exists (c1, i1). split; [reflexivity|]. apply FL. split; [exact X|]. cbn. intros ->. apply Y. reflexivity.
      * intros c' id' X. apply FL in X. cbn in X. destruct X. auto.
      * intros c' id'. unfold splay_remove. rewrite filter_In, FL, I6. cbn [fst]. rewrite negb_true_iff, N.eqb_neq.
        split; intros [X Y]; split; auto; intros ->; apply Y.
        -- (* same connection: same id *)
           assert (Z : (c, id') = (c, id)); [|congruence].
           clear - I2 X F. induction (ct_live s) as [|z l IH]; [destruct X|]. cbn in I2. inversion I2 as [|? ? A B]; subst. destruct X as [->|X], F as [F|F]; auto.
           ++ exfalso. apply A. cbn. apply in_map_iff. exists (c, id). auto.
           ++ exfalso. apply A. rewrite F. cbn. apply in_map_iff. exists (c, id'). auto.
        -- assert (Z : (c', id) = (c, id)); [|congruence].
           clear - I3 X F. induction (ct_live s) as [|z l IH]; [destruct X|]. cbn in I3. inversion I3 as [|? ? A B]; subst. destruct X as [->|X], F as [F|F]; auto.
           ++ exfalso. apply A. cbn. apply in_map_iff. exists (c, id). auto.
           ++ exfalso. apply A. rewrite F. cbn. apply in_map_iff. exists (c', id). auto.
      * apply nodup_filter, I7.
    + assert (NL : forall id', ~ In (c, id') (ct_live s)) by (intros id' X; apply (find_none _ _ F) in X; cbn in X; rewrite Nat.eqb_refl in X; discriminate).
      split; [exact NX|]. split; [exact I2|]. split; [exact I3|]. split; [|split; [|auto]].
      * intros c'. rewrite open_snoc, <- I4. split; [intros X; right; split; [exact X|]|intros [X|[X _]]; [discriminate|exact X]].
        intros E. injection E as ->. apply in_map_iff in X. destruct X as ((c1, i1) & E & X). cbn in E. subst c1. exact (NL _ X).
      * intros c' id' X. apply KEEP; auto. intros ->. exact (NL _ X).
Qed.

Lemma cinv_all h : sane h -> young h -> cinv h (crun h).
Proof.
  induction h as [|e h IH] using rev_ind; intros SA YO.
  - split; [reflexivity|]. cbn. split; [constructor|]. split; [constructor|]. split; [intros c; split; [intros []|]|].
    { intros (a & b & E & _). destruct a; discriminate. }
    split; [intros c id []|]. split; [intros c id; tauto|constructor].
  - rewrite crun_snoc. apply cinv_step; auto. apply IH; [eapply sane_pre, SA|eapply young_pre, YO].
Qed.

(** For every history of accepts and closes in which no connection stays open
    while 2^32 more are attempted: the open connections are those accepted and
    not closed since, no two have the same id, and looking up an id in the table
    finds a connection exactly if it is an open one's. *)
Theorem c36_unique_ids h : sane h -> young h ->
  (forall c, (exists id, In (c, id) (ct_live (crun h))) <-> open_after h c) /\
  (forall c c' id, In (c, id) (ct_live (crun h)) -> In (c', id) (ct_live (crun h)) -> c = c') /\
  (forall c id, In (id, c) (ct_tree (crun h)) <-> In (c, id) (ct_live (crun h))).
Proof.
  intros SA YO. destruct (cinv_all h SA YO) as (_ & I2 & I3 & I4 & _ & I6 & _). split; [|split; [|exact I6]].
  - intros c. rewrite <- I4. split; [intros (id & X); apply in_map_iff; exists (c, id); auto|intros X; apply in_map_iff in X; destruct X as ((c1, id) & <- & X); exists id; exact X].
  - intros c c' id X Y. assert (Z : (c, id) = (c', id)); [|congruence].
    clear - I3 X Y. induction (ct_live (crun h)) as [|z l IH]; [destruct X|]. cbn in I3. inversion I3 as [|? ? A B]; subst. destruct X as [->|X], Y as [Y|Y]; auto.
    + exfalso. apply A. cbn. apply in_map_iff. exists (c', id). auto.
    + exfalso. apply A. rewrite Y. cbn. apply in_map_iff. exists (c, id). auto.
Qed.

Definition ex_history : list cevent := [EAccept 1 true; EAccept 2 true; EClose 1; EAccept 3 false; EAccept 1 true].
Example c36_case : map fst (ct_live (crun ex_history)) = [1; 2]%nat /\ map snd (ct_live (crun ex_history)) = [4; 2] /\ map fst (ct_tree (crun ex_history)) = [4; 2].
Proof. vm_compute. auto. Qed.

(** A connection kept open while 2^32 others come and go shares its id with the
    next one, which is then missing from the table. *)
Theorem c36_wrap_refuted : exists h, sane h /\ exists id, In (1%nat, id) (ct_live (crun h)) /\ In (2%nat, id) (ct_live (crun h)) /\ ~ In (id, 2%nat) (ct_tree (crun h)).
Proof.
  set (k := N.to_nat (2^32 - 1)). exists ([EAccept 1 true] ++ repeat (EAccept 3 false) k ++ [EAccept 2 true]).
  assert (R : forall m, crun ([EAccept 1 true] ++ repeat (EAccept 3 false) m) = mkCT ((1 + N.of_nat m) mod 2^32) [(1, 1%nat)] [(1%nat, 1)]).
  { induction m as [|m IH]; [reflexivity|]. replace (repeat (EAccept 3 false) (S m)) with (repeat (EAccept 3 false) m ++ [EAccept 3 false]) by (rewrite <- repeat_cons; reflexivity).
    rewrite app_assoc, crun_snoc, IH. cbn [cdo]. unfold do_accept. cbn [ct_next ct_tree ct_live]. f_equal. rewrite N.add_mod_idemp_l by discriminate. f_equal. lia. }
  split.
  - intros a c ok b E (a' & b' & EA & _). subst a.
    assert (X : filter (fun e => match e with EAccept _ true => true | _ => false end) ([EAccept 1 true] ++ repeat (EAccept 3 false) k ++ [EAccept 2 true]) = [EAccept 1 true; EAccept 2 true]).
    { rewrite !filter_app. cbn [filter]. assert (Y : filter (fun e => match e with EAccept _ true => true | _ => false end) (repeat (EAccept 3 false) k) = []) by (generalize k; intros m; induction m as [|m IH]; [reflexivity|exact IH]). rewrite Y. reflexivity. }
    rewrite E in X. rewrite <- app_assoc in X. rewrite filter_app in X. cbn [app filter] in X. rewrite filter_app in X. cbn [filter] in X.
    destruct ok.
    + set (f := filter (fun e => match e with EAccept _ true => true | _ => false end)) in *.
      assert (LX := f_equal (@length _) X). rewrite !app_length in LX. cbn [length] in LX. rewrite app_length in LX. cbn [length] in LX.
      destruct (f a'); [|cbn in LX; lia]. destruct (f b'); [|cbn in LX; lia]. cbn [app] in X. injection X as X1 X2. congruence.
    + assert (I3 : c = 3%nat).
      { assert (IN : In (EAccept c false) ([EAccept 1 true] ++ repeat (EAccept 3 false) k ++ [EAccept 2 true])) by (rewrite E; apply in_or_app; right; left; reflexivity).
        apply in_app_or in IN. destruct IN as [[IN|[]]|IN]; [discriminate|]. apply in_app_or in IN. destruct IN as [IN|[IN|[]]]; [apply repeat_spec in IN; congruence|discriminate]. }
      assert (IN : In (EAccept c true) ([EAccept 1 true] ++ repeat (EAccept 3 false) k ++ [EAccept 2 true])) by (rewrite E; rewrite <- app_assoc; apply in_or_app; right; left; reflexivity).
      subst c. apply in_app_or in IN. destruct IN as [[IN|[]]|IN]; [discriminate|]. apply in_app_or in IN. destruct IN as [IN|[IN|[]]]; [apply repeat_spec in IN; discriminate|discriminate].
  - rewrite app_assoc, crun_snoc, R. replace (N.of_nat k) with (2^32 - 1) by (unfold k; rewrite N2Nat.id; reflexivity). exists 1. vm_compute. split; [auto|]. split; [auto|]. intros [X|[]]. discriminate.
Qed.
