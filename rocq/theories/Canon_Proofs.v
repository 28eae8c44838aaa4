From Verif Require Import Base BaseLemmas Utf8 Iri IriSpec PathClean_Proofs.
Local Open Scope N_scope.

Definition noslash (w : list N) : Prop := ~ In 47 w.
Definition proper (w : list N) : Prop :=
  w <> [] /\ noslash w /\ w <> [46] /\ w <> [46; 46].

Fixpoint rjoin (st : list (list N)) : list N :=
  match st with
  | [] => []
  | [w] => rev w
  | w :: st' => rev w ++ 47 :: rjoin st'
  end.

Lemma rjoin_cons w st : st <> [] -> rjoin (w :: st) = rev w ++ 47 :: rjoin st.
Proof. destruct st; [congruence|reflexivity]. Qed.

Lemma join_snoc ws w : ws <> [] -> join_slash (ws ++ [w]) = join_slash ws ++ 47 :: w.
Proof.
  induction ws as [|x ws IH]; [congruence|]. intros _. destruct ws as [|y ws].
  - reflexivity.
  - change (join_slash ((x :: y :: ws) ++ [w])) with (x ++ 47 :: join_slash ((y :: ws) ++ [w])).
    rewrite IH by discriminate.
    change (join_slash (x :: y :: ws)) with (x ++ 47 :: join_slash (y :: ws)).
    rewrite <- app_assoc. reflexivity.
Qed.

Lemma rjoin_rev st : rjoin st = rev (join_slash (rev st)).
Proof.
  induction st as [|w st IH]; [reflexivity|]. destruct st as [|y st].
  - reflexivity.
  - rewrite rjoin_cons by discriminate. rewrite IH. cbn [rev].
    rewrite (join_snoc (rev st ++ [y])) by (destruct (rev st); discriminate).
    rewrite rev_app_distr. cbn [rev]. rewrite <- app_assoc. reflexivity.
Qed.

Lemma pop_noslash w r : noslash w -> pop (rev w ++ 47 :: r) = r.
Proof.
  intros H. assert (Hr : ~ In 47 (rev w)) by (intros Hi; apply H; apply in_rev; auto).
  induction (rev w) as [|c l IH]; cbn [pop app].
  - rewrite N.eqb_refl. reflexivity.
  - destruct (N.eqb_spec c 47); [subst; cbn in Hr; tauto|]. apply IH. cbn in Hr. tauto.
Qed.
Lemma pop_all w : noslash w -> pop (rev w) = [].
Proof.
  intros H. assert (Hr : ~ In 47 (rev w)) by (intros Hi; apply H; apply in_rev; auto).
  induction (rev w) as [|c l IH]; cbn [pop app]; [reflexivity|].
  destruct (N.eqb_spec c 47); [subst; cbn in Hr; tauto|]. apply IH. cbn in Hr. tauto.
Qed.

Lemma pop_rjoin st : Forall proper st -> pop (rjoin st) = rjoin (tl st).
Proof.
  destruct st as [|w st]; [reflexivity|]. intros H. inversion H as [|? ? Hw Hst]; subst.
  destruct Hw as (_ & Hns & _). destruct st as [|y st].
  - cbn. apply pop_all; auto.
  - rewrite rjoin_cons by discriminate. apply pop_noslash; auto.
Qed.

Lemma rjoin_nil st : Forall proper st -> rjoin st = [] -> st = [].
Proof.
  destruct st as [|w st]; [auto|]. intros H E. inversion H as [|? ? Hw Hst]; subst.
  destruct Hw as (Hne & _). exfalso. destruct st.
  - cbn in E. apply Hne. destruct w; auto. cbn in E. destruct (rev w); discriminate.
  - rewrite rjoin_cons in E by discriminate. destruct (rev w); discriminate.
Qed.

Definition fin (st : list (list N)) (e : bool) : list N :=
  (if e && negb (isnil st) then [47] else []) ++ rjoin st.

(** first segment of a string *)
Lemma seg_split s : exists w u, s = w ++ u /\ noslash w /\ (u = [] \/ exists r, u = 47 :: r).
Proof.
  induction s as [|c s (w & u & E & Hw & Hu)].
  - exists [], []. repeat split; auto. unfold noslash; cbn; auto.
  - destruct (N.eq_dec c 47) as [->|Hc].
    + exists [], (47 :: s). repeat split; auto. { unfold noslash; cbn; auto. } eauto.
    + exists (c :: w), u. subst s. repeat split; auto. unfold noslash in *. cbn. intros [H|H]; auto.
Qed.

Lemma split_noslash w : noslash w -> split_slash w = [w].
Proof.
  induction w as [|c w IH]; intros H; [reflexivity|]. cbn [split_slash].
  destruct (N.eqb_spec c 47); [subst; exfalso; apply H; left; auto|].
  rewrite IH; auto. intros Hi; apply H; right; auto.
Qed.
Lemma split_app w r : noslash w -> split_slash (w ++ 47 :: r) = w :: split_slash r.
Proof.
  induction w as [|c w IH]; intros H; cbn [split_slash app].
  - rewrite N.eqb_refl. reflexivity.
  - destruct (N.eqb_spec c 47); [subst; exfalso; apply H; left; auto|].
    rewrite IH; auto. intros Hi; apply H; right; auto.
Qed.

Lemma ends_app w c r : ends_slash (w ++ c :: r) = ends_slash (c :: r).
Proof.
  unfold ends_slash. rewrite rev_app_distr. cbn [rev].
  destruct (rev r ++ [c]) eqn:E; [destruct (rev r); discriminate|]. reflexivity.
Qed.
Lemma ends_cons c x r : ends_slash (c :: x :: r) = ends_slash (x :: r).
Proof. apply (ends_app [c] x r). Qed.
Lemma ends_noslash w : noslash w -> ends_slash w = false.
Proof.
  intros H. unfold ends_slash. destruct (rev w) as [|c l] eqn:E; auto.
  apply N.eqb_neq. intros ->. apply H. apply in_rev. rewrite E. left; auto.
Qed.

(** dot segments at the head *)
Definition bound (u : list N) : Prop := u = [] \/ exists r, u = 47 :: r.

Lemma sl_end_bound u : bound u -> sl_end u = true.
Proof. intros [->|[r ->]]; auto. Qed.

Lemma dotdot_seg w u : noslash w -> bound u -> dotdot (w ++ u) = leqb w [46; 46].
Proof.
  intros Hw Hu. destruct w as [|a w].
  { destruct Hu as [->|[r ->]]; auto. cbn. destruct r; reflexivity. }
  destruct w as [|b w].
  { destruct Hu as [->|[r ->]]; cbn; rewrite ?andb_false_r; auto. }
  destruct w as [|c w]; cbn [app dotdot leqb].
  - rewrite sl_end_bound by auto. reflexivity.
  - cbn [sl_end]. destruct (N.eqb_spec c 47).
    + subst. exfalso. apply Hw. cbn. auto.
    + reflexivity.
Qed.

Lemma dot_seg w u : noslash w -> bound u -> dot (w ++ u) = leqb w [46].
Proof.
  intros Hw Hu. destruct w as [|a w].
  { destruct Hu as [->|[r ->]]; auto. }
  destruct w as [|b w]; cbn [app dot leqb].
  - rewrite sl_end_bound by auto. reflexivity.
  - cbn [sl_end]. destruct (N.eqb_spec b 47).
    + subst. exfalso. apply Hw. cbn. auto.
    + reflexivity.
Qed.

Lemma cl_copy w : forall rout u, rout <> [] -> noslash w ->
  cl rout (w ++ u) = cl (rev w ++ rout) u.
Proof.
  induction w as [|c w IH]; intros rout u Hr Hw; [reflexivity|].
  cbn [app cl rev]. replace (isnil rout) with false by (destruct rout; [congruence|reflexivity]).
  cbn [andb]. destruct (N.eqb_spec c 47); [subst; exfalso; apply Hw; left; auto|].
  cbn [andb]. rewrite IH.
  - rewrite <- app_assoc. reflexivity.
  - discriminate.
  - intros Hi; apply Hw; right; auto.
Qed.

Lemma cl_nil_proper w u : proper w -> bound u -> cl [] (w ++ u) = cl (rev w) u.
Proof.
  intros (Hne & Hw & H1 & H2) Hu.
  destruct w as [|c w]; [congruence|].
  cbn [app]. cbn [cl].
  change (c :: w ++ u) with ((c :: w) ++ u) at 1 2.
  rewrite dotdot_seg, dot_seg by auto. cbn [isnil].
  apply leqb_neq in H1. apply leqb_neq in H2. rewrite H1, H2. cbn [andb].
  destruct (N.eqb_spec c 47); [subst; exfalso; apply Hw; left; auto|]. cbn [andb].
  rewrite cl_copy; [|discriminate|intros Hi; apply Hw; right; auto].
  reflexivity.
Qed.

Lemma seg_step_proper st w : Forall proper st -> noslash w -> Forall proper (seg_step st w).
Proof.
  intros H Hw. unfold seg_step.
  destruct (leqb w []) eqn:E0; auto. destruct (leqb w [46]) eqn:E1; auto.
  destruct (leqb w [46; 46]) eqn:E2.
  - destruct st; auto. inversion H; auto.
  - constructor; auto. rewrite leqb_neq in *. repeat split; auto.
Qed.

Lemma cl_spec n : forall s st, (length s <= n)%nat -> Forall proper st ->
  (st = [] \/ bound s) ->
  cl (rjoin st) s = fin (fold_left seg_step (split_slash s) st) (ends_slash s).
Proof.
  induction n as [|n IH]; intros s st Hn Hst Hb.
  { destruct s; [|cbn in Hn; lia]. reflexivity. }
  destruct st as [|w0 st0].
  - (* at the root *)
    destruct (seg_split s) as (w & u & E & Hw & Hu). change (rjoin []) with (@nil N).
    destruct (leqb w []) eqn:E0.
    { apply leqb_eq in E0. subst w. cbn [app] in E. subst s.
      destruct Hu as [->|[r ->]]; [reflexivity|].
      cbn [cl]. cbn [isnil andb]. change (47 =? 47) with true. cbn iota.
      change (@nil N) with (rjoin []) at 1. rewrite IH; auto; [|cbn in Hn; lia].
      cbn [split_slash]. change (47 =? 47) with true. cbn iota. cbn [fold_left seg_step leqb].
      destruct r as [|x r]; [reflexivity|]. rewrite ends_cons. reflexivity. }
    destruct (leqb w [46; 46]) eqn:E2.
    { apply leqb_eq in E2. subst w. cbn [app] in E. subst s.
      destruct Hu as [->|[r ->]]; [reflexivity|].
      cbn. change (@nil N) with (rjoin []) at 1. rewrite IH; auto; [|cbn in Hn; lia].
      destruct r as [|x r]; [reflexivity|]. rewrite !ends_cons. reflexivity. }
    destruct (leqb w [46]) eqn:E1.
    { apply leqb_eq in E1. subst w. cbn [app] in E. subst s.
      destruct Hu as [->|[r ->]]; [reflexivity|].
      assert (cl [] (46 :: 47 :: r) = cl [] r) as ->.
      { cbn. destruct r; reflexivity. }
      change (@nil N) with (rjoin []) at 1. rewrite IH; auto; [|cbn in Hn; lia].
      change (split_slash (46 :: 47 :: r)) with ([46] :: split_slash r). 
      cbn [fold_left]. change (seg_step [] [46]) with (@nil (list N)).
      destruct r as [|x r]; [reflexivity|]. rewrite !ends_cons. reflexivity. }
    assert (Hp : proper w).
    { rewrite leqb_neq in *. unfold proper; auto. }
    subst s. rewrite cl_nil_proper by auto.
    change (rev w) with (rjoin [w]). rewrite IH; auto.
    2:{ rewrite app_length in Hn. destruct w; [destruct Hp; congruence|cbn in Hn; lia]. }
    assert (Es : seg_step [] w = [w]) by (unfold seg_step; rewrite E0, E1, E2; reflexivity).
    destruct Hu as [->|[r ->]].
    + rewrite app_nil_r. rewrite (split_noslash w), (ends_noslash w) by auto.
      cbn [fold_left split_slash]. rewrite Es. reflexivity.
    + rewrite (split_app w r), ends_app by auto. cbn [fold_left split_slash].
      change (47 =? 47) with true. cbn iota. cbn [fold_left]. rewrite Es.
      reflexivity.
  - destruct Hb as [Hb|Hb]; [discriminate|].
    destruct Hb as [->|[r0 ->]]; [reflexivity|].
    assert (Hne : isnil (rjoin (w0 :: st0)) = false).
    { destruct (rjoin (w0 :: st0)) eqn:E; [|reflexivity]. apply rjoin_nil in E; auto. discriminate. }
    destruct (seg_split r0) as (w & u & E & Hw & Hu).
    assert (Hsp : forall st, fold_left seg_step (split_slash (47 :: r0)) st
                   = fold_left seg_step (split_slash r0) st).
    { intros. reflexivity. }
    rewrite Hsp. set (st := w0 :: st0) in *.
    cbn [cl]. rewrite Hne. cbn [andb]. change (47 =? 47) with true. cbn [andb].
    destruct (leqb w []) eqn:E0.
    { apply leqb_eq in E0. subst w. cbn [app] in E. subst r0.
      destruct Hu as [->|[r ->]].
      - cbn [hd47 dotdot dot cl]. reflexivity.
      - cbn [hd47]. change (47 =? 47) with true. cbn iota. rewrite IH; auto.
        + rewrite ends_cons. reflexivity.
        + cbn in *; lia.
        + right. right. eauto. }
    assert (Hh : hd47 r0 = false).
    { subst r0. destruct w; [discriminate|]. cbn. apply N.eqb_neq. intros ->. apply Hw. left; auto. }
    rewrite Hh.
    destruct (leqb w [46; 46]) eqn:E2.
    { apply leqb_eq in E2. subst w. cbn [app] in E. subst r0.
      assert (Hdd : dotdot (46 :: 46 :: u) = true).
      { cbn. rewrite sl_end_bound by auto. reflexivity. }
      rewrite Hdd. rewrite pop_rjoin by auto.
      assert (Hst' : Forall proper (tl st)) by (subst st; inversion Hst; auto).
      destruct (rjoin (tl st)) as [|x y] eqn:Er.
      - apply rjoin_nil in Er; auto. destruct Hu as [->|[r ->]].
        + change (split_slash [46;46]) with [[46;46]]. cbn [fold_left]. change (seg_step st [46; 46]) with (tl st). rewrite Er. reflexivity.
        + change (@nil N) with (rjoin []). rewrite IH; auto; [|cbn in *; lia].
          change (split_slash (46 :: 46 :: 47 :: r)) with ([46;46] :: split_slash r).
          cbn [fold_left]. change (seg_step st [46; 46]) with (tl st). rewrite Er.
          destruct r as [|x r]; [reflexivity|]. rewrite !ends_cons. reflexivity.
      - rewrite <- Er. rewrite IH; auto; [|cbn in *; lia].
        destruct Hu as [->|[r ->]].
        + cbn. reflexivity.
        + change (split_slash (46 :: 46 :: 47 :: r)) with ([46;46] :: split_slash r).
          cbn [fold_left]. change (seg_step st [46; 46]) with (tl st).
          rewrite !ends_cons. reflexivity. }
    assert (Hdd : dotdot r0 = false).
    { subst r0. rewrite dotdot_seg; auto. }
    rewrite Hdd.
    destruct (leqb w [46]) eqn:E1.
    { apply leqb_eq in E1. subst w. cbn [app] in E. subst r0.
      assert (Hd : dot (46 :: u) = true).
      { cbn. rewrite sl_end_bound by auto. reflexivity. }
      rewrite Hd. rewrite IH; auto; [|cbn in *; lia].
      destruct Hu as [->|[r ->]]; [reflexivity|]. rewrite !ends_cons. reflexivity. }
    assert (Hd : dot r0 = false).
    { subst r0. rewrite dot_seg; auto. }
    rewrite Hd.
    assert (Hp : proper w).
    { rewrite leqb_neq in *. unfold proper; auto. }
    subst r0. rewrite cl_copy; [|discriminate|auto].
    assert (Es : seg_step st w = w :: st) by (unfold seg_step; rewrite E0, E1, E2; reflexivity).
    change (rev w ++ 47 :: rjoin st) with (rjoin (w :: st)).
    rewrite IH; auto.
    2:{ cbn in Hn. rewrite app_length in Hn. lia. }
    destruct Hu as [->|[r ->]].
    + rewrite app_nil_r. rewrite (split_noslash w) by auto.
      cbn [fold_left split_slash]. rewrite Es. 
      destruct w as [|n0 w]; [destruct Hp; congruence|]. rewrite ends_cons, (ends_noslash (n0 :: w)) by auto. reflexivity.
    + rewrite (split_app w r) by auto. cbn [fold_left split_slash].
      change (47 =? 47) with true. cbn iota. cbn [fold_left]. rewrite Es.
      rewrite app_comm_cons, (ends_app (47 :: w)). reflexivity.
Qed.

Lemma cl_canon s : cl [] s = rev (canon s).
Proof.
  change (@nil N) with (rjoin []). rewrite (cl_spec (length s)); auto.
  unfold fin, canon, kept. rewrite rev_app_distr, rjoin_rev.
  set (st := fold_left seg_step (split_slash s) []).
  f_equal.
  assert (Hi : isnil st = match rev st with [] => true | _ => false end).
  { destruct st; [reflexivity|]. cbn. destruct (rev st); reflexivity. }
  rewrite Hi. destruct (_ && _); reflexivity.
Qed.

(** ** The memory theorem *)
Lemma path_clean_spec pre s junk :
  nonul s ->
  exists g, path_clean (pre ++ s ++ 0 :: junk) (length pre)
            = OK (true, pre ++ canon s ++ 0 :: g)
         /\ length (pre ++ canon s ++ 0 :: g) = length (pre ++ s ++ 0 :: junk)
         /\ skipn (length pre + length s) (pre ++ canon s ++ 0 :: g) = 0 :: junk.
Proof.
  intros Hs. unfold path_clean.
  destruct (clean_loop_spec (length s) s (S (length (pre ++ s ++ 0 :: junk))) pre [] [] junk
              (length pre) (length pre) (length pre) (pre ++ s ++ 0 :: junk))
    as (gap & E & L); auto; try (rewrite ?app_length; cbn; lia).
  rewrite E. cbn [bind]. rewrite cl_canon in *. rewrite rev_involutive in *. rewrite rev_length in *.
  cbn [length] in L.
  assert (R : rd (pre ++ canon s ++ gap ++ 0 :: junk) (length pre + length (canon s) + length gap) = OK 0).
  { rewrite !app_assoc. apply rd_app2. rewrite !app_length. lia. }
  rewrite R. cbn [bind]. change (0 =? 0) with true. cbn [negb].
  destruct gap as [|g0 gap].
  - cbn [app] in *. exists junk. rewrite app_assoc, wr_app2 by (rewrite app_length; lia).
    cbn [bind]. rewrite <- app_assoc. split; [reflexivity|]. split.
    + rewrite !app_length. cbn in *. lia.
    + rewrite app_assoc. apply skipn_pre. rewrite app_length. cbn in *. lia.
  - exists (gap ++ 0 :: junk). cbn [app].
    rewrite app_assoc, wr_app2 by (rewrite app_length; lia).
    cbn [bind]. rewrite <- app_assoc. split; [reflexivity|]. split.
    + rewrite !app_length. cbn in *. rewrite app_length. cbn. lia.
    + replace (pre ++ canon s ++ 0 :: gap ++ 0 :: junk)
        with ((pre ++ canon s ++ 0 :: gap) ++ 0 :: junk) by (rewrite <- !app_assoc; reflexivity).
      apply skipn_pre. rewrite !app_length. cbn in *. lia.
Qed.

(** ** What canonical paths look like *)
Lemma fold_proper ws st : Forall noslash ws -> Forall proper st ->
  Forall proper (fold_left seg_step ws st).
Proof.
  revert st. induction ws as [|w ws IH]; intros st Hw Hst; [auto|].
  inversion Hw; subst. cbn. apply IH; auto. apply seg_step_proper; auto.
Qed.

Lemma split_all_noslash s : Forall noslash (split_slash s).
Proof.
  induction s as [|c s IH]; cbn.
  - constructor; auto. unfold noslash; cbn; auto.
  - destruct (N.eqb_spec c 47).
    + constructor; auto. unfold noslash; cbn; auto.
    + destruct (split_slash s) as [|w ws].
      * constructor; auto. unfold noslash; cbn. intuition.
      * inversion IH; subst. constructor; auto. unfold noslash in *; cbn. intuition.
Qed.

Lemma kept_proper s : Forall proper (kept s).
Proof.
  unfold kept. apply Forall_rev. apply fold_proper; [apply split_all_noslash|constructor].
Qed.

Lemma split_join ws : ws <> [] -> Forall noslash ws -> split_slash (join_slash ws) = ws.
Proof.
  induction ws as [|w ws IH]; [congruence|]. intros _ H. inversion H; subst.
  destruct ws as [|x ws].
  - cbn. apply split_noslash; auto.
  - change (join_slash (w :: x :: ws)) with (w ++ 47 :: join_slash (x :: ws)).
    rewrite split_app by auto. rewrite IH; auto. discriminate.
Qed.

Lemma split_join_slash ws : ws <> [] -> Forall noslash ws ->
  split_slash (join_slash ws ++ [47]) = ws ++ [[]].
Proof.
  induction ws as [|w ws IH]; [congruence|]. intros _ H. inversion H; subst.
  destruct ws as [|x ws].
  - cbn [join_slash]. rewrite split_app by auto. reflexivity.
  - change (join_slash (w :: x :: ws)) with (w ++ 47 :: join_slash (x :: ws)).
    rewrite <- app_assoc. cbn [app]. rewrite split_app by auto. rewrite IH; auto. discriminate.
Qed.

Lemma proper_noslash ws : Forall proper ws -> Forall noslash ws.
Proof. apply Forall_impl. intros w (_ & H & _). exact H. Qed.

(** segments of the canonical path *)
Lemma canon_segments s :
  canon s = [] \/
  (exists ws, ws <> [] /\ Forall proper ws /\ split_slash (canon s) = ws) \/
  (exists ws, ws <> [] /\ Forall proper ws /\ split_slash (canon s) = ws ++ [[]]).
Proof.
  unfold canon. pose proof (kept_proper s) as H. destruct (kept s) as [|w ws] eqn:E.
  - left. rewrite andb_false_r. reflexivity.
  - right. rewrite andb_true_r. destruct (ends_slash s).
    + right. exists (w :: ws). split; [discriminate|]. split; auto.
      apply split_join_slash; [discriminate|]. apply proper_noslash; auto.
    + left. exists (w :: ws). split; [discriminate|]. split; auto. rewrite app_nil_r.
      apply split_join; [discriminate|]. apply proper_noslash; auto.
Qed.

Lemma canon_relative s : hd 0 (canon s) <> 47.
Proof.
  unfold canon. pose proof (kept_proper s) as H. destruct (kept s) as [|w ws] eqn:E.
  - rewrite andb_false_r. cbn. lia.
  - inversion H as [|? ? Hw _]; subst. destruct Hw as (Hne & Hns & _).
    destruct w as [|c w]; [congruence|].
    assert (hd 0 (join_slash ((c :: w) :: ws) ++
       (if ends_slash s && negb false then [47] else [])) = c) as ->.
    { destruct ws; reflexivity. }
    intros ->. apply Hns. left; auto.
Qed.

Lemma fold_kept ws st : Forall proper ws -> fold_left seg_step ws st = rev ws ++ st.
Proof.
  revert st. induction ws as [|w ws IH]; intros st H; [reflexivity|].
  inversion H as [|? ? Hw Hws]; subst. cbn [fold_left].
  assert (seg_step st w = w :: st) as ->.
  { destruct Hw as (H0 & _ & H1 & H2). unfold seg_step.
    apply leqb_neq in H0, H1, H2. rewrite H0, H1, H2. reflexivity. }
  rewrite IH by auto. cbn. rewrite <- app_assoc. reflexivity.
Qed.

Lemma canon_idem s : canon (canon s) = canon s.
Proof.
  pose proof (kept_proper s) as H. unfold canon at 2 3.
  destruct (kept s) as [|w ws] eqn:E.
  { rewrite andb_false_r. reflexivity. }
  rewrite andb_true_r. set (l := w :: ws) in *.
  assert (Hne : l <> []) by discriminate.
  pose proof (proper_noslash _ H) as Hn.
  unfold canon, kept. destruct (ends_slash s).
  - rewrite split_join_slash by auto. rewrite fold_left_app.
    rewrite (fold_kept l) by auto. cbn [fold_left]. change (seg_step (rev l ++ []) []) with (rev l ++ []).
    rewrite app_nil_r, rev_involutive. rewrite ends_app.
    change (ends_slash [47]) with true. reflexivity.
  - rewrite app_nil_r. rewrite split_join by auto. rewrite (fold_kept l) by auto.
    rewrite app_nil_r, rev_involutive.
    assert (ends_slash (join_slash l) = false) as ->.
    { clear -H Hne. clearbody l. induction l as [|x l IH]; [congruence|].
      inversion H as [|? ? Hx Hl]; subst. destruct l as [|y l].
      - cbn. apply ends_noslash. apply Hx.
      - change (join_slash (x :: y :: l)) with (x ++ 47 :: join_slash (y :: l)).
        rewrite ends_app. inversion Hl as [|? ? Hy _]; subst.
        destruct (join_slash (y :: l)) as [|c r] eqn:Ej.
        + exfalso. destruct Hy as (Hy & _). destruct y; [congruence|]. destruct l; discriminate.
        + rewrite ends_cons, IH; auto. discriminate. }
    cbn. rewrite app_nil_r. reflexivity.
Qed.

Lemma canon_sub s c : In c (canon s) -> In c s \/ c = 47.
Proof.
  unfold canon. rewrite in_app_iff. intros [H|H].
  2:{ destruct (_ && _); cbn in H; intuition. }
  assert (G : forall ws, In c (join_slash ws) -> c = 47 \/ exists w, In w ws /\ In c w).
  { clear. induction ws as [|w ws IH]; cbn; [tauto|]. destruct ws as [|x ws].
    - intros H. right. exists w. auto.
    - rewrite in_app_iff. intros [H|[H|H]]; auto.
      + right. exists w; auto.
      + destruct (IH H) as [?|[v [? ?]]]; auto. right. exists v. split; auto; right; auto. }
  destruct (G _ H) as [->|[w [Hw Hc]]]; auto. left.
  unfold kept in Hw. apply in_rev in Hw.
  assert (F : forall ws st, In w (fold_left seg_step ws st) -> In w ws \/ In w st).
  { clear. induction ws as [|x ws IH]; intros st; cbn; auto. intros H.
    destruct (IH _ H) as [?|Hs]; auto. unfold seg_step in Hs.
    destruct (leqb x []); auto. destruct (leqb x [46]); auto.
    destruct (leqb x [46;46]).
    - destruct st; cbn in *; auto.
    - cbn in Hs. destruct Hs; auto. }
  destruct (F _ _ Hw) as [Hi|[]].
  clear -Hi Hc. revert w Hi Hc. induction s as [|a s IH]; intros w Hi Hc; cbn in Hi.
  - destruct Hi as [<-|[]]. destruct Hc.
  - destruct (N.eqb_spec a 47).
    + destruct Hi as [<-|Hi]; [destruct Hc|]. right. eapply IH; eauto.
    + destruct (split_slash s) as [|v vs].
      * destruct Hi as [<-|[]]. destruct Hc as [<-|[]]. left; auto.
      * destruct Hi as [<-|Hi].
        -- destruct Hc as [<-|Hc]; [left; auto|]. right. apply (IH v); auto. left; auto.
        -- right. apply (IH w); auto. right; auto.
Qed.

Lemma canon_nonul s : nonul s -> nonul (canon s).
Proof.
  intros H. apply Forall_forall. intros c Hc. destruct (canon_sub s c Hc) as [Hi| ->]; [|lia].
  eapply Forall_forall in H; eauto.
Qed.

Lemma canon_slashes s : canon (47 :: s) = canon s.
Proof.
  assert (cl [] (47 :: s) = cl [] s) by reflexivity.
  rewrite !cl_canon in H. apply (f_equal (@rev N)) in H. rewrite !rev_involutive in H. auto.
Qed.
