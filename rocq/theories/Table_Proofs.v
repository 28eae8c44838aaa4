(** The table of media types on memory. *)
From Verif Require Import Base Compat Compat_Proofs Prop_Compat Arr ArrSpec Arr_Proofs.
Local Open Scope N_scope.

Definition text (b : list cell) (off : nat) : option (list N) := cstr (map val (firstn FIELD (skipn off b))).

Lemma val_By l : map val (map By l) = l.
Proof. induction l as [|x l IH]; cbn [map]; [|rewrite IH]; reflexivity. Qed.

Lemma copy_field_ok m p off src b : nonul src -> pts m p b -> (N.to_nat off + FIELD <= length b)%nat ->
  exists m' b', copy_field m (Some p) off src = OK (Nat.ltb (length src) FIELD, m') /\ changed m m' p (mkBlk true b') /\ length b' = length b /\
    (forall i n, (i + n <= N.to_nat off \/ N.to_nat off + FIELD <= i)%nat -> firstn n (skipn i b') = firstn n (skipn i b)) /\
    ((length src < FIELD)%nat -> text b' (N.to_nat off) = Some src).
Proof.
  intros Ns P L. unfold copy_field. rewrite (load_ok _ _ _ _ _ P) by (rewrite Nat2N.id; exact L). cbn [bind]. rewrite Nat2N.id.
  set (o := map val (firstn FIELD (skipn (N.to_nat off) b))).
  assert (Lo : length o = FIELD) by (unfold o; rewrite map_length, firstn_length, skipn_length; lia).
  destruct (c37_strlcpy src [] o FIELD Ns) as (nw & E & Ln & _ & C). { rewrite Lo. apply le_n. }
  rewrite E. cbn [bind]. rewrite Lo in Ln.
  destruct (store_ok m p off (map By nw) b P) as (m' & S & Ch). { rewrite map_length, Ln. exact L. }
  rewrite S. cbn [bind]. do 2 eexists. split; [reflexivity|]. split; [exact Ch|].
  split. { apply over_length. rewrite map_length, Ln. exact L. }
  split. { intros i n H. apply over_elsewhere; rewrite map_length, Ln; [exact L|exact H]. }
  intros H. unfold text. replace FIELD with (length (map By nw)) by (rewrite map_length; exact Ln).
  rewrite over_at by lia. rewrite val_By. rewrite C by (unfold FIELD; lia). f_equal. apply firstn_all2. unfold FIELD in *. lia.
Qed.

(** the table holds the entries [l]; of the blocks from [n0] on it alone is in use *)
Record table_ok (n0 : nat) (m : mem) (tb : table) (l : list (list N * list N)) (p : nat) (b : list cell) : Prop := mkTok {
  to_t : t tb = Some p;
  to_p : pts m p b;
  to_n0 : (n0 <= p)%nat;
  to_len : tlen tb = N.of_nat (length l);
  to_cap : tlen tb <= cap tb;
  to_16 : 16 <= cap tb;
  to_room : ETM * cap tb <= N.of_nat (length b);
  to_max : cap tb < 2 ^ 49;
  to_lin : cap tb = 16 \/ 2 * cap tb <= 3 * tlen tb;
  to_entries : forall i mt ext, nth_error l i = Some (mt, ext) ->
    text b (256 * i) = Some mt /\ text b (256 * i + FIELD) = Some ext;
  to_dead : forall k, (n0 <= k < sz m)%nat -> k <> p -> exists c, nth_error (blocks m) k = Some (mkBlk false c) }.

Lemma firstn_eq_sub {A} (b b' : list A) n i k : firstn n b' = firstn n b -> (i + k <= n)%nat -> firstn k (skipn i b') = firstn k (skipn i b).
Proof.
  intros H L. assert (X : firstn (i + k) b' = firstn (i + k) b).
  { replace (i + k)%nat with (Nat.min (i + k) n) by lia. rewrite <- !firstn_firstn, H. reflexivity. }
  apply (f_equal (skipn i)) in X. rewrite !skipn_firstn_comm in X. replace (i + k - i)%nat with k in X by lia. exact X.
Qed.


Lemma add_mime_ok E n0 m tb l p b mt ext : table_ok n0 m tb l p b -> (n0 <= sz m)%nat -> nonul mt -> nonul ext ->
  exists ok tb' m' p' b', add_mime E m tb mt ext = OK (ok, tb', m') /\
    table_ok n0 m' tb' (if ok then l ++ [(mt, ext)] else l) p' b' /\ (sz m <= sz m')%nat /\ old_kept n0 m m' /\
    (ok = true -> (length mt < FIELD /\ length ext < FIELD)%nat) /\
    (ok = false -> (length mt < FIELD /\ length ext < FIELD)%nat ->
       tlen tb = cap tb /\ ~ granted E m (ETM * (cap tb * 3 / 2))).
Proof.
  intros T N0 Nm Ne. unfold add_mime. rewrite (to_t _ _ _ _ _ _ T).
  pose proof (to_cap _ _ _ _ _ _ T) as Tc. pose proof (to_16 _ _ _ _ _ _ T) as T16. pose proof (to_max _ _ _ _ _ _ T) as Tm.
  pose proof (to_room _ _ _ _ _ _ T) as Tr. pose proof (to_len _ _ _ _ _ _ T) as Tl. unfold ETM in *.
  (* room *)
  assert (R : (exists m1, (if tlen tb =? cap tb
      then
        let* (q, m') := recallocarray E m (Some p) (cap tb) (cap tb * 3 / 2) 256 in
        match q with None => OK (false, tb, m') | Some _ => OK (true, mkT q (tlen tb) (cap tb * 3 / 2), m') end
      else OK (true, tb, m)) = OK (false, tb, m1) /\ blocks m1 = blocks m /\ tlen tb = cap tb /\ ~ granted E m (256 * (cap tb * 3 / 2))) \/
    exists tb1 m1 p1 b1, (if tlen tb =? cap tb
      then
        let* (q, m') := recallocarray E m (Some p) (cap tb) (cap tb * 3 / 2) 256 in
        match q with None => OK (false, tb, m') | Some _ => OK (true, mkT q (tlen tb) (cap tb * 3 / 2), m') end
      else OK (true, tb, m)) = OK (true, tb1, m1) /\ table_ok n0 m1 tb1 l p1 b1 /\ tlen tb1 < cap tb1 /\ (sz m <= sz m1)%nat /\ old_kept n0 m m1).
  { destruct (N.eqb_spec (tlen tb) (cap tb)) as [F|F].
    2: { right. exists tb, m, p, b. split; [reflexivity|]. split; [exact T|]. split; [lia|]. split; [lia|]. intros k K. reflexivity. }
    set (nc := cap tb * 3 / 2).
    assert (D : 2 * nc <= 3 * cap tb /\ cap tb + 8 <= nc).
    { unfold nc. split; [pose proof (N.mul_div_le (cap tb * 3) 2); lia|]. apply N.div_le_lower_bound; lia. }
    destruct (recallocarray_spec E m p b (cap tb) nc 256) as (r & m1 & -> & S); [lia..|exact (to_p _ _ _ _ _ _ T)|lia|unfold SIZE_MAX; lia|].
    cbn [bind]. destruct r as [q|].
    2: { left. exists m1. split; [reflexivity|]. destruct S as (S1 & S2). split; [exact S1|]. split; [exact F|].
         intros G. apply S2. split; [unfold SIZE_MAX; lia|]. rewrite N.mul_comm. exact G. }
    destruct S as (K & Mx & (b1 & P1 & L1 & L1' & Eb) & [(? & ? & ? & ?)|(-> & Sz & G & De)]); [lia|].
    right. exists (mkT (Some (sz m)) (tlen tb) nc), m1, (sz m), b1. split; [reflexivity|].
    assert (Eo : firstn (N.to_nat (cap tb * 256)) b1 = firstn (N.to_nat (cap tb * 256)) b).
    { replace (N.to_nat (cap tb * 256)) with (Nat.min (N.to_nat (cap tb * 256)) (N.to_nat (nc * 256))) at 1 by lia.
      rewrite <- firstn_firstn, Eb, firstn_firstn. replace (Nat.min (N.to_nat (cap tb * 256)) (N.to_nat (nc * 256))) with (N.to_nat (cap tb * 256)) by lia.
      rewrite firstn_app, firstn_firstn, firstn_length.
      replace (N.to_nat (cap tb * 256) - Nat.min (N.to_nat (cap tb * 256)) (length b))%nat with 0%nat by lia. cbn [firstn].
      rewrite app_nil_r. f_equal. lia. }
    split.
    { split; cbn [t tlen cap]; try lia; auto.
      - unfold ETM. lia.
      - destruct G as [G _]. lia.
      - intros i mt' ext' Hi. assert (i < length l)%nat by (apply nth_error_Some; congruence).
        destruct (to_entries _ _ _ _ _ _ T i mt' ext' Hi) as [X1 X2].
        unfold text. rewrite !(firstn_eq_sub b b1 (N.to_nat (cap tb * 256))); try exact Eo; [split; assumption| |]; unfold FIELD; lia.
      - intros k Hk Kn. destruct (Nat.eq_dec k p) as [->|Kp]; [eauto|].
        rewrite K; [apply (to_dead _ _ _ _ _ _ T); [lia|exact Kp]|lia|intros [<-|[]]; congruence]. }
    cbn [tlen cap]. split; [lia|]. split; [lia|]. intros k Hk. pose proof (to_n0 _ _ _ _ _ _ T). apply K; [lia|intros [<-|[]]; lia]. }
  destruct R as [(m1 & -> & B1 & F & G)|(tb1 & m1 & p1 & b1 & -> & T1 & R1 & Sz & K1)].
  { cbn [bind negb]. exists false, tb, m1, p, b. split; [reflexivity|].
    assert (S1 : sz m1 = sz m) by (unfold sz; rewrite B1; reflexivity).
    split. { destruct T. split; auto. - unfold pts. rewrite B1. assumption. - rewrite S1, B1. assumption. }
    split; [lia|]. split. { intros k Hk. rewrite B1. reflexivity. } split; [discriminate|]. intros _ _. split; [exact F|exact G]. }
  clear T Tc T16 Tm Tr Tl. cbn [bind negb].
  pose proof (to_cap _ _ _ _ _ _ T1) as Tc. pose proof (to_max _ _ _ _ _ _ T1) as Tm.
  pose proof (to_room _ _ _ _ _ _ T1) as Tr. pose proof (to_len _ _ _ _ _ _ T1) as Tl. unfold ETM in *.
  rewrite (to_t _ _ _ _ _ _ T1).
  destruct (copy_field_ok m1 p1 (256 * tlen tb1) mt b1 Nm (to_p _ _ _ _ _ _ T1)) as (m2 & b2 & -> & C2 & L2 & O2 & X2). { unfold FIELD. lia. }
  cbn [bind].
  (* the entries are not touched *)
  assert (Keep : forall m' b', changed m1 m' p1 (mkBlk true b') -> length b' = length b1 ->
     (forall i n, (i + n <= 256 * length l)%nat -> firstn n (skipn i b') = firstn n (skipn i b1)) ->
     table_ok n0 m' tb1 l p1 b' /\ sz m' = sz m1 /\ old_kept n0 m m').
  { intros m' b' C L O. split.
    { destruct T1. split; auto.
      - exact (ch_at _ _ _ _ C).
      - rewrite L. assumption.
      - intros i mt' ext' Hi. assert (i < length l)%nat by (apply nth_error_Some; congruence).
        unfold text. rewrite !O by (unfold FIELD; lia). apply to_entries0. exact Hi.
      - rewrite (ch_len _ _ _ _ C). intros k Hk Kn. rewrite (ch_other _ _ _ _ C) by exact Kn. apply to_dead0; assumption. }
    split; [exact (ch_len _ _ _ _ C)|]. intros k Hk. pose proof (to_n0 _ _ _ _ _ _ T1). rewrite (ch_other _ _ _ _ C) by lia. apply K1. exact Hk. }
  destruct (Nat.ltb_spec (length mt) FIELD) as [Lm|Lm]; cbn [negb].
  2: { destruct (Keep m2 b2 C2 L2) as (T2 & S2 & K2). { intros i n H. apply O2. left. lia. }
       exists false, tb1, m2, p1, b2. split; [reflexivity|]. split; [exact T2|]. split; [lia|]. split; [exact K2|].
       split; [discriminate|]. intros _ [? _]. lia. }
  destruct (copy_field_ok m2 p1 (256 * tlen tb1 + N.of_nat FIELD) ext b2 Ne (ch_at _ _ _ _ C2)) as (m3 & b3 & -> & C3 & L3 & O3 & X3). { unfold FIELD. lia. }
  cbn [bind].
  assert (C : changed m1 m3 p1 (mkBlk true b3)).
  { split. - rewrite (ch_len _ _ _ _ C3). exact (ch_len _ _ _ _ C2). - exact (ch_at _ _ _ _ C3).
    - intros k Hk. rewrite (ch_other _ _ _ _ C3), (ch_other _ _ _ _ C2) by exact Hk. reflexivity.
    - rewrite (ch_calls _ _ _ _ C3). exact (ch_calls _ _ _ _ C2). }
  destruct (Keep m3 b3 C) as (T3 & S3 & K3). { lia. } { intros i n H. rewrite O3 by (left; unfold FIELD; lia). apply O2. left. lia. }
  destruct (Nat.ltb_spec (length ext) FIELD) as [Le|Le]; cbn [negb].
  2: { exists false, tb1, m3, p1, b3. split; [reflexivity|]. split; [exact T3|]. split; [lia|]. split; [exact K3|].
       split; [discriminate|]. intros _ [_ ?]. lia. }
  exists true, (mkT (Some p1) (addz (tlen tb1) 1) (cap tb1)), m3, p1, b3. split; [reflexivity|].
  assert (Ad : addz (tlen tb1) 1 = tlen tb1 + 1) by (unfold addz; apply N.mod_small; lia).
  split.
  { destruct T3. split; cbn [t tlen cap]; rewrite ?Ad, ?app_length; cbn [length]; auto; try lia.
    intros i mt' ext' Hi. destruct (Nat.lt_ge_cases i (length l)) as [H|H].
    - rewrite nth_error_app1 in Hi by exact H. apply to_entries0. exact Hi.
    - rewrite nth_error_app2 in Hi by exact H. destruct (i - length l)%nat as [|j] eqn:Ej; [|destruct j; discriminate Hi].
      injection Hi as <- <-. assert (i = length l) by lia. subst i. split.
      + unfold text. rewrite O3 by (left; unfold FIELD; lia). replace (256 * length l)%nat with (N.to_nat (256 * tlen tb1)) by lia. apply X2. exact Lm.
      + replace (256 * length l + FIELD)%nat with (N.to_nat (256 * tlen tb1 + N.of_nat FIELD)) by lia. apply X3. exact Le. }
  split; [lia|]. split; [exact K3|]. split; [auto|]. discriminate.
Qed.



Lemma add_all_ok E n0 : forall l2 m tb l p b, table_ok n0 m tb l p b -> (n0 <= sz m)%nat -> Forall (fun e => nonul (fst e) /\ nonul (snd e)) l2 ->
  exists oks tb' m' p' b', add_all E m tb l2 = OK (oks, tb', m') /\ length oks = length l2 /\
    table_ok n0 m' tb' (l ++ accepted l2 oks) p' b' /\ old_kept n0 m m' /\
    (forall i e, nth_error l2 i = Some e -> nth_error oks i = Some true -> fits e = true) /\
    ((forall k n, n < 2 ^ 57 -> yes E k n = true) -> N.of_nat (length l + length l2) < 2 ^ 40 -> oks = map fits l2).
Proof.
  induction l2 as [|[mt ext] r IH]; intros m tb l p b T N0 F; cbn [add_all].
  { exists [], tb, m, p, b. cbn [accepted map length]. rewrite app_nil_r. split; [reflexivity|]. split; [reflexivity|]. split; [exact T|].
    split. { intros k _. reflexivity. } split; [|reflexivity]. intros [|i] e H; discriminate H. }
  inversion F as [|? ? [F1 F2] F3]; subst. cbn [fst snd] in *.
  destruct (add_mime_ok E n0 m tb l p b mt ext T N0 F1 F2) as (ok & tb1 & m1 & p1 & b1 & -> & T1 & S1 & K1 & Y & No). cbn [bind].
  destruct (IH m1 tb1 _ p1 b1 T1) as (oks & tb2 & m2 & p2 & b2 & -> & L & T2 & K2 & A & G); [lia|exact F3|]. cbn [bind].
  exists (ok :: oks), tb2, m2, p2, b2. split; [reflexivity|]. split; [cbn [length]; lia|].
  split. { cbn [accepted]. destruct ok; [rewrite <- app_assoc in T2|]; exact T2. }
  split. { intros k Hk. rewrite K2, K1 by exact Hk. reflexivity. }
  split. { intros [|i] e Hi Ho; cbn [nth_error] in *; [|eapply A; eassumption].
    injection Hi as <-. injection Ho as ->. unfold fits. cbn [fst snd]. destruct (Y eq_refl) as [Y1 Y2]. apply Nat.ltb_lt in Y1, Y2. rewrite Y1, Y2. reflexivity. }
  intros Ye B. cbn [length map] in *. f_equal.
  - unfold fits. cbn [fst snd]. destruct ok.
    + destruct (Y eq_refl) as [Y1 Y2]. apply Nat.ltb_lt in Y1, Y2. rewrite Y1, Y2. reflexivity.
    + destruct (Nat.ltb_spec (length mt) FIELD) as [M|M]; [|reflexivity]. destruct (Nat.ltb_spec (length ext) FIELD) as [X|X]; [|reflexivity].
      exfalso. destruct (No eq_refl (conj M X)) as [Fl Gr]. apply Gr.
      assert (ETM * (cap tb * 3 / 2) < 2 ^ 57).
      { pose proof (N.mul_div_le (cap tb * 3) 2). pose proof (to_len _ _ _ _ _ _ T). unfold ETM.
        destruct (to_lin _ _ _ _ _ _ T); lia. }
      split; [assumption|]. apply Ye. assumption.
  - apply G; [exact Ye|]. destruct ok; [rewrite app_length; cbn [length]|]; lia.
Qed.

Lemma init_ok E m tb m0 : init_mime E m = Some (tb, m0) -> exists p b, table_ok (sz m) m0 tb [] p b /\ (sz m <= sz m0)%nat /\ old_kept (sz m) m m0.
Proof.
  unfold init_mime, calloc. change (SIZE_MAX <? 16 * ETM) with false. cbv iota.
  destruct (give_cases E m (16 * ETM) (fun _ => By 0)) as [(G & m1 & -> & G1)|(G & m1 & -> & G1)]; [|discriminate].
  intros [= <- <-]. exists (sz m). eexists. split; [split; cbn [t tlen cap length]|].
  - reflexivity. - exact (gr_new _ _ _ G1). - lia. - reflexivity. - lia. - lia.
  - rewrite map_length, seq_length. unfold ETM. lia.
  - lia. - left. reflexivity. - intros [|i] ? ?; discriminate.
  - intros k Hk Kn. rewrite (gr_len _ _ _ G1) in Hk. lia.
  - rewrite (gr_len _ _ _ G1). split; [lia|]. intros k Hk. apply (gr_other _ _ _ G1). exact Hk.
Qed.
