From Verif Require Import Base BaseLemmas Compat Compat_Proofs Memmem_Proofs Prop_Compat RequestSpec Iri_Last_Proofs Fmt ProxyProto ProxyProtoSpec.
Local Open Scope N_scope.

Lemma strncmp0_spec lit : nonul lit -> forall s, In 0 s -> exists b, strncmp0 lit s = OK b /\ (b = true <-> exists t, s = lit ++ t).
Proof.
  induction lit as [|a lit IH]; intros NL s HI.
  - exists true. split; [reflexivity|]. split; [intros _; exists s; reflexivity|reflexivity].
  - inversion NL; subst. destruct s as [|b s]; [contradiction|]. cbn [strncmp0]. destruct (N.eqb_spec b a) as [-> |D].
    + destruct HI as [HI|HI]; [congruence|]. destruct (IH H2 s HI) as (r & R & P). exists r. split; [exact R|]. rewrite P.
      split; intros (t & X); [exists t; cbn; congruence|exists t; cbn in X; congruence].
    + exists false. split; [reflexivity|]. split; [discriminate|]. intros (t & X). cbn in X. congruence.
Qed.

Lemma scan_spec stop : forall s, In 0 s -> exists t x r, scan stop s = OK (t, x :: r) /\ s = t ++ x :: r /\ Forall (fun c => c <> 0 /\ stop c = false) t /\ (x = 0 \/ stop x = true) /\ (x <> 0 -> In 0 r).
Proof.
  induction s as [|c s IH]; intros HI; [contradiction|]. cbn [scan]. destruct (N.eqb_spec c 0) as [-> |D].
  - exists [], 0, s. repeat split; auto. congruence.
  - cbn [orb]. destruct HI as [HI|HI]; [congruence|]. destruct (stop c) eqn:ST.
    + exists [], c, s. repeat split; auto.
    + destruct (IH HI) as (t & x & r & A & B & C & F & G). exists (c :: t), x, r. rewrite A. cbn [bind]. split; [reflexivity|].
      split; [cbn; congruence|]. split; [constructor; auto|auto].
Qed.
Lemma scan_complete stop t x r : Forall (fun c => c <> 0 /\ stop c = false) t -> x = 0 \/ stop x = true -> scan stop (t ++ x :: r) = OK (t, x :: r).
Proof.
  intros F W. induction F as [|c t [A B] F IH]; cbn [app scan].
  - destruct W as [-> |W]; [reflexivity|]. rewrite W, orb_true_r. reflexivity.
  - rewrite (proj2 (N.eqb_neq _ _) A), B. cbn [orb]. rewrite IH. reflexivity.
Qed.

Section Parse.
Variable gai : N -> list N -> option (list N).

Lemma ip_spec af d s : In 0 s -> exists r, check_ip_v1 gai af (d, s) = OK r /\
  forall a c, r = Some (a, c) <-> exists t r', s = t ++ 32 :: r' /\ Forall (fun c => c <> 0 /\ c <> 32) t /\ gai af t = Some a /\ c = (d ++ t ++ [0], r').
Proof.
  intros HI. unfold check_ip_v1. cbn [snd fst]. destruct (scan_spec (N.eqb 32) s HI) as (t & x & r & SC & E & F & W & _). rewrite SC. cbn [bind].
  assert (F' : Forall (fun c => c <> 0 /\ c <> 32) t) by (eapply Forall_impl; [|exact F]; cbn; intros c [A B]; split; [exact A|]; destruct (N.eqb_spec 32 c); congruence).
  assert (U : forall t' r', s = t' ++ 32 :: r' -> Forall (fun c => c <> 0 /\ c <> 32) t' -> t' = t /\ x = 32 /\ r' = r).
  { intros t' r' E' F2. assert (SC' : scan (N.eqb 32) s = OK (t', 32 :: r')).
    { rewrite E'. apply scan_complete; [|right; reflexivity]. eapply Forall_impl; [|exact F2]. cbn. intros c [A B]. split; [exact A|]. destruct (N.eqb_spec 32 c); congruence. }
    rewrite SC in SC'. injection SC' as <- <- <-. auto. }
  destruct (N.eq_dec x 32) as [-> |NX].
  - destruct (gai af t) as [a|] eqn:G.
    + eexists. split; [reflexivity|]. intros a' c. split.
      * intros Q. injection Q as <- <-. exists t, r. auto.
      * intros (t' & r' & E' & F2 & G' & ->). destruct (U _ _ E' F2) as (-> & _ & ->). rewrite G in G'. injection G' as ->. reflexivity.
    + exists None. split; [reflexivity|]. intros a' c. split; [discriminate|]. intros (t' & r' & E' & F2 & G' & ->). destruct (U _ _ E' F2) as (-> & _ & ->). congruence.
  - assert (X : match x :: r with 32 :: r0 => match gai af t with Some a => OK (Some (a, (d ++ t ++ [0], r0))) | None => OK None end | _ => OK None end = OK None).
    { clear - NX. destruct x as [|p]; [reflexivity|]. repeat (destruct p as [p|p|]; try reflexivity). congruence. }
    exists None. split; [exact X|]. intros a' c. split; [discriminate|]. intros (t' & r' & E' & F2 & _ & _). destruct (U _ _ E' F2) as (_ & -> & _). congruence.
Qed.

Definition ends (x : N) : bool := (x =? 32) || (x =? 13).
Lemma port_spec d s : In 0 s -> exists r, check_port_v1 (d, s) = OK r /\
  forall p c, r = Some (p, c) <-> exists t x r', s = t ++ x :: r' /\ Forall (fun c => c <> 0 /\ c <> 32 /\ c <> 13) t /\ (x = 32 \/ x = 13) /\
     is_dec t (Z.of_N p) /\ p <= 65535 /\ c = (d ++ t ++ [0], r').
Proof.
  intros HI. unfold check_port_v1. cbn [snd fst]. fold ends. destruct (scan_spec ends s HI) as (t & x & r & SC & E & F & W & _).
  change (fun x0 : N => (x0 =? 32) || (x0 =? 13)) with ends. rewrite SC. cbn [bind].
  assert (EN : forall c, ends c = false <-> c <> 32 /\ c <> 13) by (intros c; unfold ends; lia).
  assert (F' : Forall (fun c => c <> 0 /\ c <> 32 /\ c <> 13) t) by (eapply Forall_impl; [|exact F]; cbn; intros c [A B]; split; [exact A|]; apply EN; exact B).
  assert (U : forall t' x' r', s = t' ++ x' :: r' -> Forall (fun c => c <> 0 /\ c <> 32 /\ c <> 13) t' -> x' = 32 \/ x' = 13 -> t' = t /\ x' = x /\ r' = r).
  { intros t' x' r' E' F2 X'. assert (SC' : scan ends s = OK (t', x' :: r')).
    { rewrite E'. apply scan_complete; [|right; unfold ends; lia]. eapply Forall_impl; [|exact F2]. cbn. intros c [A B]. split; [exact A|]. apply EN; exact B. }
    rewrite SC in SC'. injection SC' as <- <- <-. auto. }
  change ((x =? 32) || (x =? 13)) with (ends x). destruct (ends x) eqn:X.
  - destruct (strtonum t 0 65535) as [v e] eqn:SN.
    assert (SS : forall p, p <= 65535 -> (is_dec t (Z.of_N p) <-> v = Z.of_N p /\ e = NumOk)).
    { intros p P. pose proof (strtonum_spec t 0 65535 (Z.of_N p) ltac:(unfold LLONG_MIN; lia) ltac:(unfold LLONG_MAX; lia)) as Q. rewrite SN in Q.
      split; [intros D; destruct Q as [_ Q]; specialize (Q ltac:(split; [exact D|lia])); injection Q as -> ->; auto|].
      intros [-> ->]. apply Q. reflexivity. }
    assert (R : e = NumOk -> (0 <= v <= 65535)%Z).
    { intros ->. pose proof (strtonum_spec t 0 65535 v ltac:(unfold LLONG_MIN; lia) ltac:(unfold LLONG_MAX; lia)) as Q. apply Q. exact SN. }
    destruct e; try (exists None; split; [reflexivity|]; intros p c; split; [discriminate|]; intros (t' & x' & r' & E' & F2 & X' & D & P & ->);
      destruct (U _ _ _ E' F2 X') as (-> & -> & ->); apply (SS p P) in D as [_ D]; discriminate).
    specialize (R eq_refl). eexists. split; [reflexivity|]. intros p c. split.
    + intros Q. injection Q as <- <-. exists t, x, r. split; [exact E|]. split; [exact F'|]. split; [unfold ends in X; lia|].
      split; [apply SS; [lia|]; split; [lia|reflexivity]|]. split; [lia|reflexivity].
    + intros (t' & x' & r' & E' & F2 & X' & D & P & ->). destruct (U _ _ _ E' F2 X') as (-> & -> & ->). apply (SS p P) in D as [-> _]. rewrite N2Z.id. reflexivity.
  - exists None. split; [reflexivity|]. intros p c. split; [discriminate|]. intros (t' & x' & r' & E' & F2 & X' & _). destruct (U _ _ _ E' F2 X') as (_ & -> & _). unfold ends in X. lia.
Qed.

Lemma in0_app (t : list N) x r : In 0 (t ++ x :: r) -> Forall (fun c => c <> 0) t -> x <> 0 -> In 0 r.
Proof.
  intros H F X. apply in_app_or in H as [H|[H|H]]; [|congruence|exact H]. exfalso. rewrite Forall_forall in F. exact (F 0 H eq_refl).
Qed.

Definition tail_v1 (v6 : bool) (h src dst : list N) (sport dport : N) : Prop :=
  exists s d sp e1 dp e2,
    h = s ++ [32] ++ d ++ [32] ++ sp ++ [e1] ++ dp ++ [e2; 10] /\
    (e1 = 32 \/ e1 = 13) /\ (e2 = 32 \/ e2 = 13) /\
    Forall (fun c => c <> 0 /\ c <> 32) s /\ Forall (fun c => c <> 0 /\ c <> 32) d /\
    Forall (fun c => c <> 0 /\ c <> 32 /\ c <> 13) sp /\ Forall (fun c => c <> 0 /\ c <> 32 /\ c <> 13) dp /\
    gai (if v6 then 6 else 4) s = Some src /\ gai 0 d = Some dst /\
    is_dec sp (Z.of_N sport) /\ sport <= 65535 /\ is_dec dp (Z.of_N dport) /\ dport <= 65535.

Lemma addrs_spec v6 d0 s : In 0 s -> exists r, parse_addrs gai v6 (d0, s) = OK r /\ r <> PUnknown /\
  (forall w src dst sp dp c, r = PAddr w src dst sp dp c -> w = v6 /\ exists h t done, tail_v1 v6 h src dst sp dp /\ s = h ++ t /\ c = (done, t) /\ length done = (length d0 + length h)%nat) /\
  (forall h t src dst sp dp, tail_v1 v6 h src dst sp dp -> s = h ++ t -> exists done, r = PAddr v6 src dst sp dp (done, t)).
Proof.
  intros H0. unfold parse_addrs.
  destruct (ip_spec (if v6 then 6 else 4) d0 s H0) as (r1 & R1 & S1). rewrite R1. cbn [bind].
  assert (BAD : forall (Z : forall h t src dst sp dp, tail_v1 v6 h src dst sp dp -> s = h ++ t -> False),
    exists r, OK PBad = OK r /\ r <> PUnknown /\
    (forall w src dst sp dp c, r = PAddr w src dst sp dp c -> w = v6 /\ exists h t done, tail_v1 v6 h src dst sp dp /\ s = h ++ t /\ c = (done, t) /\ length done = (length d0 + length h)%nat) /\
    (forall h t src dst sp dp, tail_v1 v6 h src dst sp dp -> s = h ++ t -> exists done, r = PAddr v6 src dst sp dp (done, t))).
  { intros Z. exists PBad. split; [reflexivity|]. split; [discriminate|]. split; [discriminate|]. intros. exfalso. eauto. }
  destruct r1 as [[src0 c1]|].
  2:{ apply BAD. intros h t src dst sp dp (a & b & p1 & e1 & p2 & e2 & -> & _ & _ & FA & _ & _ & _ & GA & _) E.
      assert (X : (None : option (list N * cursor)) = Some (src, (d0 ++ a ++ [0], b ++ [32] ++ p1 ++ [e1] ++ p2 ++ [e2; 10] ++ t))); [|discriminate].
      apply S1. exists a, (b ++ [32] ++ p1 ++ [e1] ++ p2 ++ [e2; 10] ++ t). split; [rewrite E; repeat rewrite <- app_assoc; reflexivity|]. auto. }
  destruct (proj1 (S1 _ _) eq_refl) as (a & s1 & E1 & F1 & G1 & ->).
  assert (H1 : In 0 s1). { rewrite E1 in H0. eapply in0_app; [exact H0| |discriminate]. eapply Forall_impl; [|exact F1]. intros c [X _]; exact X. }
  destruct (ip_spec 0 (d0 ++ a ++ [0]) s1 H1) as (r2 & R2 & S2). rewrite R2. cbn [bind].
  assert (UA : forall h t src dst sp dp, tail_v1 v6 h src dst sp dp -> s = h ++ t -> src = src0 /\
     exists b p1 e1 p2 e2, h = a ++ [32] ++ b ++ [32] ++ p1 ++ [e1] ++ p2 ++ [e2; 10] /\ s1 = b ++ [32] ++ p1 ++ [e1] ++ p2 ++ [e2; 10] ++ t /\
       (e1 = 32 \/ e1 = 13) /\ (e2 = 32 \/ e2 = 13) /\ Forall (fun c => c <> 0 /\ c <> 32) b /\
       Forall (fun c => c <> 0 /\ c <> 32 /\ c <> 13) p1 /\ Forall (fun c => c <> 0 /\ c <> 32 /\ c <> 13) p2 /\ gai 0 b = Some dst /\
       is_dec p1 (Z.of_N sp) /\ sp <= 65535 /\ is_dec p2 (Z.of_N dp) /\ dp <= 65535).
  { intros h t src dst sp dp (a' & b & p1 & e1 & p2 & e2 & -> & X1 & X2 & FA & FB & FP & FQ & GA & GB & D1 & L1 & D2 & L2) E.
    assert (X : Some (src0, (d0 ++ a ++ [0], s1)) = Some (src, (d0 ++ a' ++ [0], b ++ [32] ++ p1 ++ [e1] ++ p2 ++ [e2; 10] ++ t))).
    { apply S1. exists a', (b ++ [32] ++ p1 ++ [e1] ++ p2 ++ [e2; 10] ++ t). split; [rewrite E; repeat rewrite <- app_assoc; reflexivity|]. auto. }
    injection X as <- X Y. apply app_inv_head in X. apply app_inv_tail in X. subst a'. split; [reflexivity|]. exists b, p1, e1, p2, e2. repeat (split; [first [reflexivity|assumption]|]). auto. }
  destruct r2 as [[dst0 c2]|].
  2:{ apply BAD. intros h t src dst sp dp T E. destruct (UA _ _ _ _ _ _ T E) as (_ & b & p1 & e1 & p2 & e2 & _ & Es & _ & _ & FB & _ & _ & GB & _).
      assert (X : (None : option (list N * cursor)) = Some (dst, ((d0 ++ a ++ [0]) ++ b ++ [0], p1 ++ [e1] ++ p2 ++ [e2; 10] ++ t))); [|discriminate].
      apply S2. exists b, (p1 ++ [e1] ++ p2 ++ [e2; 10] ++ t). auto. }
  destruct (proj1 (S2 _ _) eq_refl) as (b & s2 & E2 & F2 & G2 & ->).
  assert (H2 : In 0 s2). { rewrite E2 in H1. eapply in0_app; [exact H1| |discriminate]. eapply Forall_impl; [|exact F2]; intros c [XX _]; exact XX. }
  destruct (port_spec ((d0 ++ a ++ [0]) ++ b ++ [0]) s2 H2) as (r3 & R3 & S3). rewrite R3. cbn [bind].
  assert (UB : forall h t src dst sp dp, tail_v1 v6 h src dst sp dp -> s = h ++ t -> src = src0 /\ dst = dst0 /\
     exists p1 e1 p2 e2, h = a ++ [32] ++ b ++ [32] ++ p1 ++ [e1] ++ p2 ++ [e2; 10] /\ s2 = p1 ++ [e1] ++ p2 ++ [e2; 10] ++ t /\
       (e1 = 32 \/ e1 = 13) /\ (e2 = 32 \/ e2 = 13) /\
       Forall (fun c => c <> 0 /\ c <> 32 /\ c <> 13) p1 /\ Forall (fun c => c <> 0 /\ c <> 32 /\ c <> 13) p2 /\
       is_dec p1 (Z.of_N sp) /\ sp <= 65535 /\ is_dec p2 (Z.of_N dp) /\ dp <= 65535).
  { intros h t src dst sp dp T E. destruct (UA _ _ _ _ _ _ T E) as (-> & b' & p1 & e1 & p2 & e2 & -> & Es & X1 & X2 & FB & FP & FQ & GB & D1 & L1 & D2 & L2).
    assert (X : Some (dst0, ((d0 ++ a ++ [0]) ++ b ++ [0], s2)) = Some (dst, ((d0 ++ a ++ [0]) ++ b' ++ [0], p1 ++ [e1] ++ p2 ++ [e2; 10] ++ t))).
    { apply S2. exists b', (p1 ++ [e1] ++ p2 ++ [e2; 10] ++ t). auto. }
    injection X as <- X Y. apply app_inv_head in X. apply app_inv_tail in X. subst b'. split; [reflexivity|]. split; [reflexivity|]. exists p1, e1, p2, e2. repeat (split; [first [reflexivity|assumption]|]). auto. }
  destruct r3 as [[sp0 c3]|].
  2:{ apply BAD. intros h t src dst sp dp T E. destruct (UB _ _ _ _ _ _ T E) as (_ & _ & p1 & e1 & p2 & e2 & _ & Es & X1 & _ & FP & _ & D1 & L1 & _).
      assert (X : (None : option (N * cursor)) = Some (sp, (((d0 ++ a ++ [0]) ++ b ++ [0]) ++ p1 ++ [0], p2 ++ [e2; 10] ++ t))); [|discriminate].
      apply S3. exists p1, e1, (p2 ++ [e2; 10] ++ t). auto 8. }
  destruct (proj1 (S3 _ _) eq_refl) as (p1 & e1 & s3 & E3 & F3 & X3 & D3 & L3 & ->).
  assert (H3 : In 0 s3). { rewrite E3 in H2. eapply in0_app; [exact H2| |lia]. eapply Forall_impl; [|exact F3]; intros c [XX _]; exact XX. }
  destruct (port_spec (((d0 ++ a ++ [0]) ++ b ++ [0]) ++ p1 ++ [0]) s3 H3) as (r4 & R4 & S4). rewrite R4. cbn [bind].
  assert (UC : forall h t src dst sp dp, tail_v1 v6 h src dst sp dp -> s = h ++ t -> src = src0 /\ dst = dst0 /\ sp = sp0 /\
     exists p2 e2, h = a ++ [32] ++ b ++ [32] ++ p1 ++ [e1] ++ p2 ++ [e2; 10] /\ s3 = p2 ++ [e2; 10] ++ t /\
       (e2 = 32 \/ e2 = 13) /\ Forall (fun c => c <> 0 /\ c <> 32 /\ c <> 13) p2 /\ is_dec p2 (Z.of_N dp) /\ dp <= 65535).
  { intros h t src dst sp dp T E. destruct (UB _ _ _ _ _ _ T E) as (-> & -> & p1' & e1' & p2 & e2 & -> & Es & X1 & X2 & FP & FQ & D1 & L1 & D2 & L2).
    assert (X : Some (sp0, (((d0 ++ a ++ [0]) ++ b ++ [0]) ++ p1 ++ [0], s3)) = Some (sp, (((d0 ++ a ++ [0]) ++ b ++ [0]) ++ p1' ++ [0], p2 ++ [e2; 10] ++ t))).
    { apply S3. exists p1', e1', (p2 ++ [e2; 10] ++ t). auto 8. }
    injection X as <- X Y. apply app_inv_head in X. apply app_inv_tail in X. subst p1'.
    rewrite E3 in Es. apply app_inv_head in Es. cbn [app] in Es. injection Es as <- _. subst s3.
    split; [reflexivity|]. split; [reflexivity|]. split; [reflexivity|]. exists p2, e2. repeat (split; [first [reflexivity|assumption]|]). auto. }
  destruct r4 as [[dp0 [done rest]]|].
  2:{ apply BAD. intros h t src dst sp dp T E. destruct (UC _ _ _ _ _ _ T E) as (_ & _ & _ & p2 & e2 & _ & Es & X2 & FQ & D2 & L2).
      assert (X : (None : option (N * cursor)) = Some (dp, ((((d0 ++ a ++ [0]) ++ b ++ [0]) ++ p1 ++ [0]) ++ p2 ++ [0], 10 :: t))); [|discriminate].
      apply S4. exists p2, e2, (10 :: t). auto 8. }
  destruct (proj1 (S4 _ _) eq_refl) as (p2 & e2 & s4 & E4 & F4 & X4 & D4 & L4 & EC). injection EC as -> ->.
  assert (H4 : In 0 s4). { rewrite E4 in H3. eapply in0_app; [exact H3| |lia]. eapply Forall_impl; [|exact F4]; intros c [XX _]; exact XX. }
  destruct s4 as [|x t4]; [contradiction|]. destruct (N.eqb_spec x 10) as [-> |NX].
  - eexists. split; [reflexivity|]. split; [discriminate|]. split.
    + intros w src dst sp dp c Q. injection Q as <- <- <- <- <- <-. split; [reflexivity|].
      exists (a ++ [32] ++ b ++ [32] ++ p1 ++ [e1] ++ p2 ++ [e2; 10]), t4, (((((d0 ++ a ++ [0]) ++ b ++ [0]) ++ p1 ++ [0]) ++ p2 ++ [0]) ++ [10]).
      split; [exists a, b, p1, e1, p2, e2; auto 20|]. split; [rewrite E1, E2, E3, E4; repeat rewrite <- app_assoc; reflexivity|].
      split; [reflexivity|]. repeat rewrite app_length. cbn [length]. lia.
    + intros h t src dst sp dp T E. destruct (UC _ _ _ _ _ _ T E) as (-> & -> & -> & p2' & e2' & -> & Es & X2 & FQ & D2 & L2).
      assert (X : Some (dp0, ((((d0 ++ a ++ [0]) ++ b ++ [0]) ++ p1 ++ [0]) ++ p2 ++ [0], 10 :: t4)) = Some (dp, ((((d0 ++ a ++ [0]) ++ b ++ [0]) ++ p1 ++ [0]) ++ p2' ++ [0], 10 :: t))).
      { apply S4. exists p2', e2', (10 :: t). auto 8. }
      injection X as <- _ <-. eexists. reflexivity.
  - apply BAD. intros h t src dst sp dp T E. destruct (UC _ _ _ _ _ _ T E) as (-> & -> & -> & p2' & e2' & -> & Es & X2 & FQ & D2 & L2).
    assert (X : Some (dp0, ((((d0 ++ a ++ [0]) ++ b ++ [0]) ++ p1 ++ [0]) ++ p2 ++ [0], x :: t4)) = Some (dp, ((((d0 ++ a ++ [0]) ++ b ++ [0]) ++ p1 ++ [0]) ++ p2' ++ [0], 10 :: t))).
    { apply S4. exists p2', e2', (10 :: t). auto 8. }
    injection X as _ _ X _. congruence.
Qed.

Lemma nonul_prefix (H T R Z : list N) : H ++ T = R ++ 0 :: Z -> nonul H -> exists t, R = H ++ t /\ T = t ++ 0 :: Z.
Proof.
  revert R. induction H as [|a H IH]; intros R E NH; cbn [app] in E.
  - exists R. auto.
  - inversion NH; subst. destruct R as [|b R]; cbn [app] in E; [injection E as -> _; congruence|]. injection E as -> E.
    destruct (IH R E H3) as (t & -> & ->). exists t. auto.
Qed.
Lemma in0_skip (H T : list N) : In 0 (H ++ T) -> nonul H -> In 0 T.
Proof. intros I NH. apply in_app_or in I as [I|I]; [|exact I]. exfalso. unfold nonul in NH. rewrite Forall_forall in NH. exact (NH 0 I eq_refl). Qed.

Lemma crlf_memmem data len : bytes data -> (len <= length data)%nat -> exists r, memmem data len [13; 10] = OK r /\ (r = None <-> ~ has_crlf (firstn len data)).
Proof.
  intros B L. destruct (c40_memmem_first data len [13; 10] B ltac:(repeat constructor; lia) L) as (r & R & S).
  exists r. split; [exact R|]. destruct r as [i|].
  - split; [discriminate|]. intros N. exfalso. apply N. destruct S as ((a & b & X & _) & _). exists a, b. exact X.
  - split; [|reflexivity]. intros _ (a & b & X). exact (S a b X).
Qed.

Lemma proto_spec s : In 0 s -> exists p, check_proto_v1 s = OK p /\
  ((p = 0 /\ forall v6 t, s <> s2b "TCP" ++ [if v6 : bool then 54 else 52] ++ [32] ++ t) \/
   exists v6 t, p = (if v6 : bool then 6 else 4) /\ s = s2b "TCP" ++ [if v6 then 54 else 52] ++ [32] ++ t).
Proof.
  intros I. unfold check_proto_v1. destruct (strncmp0_spec (s2b "TCP") ltac:(repeat constructor; discriminate) s I) as (b & B & BS). rewrite B. cbn [bind].
  destruct b; cbn [negb].
  - destruct (proj1 BS eq_refl) as (u & ->). change (skipn 3 (s2b "TCP" ++ u)) with u.
    apply in0_skip in I; [|repeat constructor; discriminate]. destruct u as [|x u]; [contradiction|].
    destruct (N.eqb_spec x 52) as [-> |N4]; [|destruct (N.eqb_spec x 54) as [-> |N6]]; cbn [orb].
    + destruct I as [I|I]; [discriminate|]. destruct u as [|y u]; [contradiction|]. destruct (N.eqb_spec y 32) as [-> |NY].
      * exists 4. split; [reflexivity|]. right. exists false, u. auto.
      * exists 0. split; [reflexivity|]. left. split; [reflexivity|]. intros [|] t X; apply app_inv_head in X; cbn in X; congruence.
    + destruct I as [I|I]; [discriminate|]. destruct u as [|y u]; [contradiction|]. destruct (N.eqb_spec y 32) as [-> |NY].
      * exists 6. split; [reflexivity|]. right. exists true, u. auto.
      * exists 0. split; [reflexivity|]. left. split; [reflexivity|]. intros [|] t X; apply app_inv_head in X; cbn in X; congruence.
    + exists 0. split; [reflexivity|]. left. split; [reflexivity|]. intros [|] t X; apply app_inv_head in X; cbn in X; congruence.
  - exists 0. split; [reflexivity|]. left. split; [reflexivity|]. intros v6 t X. assert (Y : false = true); [|discriminate]. apply BS. eexists. exact X.
Qed.

Lemma parse_spec R k : bytes R -> let data := R ++ repeat 0 (S k) in
  exists p, proxy_proto_v1_parse gai data (length R) = OK p /\
  (~ has_crlf R -> p = PBad) /\
  (forall w src dst sp dp done rest, p = PAddr w src dst sp dp (done, rest) -> exists h t, lenient_v1 gai h src sp /\ R = h ++ t /\ length done = length h /\ rest = t ++ repeat 0 (S k)) /\
  (p = PUnknown -> unknown_v1 R) /\
  (forall h t src sp, lenient_v1 gai h src sp -> R = h ++ t -> has_crlf R -> exists w dst dp done, p = PAddr w src dst sp dp (done, t ++ repeat 0 (S k))).
Proof.
  intros B data.
  assert (BD : bytes data) by (apply Forall_app; split; [exact B|]; apply Forall_forall; intros x X; apply repeat_spec in X; lia).
  assert (I0 : In 0 data) by (apply in_or_app; right; left; reflexivity).
  assert (FD : firstn (length R) data = R) by (unfold data; rewrite firstn_app, firstn_all, Nat.sub_diag, app_nil_r; reflexivity).
  assert (NB : forall h t src sp, lenient_v1 gai h src sp -> R = h ++ t -> exists v6 u, data = s2b "PROXY " ++ s2b "TCP" ++ [if v6 : bool then 54 else 52] ++ [32] ++ u /\
     exists dst dp h', tail_v1 v6 h' src dst sp dp /\ u = h' ++ t ++ repeat 0 (S k)).
  { intros h t src sp (v6 & s & d & p1 & e1 & p2 & e2 & dst & dp & -> & X) E. exists v6, (s ++ [32] ++ d ++ [32] ++ p1 ++ [e1] ++ p2 ++ [e2; 10] ++ t ++ repeat 0 (S k)).
    split; [unfold data; rewrite E; repeat rewrite <- app_assoc; reflexivity|].
    exists dst, dp, (s ++ [32] ++ d ++ [32] ++ p1 ++ [e1] ++ p2 ++ [e2; 10]).
    split; [exists s, d, p1, e1, p2, e2; split; [reflexivity|exact X]|]. repeat rewrite <- app_assoc. reflexivity. }
  assert (BAD : (has_crlf R -> forall h t src sp, lenient_v1 gai h src sp -> R = h ++ t -> False) -> exists p, OK PBad = OK p /\
    (~ has_crlf R -> p = PBad) /\
    (forall w src dst sp dp done rest, p = PAddr w src dst sp dp (done, rest) -> exists h t, lenient_v1 gai h src sp /\ R = h ++ t /\ length done = length h /\ rest = t ++ repeat 0 (S k)) /\
    (p = PUnknown -> unknown_v1 R) /\
    (forall h t src sp, lenient_v1 gai h src sp -> R = h ++ t -> has_crlf R -> exists w dst dp done, p = PAddr w src dst sp dp (done, t ++ repeat 0 (S k)))).
  { intros Z. exists PBad. split; [reflexivity|]. split; [reflexivity|]. split; [discriminate|]. split; [discriminate|]. intros h t src sp LH E HC. exfalso. exact (Z HC h t src sp LH E). }
  unfold proxy_proto_v1_parse, check_crlf_v1. destruct (Nat.ltb_spec (length R) 2) as [L2|L2].
  { cbn [bind negb]. apply BAD. intros (a & b & X). rewrite X in L2. rewrite !app_length in L2. cbn in L2. lia. }
  destruct (crlf_memmem data (length R) BD ltac:(unfold data; rewrite app_length; lia)) as (r & MR & MS). rewrite FD in MS. rewrite MR. cbn [bind].
  destruct r as [pos|]; [|cbn [negb]; apply BAD; intros HC; exfalso; exact (proj1 MS eq_refl HC)].
  assert (HC : ~ ~ has_crlf R) by (intros X; apply MS in X; discriminate). cbn [negb].
  destruct (strncmp0_spec (s2b "PROXY ") ltac:(repeat constructor; discriminate) data I0) as (b & PB & PS). rewrite PB. cbn [bind].
  destruct b; cbn [negb].
  2:{ apply BAD. intros _ h t src sp LH E. destruct (NB _ _ _ _ LH E) as (v6 & u & D & _). assert (false = true); [|discriminate]. apply PS. eexists. exact D. }
  destruct (proj1 PS eq_refl) as (s & DS). assert (SK : skipn 6 data = s) by (rewrite DS; reflexivity). rewrite SK.
  assert (IS : In 0 s) by (rewrite DS in I0; eapply in0_skip; [exact I0|repeat constructor; discriminate]).
  destruct (proto_spec s IS) as (p & CP & W). rewrite CP. cbn [bind].
  destruct W as [[-> NT]|(v6 & u & -> & Es)].
  - change (0 =? 0) with true. cbv iota. unfold unknown_after.
    assert (NL : forall h t src sp, lenient_v1 gai h src sp -> R = h ++ t -> False).
    { intros h t src sp LH E. destruct (NB _ _ _ _ LH E) as (v6 & u & D & _). rewrite DS in D. apply app_inv_head in D. exact (NT _ _ D). }
    destruct (strncmp0_spec (s2b "TCP") ltac:(repeat constructor; discriminate) s IS) as (b & TB & TS). rewrite TB. cbn [bind].
    assert (IU : In 0 (if b then skipn 3 s else s)).
    { destruct b; [|exact IS]. destruct (proj1 TS eq_refl) as (t & ->). change (skipn 3 (s2b "TCP" ++ t)) with t. eapply in0_skip; [exact IS|repeat constructor; discriminate]. }
    destruct (strncmp0_spec (s2b "UNKNOWN") ltac:(repeat constructor; discriminate) _ IU) as (u & UU & US). rewrite UU. cbn [bind].
    destruct u.
    + exists PUnknown. split; [reflexivity|]. split; [intros X; contradiction|]. split; [discriminate|]. split; [|intros; exfalso; eauto]. intros _.
      destruct (proj1 US eq_refl) as (t & Ht). destruct b.
      * destruct (proj1 TS eq_refl) as (t' & ->). change (skipn 3 (s2b "TCP" ++ t')) with t' in Ht. subst t'.
        right. destruct (nonul_prefix (s2b "PROXY TCPUNKNOWN") t R (repeat 0 k)) as (t2 & X & _); [symmetry; exact DS|repeat constructor; discriminate|]. exists t2. exact X.
      * rewrite Ht in DS. left. destruct (nonul_prefix (s2b "PROXY UNKNOWN") t R (repeat 0 k)) as (t2 & X & _); [symmetry; exact DS|repeat constructor; discriminate|]. exists t2. exact X.
    + apply BAD. eauto.
  - assert (P0 : ((if v6 then 6 else 4) =? 0) = false) by (destruct v6; reflexivity). rewrite P0.
    assert (P6 : ((if v6 then 6 else 4) =? 6) = v6) by (destruct v6; reflexivity). rewrite P6.
    assert (SK2 : skipn 11 data = u) by (rewrite DS, Es; reflexivity). rewrite SK2.
    assert (IU : In 0 u). { rewrite Es in IS. apply in0_skip in IS; [|repeat constructor; discriminate]. destruct IS as [IS|[IS|IS]]; [destruct v6; discriminate|discriminate|exact IS]. }
    destruct (addrs_spec v6 (firstn 11 data) u IU) as (r & PR & NU & SA & SB). rewrite PR. exists r. split; [reflexivity|].
    split; [intros X; contradiction|]. split; [|split; [intros ->; congruence|]].
    + intros w src dst sp dp done rest ->. destruct (SA _ _ _ _ _ _ eq_refl) as (-> & h & t & dn & T & E & CE & LD). injection CE as <- <-.
      destruct T as (s1 & d1 & p1 & e1 & p2 & e2 & -> & X).
      set (H := s2b "PROXY TCP" ++ [if v6 then 54 else 52] ++ [32] ++ s1 ++ [32] ++ d1 ++ [32] ++ p1 ++ [e1] ++ p2 ++ [e2; 10]).
      assert (NH : nonul H).
      { destruct X as (X1 & X2 & F1 & F2 & F3 & F4 & _).
        assert (M : forall (P Q : N -> Prop) l, (forall c, P c -> Q c) -> Forall P l -> Forall Q l) by (intros P Q l HH; apply Forall_impl; exact HH).
        unfold H, nonul. repeat (apply Forall_app; split);
          try (repeat constructor; destruct v6; discriminate); try (constructor; [lia|]; try constructor; try lia; constructor).
        - eapply M; [|exact F1]. cbn. intros c [Y _]. exact Y.
        - eapply M; [|exact F2]. cbn. intros c [Y _]. exact Y.
        - eapply M; [|exact F3]. cbn. intros c [Y _]. exact Y.
        - eapply M; [|exact F4]. cbn. intros c [Y _]. exact Y. }
      destruct (nonul_prefix H rest R (repeat 0 k)) as (t2 & RE & TE).
      { change (0 :: repeat 0 k) with (repeat 0 (S k)). fold data. rewrite DS, Es, E. unfold H. repeat rewrite <- app_assoc. reflexivity. }
      { exact NH. }
      exists H, t2. split; [exists v6, s1, d1, p1, e1, p2, e2, dst, dp; split; [reflexivity|exact X]|]. split; [exact RE|].
      assert (L11 : length (firstn 11 data) = 11%nat) by (rewrite DS, Es; reflexivity).
      split; [rewrite LD, L11; unfold H; repeat rewrite app_length; cbn [length s2b]; lia|exact TE].
    + intros h t src sp LH E _. destruct (NB _ _ _ _ LH E) as (v6' & u' & D & dst & dp & h' & T & EU).
      rewrite DS, Es in D. apply app_inv_head in D. apply app_inv_head in D. cbn [app] in D. injection D as V6 ->.
      assert (v6' = v6) by (destruct v6, v6'; congruence). subst v6'.
      destruct (SB h' _ src dst sp dp T EU) as (dn & ->). exists v6, dst, dp, dn. reflexivity.
Qed.
End Parse.
