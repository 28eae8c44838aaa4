(** The lists of a configuration: invariant. *)
From Verif Require Import Base Tailq.
Local Open Scope nat_scope.

Lemma kind_beq_spec a b : Bool.reflect (a = b) (kind_beq a b).
Proof. destruct a, b; cbn; constructor; congruence. Qed.
Lemma heq_spec a b : Bool.reflect (a = b) (heq a b).
Proof. destruct a as [a i], b as [b j]. unfold heq. cbn. destruct (Nat.eqb_spec a b), (kind_beq_spec i j); cbn; constructor; congruence. Qed.
Lemma ceq_spec a b : Bool.reflect (a = b) (ceq a b).
Proof. destruct a as [a|a], b as [b|b]; cbn; [destruct (heq_spec a b)|..|destruct (Nat.eqb_spec a b)]; constructor; congruence. Qed.
Lemma okind_beq_eq a b : okind_beq a b = true <-> a = b.
Proof. destruct a as [a|], b as [b|]; cbn; try (split; [discriminate|discriminate]); [|split; reflexivity]. destruct (kind_beq_spec a b); split; congruence. Qed.

Fixpoint seg (m : mem) (c : cell) (l : list nat) : Prop :=
  match l with [] => ptr m c = 0 | x :: r => ptr m c = x /\ x <> 0 /\ prv m x = Some c /\ seg m (Next x) r end.
Definition endc (c : cell) (l : list nat) : cell := match l with [] => c | _ => Next (List.last l 0) end.

Record inv (B : nat) (m : mem) (q : head -> list nat) (E : list nat) : Prop := mkI {
  i_seg : forall h, hlive m h = true -> seg m (First h) (q h);
  i_last : forall h, hlive m h = true -> tql m h = Some (endc (First h) (q h)) \/ (q h = [] /\ h = (0, KAddr));
  i_kind : forall h x, hlive m h = true -> In x (q h) -> knd m x = Some (snd h);
  i_one : forall h g x, hlive m h = true -> hlive m g = true -> In x (q h) -> In x (q g) -> h = g;
  i_nodup : forall h, hlive m h = true -> NoDup (q h);
  i_len : forall h, hlive m h = true -> length (q h) < B;
  i_exc : forall x, In x E -> knd m x <> None /\ forall h, hlive m h = true -> ~ In x (q h);
  i_own : forall x k, knd m x = Some k -> In x E \/ exists o, hlive m (o, k) = true /\ In x (q (o, k));
  i_zero : knd m 0 = None }.

Definition upd (q : head -> list nat) (h : head) (l : list nat) : head -> list nat := fun g => if heq h g then l else q g.
Lemma upd_eq q h l : upd q h l h = l.
Proof. unfold upd. destruct (heq_spec h h); congruence. Qed.
Lemma upd_ne q h l g : h <> g -> upd q h l g = q g.
Proof. unfold upd. destruct (heq_spec h g); congruence. Qed.

Lemma alive_iff m x : knd m 0 = None -> alive m x = true <-> exists k, knd m x = Some k.
Proof.
  intros Z. unfold alive. destruct (Nat.eqb_spec x 0) as [->|N]; cbn [negb andb]; [rewrite Z; split; [discriminate|intros (k & K); discriminate K]|].
  destruct (knd m x) as [k|]; split; try discriminate; eauto. intros (k & K). discriminate K.
Qed.
Lemma hlive_knd m m' h : knd m' = knd m -> hlive m' h = hlive m h.
Proof. intros E. unfold hlive. rewrite E. reflexivity. Qed.
Lemma alive_knd m m' x : knd m' = knd m -> alive m' x = alive m x.
Proof. intros E. unfold alive. rewrite E. reflexivity. Qed.

(** ** stores *)
Definition same (m m' : mem) : Prop := knd m' = knd m.
Lemma set_ok c v m : clive m c = true -> exists m', set c v m = OK m' /\ knd m' = knd m /\ (forall d, ptr m' d = if ceq c d then v else ptr m d) /\ tql m' = tql m /\ prv m' = prv m.
Proof. intros L. unfold set. rewrite L. eexists. split; [reflexivity|]. cbn. auto. Qed.
Lemma set_last_ok h c m : hlive m h = true -> exists m', set_last h c m = OK m' /\ knd m' = knd m /\ ptr m' = ptr m /\ (forall g, tql m' g = if heq h g then c else tql m g) /\ prv m' = prv m.
Proof. intros L. unfold set_last. rewrite L. eexists. split; [reflexivity|]. cbn. auto. Qed.
Lemma set_prev_ok x c m : alive m x = true -> exists m', set_prev x c m = OK m' /\ knd m' = knd m /\ ptr m' = ptr m /\ tql m' = tql m /\ (forall y, prv m' y = if x =? y then c else prv m y).
Proof. intros L. unfold set_prev. rewrite L. eexists. split; [reflexivity|]. cbn. auto. Qed.

(** a list is not affected by stores elsewhere *)
Lemma seg_frame m m' : forall l c, (forall x, In x l -> ptr m' (Next x) = ptr m (Next x) /\ prv m' x = prv m x) -> ptr m' c = ptr m c -> seg m c l -> seg m' c l.
Proof.
  induction l as [|x r IH]; intros c F P S; cbn [seg] in *; [congruence|]. destruct S as (A & N & PR & S). destruct (F x (or_introl eq_refl)) as (FX & FP).
  split; [congruence|]. split; [exact N|]. split; [congruence|]. apply IH; auto. intros y Y. apply F. right. exact Y.
Qed.
Lemma seg_nz m l c x : seg m c l -> In x l -> x <> 0.
Proof. revert c. induction l as [|y r IH]; intros c G I; [destruct I|]. cbn [seg] in G. destruct G as (_ & N & _ & G). destruct I as [<-|I]; [exact N|]. eapply IH; eauto. Qed.

(** ** TAILQ_FOREACH *)
Lemma walk_ok m : knd m 0 = None -> forall l c f, seg m c l -> (forall x, In x l -> exists k, knd m x = Some k) -> length l < f -> walk f (ptr m c) m = OK l.
Proof.
  intros Z. induction l as [|x r IH]; intros c f S A L; (destruct f as [|f]; [cbn in L; lia|]); cbn [seg walk] in *.
  - rewrite S. reflexivity.
  - destruct S as (-> & N & _ & S). apply Nat.eqb_neq in N. rewrite N. unfold get. cbn [clive].
    assert (AL : alive m x = true) by (apply alive_iff; [exact Z|apply A; left; reflexivity]). rewrite AL. cbn [bind].
    rewrite (IH (Next x) f S); [reflexivity| |cbn in L; lia]. intros y Y. apply A. right. exact Y.
Qed.
Lemma foreach_ok B m q E h f : inv B m q E -> hlive m h = true -> length (q h) < f -> TAILQ_FOREACH f h m = OK (q h).
Proof.
  intros I H L. unfold TAILQ_FOREACH, get. cbn [clive]. rewrite H. cbn [bind]. apply walk_ok; [exact (i_zero _ _ _ _ I)|exact (i_seg _ _ _ _ I h H)| |exact L].
  intros x X. exists (snd h). exact (i_kind _ _ _ _ I h x H X).
Qed.

(** ** TAILQ_REMOVE of the first object *)
Lemma remove_ok B m q E h x r : inv B m q E -> hlive m h = true -> q h = x :: r ->
  exists m', TAILQ_REMOVE h x m = OK m' /\ knd m' = knd m /\ inv B m' (upd q h r) (x :: E) /\ ptr m (Next x) = hd 0 r.
Proof.
  intros I H Q. pose proof (i_seg _ _ _ _ I h H) as S. rewrite Q in S. cbn [seg] in S. destruct S as (PF & NX & PX & S).
  pose proof (i_zero _ _ _ _ I) as Z.
  assert (AX : alive m x = true). { apply alive_iff; [exact Z|]. exists (snd h). apply (i_kind _ _ _ _ I h x H). rewrite Q. left. reflexivity. }
  assert (ND := i_nodup _ _ _ _ I h H). rewrite Q in ND. inversion ND as [|a b NI ND2]; subst a b.
  unfold TAILQ_REMOVE, get, get_prev. cbn [clive]. rewrite AX. cbn [bind]. rewrite PX.
  assert (PN : ptr m (Next x) = hd 0 r) by (destruct r; cbn [seg hd] in *; [exact S|tauto]).
  set (n := ptr m (Next x)) in *.
  assert (M1 : exists m1, (if n =? 0 then set_last h (Some (First h)) m else set_prev n (Some (First h)) m) = OK m1 /\ knd m1 = knd m /\ ptr m1 = ptr m /\
    (forall g, tql m1 g = if (n =? 0) && heq h g then Some (First h) else tql m g) /\ (forall y, prv m1 y = if negb (n =? 0) && (n =? y) then Some (First h) else prv m y)).
  { destruct (Nat.eqb_spec n 0) as [E0|E0]; cbn [negb andb].
    - destruct (set_last_ok h (Some (First h)) m H) as (m1 & A & B1 & C & D & F). exists m1. repeat split; auto. intros y. rewrite F. reflexivity.
    - destruct r as [|y r]; cbn [hd] in PN; [congruence|]. destruct (set_prev_ok n (Some (First h)) m) as (m1 & A & B1 & C & D & F).
      { apply alive_iff; [exact Z|]. exists (snd h). apply (i_kind _ _ _ _ I h n H). rewrite Q, PN. right. left. reflexivity. }
      exists m1. repeat split; auto. intros g. rewrite D. reflexivity. }
  destruct M1 as (m1 & -> & K1 & P1 & T1 & R1). cbn [bind set_at].
  destruct (set_ok (First h) n m1) as (m2 & -> & K2 & P2 & T2 & R2); [cbn [clive]; rewrite (hlive_knd m m1 h K1); exact H|].
  exists m2. assert (K : knd m2 = knd m) by congruence. split; [reflexivity|]. split; [exact K|]. split; [|exact PN].
  assert (HL : forall g, hlive m2 g = hlive m g) by (intros g; apply hlive_knd; exact K).
  assert (OTH : forall g y, hlive m g = true -> g <> h -> In y (q g) -> ~ In y (q h)) by (intros g y G NG Y Y'; apply NG; eapply (i_one _ _ _ _ I); eauto).
  assert (SUB : forall g y, In y (upd q h r g) -> In y (q g)) by (intros g y; unfold upd; destruct (heq_spec h g) as [<-|]; [rewrite Q; intros; right; assumption|auto]).
  constructor.
  - intros g G. rewrite HL in G. unfold upd. destruct (heq_spec h g) as [<-|N].
    + destruct r as [|y r].
      * cbn [seg]. rewrite P2. destruct (ceq_spec (First h) (First h)); [exact PN|congruence].
      * cbn [hd] in PN. cbn [seg] in S |- *. destruct S as (_ & NY & PY & S). rewrite P2. destruct (ceq_spec (First h) (First h)) as [_|]; [|congruence]. split; [exact PN|]. split; [exact NY|]. split.
        -- rewrite R2, R1. rewrite PN. apply Nat.eqb_neq in NY. rewrite NY, Nat.eqb_refl. reflexivity.
        -- revert S. apply seg_frame.
           ++ intros z IZ. rewrite P2, P1. split; [reflexivity|]. rewrite R2, R1. destruct (Nat.eqb_spec n z) as [<-|]; [|rewrite andb_false_r; reflexivity]. exfalso.
              inversion ND2 as [|a b NI2 _]. subst a b. apply NI2. rewrite <- PN. exact IZ.
           ++ rewrite P2, P1. reflexivity.
    + pose proof (i_seg _ _ _ _ I g G) as SG. revert SG. apply seg_frame.
      * intros z IZ. rewrite P2, P1. split; [reflexivity|]. rewrite R2, R1. destruct (Nat.eqb_spec n z) as [<-|]; [|rewrite andb_false_r; reflexivity].
        destruct (Nat.eqb_spec n 0) as [E0|E0]; [reflexivity|]. exfalso. apply (OTH g n G); [congruence|exact IZ|]. rewrite Q. right. rewrite PN. destruct r; [cbn in PN; congruence|left; reflexivity].
      * rewrite P2, P1. destruct (ceq_spec (First h) (First g)); [congruence|reflexivity].
  - intros g G. rewrite HL in G. rewrite T2, T1. unfold upd. destruct (heq_spec h g) as [<-|N].
    + left. destruct r as [|y r]; cbn [hd endc] in *.
      * rewrite PN. reflexivity.
      * assert (n =? 0 = false) as ->. { apply Nat.eqb_neq. rewrite PN. cbn [seg] in S. tauto. }
        cbn [andb]. destruct (i_last _ _ _ _ I h H) as [L|(L & _)]; [|congruence]. rewrite L, Q. cbn [endc List.last]. reflexivity.
    + rewrite andb_false_r. apply (i_last _ _ _ _ I g G).
  - intros g y G Y. rewrite HL in G. rewrite K. apply (i_kind _ _ _ _ I g y G), SUB, Y.
  - intros g g' y G G' Y Y'. rewrite HL in G, G'. eapply (i_one _ _ _ _ I g g' y); auto.
  - intros g G. rewrite HL in G. unfold upd. destruct (heq_spec h g); [exact ND2|exact (i_nodup _ _ _ _ I g G)].
  - intros g G. rewrite HL in G. unfold upd. destruct (heq_spec h g); [|exact (i_len _ _ _ _ I g G)]. pose proof (i_len _ _ _ _ I h H) as L. rewrite Q in L. cbn in L. lia.
  - intros y [<-|Y].
    + rewrite K. split; [rewrite (i_kind _ _ _ _ I h x H); [discriminate|rewrite Q; left; reflexivity]|]. intros g G Y. rewrite HL in G. unfold upd in Y. destruct (heq_spec h g) as [<-|N]; [contradiction|].
      apply (OTH g x G); [congruence|exact Y|rewrite Q; left; reflexivity].
    + rewrite K. destruct (i_exc _ _ _ _ I y Y) as (A & C). split; [exact A|]. intros g G J. rewrite HL in G. exact (C g G (SUB g y J)).
  - intros y k KY. rewrite K in KY. destruct (i_own _ _ _ _ I y k KY) as [J|(o & G & J)]; [left; right; exact J|]. unfold upd.
    destruct (heq_spec h (o, k)) as [EQ|N].
    + rewrite EQ in Q. rewrite Q in J. destruct J as [J|J]; [left; left; congruence|]. right. exists o. rewrite HL. split; [exact G|]. destruct (heq_spec h (o, k)); [exact J|congruence].
    + right. exists o. rewrite HL. split; [exact G|]. destruct (heq_spec h (o, k)); [congruence|exact J].
  - rewrite K. exact Z.
Qed.

(** ** free(3) *)
Lemma free_ok B m q E x : inv B m q (x :: E) -> ~ In x E -> (forall k, hlive m (x, k) = true -> q (x, k) = []) ->
  exists m', free x m = OK m' /\ (forall y, knd m' y = if x =? y then None else knd m y) /\ inv B m' q E.
Proof.
  intros I NE EM. destruct (i_exc _ _ _ _ I x (or_introl eq_refl)) as (AX & NX). pose proof (i_zero _ _ _ _ I) as Z.
  unfold free. assert (alive m x = true) as ->. { apply alive_iff; [exact Z|]. destruct (knd m x) as [k|]; [eauto|congruence]. }
  eexists. split; [reflexivity|]. split; [reflexivity|]. set (m' := mkM _ _ _ _).
  assert (KN : forall y, knd m' y = if x =? y then None else knd m y) by reflexivity.
  assert (HL : forall g, hlive m' g = true -> hlive m g = true /\ (owner (snd g) <> None -> fst g <> x)).
  { intros [o k]. unfold hlive. cbn [fst snd]. destruct (owner k) as [w|]; [|intros H; split; [exact H|congruence]]. rewrite KN. destruct (Nat.eqb_spec x o) as [<-|N].
    - rewrite andb_false_r. discriminate.
    - intros H. split; [exact H|congruence]. }
  constructor.
  - intros g G. apply HL in G. pose proof (i_seg _ _ _ _ I g (proj1 G)) as SG. revert SG. apply seg_frame; auto.
  - intros g G. apply HL in G. apply (i_last _ _ _ _ I g (proj1 G)).
  - intros g y G Y. apply HL in G. rewrite KN. destruct (Nat.eqb_spec x y) as [<-|N]; [exfalso; eapply NX; [exact (proj1 G)|exact Y]|]. exact (i_kind _ _ _ _ I g y (proj1 G) Y).
  - intros g g' y G G'. apply HL in G. apply HL in G'. exact (i_one _ _ _ _ I g g' y (proj1 G) (proj1 G')).
  - intros g G. apply HL in G. exact (i_nodup _ _ _ _ I g (proj1 G)).
  - intros g G. apply HL in G. exact (i_len _ _ _ _ I g (proj1 G)).
  - intros y Y. destruct (i_exc _ _ _ _ I y (or_intror Y)) as (A & C). split; [rewrite KN; destruct (Nat.eqb_spec x y) as [<-|]; [contradiction|exact A]|]. intros g G. apply HL in G. apply C, G.
  - intros y k KY. rewrite KN in KY. destruct (Nat.eqb_spec x y) as [<-|N]; [discriminate|]. destruct (i_own _ _ _ _ I y k KY) as [[J|J]|(o & G & J)]; [congruence|left; exact J|].
    right. exists o. split; [|exact J]. destruct (Nat.eq_dec o x) as [->|NO]; [rewrite (EM k G) in J; destruct J|].
    revert G. unfold hlive. cbn [fst snd]. destruct (owner k) as [w|]; [|auto]. rewrite KN. destruct (Nat.eqb_spec x o); [congruence|auto].
  - rewrite KN. destruct (x =? 0); [reflexivity|exact Z].
Qed.

(** ** only the lists of the heads that exist matter *)
Lemma inv_ext B B' m q q' E : inv B m q E -> B <= B' -> (forall g, hlive m g = true -> q' g = q g) -> inv B' m q' E.
Proof.
  intros I LB X. constructor.
  - intros g G. rewrite (X g G). exact (i_seg _ _ _ _ I g G).
  - intros g G. rewrite (X g G). exact (i_last _ _ _ _ I g G).
  - intros g y G. rewrite (X g G). exact (i_kind _ _ _ _ I g y G).
  - intros g g' y G G'. rewrite (X g G), (X g' G'). exact (i_one _ _ _ _ I g g' y G G').
  - intros g G. rewrite (X g G). exact (i_nodup _ _ _ _ I g G).
  - intros g G. rewrite (X g G). pose proof (i_len _ _ _ _ I g G). lia.
  - intros y Y. destruct (i_exc _ _ _ _ I y Y) as (A & C). split; [exact A|]. intros g G. rewrite (X g G). exact (C g G).
  - intros y k K. destruct (i_own _ _ _ _ I y k K) as [J|(o & G & J)]; [left; exact J|]. right. exists o. rewrite (X _ G). auto.
  - exact (i_zero _ _ _ _ I).
Qed.

Lemma hlive_iff m o k : hlive m (o, k) = true <-> match owner k with None => o = 0 | Some w => o <> 0 /\ knd m o = Some w end.
Proof.
  unfold hlive. cbn [fst snd]. destruct (owner k) as [w|].
  - rewrite andb_true_iff, negb_true_iff, Nat.eqb_neq, okind_beq_eq. reflexivity.
  - apply Nat.eqb_eq.
Qed.

(** ** TAILQ_INSERT_HEAD *)
Lemma insert_head_ok B m q E h x : inv B m q (x :: E) -> ~ In x E -> hlive m h = true -> knd m x = Some (snd h) ->
  exists m', TAILQ_INSERT_HEAD h x m = OK m' /\ knd m' = knd m /\ inv (S B) m' (upd q h (x :: q h)) E.
Proof.
  intros I NE H KX. pose proof (i_zero _ _ _ _ I) as Z. destruct (i_exc _ _ _ _ I x (or_introl eq_refl)) as (_ & NX).
  pose proof (i_seg _ _ _ _ I h H) as G0.
  assert (NZ : x <> 0) by (intros ->; congruence).
  assert (AX : alive m x = true) by (apply alive_iff; eauto).
  unfold TAILQ_INSERT_HEAD, get. cbn [clive]. rewrite H. cbn [bind]. set (f := ptr m (First h)) in *.
  assert (PF : f = hd 0 (q h)) by (destruct (q h); cbn [seg hd] in *; tauto).
  destruct (set_ok (Next x) f m AX) as (m1 & -> & K1 & P1 & T1 & R1). cbn [bind].
  assert (M2 : exists m2, (if f =? 0 then set_last h (Some (Next x)) m1 else set_prev f (Some (Next x)) m1) = OK m2 /\ knd m2 = knd m /\ ptr m2 = ptr m1 /\
    (forall g, tql m2 g = if (f =? 0) && heq h g then Some (Next x) else tql m g) /\ (forall y, prv m2 y = if negb (f =? 0) && (f =? y) then Some (Next x) else prv m y)).
  { destruct (Nat.eqb_spec f 0) as [E0|E0]; cbn [negb andb].
    - destruct (set_last_ok h (Some (Next x)) m1) as (m2 & A & B1 & C & D & F); [rewrite (hlive_knd m m1 h K1); exact H|]. exists m2. rewrite A. split; [reflexivity|]. split; [congruence|]. split; [exact C|].
      split; [intros g; rewrite D, T1; reflexivity|]. intros y. rewrite F, R1. reflexivity.
    - destruct (set_prev_ok f (Some (Next x)) m1) as (m2 & A & B1 & C & D & F).
      { rewrite (alive_knd m m1 f K1). apply alive_iff; [exact Z|]. exists (snd h). apply (i_kind _ _ _ _ I h f H). rewrite PF in *. destruct (q h); cbn [hd] in *; [congruence|left; reflexivity]. }
      exists m2. rewrite A. split; [reflexivity|]. split; [congruence|]. split; [exact C|]. split; [intros g; rewrite D, T1; reflexivity|]. intros y. rewrite F, R1. reflexivity. }
  destruct M2 as (m2 & -> & K2 & P2 & T2 & R2). cbn [bind].
  destruct (set_ok (First h) x m2) as (m3 & -> & K3 & P3 & T3 & R3); [cbn [clive]; rewrite (hlive_knd m m2 h K2); exact H|]. cbn [bind].
  destruct (set_prev_ok x (Some (First h)) m3) as (m4 & -> & K4 & P4 & T4 & R4); [rewrite (alive_knd m m3 x); [exact AX|congruence]|].
  assert (K : knd m4 = knd m) by congruence. exists m4. split; [reflexivity|]. split; [exact K|].
  assert (HL : forall g, hlive m4 g = hlive m g) by (intros g; apply hlive_knd; exact K).
  assert (PN : forall y, y <> x -> ptr m4 (Next y) = ptr m (Next y)).
  { intros y N. rewrite P4, P3, P2, P1. cbn [ceq]. destruct (Nat.eqb_spec x y); [congruence|reflexivity]. }
  assert (PFST : forall g, ptr m4 (First g) = if heq h g then x else ptr m (First g)).
  { intros g. rewrite P4, P3, P2, P1. cbn [ceq]. reflexivity. }
  assert (PX : ptr m4 (Next x) = f). { rewrite P4, P3, P2, P1. cbn [ceq]. rewrite Nat.eqb_refl. reflexivity. }
  assert (RX : prv m4 x = Some (First h)) by (rewrite R4, Nat.eqb_refl; reflexivity).
  assert (RN : forall y, y <> x -> f <> y -> prv m4 y = prv m y).
  { intros y N N2. rewrite R4, R3, R2. destruct (Nat.eqb_spec x y); [congruence|]. destruct (Nat.eqb_spec f y); [congruence|]. rewrite andb_false_r. reflexivity. }
  assert (TH : forall g, tql m4 g = if (f =? 0) && heq h g then Some (Next x) else tql m g) by (intros g; rewrite T4, T3, T2; reflexivity).
  assert (FH : f <> 0 -> In f (q h)) by (intros N; rewrite PF in *; destruct (q h); cbn [hd] in *; [congruence|left; reflexivity]).
  assert (INU : forall g y, In y (upd q h (x :: q h) g) -> In y (q g) \/ (g = h /\ y = x)).
  { intros g y. unfold upd. destruct (heq_spec h g) as [<-|N]; [|auto]. intros [<-|J]; auto. }
  constructor.
  - intros g G. rewrite HL in G. unfold upd. destruct (heq_spec h g) as [<-|N].
    + cbn [seg]. rewrite PFST. destruct (heq_spec h h) as [_|]; [|congruence]. split; [reflexivity|]. split; [exact NZ|]. split; [exact RX|].
      pose proof (i_nodup _ _ _ _ I h H) as ND. pose proof (NX h H) as NXH. destruct (q h) as [|y r] eqn:Q; cbn [seg hd] in *; [congruence|].
      destruct G0 as (_ & NY & PY & G0). split; [congruence|]. split; [exact NY|]. split.
      * rewrite R4, R3, R2. destruct (Nat.eqb_spec x y) as [->|]; [exfalso; apply NXH; left; reflexivity|]. rewrite PF, Nat.eqb_refl. apply Nat.eqb_neq in NY. rewrite NY. reflexivity.
      * inversion ND as [|a b NI ND2]. subst a b. revert G0. apply seg_frame.
        -- intros z IZ. assert (z <> x) by (intros ->; apply NXH; right; exact IZ). split; [apply PN; assumption|apply RN; [assumption|]]. rewrite PF. intros <-. contradiction.
        -- apply PN. intros ->. apply NXH. left. reflexivity.
    + pose proof (i_seg _ _ _ _ I g G) as SG. revert SG. apply seg_frame.
      * intros z IZ. assert (z <> x) by (intros ->; exact (NX g G IZ)). split; [apply PN; assumption|apply RN; [assumption|]]. intros <-. apply N. apply (i_one _ _ _ _ I h g f H G); [|exact IZ].
        apply FH. exact (seg_nz _ _ _ _ (i_seg _ _ _ _ I g G) IZ).
      * rewrite PFST. destruct (heq_spec h g); [congruence|reflexivity].
  - intros g G. rewrite HL in G. rewrite TH. unfold upd. destruct (heq_spec h g) as [<-|N]; [|rewrite andb_false_r; apply (i_last _ _ _ _ I g G)]. left.
    destruct (q h) as [|y r] eqn:Q; cbn [seg hd endc] in *.
    + rewrite PF. reflexivity.
    + assert (f =? 0 = false) as -> by (apply Nat.eqb_neq; rewrite PF; tauto). cbn [andb]. destruct (i_last _ _ _ _ I h H) as [L|(L & _)]; [|congruence]. rewrite L, Q. cbn [endc List.last]. reflexivity.
  - intros g y G Y. rewrite HL in G. rewrite K. destruct (INU g y Y) as [J|(-> & ->)]; [exact (i_kind _ _ _ _ I g y G J)|exact KX].
  - intros g g' y G G' Y Y'. rewrite HL in G, G'. destruct (INU g y Y) as [J|(-> & ->)].
    + destruct (INU g' y Y') as [J'|(-> & ->)]; [exact (i_one _ _ _ _ I g g' y G G' J J')|exfalso; exact (NX g G J)].
    + destruct (INU g' x Y') as [J'|(-> & _)]; [exfalso; exact (NX g' G' J')|reflexivity].
  - intros g G. rewrite HL in G. unfold upd. destruct (heq_spec h g); [constructor; [exact (NX h H)|exact (i_nodup _ _ _ _ I h H)]|exact (i_nodup _ _ _ _ I g G)].
  - intros g G. rewrite HL in G. unfold upd. destruct (heq_spec h g); [pose proof (i_len _ _ _ _ I h H); cbn; lia|pose proof (i_len _ _ _ _ I g G); lia].
  - intros y Y. rewrite K. destruct (i_exc _ _ _ _ I y (or_intror Y)) as (A & C). split; [exact A|]. intros g G J. rewrite HL in G. destruct (INU g y J) as [J'|(_ & ->)]; [exact (C g G J')|contradiction].
  - intros y k KY. rewrite K in KY. destruct (i_own _ _ _ _ I y k KY) as [[<-|J]|(o & G & J)]; [|left; exact J|].
    + right. exists (fst h). rewrite KX in KY. assert (EH : (fst h, k) = h) by (destruct h; cbn in *; congruence). rewrite EH, HL. split; [exact H|]. rewrite upd_eq. left. reflexivity.
    + right. exists o. rewrite HL. split; [exact G|]. unfold upd. destruct (heq_spec h (o, k)) as [EQ|]; [right; rewrite EQ; exact J|exact J].
  - rewrite K. exact Z.
Qed.

(** ** TAILQ_INSERT_TAIL *)
Lemma endc_cons c y r : endc c (y :: r) = endc (Next y) r.
Proof. destruct r as [|z r]; cbn [endc List.last]; reflexivity. Qed.
Lemma endc_in y r : exists z, endc (Next y) r = Next z /\ In z (y :: r).
Proof.
  revert y. induction r as [|z r IH]; intros y.
  - exists y. split; [reflexivity|left; reflexivity].
  - rewrite endc_cons. destruct (IH z) as (w & A & C). exists w. split; [exact A|right; exact C].
Qed.
Lemma seg_snoc m m' x : x <> 0 -> forall l c, seg m c l -> NoDup l -> ~ In x l -> (forall y, c = Next y -> ~ In y l) ->
  ptr m' (endc c l) = x -> ptr m' (Next x) = 0 -> prv m' x = Some (endc c l) ->
  (forall d, d <> endc c l -> d <> Next x -> (d = c \/ exists y, d = Next y /\ In y l) -> ptr m' d = ptr m d) -> (forall y, In y l -> prv m' y = prv m y) -> c <> Next x ->
  seg m' c (l ++ [x]).
Proof.
  intros NX. induction l as [|y r IH]; intros c G ND NI NC PE PX PR FR FP CX.
  - cbn [app seg endc] in *. auto.
  - cbn [app seg] in *. destruct G as (PC & NY & PY & G). rewrite endc_cons in *. inversion ND as [|a b NI2 ND2]. subst a b.
    destruct (endc_in y r) as (w & EW & IW).
    split; [rewrite FR; [exact PC| |exact CX|left; reflexivity]; rewrite EW; intros ->; exact (NC w eq_refl IW)|]. split; [exact NY|]. split; [rewrite FP; [exact PY|left; reflexivity]|].
    apply IH; auto.
    + intros J. apply NI. right. exact J.
    + intros z Z. injection Z as ->. exact NI2.
    + intros d D1 D2 [->|(z & -> & IZ)]; apply FR; auto; right; [exists y; split; [reflexivity|left; reflexivity]|exists z; split; [reflexivity|right; exact IZ]].
    + intros z IZ. apply FP. right. exact IZ.
    + intros Z. injection Z as ->. apply NI. left. reflexivity.
Qed.

Lemma insert_tail_ok B m q E h x : inv B m q (x :: E) -> ~ In x E -> hlive m h = true -> knd m x = Some (snd h) -> h <> (0, KAddr) ->
  exists m', TAILQ_INSERT_TAIL h x m = OK m' /\ knd m' = knd m /\ inv (S B) m' (upd q h (q h ++ [x])) E.
Proof.
  intros I NE H KX NA. pose proof (i_zero _ _ _ _ I) as Z. destruct (i_exc _ _ _ _ I x (or_introl eq_refl)) as (_ & NX).
  pose proof (i_seg _ _ _ _ I h H) as G0.
  assert (NZ : x <> 0) by (intros ->; congruence).
  assert (AX : alive m x = true) by (apply alive_iff; eauto).
  assert (TL : tql m h = Some (endc (First h) (q h))) by (destruct (i_last _ _ _ _ I h H) as [L|(_ & L)]; [exact L|congruence]).
  set (e := endc (First h) (q h)) in *.
  assert (EE : e = First h \/ exists w, e = Next w /\ In w (q h)).
  { unfold e. destruct (q h) as [|y r]; [left; reflexivity|]. rewrite endc_cons. right. apply endc_in. }
  assert (EL : clive m e = true).
  { destruct EE as [->|(w & -> & IW)]; [exact H|]. cbn [clive]. apply alive_iff; [exact Z|]. exists (snd h). exact (i_kind _ _ _ _ I h w H IW). }
  assert (EX : e <> Next x). { destruct EE as [->|(w & -> & IW)]; [congruence|]. intros W. injection W as ->. exact (NX h H IW). }
  unfold TAILQ_INSERT_TAIL. destruct (set_ok (Next x) 0 m AX) as (m1 & -> & K1 & P1 & T1 & R1). cbn [bind].
  unfold get_last. rewrite (hlive_knd m m1 h K1), H. cbn [bind]. rewrite T1, TL.
  destruct (set_prev_ok x (Some e) m1) as (m2 & -> & K2 & P2 & T2 & R2); [rewrite (alive_knd m m1 x K1); exact AX|]. cbn [bind set_at].
  destruct (set_ok e x m2) as (m3 & -> & K3 & P3 & T3 & R3); [destruct e; cbn [clive] in *; [rewrite (hlive_knd m m2); [exact EL|congruence]|rewrite (alive_knd m m2); [exact EL|congruence]]|]. cbn [bind].
  destruct (set_last_ok h (Some (Next x)) m3) as (m4 & -> & K4 & P4 & T4 & R4); [rewrite (hlive_knd m m3); [exact H|congruence]|].
  assert (K : knd m4 = knd m) by congruence. exists m4. split; [reflexivity|]. split; [exact K|].
  assert (HL : forall g, hlive m4 g = hlive m g) by (intros g; apply hlive_knd; exact K).
  assert (PE : ptr m4 e = x) by (rewrite P4, P3; destruct (ceq_spec e e); congruence).
  assert (PX : ptr m4 (Next x) = 0). { rewrite P4, P3. destruct (ceq_spec e (Next x)); [congruence|]. rewrite P2, P1. destruct (ceq_spec (Next x) (Next x)); congruence. }
  assert (PO : forall d, d <> e -> d <> Next x -> ptr m4 d = ptr m d).
  { intros d D1 D2. rewrite P4, P3. destruct (ceq_spec e d); [congruence|]. rewrite P2, P1. destruct (ceq_spec (Next x) d); congruence. }
  assert (RX : prv m4 x = Some e) by (rewrite R4, R3, R2, Nat.eqb_refl; reflexivity).
  assert (RN : forall y, y <> x -> prv m4 y = prv m y) by (intros y N; rewrite R4, R3, R2, R1; destruct (Nat.eqb_spec x y); [congruence|reflexivity]).
  assert (TH : forall g, tql m4 g = if heq h g then Some (Next x) else tql m g) by (intros g; rewrite T4, T3, T2, T1; reflexivity).
  assert (INU : forall g y, In y (upd q h (q h ++ [x]) g) -> In y (q g) \/ (g = h /\ y = x)).
  { intros g y. unfold upd. destruct (heq_spec h g) as [<-|N]; [|auto]. intros J. apply in_app_or in J. destruct J as [J|[<-|[]]]; auto. }
  constructor.
  - intros g G. rewrite HL in G. unfold upd. destruct (heq_spec h g) as [<-|N].
    + apply (seg_snoc m m4 x NZ); auto.
      * exact (i_nodup _ _ _ _ I h H).
      * intros y Y. discriminate Y.
      * intros y Y. apply RN. intros ->. exact (NX h H Y).
      * discriminate.
    + pose proof (i_seg _ _ _ _ I g G) as SG. revert SG. apply seg_frame.
      * intros z IZ. assert (z <> x) by (intros ->; exact (NX g G IZ)). split; [|apply RN; assumption]. apply PO; [|congruence]. intros W.
        destruct EE as [EE|(w & EE & IW)]; [congruence|]. apply N. apply (i_one _ _ _ _ I h g w H G IW). congruence.
      * apply PO; [|congruence]. destruct EE as [->|(w & -> & IW)]; congruence.
  - intros g G. rewrite HL in G. rewrite TH. unfold upd. destruct (heq_spec h g) as [<-|N]; [|apply (i_last _ _ _ _ I g G)]. left.
    f_equal. destruct (q h) as [|y r]; cbn [app endc]; [reflexivity|]. rewrite (app_comm_cons r [x] y), last_last. reflexivity.
  - intros g y G Y. rewrite HL in G. rewrite K. destruct (INU g y Y) as [J|(-> & ->)]; [exact (i_kind _ _ _ _ I g y G J)|exact KX].
  - intros g g' y G G' Y Y'. rewrite HL in G, G'. destruct (INU g y Y) as [J|(-> & ->)].
    + destruct (INU g' y Y') as [J'|(-> & ->)]; [exact (i_one _ _ _ _ I g g' y G G' J J')|exfalso; exact (NX g G J)].
    + destruct (INU g' x Y') as [J'|(-> & _)]; [exfalso; exact (NX g' G' J')|reflexivity].
  - intros g G. rewrite HL in G. unfold upd. destruct (heq_spec h g); [|exact (i_nodup _ _ _ _ I g G)].
    rewrite <- (rev_involutive (q h ++ [x])). apply NoDup_rev. rewrite rev_app_distr. cbn [rev app]. constructor; [rewrite <- in_rev; exact (NX h H)|apply NoDup_rev; exact (i_nodup _ _ _ _ I h H)].
  - intros g G. rewrite HL in G. unfold upd. destruct (heq_spec h g); [pose proof (i_len _ _ _ _ I h H); rewrite app_length; cbn; lia|pose proof (i_len _ _ _ _ I g G); lia].
  - intros y Y. rewrite K. destruct (i_exc _ _ _ _ I y (or_intror Y)) as (A & C). split; [exact A|]. intros g G J. rewrite HL in G. destruct (INU g y J) as [J'|(_ & ->)]; [exact (C g G J')|contradiction].
  - intros y k KY. rewrite K in KY. destruct (i_own _ _ _ _ I y k KY) as [[<-|J]|(o & G & J)]; [|left; exact J|].
    + right. exists (fst h). rewrite KX in KY. assert (EH : (fst h, k) = h) by (destruct h; cbn in *; congruence). rewrite EH, HL. split; [exact H|]. rewrite upd_eq. apply in_or_app. right. left. reflexivity.
    + right. exists o. rewrite HL. split; [exact G|]. unfold upd. destruct (heq_spec h (o, k)) as [EQ|]; [apply in_or_app; left; rewrite EQ; exact J|exact J].
  - rewrite K. exact Z.
Qed.

(** ** allocation *)
Lemma inits_ok : forall hs m, (forall h, In h hs -> hlive m h = true) -> exists m', inits hs m = OK m' /\ knd m' = knd m /\ prv m' = prv m /\
  (forall x, ptr m' (Next x) = ptr m (Next x)) /\ (forall h, ptr m' (First h) = if existsb (heq h) hs then 0 else ptr m (First h)) /\
  (forall h, tql m' h = if existsb (heq h) hs then Some (First h) else tql m h).
Proof.
  induction hs as [|g r IH]; intros m A; cbn [inits existsb].
  - exists m. repeat split; reflexivity.
  - unfold TAILQ_INIT. assert (G := A g (or_introl eq_refl)). destruct (set_ok (First g) 0 m G) as (m1 & -> & K1 & P1 & T1 & R1). cbn [bind].
    destruct (set_last_ok g (Some (First g)) m1) as (m2 & -> & K2 & P2 & T2 & R2); [rewrite (hlive_knd m m1 g K1); exact G|]. cbn [bind].
    destruct (IH m2) as (m3 & -> & K3 & R3 & P3 & F3 & T3). { intros h H. rewrite (hlive_knd m m2); [apply A; right; exact H|congruence]. }
    exists m3. split; [reflexivity|]. split; [congruence|]. split; [congruence|]. split; [intros x; rewrite P3, P2, P1; reflexivity|]. split.
    + intros h. rewrite F3, P2, P1. cbn [ceq]. destruct (heq_spec g h) as [<-|N]; [destruct (heq_spec g g); [|congruence]; cbn [orb]; destruct (existsb (heq g) r); reflexivity|]. destruct (heq_spec h g); [congruence|reflexivity].
    + intros h. rewrite T3, T2, T1. destruct (heq_spec g h) as [<-|N]; [destruct (heq_spec g g); [|congruence]; cbn [orb]; destruct (existsb (heq g) r); reflexivity|]. destruct (heq_spec h g); [congruence|reflexivity].
Qed.
Lemma inner_owner k j : In j (inner k) <-> owner j = Some k.
Proof. destruct k, j; cbn; intuition congruence. Qed.

Lemma new_ok B m q E k x : inv B m q E -> 0 < B -> x <> 0 -> knd m x = None ->
  exists m', new k x m = OK m' /\ (forall y, knd m' y = if x =? y then Some k else knd m y) /\ inv B m' (fun g => if fst g =? x then [] else q g) (x :: E).
Proof.
  intros I B0 NZ KX. pose proof (i_zero _ _ _ _ I) as Z. unfold new. set (m1 := calloc k x m).
  assert (K1 : forall y, knd m1 y = if x =? y then Some k else knd m y) by reflexivity.
  assert (INH : forall h, In h (map (pair x) (inner k)) <-> fst h = x /\ owner (snd h) = Some k).
  { intros [o j]. cbn [fst snd]. rewrite in_map_iff. split.
    - intros (i & A & C). injection A as <- <-. split; [reflexivity|]. apply inner_owner. exact C.
    - intros (-> & A). exists j. split; [reflexivity|]. apply inner_owner. exact A. }
  assert (HM : forall h, In h (map (pair x) (inner k)) -> hlive m1 h = true).
  { intros [o j] A. apply INH in A. cbn [fst snd] in A. destruct A as (-> & A). apply hlive_iff. rewrite A, K1, Nat.eqb_refl. auto. }
  destruct (inits_ok _ m1 HM) as (m' & EI & K & R & P & F & T). exists m'. split; [exact EI|]. split; [intros y; rewrite K; apply K1|].
  assert (EXI : forall h, existsb (heq h) (map (pair x) (inner k)) = true <-> fst h = x /\ owner (snd h) = Some k).
  { intros h. rewrite <- INH. rewrite existsb_exists. split; [intros (g & A & C); destruct (heq_spec h g); [subst; exact A|discriminate]|]. intros A. exists h. split; [exact A|]. destruct (heq_spec h h); congruence. }
  assert (HL : forall g, hlive m' g = true -> (fst g = x /\ owner (snd g) = Some k) \/ (fst g <> x /\ hlive m g = true)).
  { intros [o j] G. rewrite hlive_iff in G. cbn [fst snd]. rewrite hlive_iff. destruct (owner j) as [w|]; [|right; split; [congruence|exact G]]. rewrite K, K1 in G.
    destruct (Nat.eqb_spec x o) as [<-|N]; [left; split; [reflexivity|symmetry; apply G]|right; split; [congruence|exact G]]. }
  assert (HL' : forall g, hlive m g = true -> hlive m' g = true /\ fst g <> x).
  { intros [o j] G. rewrite hlive_iff in G. rewrite hlive_iff. cbn [fst]. destruct (owner j) as [w|]; [|split; congruence]. rewrite K, K1. destruct (Nat.eqb_spec x o) as [<-|N]; [destruct G; congruence|split; [exact G|congruence]]. }
  assert (NQ : forall g, hlive m g = true -> ~ In x (q g)) by (intros g G J; rewrite (i_kind _ _ _ _ I g x G J) in KX; discriminate KX).
  assert (EQ : forall g, hlive m' g = true -> (if fst g =? x then [] else q g) = [] /\ fst g = x /\ owner (snd g) = Some k \/ (if fst g =? x then [] else q g) = q g /\ fst g <> x /\ hlive m g = true).
  { intros g G. destruct (HL g G) as [(A & C)|(A & C)].
    - left. rewrite A, Nat.eqb_refl. auto.
    - right. apply Nat.eqb_neq in A as A2. rewrite A2. auto. }
  constructor.
  - intros g G. destruct (EQ g G) as [(-> & A & C)|(-> & A & C)].
    + cbn [seg]. rewrite F. assert (existsb (heq g) (map (pair x) (inner k)) = true) as -> by (apply EXI; auto). reflexivity.
    + pose proof (i_seg _ _ _ _ I g C) as SG. revert SG. apply seg_frame.
      * intros y Y. assert (x <> y) by (intros <-; exact (NQ g C Y)). rewrite P, R. unfold m1. cbn [calloc ptr prv]. destruct (Nat.eqb_spec x y); [congruence|auto].
      * rewrite F. destruct (existsb (heq g) (map (pair x) (inner k))) eqn:X; [apply EXI in X; tauto|]. unfold m1. cbn [calloc ptr]. apply Nat.eqb_neq in A. rewrite A. reflexivity.
  - intros g G. destruct (EQ g G) as [(-> & A & C)|(-> & A & C)].
    + left. rewrite T. assert (existsb (heq g) (map (pair x) (inner k)) = true) as -> by (apply EXI; auto). reflexivity.
    + rewrite T. destruct (existsb (heq g) (map (pair x) (inner k))) eqn:X; [apply EXI in X; tauto|]. unfold m1. cbn [calloc tql]. apply Nat.eqb_neq in A. rewrite A. apply (i_last _ _ _ _ I g C).
  - intros g y G. destruct (EQ g G) as [(-> & A & C)|(-> & A & C)]; [intros []|]. intros Y. rewrite K, K1. destruct (Nat.eqb_spec x y) as [<-|N]; [exfalso; exact (NQ g C Y)|exact (i_kind _ _ _ _ I g y C Y)].
  - intros g g' y G G'. destruct (EQ g G) as [(-> & _)|(-> & A & C)]; [intros []|]. destruct (EQ g' G') as [(-> & _)|(-> & A' & C')]; [intros _ []|]. exact (i_one _ _ _ _ I g g' y C C').
  - intros g G. destruct (EQ g G) as [(-> & _)|(-> & A & C)]; [constructor|exact (i_nodup _ _ _ _ I g C)].
  - intros g G. destruct (EQ g G) as [(-> & _)|(-> & A & C)]; [cbn; lia|exact (i_len _ _ _ _ I g C)].
  - intros y [<-|Y].
    + rewrite K, K1, Nat.eqb_refl. split; [discriminate|]. intros g G. destruct (EQ g G) as [(-> & _)|(-> & A & C)]; [intros []|exact (NQ g C)].
    + destruct (i_exc _ _ _ _ I y Y) as (A & C). rewrite K, K1. split; [destruct (x =? y); [discriminate|exact A]|]. intros g G. destruct (EQ g G) as [(-> & _)|(-> & A' & C')]; [intros []|exact (C g C')].
  - intros y j KY. rewrite K, K1 in KY. destruct (Nat.eqb_spec x y) as [<-|N]; [left; left; reflexivity|]. destruct (i_own _ _ _ _ I y j KY) as [J|(o & G & J)]; [left; right; exact J|]. right. exists o.
    destruct (HL' _ G) as (G' & NO). split; [exact G'|]. apply Nat.eqb_neq in NO. rewrite NO. exact J.
  - rewrite K, K1. apply Nat.eqb_neq in NZ. rewrite NZ. exact Z.
Qed.

(** ** the loops of config_purge *)
Definition rank (k : kind) : nat := match k with KHost => 2 | KLoc => 1 | _ => 0 end.
Definition okk (n : nat) (k : kind) : Prop := match owner k with None => True | Some w => n <= rank w end.
Definition cleared (x : nat) (hs : list kind) (q : head -> list nat) : head -> list nat := fun g => if (fst g =? x) && existsb (kind_beq (snd g)) hs then [] else q g.
Definition spec (B n : nat) (hs : list kind) (f : nat -> mem -> res mem) : Prop :=
  (forall k, In k hs -> okk n k) /\
  forall m q E x, inv B m q E -> (forall k, In k hs -> hlive m (x, k) = true) ->
  exists m', f x m = OK m' /\ inv B m' (cleared x hs q) E /\ (forall y k, knd m' y = Some k -> knd m y = Some k) /\ (forall y k, n <= rank k -> knd m y = Some k -> knd m' y = Some k).

Lemma existsb_kind k hs : existsb (kind_beq k) hs = true <-> In k hs.
Proof.
  rewrite existsb_exists. split; [intros (g & A & C); destruct (kind_beq_spec k g); [subst; exact A|discriminate]|]. intros A. exists k. split; [exact A|]. destruct (kind_beq_spec k k); congruence.
Qed.
Lemma cleared_in x hs q k : In k hs -> cleared x hs q (x, k) = [].
Proof. intros A. unfold cleared. cbn [fst snd]. rewrite Nat.eqb_refl, (proj2 (existsb_kind k hs) A). reflexivity. Qed.
Lemma cleared_out x hs q g : fst g <> x \/ ~ In (snd g) hs -> cleared x hs q g = q g.
Proof.
  intros A. unfold cleared. destruct (Nat.eqb_spec (fst g) x) as [EX|]; cbn [andb]; [|reflexivity]. destruct (existsb (kind_beq (snd g)) hs) eqn:X; [|reflexivity]. apply existsb_kind in X. tauto.
Qed.

Lemma spec_nothing B n : spec B n [] nothing.
Proof. split; [intros k []|]. intros m q E x I _. exists m. split; [reflexivity|]. split; [|auto]. eapply inv_ext; [exact I|lia|]. intros g _. apply cleared_out. right. intros []. Qed.

Lemma live_keep m m' n o k : hlive m (o, k) = true -> okk n k -> (forall y j, n <= rank j -> knd m y = Some j -> knd m' y = Some j) -> hlive m' (o, k) = true.
Proof. unfold okk. rewrite !hlive_iff. destruct (owner k) as [w|]; [|auto]. intros (A & C) N K. split; [exact A|]. apply K; assumption. Qed.
Lemma live_back m m' o k : hlive m' (o, k) = true -> (forall y j, knd m' y = Some j -> knd m y = Some j) -> hlive m (o, k) = true.
Proof. rewrite !hlive_iff. destruct (owner k) as [w|]; [|auto]. intros (A & C) K. auto. Qed.

Lemma spec_seq B n hs1 hs2 f g : spec B n hs1 f -> spec B n hs2 g -> spec B n (hs1 ++ hs2) (fun x m => let* m := f x m in g x m).
Proof.
  intros (O1 & F) (O2 & G). split; [intros k A; apply in_app_or in A; destruct A; auto|]. intros m q E x I A.
  destruct (F m q E x I) as (m1 & E1 & I1 & B1 & K1); [intros k C; apply A, in_or_app; left; exact C|].
  destruct (G m1 _ E x I1) as (m2 & E2 & I2 & B2 & K2).
  { intros k C. apply (live_keep m m1 n); [apply A, in_or_app; right; exact C|exact (O2 k C)|exact K1]. }
  exists m2. rewrite E1. cbn [bind]. split; [exact E2|]. split; [|split; auto].
  eapply inv_ext; [exact I2|lia|]. intros h _. unfold cleared. rewrite existsb_app. destruct (fst h =? x), (existsb (kind_beq (snd h)) hs1), (existsb (kind_beq (snd h)) hs2); reflexivity.
Qed.
Lemma spec_mono B n n' hs f : spec B n hs f -> n <= n' -> (forall k, In k hs -> okk n' k) -> spec B n' hs f.
Proof.
  intros (_ & F) L O. split; [exact O|]. intros m q E x I A. destruct (F m q E x I A) as (m' & E1 & I1 & B1 & K1). exists m'. split; [exact E1|]. split; [exact I1|]. split; [exact B1|]. intros y k R. apply K1. lia.
Qed.

Lemma owner_rank k w : owner k = Some w -> rank k < rank w.
Proof. destruct k; cbn; intros A; try discriminate A; injection A as <-; cbn; lia. Qed.

Lemma purge_from_ok B n hs1 hs2 pre post k : spec B n hs1 pre -> spec B n hs2 post -> n <= rank k -> (forall j, owner j = Some k <-> In j (hs1 ++ hs2)) ->
  forall l fuel m q E o, inv B m q E -> hlive m (o, k) = true -> q (o, k) = l -> length l < fuel ->
  exists m', purge_from pre post (o, k) fuel (hd 0 l) m = OK m' /\ inv B m' (upd q (o, k) []) E /\ (forall y j, knd m' y = Some j -> knd m y = Some j) /\ (forall y j, rank k < rank j -> knd m y = Some j -> knd m' y = Some j).
Proof.
  intros (O1 & PRE) (O2 & POST) NR OWN. induction l as [|x r IH]; intros fuel m q E o I H Q L; (destruct fuel as [|fuel]; [cbn in L; lia|]); cbn [purge_from hd].
  - cbn [Nat.eqb]. exists m. split; [reflexivity|]. split; [|auto]. eapply inv_ext; [exact I|lia|]. intros g _. unfold upd. destruct (heq_spec (o, k) g) as [<-|]; [congruence|reflexivity].
  - pose proof (i_zero _ _ _ _ I) as Z. pose proof (i_seg _ _ _ _ I _ H) as G0. rewrite Q in G0. cbn [seg] in G0. destruct G0 as (_ & NX & _ & G0).
    assert (KX : knd m x = Some k) by (apply (i_kind _ _ _ _ I (o, k) x H); rewrite Q; left; reflexivity).
    assert (NE : ~ In x E). { intros J. destruct (i_exc _ _ _ _ I x J) as (_ & C). apply (C _ H). rewrite Q. left. reflexivity. }
    assert (NK : owner k <> Some k) by (intros W; apply owner_rank in W; lia).
    assert (OKK : okk n k). { unfold okk. destruct (owner k) as [w|] eqn:W; [apply owner_rank in W; lia|exact Logic.I]. }
    apply Nat.eqb_neq in NX as NX'. rewrite NX'.
    unfold get at 1. cbn [clive]. assert (alive m x = true) as -> by (apply alive_iff; eauto). cbn [bind].
    assert (T : ptr m (Next x) = hd 0 r) by (destruct r; cbn [seg hd] in *; [exact G0|tauto]). rewrite T.
    destruct (PRE m q E x I) as (m1 & -> & I1 & B1 & K1).
    { intros j J. apply hlive_iff. assert (owner j = Some k) as -> by (apply OWN, in_or_app; left; exact J). auto. }
    cbn [bind]. assert (H1 : hlive m1 (o, k) = true) by (eapply live_keep; eauto).
    assert (Q1 : cleared x hs1 q (o, k) = x :: r). { rewrite cleared_out; [exact Q|]. right. cbn [snd]. intros J. apply NK. apply OWN, in_or_app. left. exact J. }
    destruct (remove_ok B m1 _ E (o, k) x r I1 H1 Q1) as (m2 & -> & K2 & I2 & _). cbn [bind].
    assert (KX2 : knd m2 x = Some k) by (rewrite K2; apply K1; [exact NR|exact KX]).
    destruct (POST m2 _ (x :: E) x I2) as (m3 & -> & I3 & B3 & K3).
    { intros j J. apply hlive_iff. assert (owner j = Some k) as -> by (apply OWN, in_or_app; right; exact J). auto. }
    cbn [bind].
    assert (KX3 : knd m3 x = Some k) by (apply K3; [exact NR|exact KX2]).
    destruct (free_ok B m3 _ E x I3 NE) as (m4 & -> & K4 & I4).
    { intros j J. rewrite hlive_iff in J. destruct (owner j) as [w|] eqn:W; [|congruence]. destruct J as (_ & J). assert (w = k) as -> by congruence.
      apply OWN in W as W2. destruct (existsb (kind_beq j) hs2) eqn:X; [apply existsb_kind in X; apply cleared_in; exact X|].
      rewrite cleared_out. 2:{ right. cbn [snd]. rewrite <- existsb_kind, X. discriminate. }
      rewrite upd_ne. 2:{ intros EQ. injection EQ as -> ->. congruence. }
      apply cleared_in. apply in_app_or in W2. destruct W2 as [W2|W2]; [exact W2|]. apply existsb_kind in W2. congruence. }
    cbn [bind].
    assert (BK : forall y j, knd m4 y = Some j -> knd m y = Some j).
    { intros y j J. rewrite K4 in J. destruct (x =? y); [discriminate|]. apply B3 in J. rewrite K2 in J. auto. }
    assert (FW : forall y j, rank k < rank j -> knd m y = Some j -> knd m4 y = Some j).
    { intros y j R J. rewrite K4. destruct (Nat.eqb_spec x y) as [<-|]; [rewrite KX in J; injection J as ->; lia|]. apply K3; [lia|]. rewrite K2. apply K1; [lia|exact J]. }
    assert (H4 : hlive m4 (o, k) = true).
    { eapply live_keep with (n := S (rank k)); [exact H| |exact FW]. unfold okk. destruct (owner k) as [w|] eqn:W; [apply owner_rank in W; lia|exact Logic.I]. }
    set (q4 := cleared x hs2 (upd (cleared x hs1 q) (o, k) r)) in *.
    assert (Q4 : q4 (o, k) = r). { unfold q4. rewrite cleared_out; [apply upd_eq|]. right. cbn [snd]. intros J. apply NK. apply OWN, in_or_app. right. exact J. }
    destruct (IH fuel m4 q4 E o I4 H4 Q4) as (m5 & -> & I5 & B5 & K5); [cbn in L; lia|]. exists m5. split; [reflexivity|]. split; [|split; auto].
    eapply inv_ext; [exact I5|lia|]. intros [u j] G. unfold upd. destruct (heq_spec (o, k) (u, j)) as [|N]; [reflexivity|]. unfold q4.
    assert (u <> x). { intros ->. rewrite hlive_iff in G. destruct (owner j) as [w|]; [|congruence]. destruct G as (_ & G). apply B5 in G. rewrite K4, Nat.eqb_refl in G. discriminate G. }
    rewrite cleared_out by (left; assumption). rewrite upd_ne by exact N. rewrite cleared_out by (left; assumption). reflexivity.
Qed.

Lemma purge_ok B n hs1 hs2 pre post k fuel : spec B n hs1 pre -> spec B n hs2 post -> n <= rank k -> (forall j, owner j = Some k <-> In j (hs1 ++ hs2)) -> B <= fuel ->
  spec B (S (rank k)) [k] (fun x m => purge pre post fuel (x, k) m).
Proof.
  intros P1 P2 N OWN LB. split. { intros j [<-|[]]. unfold okk. destruct (owner k) as [w|] eqn:W; [apply owner_rank in W; lia|exact Logic.I]. }
  intros m q E x I A. assert (H := A k (or_introl eq_refl)). unfold purge, get. cbn [clive]. rewrite H. cbn [bind].
  assert (PF : ptr m (First (x, k)) = hd 0 (q (x, k))). { pose proof (i_seg _ _ _ _ I _ H) as G. destruct (q (x, k)); cbn [seg hd] in *; tauto. }
  rewrite PF. destruct (purge_from_ok B n hs1 hs2 pre post k P1 P2 N OWN (q (x, k)) fuel m q E x I H eq_refl) as (m' & E1 & I1 & B1 & K1); [pose proof (i_len _ _ _ _ I _ H); lia|].
  exists m'. split; [exact E1|]. split; [|split; [exact B1|intros y j R; apply K1; lia]]. eapply inv_ext; [exact I1|lia|]. intros [u j] _. unfold upd.
  destruct (heq_spec (x, k) (u, j)) as [EQ|NQ]; [injection EQ as <- <-; apply cleared_in; left; reflexivity|]. apply cleared_out. cbn [fst snd]. destruct (Nat.eq_dec u x) as [->|]; [|left; assumption]. right. intros [->|[]]. apply NQ. reflexivity.
Qed.
Lemma purge_plain B n k fuel : inner k = [] -> B <= fuel -> rank k < n -> okk n k -> spec B n [k] (fun x m => purge nothing nothing fuel (x, k) m).
Proof.
  intros IN LB N O. apply spec_mono with (n := S (rank k)); [|lia|intros j [<-|[]]; exact O]. apply purge_ok with (n := 0) (hs1 := []) (hs2 := []); [apply spec_nothing|apply spec_nothing|lia| |exact LB].
  intros j. rewrite <- inner_owner, IN. cbn. tauto.
Qed.

Lemma purge_loc_ok B fuel : B <= fuel -> spec B 1 [KEnv] (purge_loc fuel).
Proof. intros L. apply (purge_plain B 1 KEnv fuel); [reflexivity|exact L|cbn; lia|unfold okk; cbn; lia]. Qed.
Lemma purge_host_ok B fuel : B <= fuel -> spec B 2 [KHaddr; KLoc; KAlias; KProxy] (purge_host fuel).
Proof.
  intros L. apply (spec_seq B 2 [KHaddr] [KLoc; KAlias; KProxy]).
  { apply purge_plain; [reflexivity|exact L|cbn; lia|unfold okk; cbn; lia]. }
  apply (spec_seq B 2 [KLoc] [KAlias; KProxy] (fun x m => purge nothing (purge_loc fuel) fuel (x, KLoc) m)).
  { apply (purge_ok B 1 [] [KEnv]); [apply spec_nothing|apply purge_loc_ok; exact L|cbn; lia| |exact L]. intros j. rewrite <- inner_owner. reflexivity. }
  apply (spec_seq B 2 [KAlias] [KProxy] (fun x m => purge nothing nothing fuel (x, KAlias) m)); apply purge_plain; try reflexivity; try exact L; try (cbn; lia); unfold okk; cbn; lia.
Qed.

(** everything is reached from the configuration *)
Lemma no_objects B m q : inv B m q [] -> (forall k, owner k = None -> q (0, k) = []) -> forall x, knd m x = None.
Proof.
  intros I Z.
  assert (TOP : forall x k, owner k = None -> knd m x <> Some k).
  { intros x k O K. destruct (i_own _ _ _ _ I x k K) as [[]|(o & G & J)]. rewrite hlive_iff, O in G. subst o. rewrite (Z k O) in J. destruct J. }
  assert (UP : forall x k w, owner k = Some w -> (forall y, knd m y <> Some w) -> knd m x <> Some k).
  { intros x k w O N K. destruct (i_own _ _ _ _ I x k K) as [[]|(o & G & J)]. rewrite hlive_iff, O in G. exact (N o (proj2 G)). }
  assert (H : forall x, knd m x <> Some KHost) by (intros x; apply TOP; reflexivity).
  assert (LO : forall x, knd m x <> Some KLoc) by (intros x; apply (UP x KLoc KHost); [reflexivity|exact H]).
  intros x. destruct (knd m x) as [k|] eqn:K; [|reflexivity]. exfalso. revert K. destruct k; first [apply TOP; reflexivity | eapply UP; [reflexivity|assumption]].
Qed.

Lemma inv_empty m q : (forall x, knd m x = None) -> (forall g, hlive m g = true -> ptr m (First g) = 0 /\ (tql m g = Some (First g) \/ g = (0, KAddr)) /\ q g = []) -> inv 1 m q [].
Proof.
  intros K H. constructor.
  - intros g G. destruct (H g G) as (A & _ & ->). exact A.
  - intros g G. destruct (H g G) as (_ & A & ->). cbn [endc]. tauto.
  - intros g x G. destruct (H g G) as (_ & _ & ->). intros [].
  - intros g g' x G _. destruct (H g G) as (_ & _ & ->). intros [].
  - intros g G. destruct (H g G) as (_ & _ & ->). constructor.
  - intros g G. destruct (H g G) as (_ & _ & ->). cbn. lia.
  - intros x [].
  - intros x k J. rewrite K in J. discriminate J.
  - apply K.
Qed.

Lemma top_live m k : owner k = None -> hlive m (0, k) = true.
Proof. intros O. apply hlive_iff. rewrite O. reflexivity. Qed.
Lemma hlive_top m g : (forall x, knd m x = None) -> hlive m g = true -> exists k, g = (0, k) /\ owner k = None.
Proof. intros K. destruct g as [o k]. rewrite hlive_iff. destruct (owner k) as [w|] eqn:O; [rewrite K; intros (_ & A); discriminate A|]. intros ->. exists k. auto. Qed.

Lemma config_purge_ok B m q fuel : inv B m q [] -> B <= fuel -> exists m', config_purge fuel m = OK m' /\ inv 1 m' (fun _ => []) [] /\ forall x, knd m' x = None.
Proof.
  intros I LB.
  assert (P : spec B 3 ([KFcgi] ++ [KHost] ++ [KPki] ++ [KAddr]) (fun x m =>
    let* m := purge nothing nothing fuel (x, KFcgi) m in let* m := purge (purge_host fuel) nothing fuel (x, KHost) m in let* m := purge nothing nothing fuel (x, KPki) m in purge nothing nothing fuel (x, KAddr) m)).
  { apply (spec_seq B 3 [KFcgi] _ (fun x m => purge nothing nothing fuel (x, KFcgi) m)); [apply purge_plain; try reflexivity; try exact LB; cbn; lia|].
    apply (spec_seq B 3 [KHost] _ (fun x m => purge (purge_host fuel) nothing fuel (x, KHost) m)).
    { apply (purge_ok B 2 [KHaddr; KLoc; KAlias; KProxy] []); [apply purge_host_ok; exact LB|apply spec_nothing|cbn; lia| |exact LB]. intros j. rewrite <- inner_owner. reflexivity. }
    apply (spec_seq B 3 [KPki] _ (fun x m => purge nothing nothing fuel (x, KPki) m)); apply purge_plain; try reflexivity; try exact LB; cbn; lia. }
  destruct P as (_ & P). destruct (P m q [] 0 I) as (m1 & E1 & I1 & _).
  { intros k A. apply top_live. cbn in A. destruct A as [<-|[<-|[<-|[<-|[]]]]]; reflexivity. }
  assert (K1 : forall x, knd m1 x = None).
  { apply (no_objects B m1 _ I1). intros k O. apply cleared_in. destruct k; try discriminate O; cbn; tauto. }
  unfold config_purge.
  assert (E2 : forall r : mem -> res mem, (let* m := purge nothing nothing fuel (0, KFcgi) m in let* m := purge (purge_host fuel) nothing fuel (0, KHost) m in
    let* m := purge nothing nothing fuel (0, KPki) m in let* m := purge nothing nothing fuel (0, KAddr) m in r m) = r m1).
  { intros r. revert E1. destruct (purge nothing nothing fuel (0, KFcgi) m) as [a| |]; cbn [bind]; intros E1; try discriminate E1. revert E1.
    destruct (purge (purge_host fuel) nothing fuel (0, KHost) a) as [b| |]; cbn [bind]; intros E1; try discriminate E1. revert E1.
    destruct (purge nothing nothing fuel (0, KPki) b) as [c| |]; cbn [bind]; intros E1; try discriminate E1. rewrite E1. reflexivity. }
  rewrite E2. clear E2 E1.
  assert (KZ : knd (zero m1) = knd m1) by reflexivity.
  destruct (inits_ok [(0, KFcgi); (0, KHost); (0, KPki)] (zero m1)) as (m2 & E3 & K3 & R3 & P3 & F3 & T3).
  { intros h [<-|[<-|[<-|[]]]]; apply top_live; reflexivity. }
  assert (K2 : forall x, knd m2 x = None) by (intros x; rewrite K3, KZ; apply K1).
  exists m2. split; [exact E3|]. split; [|exact K2]. apply inv_empty; [exact K2|]. intros g G. destruct (hlive_top m2 g K2 G) as (k & -> & O). rewrite F3, T3.
  destruct k; try discriminate O; cbn; auto.
Qed.
Lemma config_new_ok : exists m, config_new = OK m /\ inv 1 m (fun _ => []) [] /\ forall x, knd m x = None.
Proof.
  destruct (inits_ok [(0, KFcgi); (0, KHost); (0, KPki); (0, KAddr)] blank) as (m2 & E3 & K3 & R3 & P3 & F3 & T3).
  { intros h [<-|[<-|[<-|[<-|[]]]]]; apply top_live; reflexivity. }
  assert (K2 : forall x, knd m2 x = None) by (intros x; rewrite K3; reflexivity).
  exists m2. split; [exact E3|]. split; [|exact K2]. apply inv_empty; [exact K2|]. intros g G. destruct (hlive_top m2 g K2 G) as (k & -> & O). rewrite F3, T3.
  destruct k; try discriminate O; cbn; auto.
Qed.
