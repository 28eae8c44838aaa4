(** The lexer on files without NUL: nothing it makes has one, errors that were
    counted stay counted, and the end comes at the end of the first file. *)
From Verif Require Import Base BaseLemmas Compat Mime Parse Lex Lex_Proofs Iri_Last_Proofs.
Local Open Scope N_scope.

Definition nonul (s : list N) : Prop := ~ In 0 s.
Definition tot (l : lex) : nat := fold_right (fun f n => lf_errors f + n)%nat 0%nat (lx_cur l :: lx_outer l).
Definition lclean (l : lex) : Prop := nonul (text l) /\ Forall (fun f => nonul (lf_text f)) (lx_outer l) /\ Forall (fun s => nonul (y_val s)) (lx_syms l).
(** from [l] to [l'] *)
Definition goes (l l' : lex) : Prop := lclean l' /\ (tot l <= tot l')%nat.
Lemma goes_trans a b c : goes a b -> goes b c -> goes a c.
Proof. intros (A & B) (C & D). split; [exact C|lia]. Qed.
Lemma goes_refl a : lclean a -> goes a a.
Proof. intros A. split; [exact A|lia]. Qed.
Lemma nonul_app a b : nonul a -> nonul b -> nonul (a ++ b).
Proof. unfold nonul. rewrite in_app_iff. tauto. Qed.
Lemma nonul_cons c s : c <> 0 -> nonul s -> nonul (c :: s).
Proof. intros A B [E|E]; [congruence|exact (B E)]. Qed.

Lemma getmarks_nul : forall s e c r e', getmarks s e = (c, r, e') -> nonul s -> nonul r /\ c <> Some 0.
Proof.
  induction s as [|x s IH]; intros e c r e'; cbn [getmarks]; [intros H _; injection H as <- <- <-; split; [intros []|discriminate]|].
  intros H NU. assert (NS : nonul s) by (intros I; apply NU; right; exact I). destruct (x =? START_EXPAND); [apply (IH _ _ _ _ H NS)|]. destruct (x =? DONE_EXPAND); [apply (IH _ _ _ _ H NS)|].
  injection H as <- <- <-. split; [exact NS|]. intros E. injection E as ->. apply NU. left. reflexivity.
Qed.
Lemma getlines_nul : forall s esc e c r e', getlines esc s e = (c, r, e') -> nonul s -> nonul r /\ c <> Some 0.
Proof.
  induction s as [|x s IH]; intros esc e c r e'; cbn [getlines]; [intros H _; injection H as <- <- <-; split; [intros []|discriminate]|].
  intros H NU. assert (NS : nonul s) by (intros I; apply NU; right; exact I). destruct (x =? START_EXPAND); [apply (IH _ _ _ _ _ H NS)|]. destruct (x =? DONE_EXPAND); [apply (IH _ _ _ _ _ H NS)|].
  assert (K : (Some x, s, e) = (c, r, e') -> nonul r /\ c <> Some 0) by (intros E; injection E as <- <- <-; split; [exact NS|]; intros E; injection E as ->; apply NU; left; reflexivity).
  destruct esc; [destruct (x =? 10)|destruct (x =? 92)]; first [apply (IH _ _ _ _ _ H NS)|apply K, H].
Qed.
Lemma set_text_tot r e l : tot (set_text r e l) = tot l. Proof. reflexivity. Qed.
Lemma igetc_nul l c l' : igetc l = (c, l') -> lclean l -> goes l l' /\ c <> Some 0 /\ lx_outer l' = lx_outer l.
Proof.
  unfold igetc. destruct (getmarks (text l) (lx_exp l)) as [[oc r] e] eqn:G. intros H (A & B & C). injection H as <- <-. destruct (getmarks_nul _ _ _ _ _ G A) as (G1 & G2).
  split; [split; [split; [exact G1|split; [exact B|exact C]]|rewrite set_text_tot; lia]|]. auto.
Qed.
Lemma popfile_nul l l' : popfile l = Some l' -> lclean l -> goes l l' /\ lx_outer l = match lx_outer l with p :: _ => p :: lx_outer l' | [] => [] end.
Proof.
  unfold popfile. destruct (lx_outer l) as [|p o] eqn:O; [discriminate|]. intros H (A & B & C). injection H as <-. rewrite O in B. inversion B; subst. split; [|reflexivity]. split; [split; [assumption|split; assumption]|].
  unfold tot. rewrite O. cbn [fold_right lx_cur lx_outer lf_errors]. lia.
Qed.
Lemma popeof_nul : forall fs l c l', fs = lx_outer l -> popeof fs l = (c, l') -> lclean l -> goes l l' /\ c <> Some 0 /\ (c = None -> lx_outer l' = []).
Proof.
  induction fs as [|f fs IH]; intros l c l' F; cbn [popeof]; [intros H C; injection H as <- <-; split; [apply goes_refl, C|split; [discriminate|auto]]|].
  destruct (popfile l) as [l1|] eqn:P; [|unfold popfile in P; rewrite <- F in P; discriminate]. intros H C. destruct (popfile_nul _ _ P C) as (P1 & P2). rewrite <- F in P2. injection P2 as P2.
  destruct (igetc l1) as [[d|] l2] eqn:G; destruct (igetc_nul _ _ _ G (proj1 P1)) as (G1 & G2 & G3).
  - injection H as <- <-. split; [apply (goes_trans _ _ _ P1 G1)|]. split; [exact G2|discriminate].
  - destruct (IH l2 c l' ltac:(congruence) H (proj1 G1)) as (H1 & H2). split; [apply (goes_trans _ _ _ P1 (goes_trans _ _ _ G1 H1))|exact H2].
Qed.
Lemma lgetc_nul l c l' : lgetc l = (c, l') -> lclean l -> goes l l' /\ c <> Some 0 /\ (c = None -> lx_outer l' = []).
Proof.
  unfold lgetc. destruct (getlines false (text l) (lx_exp l)) as [[oc r] e] eqn:G. intros H (A & B & C). destruct (getlines_nul _ _ _ _ _ _ G A) as (G1 & G2).
  assert (K : goes l (set_text r e l)) by (split; [split; [exact G1|split; [exact B|exact C]]|rewrite set_text_tot; lia]).
  destruct oc as [d|]; [injection H as <- <-; split; [exact K|split; [exact G2|discriminate]]|]. destruct (lf_eof (lx_cur l)).
  - destruct (popeof_nul _ (set_text r e l) _ _ eq_refl H (proj1 K)) as (H1 & H2). split; [apply (goes_trans _ _ _ K H1)|exact H2].
  - injection H as <- <-. split; [exact K|split; discriminate].
Qed.
Lemma yyerror_nul l : lclean l -> goes l (yyerror l) /\ (tot (yyerror l) = S (tot l)).
Proof. intros C. split; [split; [exact C|]|]; unfold tot; cbn; lia. Qed.
Lemma lgetc_q_nul q l c l' : q <> 0 -> lgetc_q q l = (c, l') -> lclean l -> goes l l' /\ c <> Some 0 /\ (c = None -> lx_outer l' = []).
Proof.
  intros Q. unfold lgetc_q. destruct (igetc l) as [[d|] l1] eqn:I; intros H C; destruct (igetc_nul _ _ _ I C) as (G1 & G2 & G3); [injection H as <- <-; split; [exact G1|split; [exact G2|discriminate]]|].
  destruct (yyerror_nul l1 (proj1 G1)) as (Y1 & _). destruct (popfile (yyerror l1)) as [l2|] eqn:P; injection H as <- <-.
  - destruct (popfile_nul _ _ P (proj1 Y1)) as (P1 & _). split; [apply (goes_trans _ _ _ G1 (goes_trans _ _ _ Y1 P1))|]. split; [congruence|discriminate].
  - split; [apply (goes_trans _ _ _ G1 Y1)|]. split; [discriminate|]. intros _. unfold popfile in P. destruct (lx_outer (yyerror l1)); [reflexivity|discriminate].
Qed.
Lemma lungetc_nul c l : c <> Some 0 -> lclean l -> goes l (lungetc c l).
Proof. destruct c as [c|]; intros N0 (A & B & C); [|apply goes_refl; split; auto]. split; [split; [apply nonul_cons; [congruence|exact A]|split; [exact B|exact C]]|]. unfold lungetc. rewrite set_text_tot. lia. Qed.
Lemma lungetc_outer c l : lx_outer (lungetc c l) = lx_outer l. Proof. destruct c; reflexivity. Qed.

(** a token and what follows *)
Definition tgood (t : tok) (l : lex) : Prop := match t with TStr s => nonul s | TEnd => lx_outer l = [] | _ => True end.
Lemma findeol_nul : forall f l t l', findeol_loop f l = OK (t, l') -> lclean l -> goes l l' /\ t = TErr.
Proof.
  induction f as [|f IH]; intros l t l'; cbn [findeol_loop]; [discriminate|]. destruct (lgetc l) as [[c|] l1] eqn:G; intros H C; destruct (lgetc_nul _ _ _ G C) as (G1 & _).
  - destruct (c =? 10); [apply OK_inj in H; injection H as <- <-; auto|]. destruct (IH _ _ _ H (proj1 G1)) as (H1 & H2). split; [apply (goes_trans _ _ _ G1 H1)|exact H2].
  - apply OK_inj in H. injection H as <- <-. auto.
Qed.
Lemma too_long_nul l t l' : too_long l = OK (t, l') -> lclean l -> goes l l' /\ tgood t l'.
Proof.
  intros H C. destruct (yyerror_nul l C) as (Y & _). unfold too_long, findeol in H. destruct (findeol_nul _ _ _ _ H (proj1 Y)) as (H1 & ->). split; [apply (goes_trans _ _ _ Y H1)|exact I].
Qed.
Lemma skip_nul test : forall f l c l', skip_while test f l = OK (c, l') -> lclean l -> goes l l' /\ c <> Some 0 /\ (c = None -> lx_outer l' = []).
Proof.
  induction f as [|f IH]; intros l c l'; cbn [skip_while]; [discriminate|]. destruct (lgetc l) as [[d|] l1] eqn:G; intros H C; destruct (lgetc_nul _ _ _ G C) as (G1 & G2 & G3).
  - destruct (test d); [destruct (IH _ _ _ H (proj1 G1)) as (H1 & H2); split; [apply (goes_trans _ _ _ G1 H1)|exact H2]|]. apply OK_inj in H. injection H as <- <-. split; [exact G1|split; [exact G2|discriminate]].
  - apply OK_inj in H. injection H as <- <-. auto.
Qed.
Lemma put_in b c b' : put b c = OK b' -> b' = b ++ [c].
Proof. unfold put. destruct (blen b <? BUFSZ); [|discriminate]. intros E. apply OK_inj in E. auto. Qed.
Lemma terminate_in b b' : terminate b = OK b' -> b' = b.
Proof. unfold terminate. destruct (blen b <? BUFSZ); [|discriminate]. intros E. apply OK_inj in E. auto. Qed.
Lemma nonul_snoc b c : nonul b -> c <> 0 -> nonul (b ++ [c]).
Proof. intros A B. apply nonul_app; [exact A|]. intros [E|[]]. congruence. Qed.
Lemma read_name_nul : forall f b l r, read_name f b l = OK r -> lclean l -> match r with inl (t, l') => goes l l' /\ tgood t l' | inr (_, l') => goes l l' end.
Proof.
  induction f as [|f IH]; intros b l r; cbn [read_name]; [discriminate|]. destruct (lgetc l) as [[d|] l1] eqn:G; intros H C; destruct (lgetc_nul _ _ _ G C) as (G1 & G2 & G3).
  - destruct (BUFSZ - 1 <=? blen b + 1).
    + destruct (too_long l1) as [[t l2]| |] eqn:T; cbn [bind] in H; try discriminate. apply OK_inj in H. subst r. destruct (too_long_nul _ _ _ T (proj1 G1)) as (T1 & T2). split; [apply (goes_trans _ _ _ G1 T1)|exact T2].
    + destruct (name_char d).
      * destruct (put b d) as [b'| |]; cbn [bind] in H; try discriminate. specialize (IH _ _ _ H (proj1 G1)). destruct r as [[t l2]|[n l2]]; [destruct IH as (I1 & I2); split; [apply (goes_trans _ _ _ G1 I1)|exact I2]|apply (goes_trans _ _ _ G1 IH)].
      * destruct (terminate b) as [b'| |]; cbn [bind] in H; try discriminate. apply OK_inj in H. subst r. apply (goes_trans _ _ _ G1). apply lungetc_nul; [congruence|apply G1].
  - apply OK_inj in H. subst r. split; [exact G1|]. exact (G3 eq_refl).
Qed.
Lemma read_quoted_nul q : q <> 0 -> forall f b l t l', read_quoted f q b l = OK (t, l') -> lclean l -> nonul b -> goes l l' /\ tgood t l'.
Proof.
  intros Q. induction f as [|f IH]; intros b l t l'; cbn [read_quoted]; [discriminate|]. destruct (lgetc_q q l) as [[d|] l1] eqn:G; intros H C NB; destruct (lgetc_q_nul _ _ _ _ Q G C) as (G1 & G2 & G3).
  2:{ apply OK_inj in H. injection H as <- <-. split; [exact G1|exact (G3 eq_refl)]. }
  assert (ST : forall c l2, c <> 0 -> goes l l2 -> (if BUFSZ - 1 <=? blen b + 1 then too_long l2 else let* b := put b c in read_quoted f q b l2) = OK (t, l') -> goes l l' /\ tgood t l').
  { intros c l2 NC G4 E. destruct (BUFSZ - 1 <=? blen b + 1); [destruct (too_long_nul _ _ _ E (proj1 G4)) as (T1 & T2); split; [apply (goes_trans _ _ _ G4 T1)|exact T2]|].
    destruct (put b c) as [b'| |] eqn:P; cbn [bind] in E; try discriminate. apply put_in in P. subst b'. destruct (IH _ _ _ _ E (proj1 G4) (nonul_snoc _ _ NB NC)) as (I1 & I2). split; [apply (goes_trans _ _ _ G4 I1)|exact I2]. }
  assert (AG : forall l2, goes l l2 -> read_quoted f q b l2 = OK (t, l') -> goes l l' /\ tgood t l').
  { intros l2 G4 E. destruct (IH _ _ _ _ E (proj1 G4) NB) as (I1 & I2). split; [apply (goes_trans _ _ _ G4 I1)|exact I2]. }
  destruct (d =? 10); [apply (AG _ G1 H)|]. destruct (d =? 92).
  - destruct (lgetc_q q l1) as [[n|] l2] eqn:G'; destruct (lgetc_q_nul _ _ _ _ Q G' (proj1 G1)) as (K1 & K2 & K3); pose proof (goes_trans _ _ _ G1 K1) as G4; [|apply OK_inj in H; injection H as <- <-; split; [exact G4|exact (K3 eq_refl)]].
    destruct ((n =? q) || (n =? 32) || (n =? 9)); [apply (ST n l2); [congruence|exact G4|exact H]|]. destruct (n =? 10); [apply (AG _ G4 H)|]. apply (ST d (lungetc (Some n) l2)); [congruence| |exact H]. apply (goes_trans _ _ _ G4). apply lungetc_nul; [congruence|apply G4].
  - destruct (d =? q); [destruct (terminate b) as [b'| |] eqn:T; cbn [bind] in H; try discriminate; apply terminate_in in T; subst b'; apply OK_inj in H; injection H as <- <-; split; [exact G1|exact NB]|].
    destruct (d =? 0) eqn:D; [apply N.eqb_eq in D; congruence|]. apply (ST d l1); [congruence|exact G1|exact H].
Qed.
Lemma read_while_nul test : forall f c b l r, read_while test f c b l = OK r -> lclean l -> nonul b -> c <> 0 ->
  match r with inl (t, l') => goes l l' /\ tgood t l' | inr (b', n, l') => goes l l' /\ nonul b' /\ n <> Some 0 end.
Proof.
  induction f as [|f IH]; intros c b l r; cbn [read_while]; [discriminate|]. intros H C NB NC. destruct (put b c) as [b'| |] eqn:P; cbn [bind] in H; try discriminate. apply put_in in P. subst b'. pose proof (nonul_snoc _ _ NB NC) as NB'.
  destruct (BUFSZ <=? blen (b ++ [c])).
  - destruct (too_long l) as [[t l2]| |] eqn:T; cbn [bind] in H; try discriminate. apply OK_inj in H. subst r. apply (too_long_nul _ _ _ T C).
  - destruct (lgetc l) as [[d|] l1] eqn:G; destruct (lgetc_nul _ _ _ G C) as (G1 & G2 & G3).
    + destruct (test d); [|apply OK_inj in H; subst r; auto]. specialize (IH _ _ _ _ H (proj1 G1) NB' ltac:(congruence)). destruct r as [[t l2]|[[b2 n] l2]].
      * destruct IH as (I1 & I2). split; [apply (goes_trans _ _ _ G1 I1)|exact I2].
      * destruct IH as (I1 & I2). split; [apply (goes_trans _ _ _ G1 I1)|exact I2].
    + apply OK_inj in H. subst r. split; [exact G1|]. split; [exact NB'|discriminate].
Qed.
Lemma read_other_nul c l t l' : c <> 0 -> read_other (Some c) l = OK (t, l') -> lclean l -> goes l l' /\ tgood t l'.
Proof.
  intros NC. unfold read_other. destruct (is_alnum c || (c =? 58) || (c =? 95)).
  - unfold read_word. intros H C. destruct (read_while in_string (S (size l)) c [] l) as [r| |] eqn:R; cbn [bind] in H; try discriminate. pose proof (read_while_nul _ _ _ _ _ _ R C ltac:(intros []) NC) as K.
    destruct r as [[t2 l2]|[[b n] l2]]; [apply OK_inj in H; injection H as <- <-; exact K|]. destruct K as (K1 & K2 & K3). cbv zeta in H. destruct (terminate b) as [b'| |] eqn:T; cbn [bind] in H; try discriminate. apply terminate_in in T. subst b'.
    destruct (lookup b) as [k| |]; cbn [bind] in H; try discriminate. apply OK_inj in H. injection H as <- <-. split; [apply (goes_trans _ _ _ K1), lungetc_nul; [exact K3|apply K1]|]. destruct k; [exact I|exact K2].
  - intros H C. apply OK_inj in H. injection H as <- <-. split; [apply goes_refl, C|]. destruct (N.eqb_spec c 0); [congruence|exact I].
Qed.
Lemma unget_all_nul : forall s l, nonul s -> lclean l -> goes l (fold_left (fun l c => lungetc (Some c) l) s l).
Proof.
  induction s as [|c s IH]; intros l NU C; cbn [fold_left]; [apply goes_refl, C|]. assert (NC : Some c <> Some 0) by (intros E; injection E as ->; apply NU; left; reflexivity). pose proof (lungetc_nul (Some c) l NC C) as L. apply (goes_trans _ _ _ L). apply IH; [intros I; apply NU; right; exact I|apply L].
Qed.
Lemma read_number_nul c l t l' : c <> 0 -> read_number c l = OK (t, l') -> lclean l -> goes l l' /\ tgood t l'.
Proof.
  intros NC. unfold read_number. intros H C. destruct (read_while is_digit (S (size l)) c [] l) as [r| |] eqn:R; cbn [bind] in H; try discriminate. pose proof (read_while_nul _ _ _ _ _ _ R C ltac:(intros []) NC) as K.
  destruct r as [[t2 l2]|[[b n] l2]]; [apply OK_inj in H; injection H as <- <-; exact K|]. destruct K as (K1 & K2 & K3). cbv zeta in H. pose proof (goes_trans _ _ _ K1 (lungetc_nul n l2 K3 (proj1 K1))) as G.
  destruct (negb (leqb b [45]) && _).
  - destruct (terminate b) as [b'| |]; cbn [bind] in H; try discriminate. destruct (strtonum b' LLONG_MIN LLONG_MAX) as [z e]. destruct e; try (apply OK_inj in H; injection H as <- <-; split; [exact G|exact I]);
      destruct (too_long_nul _ _ _ H (proj1 G)) as (T1 & T2); (split; [apply (goes_trans _ _ _ G T1)|exact T2]).
  - assert (NT : nonul (rev (tl b))) by (intros I; apply in_rev, tl_in in I; exact (K2 I)). pose proof (goes_trans _ _ _ G (unget_all_nul _ _ NT (proj1 G))) as G4. destruct b as [|d b]; [discriminate|].
    destruct (d =? 45); [apply OK_inj in H; injection H as <- <-; split; [exact G4|exact I]|]. assert (ND : d <> 0) by (intros ->; apply K2; left; reflexivity). destruct (read_other_nul _ _ _ _ ND H (proj1 G4)) as (R1 & R2). split; [apply (goes_trans _ _ _ G4 R1)|exact R2].
Qed.
Lemma yylex_top_nul : forall f l t l', yylex_top f l = OK (t, l') -> lclean l -> goes l l' /\ tgood t l'.
Proof.
  induction f as [|f IH]; intros l t l'; cbn [yylex_top]; [discriminate|]. intros H C. destruct (skip_while _ (S (size l)) l) as [[c1 l1]| |] eqn:E1; cbn [bind] in H; try discriminate. destruct (skip_nul _ _ _ _ _ E1 C) as (S1 & S2 & S3).
  destruct (match c1 with Some 35 => skip_while (fun c => negb (c =? 10)) (S (size l1)) l1 | _ => OK (c1, l1) end) as [[c2 l2]| |] eqn:E2; cbn [bind] in H; try discriminate.
  assert (K : goes l l2 /\ c2 <> Some 0 /\ (c2 = None -> lx_outer l2 = [])).
  { destruct c1 as [c1|]; [rewrite m35 in E2; destruct (c1 =? 35)|].
    - destruct (skip_nul _ _ _ _ _ E2 (proj1 S1)) as (T1 & T2). split; [apply (goes_trans _ _ _ S1 T1)|exact T2].
    - apply OK_inj in E2. injection E2 as <- <-. auto.
    - apply OK_inj in E2. injection E2 as <- <-. auto. }
  clear S1 S2 S3 E1 E2. destruct K as (K1 & K2 & K3). destruct c2 as [c|]; [|apply OK_inj in H; injection H as <- <-; split; [exact K1|exact (K3 eq_refl)]]. assert (NC : c <> 0) by congruence.
  assert (AND : forall a b (P : lex -> Prop), goes a b -> (goes b l' /\ tgood t l') -> goes a l' /\ tgood t l') by (intros a b _ G (X & Y); split; [apply (goes_trans _ _ _ G X)|exact Y]). specialize (AND l l2 (fun _ => True) K1).
  destruct (((c =? 36) || (c =? 64)) && negb (lx_exp l2)).
  - destruct (read_name (S (size l2)) [] l2) as [r| |] eqn:R; cbn [bind] in H; try discriminate. pose proof (read_name_nul _ _ _ _ R (proj1 K1)) as RN. destruct r as [[t2 l3]|[n l3]]; [apply OK_inj in H; injection H as <- <-; apply AND, RN|].
    apply AND. destruct (symget n (lx_syms l3)) as [v|] eqn:SG; [|destruct (too_long_nul _ _ _ H (proj1 RN)) as (T1 & T2); split; [apply (goes_trans _ _ _ RN T1)|exact T2]].
    pose proof RN as (RN1 & RN2). destruct RN1 as (A & B & CC). pose proof (symget_in _ _ _ nonul CC SG) as NV. destruct (c =? 36); [apply OK_inj in H; injection H as <- <-; split; [exact RN|exact NV]|].
    assert (CL : lclean (set_text (START_EXPAND :: unget v ++ DONE_EXPAND :: text l3) (lx_exp l3) l3)).
    { split; [|split; [exact B|exact CC]]. cbn [text set_text set_cur lx_cur lf_text]. apply nonul_cons; [discriminate|]. apply nonul_app; [intros I; apply unget_in in I; exact (NV I)|]. apply nonul_cons; [discriminate|exact A]. }
    destruct (IH _ _ _ H CL) as (I1 & I2). split; [|exact I2]. split; [apply I1|]. destruct I1 as (_ & I1). rewrite set_text_tot in I1. lia.
  - apply AND. destruct ((c =? 39) || (c =? 34)); [apply (read_quoted_nul c NC _ _ _ _ _ H (proj1 K1)); intros []|]. destruct ((c =? 45) || is_digit c); [apply (read_number_nul c _ _ _ NC H (proj1 K1))|apply (read_other_nul c _ _ _ NC H (proj1 K1))].
Qed.
Lemma yylex_nul l t l' : yylex l = OK (t, l') -> lclean l -> goes l l' /\ tgood t l'.
Proof. apply yylex_top_nul. Qed.
Lemma symset_nul n v p t : nonul v -> Forall (fun s => nonul (y_val s)) t -> Forall (fun s => nonul (y_val s)) (symset n v p t).
Proof.
  intros NV F. unfold symset. assert (A : forall t, Forall (fun s => nonul (y_val s)) t -> Forall (fun s => nonul (y_val s)) (t ++ [mkSym n v p])) by (intros u U; apply Forall_app; split; [exact U|constructor; [exact NV|constructor]]).
  assert (D : Forall (fun s => nonul (y_val s)) (symdel n t)). { clear - F. induction F as [|s t S F IH]; cbn [symdel]; [constructor|]. destruct (leqb (y_name s) n); [exact F|constructor; assumption]. }
  destruct (symfind n t) as [s|]; [destruct (y_persist s); auto|auto].
Qed.
