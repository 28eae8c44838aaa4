(** Lemmas about Tls.v *)
From Coq Require Import Lia.
From Verif Require Import Base BaseLemmas Compat Conf Config Server Tls TlsSpec.
Local Open Scope N_scope.

Lemma lower_same a b : to_lower a = to_lower b <-> same_letter a b.
Proof.
  unfold to_lower, is_upper, same_letter.
  destruct (N.leb_spec 65 a), (N.leb_spec a 90), (N.leb_spec 65 b), (N.leb_spec b 90); cbn [andb]; split; intros; lia.
Qed.
Lemma caseeq_same a : forall b, strcaseeq a b = true <-> same_name a b.
Proof.
  unfold strcaseeq, same_name. induction a as [|x a IH]; intros [|y b]; cbn [map].
  - split; [constructor|reflexivity].
  - split; [discriminate|intros H; inversion H].
  - split; [discriminate|intros H; inversion H].
  - rewrite leqb_eq. specialize (IH b). rewrite leqb_eq in IH. split.
    + intros H. injection H as H1 H2. constructor; [apply lower_same; exact H1|apply IH; exact H2].
    + intros H. inversion H; subst. f_equal; [apply lower_same; assumption|apply IH; assumption].
Qed.
Lemma caseeq_false a b : strcaseeq a b = false -> ~ same_name a b.
Proof. intros H X. apply caseeq_same in X. congruence. Qed.

Lemma strchr_some x s t : strchr x s = Some t -> exists h t', s = h ++ t /\ t = x :: t' /\ ~ In x h.
Proof.
  revert t. induction s as [|c s IH]; cbn [strchr]; intros t; [discriminate|].
  destruct (N.eqb_spec c x) as [->|NE].
  - intros H. injection H as <-. exists [], s. split; [reflexivity|]. split; [reflexivity|intros []].
  - intros H. destruct (IH t H) as (h & t' & -> & -> & NI). exists (c :: h), t'. split; [reflexivity|]. split; [reflexivity|].
    intros [E|E]; [congruence|auto].
Qed.
Lemma strchr_none x s : strchr x s = None -> ~ In x s.
Proof.
  induction s as [|c s IH]; cbn [strchr]; intros H; [intros []|]. destruct (N.eqb_spec c x); [discriminate|]. intros [E|E]; [congruence|apply IH; auto].
Qed.
Lemma strchr_app x h t : ~ In x h -> strchr x (h ++ x :: t) = Some (x :: t).
Proof.
  induction h as [|c h IH]; intros NI; cbn [strchr app]; [rewrite N.eqb_refl; reflexivity|].
  destruct (N.eqb_spec c x) as [->|NE]; [destruct NI; left; reflexivity|]. apply IH. intros E; apply NI; right; exact E.
Qed.

Lemma same_letter_dot a : same_letter 46 a -> a = 46. Proof. unfold same_letter. lia. Qed.
Lemma hd_dot h t : ~ In 46 h -> h <> [] -> hd 0 (h ++ t) <> 46.
Proof. destruct h as [|a h]; [congruence|]. cbn. intros H _ E. apply H. left. exact E. Qed.

Lemma match_name_covers p name : tls_match_name p name = true <-> covers p name.
Proof.
  unfold tls_match_name, covers. destruct (strcaseeq p name) eqn:CE.
  { apply caseeq_same in CE. split; auto. }
  apply caseeq_false in CE.
  assert (R : forall b : bool, ((b = true) <-> exists d host d', p = 42 :: 46 :: d /\ two_labels d /\ name = host ++ 46 :: d' /\ host <> [] /\ ~ In 46 host /\ same_name d d') ->
     (b = true <-> same_name p name \/ exists d host d', p = 42 :: 46 :: d /\ two_labels d /\ name = host ++ 46 :: d' /\ host <> [] /\ ~ In 46 host /\ same_name d d')) by (intros; tauto).
  apply R. clear R CE.
  destruct p as [|c p]; [split; [discriminate|intros (? & ? & ? & X & _); discriminate]|].
  destruct (N.eq_dec c 42) as [->|NC].
  2:{ replace (match c with 42 => _ | _ => _ end) with false.
      2:{ destruct c as [|c]; [reflexivity|]. do 6 (try (destruct c as [c|c|]; try reflexivity)); congruence. }
      split; [discriminate|intros (? & ? & ? & X & _); congruence]. }
  destruct p as [|c p]; [split; [discriminate|intros (? & ? & ? & X & _); discriminate]|].
  destruct (N.eq_dec c 46) as [->|NC].
  2:{ replace (match c with 46 => _ | _ => _ end) with false.
      2:{ destruct c as [|c]; [reflexivity|]. do 6 (try (destruct c as [c|c|]; try reflexivity)); congruence. }
      split; [discriminate|intros (? & ? & ? & X & _); congruence]. }
  destruct (N.eqb_spec (hd 0 p) 46) as [HD|HD].
  { split; [discriminate|]. intros (d & h & d' & E & (x & y & -> & X1 & X2 & _) & _). injection E as ->. exfalso. eapply hd_dot; eauto. }
  destruct (strchr 46 p) as [nd|] eqn:SC.
  2:{ apply strchr_none in SC. split; [discriminate|]. intros (d & h & d' & E & (x & y & -> & X1 & X2 & _) & _). injection E as ->. exfalso. apply SC, in_or_app. right. left. reflexivity. }
  apply strchr_some in SC as (x & y & -> & -> & NX). cbn [tl].
  destruct (N.eqb_spec (hd 0 y) 46) as [HY|HY].
  { split; [discriminate|]. intros (d & h & d' & E & (x' & y' & E2 & X1 & X2 & X3) & _). injection E as E. subst d.
    exfalso. assert (S1 : strchr 46 (x ++ 46 :: y) = Some (46 :: y)) by (apply strchr_app; exact NX).
    rewrite E2, strchr_app in S1 by exact X2. injection S1 as ->. congruence. }
  assert (XN : x <> []) by (intros ->; apply HD; reflexivity).
  destruct (N.eqb_spec (hd 0 name) 46) as [HN|HN].
  { split; [discriminate|]. intros (d & h & d' & _ & _ & -> & X1 & X2 & _). exfalso. eapply hd_dot; eauto. }
  destruct (strchr 46 name) as [dom|] eqn:SN.
  2:{ apply strchr_none in SN. split; [discriminate|]. intros (d & h & d' & _ & _ & -> & _). exfalso. apply SN, in_or_app. right. left. reflexivity. }
  apply strchr_some in SN as (h & dd & -> & -> & NH).
  assert (HNE : h <> []) by (intros ->; apply HN; reflexivity).
  assert (U : forall h2 d2, h ++ 46 :: dd = h2 ++ 46 :: d2 -> ~ In 46 h2 -> dd = d2).
  { intros h2 d2 E N2. assert (S1 : strchr 46 (h ++ 46 :: dd) = Some (46 :: dd)) by (apply strchr_app; exact NH).
    rewrite E, strchr_app in S1 by exact N2. congruence. }
  destruct (Nat.eqb_spec (length (46 :: dd)) 1) as [L1|L1].
  { split; [discriminate|]. intros (d & h2 & d2 & E & _ & E2 & _ & N2 & SD). exfalso. injection E as <-. apply U in E2; [|exact N2]. subst d2.
    destruct dd; [|cbn in L1; lia]. inversion SD as [X|]. destruct x; discriminate. }
  rewrite caseeq_same. split.
  - intros H. inversion H as [|? ? ? ? _ SD]; subst. exists (x ++ 46 :: y), h, dd. split; [reflexivity|].
    split; [exists x, y; auto|]. repeat (split; [auto|]). exact SD.
  - intros (d & h2 & d2 & E & _ & E2 & _ & N2 & SD). injection E as <-. apply U in E2; [|exact N2]. subst d2. constructor; [left; reflexivity|exact SD].
Qed.

Section Check.
Context (pton : list N -> option (list N)).

Lemma existsb_nul l : existsb (N.eqb 0) l = true <-> In 0 l.
Proof. rewrite existsb_exists. split; [intros (x & I & E); apply N.eqb_eq in E; subst; exact I|intros I; exists 0; auto]. Qed.

Lemma check_alts_seen name : forall l s m ex, check_alts pton name l s = Some (m, ex) ->
  ex = true <-> (s = true \/ m = true \/ exists a, In a l /\ a <> AOther).
Proof.
  induction l as [|a l IH]; intros s m ex; cbn [check_alts].
  - intros H. injection H as <- <-. split; [auto|]. intros [H|[H|(a & [] & _)]]; [exact H|discriminate].
  - assert (Go : forall s', check_alts pton name l s' = Some (m, ex) -> (s' = true \/ a = AOther /\ s' = s) -> ex = true <-> (s = true \/ m = true \/ exists a0, In a0 (a :: l) /\ a0 <> AOther) \/ (s' = true /\ ex = true)).
    { intros s' H W. rewrite (IH s' m ex H). split.
      - intros [E|[E|(b & B1 & B2)]]; [|tauto|left; right; right; exists b; split; [right; exact B1|exact B2]].
        destruct W as [_|(W1 & ->)]; [right; split; [exact E|left; exact E]|left; left; exact E].
      - intros [[E|[E|(b & [B1|B1] & B2)]]|[E _]].
        + destruct W as [W|(_ & ->)]; auto.
        + auto.
        + subst b. destruct W as [W|(W & _)]; [auto|congruence].
        + right; right; exists b; auto.
        + auto. }
    assert (Fin : forall s', check_alts pton name l s' = Some (m, ex) -> (s' = true /\ a <> AOther \/ a = AOther /\ s' = s) -> ex = true <-> (s = true \/ m = true \/ exists a0, In a0 (a :: l) /\ a0 <> AOther)).
    { intros s' H W. rewrite (Go s' H ltac:(tauto)). split; [|tauto]. intros [X|[X Y]]; [exact X|].
      destruct W as [(_ & W)|(_ & ->)]; [right; right; exists a; split; [left; reflexivity|exact W]|left; exact X]. }
    assert (St : Some (true, true) = Some (m, ex) -> a <> AOther -> ex = true <-> (s = true \/ m = true \/ exists a0, In a0 (a :: l) /\ a0 <> AOther)).
    { intros H _. injection H as <- <-. tauto. }
    destruct a as [ia5 d|d|].
    + assert (D : ADns ia5 d <> AOther) by discriminate. destruct (pton name); [intros H; eapply Fin; eauto|].
      destruct (negb ia5); [intros H; eapply Fin; eauto|]. destruct (existsb _ d); [discriminate|]. destruct (leqb d [32]); [discriminate|].
      destruct (tls_match_name d name); [intros H; apply St; assumption|intros H; eapply Fin; eauto].
    + assert (D : AIp d <> AOther) by discriminate. destruct (pton name) as [ad|]; [|intros H; eapply Fin; eauto].
      destruct (leqb d ad); [intros H; apply St; assumption|intros H; eapply Fin; eauto].
    + intros H. eapply Fin; eauto.
Qed.

Lemma check_alts_match name : forall l s m ex, check_alts pton name l s = Some (m, ex) ->
  m = true <-> match pton name with
               | None => exists d, In (ADns true d) l /\ covers d name
               | Some a => In (AIp a) l
               end.
Proof.
  induction l as [|a l IH]; intros s m ex; cbn [check_alts].
  - intros H. injection H as <- <-. split; [discriminate|]. destruct (pton name); [intros []|intros (d & [] & _)].
  - assert (Sk : forall s', match pton name with None => (forall d, a = ADns true d -> ~ covers d name) | Some x => a <> AIp x end ->
        check_alts pton name l s' = Some (m, ex) -> m = true <-> match pton name with
               | None => exists d, In (ADns true d) (a :: l) /\ covers d name
               | Some x => In (AIp x) (a :: l) end).
    { intros s' NA H. rewrite (IH s' m ex H). destruct (pton name) as [x|].
      - split; [right; assumption|]. intros [E|E]; [congruence|exact E].
      - split; intros (d & I & C); [exists d; split; [right; exact I|exact C]|]. destruct I as [I|I]; [destruct (NA d I C)|exists d; auto]. }
    destruct a as [ia5 d|d|].
    + destruct (pton name) as [x|] eqn:PT; [apply Sk; discriminate|]. destruct ia5; cbn [negb]; [|apply Sk; discriminate].
      destruct (existsb _ d); [discriminate|]. destruct (leqb d [32]); [discriminate|]. destruct (tls_match_name d name) eqn:TM.
      * intros H. injection H as <- <-. apply match_name_covers in TM. split; [|reflexivity]. intros _. exists d. split; [left; reflexivity|exact TM].
      * apply Sk. intros d' E. injection E as <-. intros C. apply match_name_covers in C. congruence.
    + destruct (pton name) as [x|] eqn:PT; [|apply Sk; discriminate]. destruct (leqb d x) eqn:L.
      * apply leqb_eq in L. subst. intros H. injection H as <- <-. split; [left; reflexivity|reflexivity].
      * apply Sk. intros E. injection E as ->. rewrite leqb_refl in L. discriminate.
    + apply Sk. destruct (pton name); discriminate.
Qed.

Lemma check_name_certified c name m : tls_check_name pton c name = Some m -> (m = true <-> certified (pton name) c name).
Proof.
  unfold tls_check_name, tls_check_subject_altname, certified.
  destruct (x_alts c) as [[l|]|] eqn:XA; [| discriminate|].
  - destruct (check_alts pton name l false) as [[m0 ex]|] eqn:CA; [|discriminate].
    pose proof (check_alts_match _ _ _ _ _ CA) as CM. pose proof (check_alts_seen _ _ _ _ _ CA) as CS.
    assert (LS : lists_some c <-> exists a, In a l /\ a <> AOther).
    { unfold lists_some, listed. split.
      - intros [(i & d & l' & E & I)|(d & l' & E & I)]; rewrite XA in E; injection E as <-; eexists; (split; [exact I|discriminate]).
      - intros ([i d|d|] & I & NO); [left; exists i, d, l; auto|right; exists d, l; auto|congruence]. }
    assert (LD : forall a, listed c a <-> In a l).
    { intros a. unfold listed. split; [intros (l' & E & I); rewrite XA in E; injection E as <-; exact I|intros I; exists l; auto]. }
    destruct (m0 || ex) eqn:ME.
    + intros H. injection H as ->. rewrite CM. assert (EX : lists_some c).
      { apply LS. apply orb_true_iff in ME as [ME|ME].
        - subst m. destruct (pton name) as [a|]; [assert (I : In (AIp a) l) by (apply CM; reflexivity); exists (AIp a); split; [exact I|discriminate]|].
          assert (I : exists d, In (ADns true d) l /\ covers d name) by (apply CM; reflexivity). destruct I as (d & I & _). exists (ADns true d). split; [exact I|discriminate].
        - subst ex. assert (X : false = true \/ m = true \/ exists a, In a l /\ a <> AOther) by (apply CS; reflexivity).
          destruct X as [X|[X|X]]; [discriminate| |exact X]. subst m. destruct (pton name) as [a|].
          + assert (I : In (AIp a) l) by (apply CM; reflexivity). exists (AIp a). split; [exact I|discriminate].
          + assert (I : exists d, In (ADns true d) l /\ covers d name) by (apply CM; reflexivity). destruct I as (d & I & _). exists (ADns true d). split; [exact I|discriminate]. }
      destruct (pton name) as [a|].
      * rewrite LD. tauto.
      * split; [intros (d & I & C); left; exists d; rewrite LD; auto|]. intros [(d & I & C)|(N & _)]; [exists d; rewrite <- LD; auto|tauto].
    + apply orb_false_iff in ME as [-> ->]. assert (NE : ~ lists_some c). { rewrite LS. intros X. assert (false = true) by (apply CS; auto). discriminate. }
      assert (NM : ~ match pton name with None => exists d, In (ADns true d) l /\ covers d name | Some a => In (AIp a) l end).
      { intros X. apply CM in X. discriminate. }
      unfold tls_check_common_name. destruct (x_cns c) as [|[cn|] [|]]; try discriminate.
      * intros H. injection H as <-. split; [discriminate|]. destruct (pton name) as [a|].
        -- rewrite LD. intros [X|(_ & X)]; [tauto|discriminate].
        -- intros [(d & I & C)|(_ & cn & X & _)]; [exfalso; apply NM; exists d; rewrite <- LD; auto|discriminate].
      * destruct (_ || _); [discriminate|]. destruct (existsb _ cn); [discriminate|]. destruct (pton name) as [a|].
        -- intros H. injection H as <-. rewrite leqb_eq, LD. split; [intros ->; right; auto|]. intros [X|(_ & X)]; [tauto|congruence].
        -- intros H. injection H as <-. rewrite match_name_covers. split; [intros C; right; split; [exact NE|exists cn; auto]|].
           intros [(d & I & C)|(_ & cn' & X & C)]; [exfalso; apply NM; exists d; rewrite <- LD; auto|injection X as <-; exact C].
  - assert (NE : ~ lists_some c).
    { unfold lists_some, listed. intros [(i & d & l' & E & I)|(d & l' & E & I)]; rewrite XA in E; discriminate. }
    assert (LD : forall a, ~ listed c a) by (intros a (l' & E & I); rewrite XA in E; discriminate).
    cbn [orb]. unfold tls_check_common_name. destruct (x_cns c) as [|[cn|] [|]]; try discriminate.
    + intros H. injection H as <-. split; [discriminate|]. destruct (pton name) as [a|].
      * intros [X|(_ & X)]; [destruct (LD _ X)|discriminate].
      * intros [(d & I & C)|(_ & cn & X & _)]; [destruct (LD _ I)|discriminate].
    + destruct (_ || _); [discriminate|]. destruct (existsb _ cn); [discriminate|]. destruct (pton name) as [a|].
      * intros H. injection H as <-. rewrite leqb_eq. split; [intros ->; right; auto|]. intros [X|(_ & X)]; [destruct (LD _ X)|congruence].
      * intros H. injection H as <-. rewrite match_name_covers. split; [intros C; right; split; [exact NE|exists cn; auto]|].
        intros [(d & I & C)|(_ & cn' & X & C)]; [destruct (LD _ I)|injection X as <-; exact C].
Qed.

Lemma check_alts_sound name : forall l s, (forall d, In (ADns true d) l -> ~ In 0 d /\ d <> [32]) -> check_alts pton name l s <> None.
Proof.
  induction l as [|a l IH]; intros s W; cbn [check_alts]; [discriminate|].
  assert (W' : forall d, In (ADns true d) l -> ~ In 0 d /\ d <> [32]) by (intros; apply W; right; assumption).
  destruct a as [[] d|d|]; try (destruct (pton name); apply IH; exact W'); try (apply IH; exact W').
  - destruct (pton name); [apply IH; exact W'|]. cbn [negb]. destruct (W d (or_introl eq_refl)) as (W1 & W2).
    destruct (existsb (N.eqb 0) d) eqn:EX; [apply existsb_nul in EX; contradiction|].
    destruct (leqb d [32]) eqn:L; [apply leqb_eq in L; contradiction|]. destruct (tls_match_name d name); [discriminate|apply IH; exact W'].
  - destruct (pton name) as [x|]; [|apply IH; exact W']. destruct (leqb d x); [discriminate|apply IH; exact W'].
Qed.
Lemma check_name_sound c name : sound c -> tls_check_name pton c name <> None.
Proof.
  intros (S1 & S2 & S3). unfold tls_check_name, tls_check_subject_altname.
  assert (CN : tls_check_common_name pton c name <> None).
  { unfold tls_check_common_name. destruct S3 as [->|(cn & -> & L & N0)]; [discriminate|].
    destruct (Nat.ltb_spec (length cn) 1); [lia|]. destruct (Nat.ltb_spec 64 (length cn)); [lia|]. cbn [orb].
    destruct (existsb (N.eqb 0) cn) eqn:EX; [apply existsb_nul in EX; contradiction|]. destruct (pton name); discriminate. }
  destruct (x_alts c) as [[l|]|] eqn:XA; [|congruence|cbn; exact CN].
  assert (CA : check_alts pton name l false <> None). { apply check_alts_sound. intros d I. apply S2. exists l. auto. }
  destruct (check_alts pton name l false) as [[m ex]|]; [|congruence]. destruct (m || ex); [discriminate|exact CN].
Qed.
End Check.
