(** Proofs about titan.c; statements in Prop_Titan.v. *)
From Verif Require Import Base BaseLemmas Compat Compat_Proofs Prop_Compat Fmt Prop_Fmt Iri IriSpec IriObs IriOut IriOutSpec
  Iri_Proofs Iri_Grammar_Proofs Iri_Proofs3 Iri_Final_Proofs IriOut_Proofs Prop_IriOut Titan TitanSpec.
Local Open Scope N_scope.

(** ** the multiplexer *)
Lemma app_split {A} n (l : list A) r : skipn n l = r -> l = firstn n l ++ r.
Proof. intros <-. symmetry. apply firstn_skipn. Qed.

Lemma pair3 {A B C} (a a' : A) (b b' : B) (c c' : C) : (a, b, c) = (a', b', c') -> a = a' /\ b = b' /\ c = c'.
Proof. intros H. inversion H. auto. Qed.

Lemma write_prefix : forall s in_ r w s', iomux_write in_ s = (r, w, s') -> exists q, in_ = w ++ q /\ (r = Back (Some []) -> q = []) /\ (forall x, r = Back (Some x) -> x = []).
Proof.
  induction s as [|t s IH]; intros in_ r w s' H; cbn [iomux_write] in H.
  { inversion H. exists in_. repeat split; congruence. }
  destruct (t_poll t); [|inversion H; exists in_; repeat split; congruence|inversion H; exists in_; repeat split; congruence].
  destruct in_ as [|c in_]; [inversion H; exists []; repeat split; congruence|].
  destruct (t_write t) as [| | |n]; [eauto|inversion H; exists (c :: in_); repeat split; congruence|inversion H; exists (c :: in_); repeat split; congruence|].
  destruct (iomux_write (skipn (S n) (c :: in_)) s) as [[r0 w0] s0] eqn:E. cbn [sent_first] in H. apply pair3 in H; destruct H as (? & ? & ?); subst.
  apply IH in E. destruct E as (q & E & Q). exists q. split; [|exact Q]. rewrite <- app_assoc. rewrite <- E. symmetry. apply firstn_skipn.
Qed.

Lemma write_all : forall s in_, Forall (fun t => t_poll t = Pready /\ t_write t <> Werr /\ t_write t <> Wzero) s ->
  (length in_ < takes s)%nat -> exists s', iomux_write in_ s = (Back (Some []), in_, s').
Proof.
  induction s as [|t s IH]; intros in_ F T; cbn [takes] in T; [lia|]. inversion F as [|? ? (P & E & Z) F']; subst. cbn [iomux_write]. rewrite P.
  destruct in_ as [|c in_]; [eauto|].
  destruct (t_write t) as [| | |n]; [apply IH; auto|congruence|congruence|].
  destruct (IH (skipn (S n) (c :: in_)) F') as (s' & ->).
  { rewrite skipn_length. cbn [length] in *. lia. }
  exists s'. cbn [sent_first]. rewrite firstn_skipn. reflexivity.
Qed.

Lemma mux_prefix : forall s in_ got o r w s', iomux in_ got o s = (r, w, s') -> exists q, in_ = w ++ q.
Proof.
  induction s as [|t s IH]; intros in_ got o r w s' H; cbn [iomux] in H.
  { inversion H. exists in_. reflexivity. }
  destruct (t_poll t); [|inversion H; exists in_; reflexivity|inversion H; exists in_; reflexivity].
  assert (K : forall got o (r0 : rres), match got with
      | [] => match in_ with [] => iomux in_ got o s | _ => match t_write t with Wwant => iomux in_ got o s | Werr | Wzero => (Back None, [], s)
          | Wtook n => sent_first (firstn (S n) in_) (iomux (skipn (S n) in_) got o s) end end
      | _ :: _ => iomux in_ got o s end = (r, w, s') -> exists q, in_ = w ++ q).
  { clear H. intros g o' _ H. destruct g; [|eauto]. destruct in_ as [|c in_]; [eauto|].
    destruct (t_write t) as [| | |n]; [eauto|inversion H; eexists; reflexivity|inversion H; eexists; reflexivity|].
    destruct (iomux (skipn (S n) (c :: in_)) [] o' s) as [[r0 w0] s0] eqn:E. cbn [sent_first] in H. apply pair3 in H; destruct H as (? & ? & ?); subst.
    apply IH in E. destruct E as (q & E). exists q. rewrite <- app_assoc. rewrite <- E. symmetry. apply firstn_skipn. }
  destruct (t_read t) eqn:R; try (inversion H; exists in_; reflexivity); eapply K; try exact Reof; exact H.
Qed.

(** what it returns when it returns bytes *)
Lemma firstn_more (g d : list N) (n : nat) (b : list N) : (length g <= n)%nat ->
  firstn n ((g ++ firstn (n - length g) b) ++ d) = firstn n (g ++ b ++ d).
Proof.
  intros L. rewrite <- app_assoc. rewrite !(firstn_app n g). f_equal. rewrite !(firstn_app (n - length g)).
  rewrite firstn_firstn. rewrite Nat.min_id. f_equal. rewrite firstn_length.
  destruct (Nat.le_gt_cases (length b) (n - length g)) as [Q|Q]; f_equal; lia.
Qed.

Lemma mux_back : forall s in_ got r w s', (length got <= RESBUF)%nat -> iomux in_ got (RESBUF - length got) s = (Back (Some r), w, s') ->
  r <> [] /\ exists rep, answers s rep /\ r = firstn RESBUF (got ++ rep).
Proof.
  induction s as [|t s IH]; intros in_ got r w s' L H; cbn [iomux] in H; [discriminate|].
  destruct (t_poll t); [|discriminate..].
  assert (K : forall in_ got' w, (length got' <= RESBUF)%nat -> iomux in_ got' (RESBUF - length got') s = (Back (Some r), w, s') ->
     t_read t <> Rerr -> t_read t <> Reof -> got' = got ++ firstn (RESBUF - length got) (delivers t) ->
     r <> [] /\ exists rep, answers (t :: s) rep /\ r = firstn RESBUF (got ++ rep)).
  { clear H. intros i g' w0 L' H N1 N2 G. apply IH in H; [|exact L']. destruct H as (NE & rep & A & R). split; [exact NE|].
    destruct A as [a u b F U]. exists (concat (map delivers (t :: a))). split.
    - change (t :: a ++ u :: b) with ((t :: a) ++ u :: b). constructor; [constructor; auto|exact U].
    - rewrite R, G. cbn [map concat]. rewrite firstn_more by exact L. reflexivity. }
  assert (Lg : forall x, (length (got ++ firstn (RESBUF - length got) x) <= RESBUF)%nat).
  { intros x. rewrite app_length, firstn_length. lia. }
  assert (M : forall d, delivers t = d -> (d = [] -> t_read t = Rwant) -> forall g o, g = got ++ firstn (RESBUF - length got) d ->
     o = (RESBUF - length got - length (firstn (RESBUF - length got) d))%nat -> t_read t <> Rerr -> t_read t <> Reof ->
     match g with
      | [] => match in_ with [] => iomux in_ g o s | _ => match t_write t with Wwant => iomux in_ g o s | Werr | Wzero => (Back None, [], s)
          | Wtook n => sent_first (firstn (S n) in_) (iomux (skipn (S n) in_) g o s) end end
      | _ :: _ => iomux in_ g o s end = (Back (Some r), w, s') ->
     r <> [] /\ exists rep, answers (t :: s) rep /\ r = firstn RESBUF (got ++ rep)).
  { clear H. intros d D _ g o G O N1 N2 H.
    assert (O' : o = (RESBUF - length g)%nat). { rewrite O, G, app_length. lia. }
    assert (Lg' : (length g <= RESBUF)%nat) by (rewrite G; apply Lg).
    rewrite <- D in G.
    destruct g as [|g0 g].
    - rewrite O' in H. destruct in_ as [|c in_]; [eapply (K [] []); eauto|].
      destruct (t_write t) as [| | |n]; [eapply (K _ []); eauto|discriminate|discriminate|].
      destruct (iomux (skipn (S n) (c :: in_)) [] (RESBUF - length (@nil N)) s) as [[r0 w0] s0] eqn:E. cbn [sent_first] in H. apply pair3 in H; destruct H as (? & ? & ?); subst.
      eapply (K _ []); eauto.
    - rewrite O' in H. eapply (K in_ (g0 :: g)); eauto. }
  destruct (t_read t) eqn:R.
  - eapply (M []); [unfold delivers; rewrite R; reflexivity|reflexivity|rewrite firstn_nil; reflexivity|rewrite firstn_nil; reflexivity|congruence|congruence|exact H].
  - discriminate.
  - destruct got as [|g0 g]; [discriminate|]. inversion H; subst. split; [discriminate|].
    exists []. split; [apply (an [] t s'); [constructor|exact R]|]. rewrite app_nil_r, firstn_all2; [reflexivity|exact L].
  - eapply (M (b :: bs)); [unfold delivers; rewrite R; reflexivity|discriminate|reflexivity|reflexivity|congruence|congruence|exact H].
Qed.

Lemma mux_answered : forall s rep, calmly_answers s rep -> forall in_ got, (length got <= RESBUF)%nat ->
  exists w s', iomux in_ got (RESBUF - length got) s = (Back (match firstn RESBUF (got ++ rep) with [] => None | g => Some g end), w, s').
Proof.
  intros s rep H. destruct H as [a t b F P R]. induction F as [|u a (Pu & W1 & W2 & R1 & R2) F IH]; intros in_ got L.
  - cbn [app iomux]. rewrite P, R. cbn [map concat]. rewrite app_nil_r, firstn_all2 by exact L. destruct got; eauto.
  - change ((u :: a) ++ t :: b) with (u :: (a ++ t :: b)). cbn [iomux]. rewrite Pu.
    assert (M : forall d, delivers u = d -> forall g o, g = got ++ firstn (RESBUF - length got) d ->
      o = (RESBUF - length got - length (firstn (RESBUF - length got) d))%nat ->
      exists w s', match g with
      | [] => match in_ with [] => iomux in_ g o (a ++ t :: b) | _ => match t_write u with Wwant => iomux in_ g o (a ++ t :: b) | Werr | Wzero => (Back None, [], a ++ t :: b)
          | Wtook n => sent_first (firstn (S n) in_) (iomux (skipn (S n) in_) g o (a ++ t :: b)) end end
      | _ :: _ => iomux in_ g o (a ++ t :: b) end = (Back (match firstn RESBUF (got ++ concat (map delivers (u :: a))) with [] => None | g => Some g end), w, s')).
    { intros d D g o G O.
      assert (O' : o = (RESBUF - length g)%nat). { rewrite O, G, app_length. lia. }
      assert (Lg' : (length g <= RESBUF)%nat) by (rewrite G, app_length, firstn_length; lia).
      assert (Q : firstn RESBUF (got ++ concat (map delivers (u :: a))) = firstn RESBUF (g ++ concat (map delivers a))).
      { cbn [map concat]. rewrite D. rewrite <- firstn_more by exact L. rewrite <- G. reflexivity. }
      rewrite Q, O'. clear Q O O'. destruct g as [|g0 g].
      - destruct in_ as [|c in_]; [apply (IH [] []); exact Lg'|]. destruct (t_write u) as [| | |n]; [apply (IH _ []); exact Lg'|congruence|congruence|].
        destruct (IH (skipn (S n) (c :: in_)) [] Lg') as (w & s' & ->). cbn [sent_first]. eauto.
      - apply IH. exact Lg'. }
    destruct (t_read u) eqn:Ru; [|congruence|congruence|].
    + apply (M []); [unfold delivers; rewrite Ru; reflexivity|rewrite firstn_nil; reflexivity|rewrite firstn_nil; reflexivity].
    + apply (M (b0 :: bs)); [unfold delivers; rewrite Ru; reflexivity|reflexivity|reflexivity].
Qed.

Lemma mux_silent : forall s in_ o, Forall silent s -> exists w, iomux in_ [] o s = (Going, w, []) /\ ((length in_ <= takes s)%nat -> w = in_).
Proof.
  induction s as [|t s IH]; intros in_ o F.
  { exists []. split; [reflexivity|]. cbn. destruct in_; [reflexivity|cbn; lia]. }
  inversion F as [|? ? ((P & W1 & W2 & _ & _) & R) F']; subst. cbn [iomux takes]. rewrite P, R. cbn [app length].
  destruct in_ as [|c in_].
  { destruct (IH [] (o - 0)%nat F') as (w & E & Q). exists w. split; [exact E|]. intros _. apply Q. cbn. lia. }
  destruct (t_write t) as [| | |n]; [apply IH; exact F'|congruence|congruence|].
  destruct (IH (skipn (S n) (c :: in_)) (o - 0)%nat F') as (w & -> & Q). cbn [sent_first]. eexists. split; [reflexivity|].
  intros L. rewrite Q; [apply firstn_skipn|]. rewrite skipn_length. cbn [length] in *. lia.
Qed.

(** ** the reply *)
Lemma nul_at_first h : nonul h \/ exists x y, h = x ++ 0 :: y /\ nonul x.
Proof.
  induction h as [|c h IH]; [left; constructor|]. destruct (N.eq_dec c 0) as [->|C]; [right; exists [], h; split; [reflexivity|constructor]|].
  destruct IH as [IH|(x & y & -> & X)]; [left; constructor; auto|]. right. exists (c :: x), y. split; [reflexivity|constructor; auto].
Qed.

Lemma header_fun rep h h' : header rep h -> header rep h' -> h = h'.
Proof.
  intros H. remember rep as R eqn:ER. destruct H as [h b F L]. intros H2. remember (h ++ [13;10] ++ b) as R2 eqn:E2. destruct H2 as [h' b' F' L'].
  (* the shorter one would be an occurrence inside the other *)
  assert (K : forall (h h' b b' : list N), h' ++ [13;10] ++ b' = h ++ [13;10] ++ b -> (forall x y, h' ++ [13] <> x ++ [13;10] ++ y) -> (length h' <= length h)%nat).
  { clear. intros h h' b b' E F. destruct (Nat.le_gt_cases (length h') (length h)) as [L|L]; [exact L|]. exfalso.
    revert h' E F L. induction h as [|c h IH]; intros h' E F L.
    - destruct h' as [|d [|e h']]; cbn in L; [lia| |].
      + cbn in E. inversion E; subst. 
      + cbn in E. inversion E; subst. apply (F [] (h' ++ [13])). reflexivity.
    - destruct h' as [|d h']; [cbn in L; lia|]. cbn in E. inversion E; subst. apply (IH h' H1); [|cbn in L; lia].
      intros x y Q. apply (F (c :: x) y). cbn. f_equal. exact Q. }
  assert (Len : length h = length h').
  { apply Nat.le_antisymm; [eapply K; [symmetry; exact E2|exact F]|eapply K; [exact E2|exact F']]. }
  clear - E2 Len. revert h' E2 Len. induction h as [|c h IH]; intros [|d h'] E L; try discriminate; [reflexivity|].
  cbn in E. inversion E; subst. f_equal. apply IH; [assumption|cbn in L; lia].
Qed.

Lemma says_fun h c m c' m' : says h c m -> says h c' m' -> c = c' /\ m = m'.
Proof. intros (a & b & -> & _ & _ & ->) (a' & b' & E & _ & _ & ->). inversion E; subst. auto. Qed.

Lemma outcome_fun rep k o k' o' : outcome rep k o -> outcome rep k' o' -> k = k' /\ o = o'.
Proof.
  intros H H'.
  destruct H as [h c m Hd Hs Hc|h c m t Hd Hs Hc Hn Hm|h c m Hd Hs Hc|Hg]; destruct H' as [h' c' m' Hd' Hs' Hc'|h' c' m' t' Hd' Hs' Hc' Hn' Hm'|h' c' m' Hd' Hs' Hc'|Hg'];
    try (pose proof (header_fun _ _ _ Hd Hd'); subst h'; destruct (says_fun _ _ _ _ _ Hs Hs') as [? ?]; subst c' m');
    try (exfalso; lia); try (split; reflexivity);
    try (match goal with G : forall h code meta, header _ h -> _ |- _ => exfalso; match goal with D : header _ _, S : says _ _ _ |- _ => pose proof (G _ _ _ D S); lia end end).
  split; [reflexivity|]. f_equal.
  assert (K : forall t t' : list N, nonul t -> nonul t' -> (m = t \/ prefix (t ++ [0]) m) -> (m = t' \/ prefix (t' ++ [0]) m) -> cstr (m ++ [0]) = Some t).
  { intros a a' Na Na' [->|[r ->]] _; [apply cstr_nul; exact Na|]. rewrite <- !app_assoc. apply cstr_nul. exact Na. }
  pose proof (K t t' Hn Hn' Hm Hm') as E1. pose proof (K t' t Hn' Hn Hm' Hm) as E2. congruence.
Qed.

Lemma reply_outcome got junk : bytes (got ++ junk) -> (length got <= 1025)%nat ->
  exists k o, reply got junk = OK (k, o) /\ outcome got k o.
Proof.
  intros Hb HL. unfold reply.
  destruct (c40_memmem_first (got ++ junk) (length got) [13; 10] Hb ltac:(repeat constructor) ltac:(rewrite app_length; lia))
    as (r & -> & R). cbn [bind]. rewrite firstn_app, Nat.sub_diag, firstn_all in R. cbn [firstn] in R. rewrite app_nil_r in R.
  destruct r as [i|].
  2:{ exists 1%nat, []. split; [reflexivity|]. apply oc_garbage. intros h c m Hd. exfalso. destruct Hd as [h b _ _]. apply (R h b). reflexivity. }
  destruct R as [(h & b & E & Li) Fi]. subst i.
  assert (Hd : header got h).
  { rewrite E. constructor.
    - intros x y Q. specialize (Fi x). apply (f_equal (fun l => l ++ [10] ++ b)) in Q.
      rewrite <- !app_assoc in Q. cbn [app] in Q. specialize (Fi (y ++ 10 :: b)). rewrite E in Fi. cbn [app] in Fi. specialize (Fi Q).
      assert (Lx : (length h + 1 = length x + 2 + length y)%nat).
      { apply (f_equal (@length N)) in Q. rewrite !app_length in Q. cbn [length] in Q. rewrite app_length in Q. cbn [length] in Q. lia. }
      lia.
    - rewrite E, !app_length in HL. cbn [length] in HL. lia. }
  assert (Ew : wr (got ++ junk) (length h) 0 = OK (h ++ 0 :: 10 :: b ++ junk)).
  { unfold wr. rewrite E. replace (Nat.ltb (length h) (length ((h ++ [13; 10] ++ b) ++ junk))) with true.
    2:{ symmetry. apply Nat.ltb_lt. rewrite !app_length. cbn [length]. lia. }
    rewrite <- !app_assoc. rewrite firstn_pre by reflexivity. cbn [app].
    rewrite (app_assoc h [13] (10 :: b ++ junk) : h ++ 13 :: 10 :: b ++ junk = _). rewrite skipn_pre by (rewrite app_length; cbn [length]; lia). reflexivity. }
  rewrite Ew. cbn [bind]. unfold parse_response, rd. clear Ew Fi.
  assert (D : forall c, digit_ok c = is_digit c) by reflexivity.
  assert (G : forall c m, says h c m -> False -> outcome got 1 []) by tauto.
  assert (Ng : (forall c m, ~ says h c m) -> outcome got 1 []).
  { intros Q. apply oc_garbage. intros h' c m Hd'. rewrite <- (header_fun _ _ _ Hd Hd'). intros S. destruct (Q _ _ S). }
  destruct h as [|d1 h].
  { cbn. exists 1%nat, []. split; [reflexivity|]. apply Ng. intros c m (x & y & Q & _). discriminate. }
  cbn [app nth_error bind]. rewrite D. destruct (is_digit d1) eqn:D1; cbn [negb].
  2:{ exists 1%nat, []. split; [reflexivity|]. apply Ng. intros c m (x & y & Q & ? & _). inversion Q; subst. congruence. }
  destruct h as [|d2 h].
  { cbn. exists 1%nat, []. split; [reflexivity|]. apply Ng. intros c m (x & y & Q & _). discriminate. }
  cbn [app nth_error bind]. rewrite D. destruct (is_digit d2) eqn:D2; cbn [negb].
  2:{ exists 1%nat, []. split; [reflexivity|]. apply Ng. intros c m (x & y & Q & ? & ? & _). inversion Q; subst. congruence. }
  destruct h as [|d3 h].
  { cbn. exists 1%nat, []. split; [reflexivity|]. apply Ng. intros c m (x & y & Q & _). discriminate. }
  cbn [app nth_error bind]. destruct (N.eqb_spec d3 32) as [->|D3]; cbn [negb].
  2:{ exists 1%nat, []. split; [reflexivity|]. apply Ng. intros c m (x & y & Q & ? & ? & _). inversion Q; subst. congruence. }
  set (code := (d1 - 48) * 10 + (d2 - 48)).
  assert (S : says (d1 :: d2 :: 32 :: h) code h).
  { exists d1, d2. repeat split; auto. }
  destruct ((code <? 10) || (70 <=? code)) eqn:C1.
  { exists 1%nat, []. split; [reflexivity|]. apply oc_garbage. intros h' c m Hd' S'. rewrite <- (header_fun _ _ _ Hd Hd') in S'.
    destruct (says_fun _ _ _ _ _ S S') as [<- _]. lia. }
  destruct ((20 <=? code) && (code <? 30)) eqn:C2.
  { exists 0%nat, []. split; [reflexivity|]. eapply oc_success; [exact Hd|exact S|lia]. }
  destruct ((30 <=? code) && (code <? 40)) eqn:C3.
  2:{ exists 2%nat, []. split; [reflexivity|]. eapply oc_refused; [exact Hd|exact S|lia]. }
  unfold cstr_at. cbn [skipn].
  destruct (nul_at_first h) as [Nh|(x & y & -> & Nx)].
  - rewrite cstr_nul by exact Nh. exists 0%nat, (h ++ [10]). split; [reflexivity|]. eapply oc_redirect; [exact Hd|exact S|lia|exact Nh|left; reflexivity].
  - rewrite <- app_assoc. cbn [app]. rewrite cstr_nul by exact Nx. exists 0%nat, (x ++ [10]). split; [reflexivity|].
    eapply oc_redirect; [exact Hd|exact S|lia|exact Nx|right]. exists y. rewrite <- app_assoc. reflexivity.
Qed.

(** an answer longer than the buffer: only its beginning counts *)
Lemma header_firstn rep h : header (firstn 1025 rep) h <-> header rep h.
Proof.
  split; intros H.
  - remember (firstn 1025 rep) as f. destruct H as [h b F L]. rewrite <- (firstn_skipn 1025 rep), <- Heqf. rewrite <- !app_assoc. constructor; assumption.
  - destruct H as [h b F L]. rewrite !app_assoc, firstn_app. rewrite firstn_all2 by (rewrite app_length; cbn [length]; lia).
    rewrite <- app_assoc. constructor; assumption.
Qed.
Lemma outcome_same_header r r' k o : (forall h, header r h <-> header r' h) -> outcome r k o -> outcome r' k o.
Proof.
  intros E H. destruct H as [h c m Hd Hs Hc|h c m t Hd Hs Hc Hn Hm|h c m Hd Hs Hc|Hg].
  - apply E in Hd. eapply oc_success; eauto.
  - apply E in Hd. eapply oc_redirect; eauto.
  - apply E in Hd. eapply oc_refused; eauto.
  - apply oc_garbage. intros h c m Hd. apply Hg. apply E. exact Hd.
Qed.
Lemma outcome_firstn rep k o : outcome (firstn 1025 rep) k o <-> outcome rep k o.
Proof. split; apply outcome_same_header; intros h; [|symmetry]; apply header_firstn. Qed.

(** ** the request *)
Lemma firstn_cat (len : nat) (F s : list N) : firstn len (firstn len F ++ s) = firstn len (F ++ s).
Proof.
  rewrite !firstn_app, firstn_firstn, Nat.min_id. f_equal. rewrite firstn_length.
  destruct (Nat.le_gt_cases (length F) len); [f_equal; lia|]. replace (len - length F)%nat with 0%nat by lia. replace (len - Nat.min len (length F))%nat with 0%nat by lia. reflexivity.
Qed.
Lemma cat_more b F s len : length b = len -> (0 < len)%nat -> cstr b = Some (firstn (len - 1) F) -> nonul s ->
  exists b', strlcat b (z s) len = OK ((Nat.min (len - 1) (length F) + length s)%nat, b') /\ length b' = len /\
             cstr b' = Some (firstn (len - 1) (F ++ s)).
Proof.
  intros Hl H0 Hc Hs. destruct (cat_step b _ s len Hl Hc ltac:(rewrite firstn_length; lia) Hs) as (b' & A & B & C).
  exists b'. rewrite firstn_length in A. split; [exact A|]. split; [exact B|]. rewrite C, firstn_cat. reflexivity.
Qed.

(** with a path that is not empty truncation is always reported *)
Lemma serialize_all c buf len : length buf = len -> (0 < len)%nat ->
  nonul (c_scheme c) -> nonul (c_host c) -> nonul (c_path c) -> nonul (c_query c) -> c_path c <> [] ->
  exists b, serialize_iri c buf len = OK (Nat.ltb (length (request_line c)) len, b) /\ length b = len /\
    cstr b = Some (firstn (len - 1) (request_line c)).
Proof.
  intros Hb H0 N1 N2 N3 N4 NP. unfold serialize_iri, request_line.
  assert (M1 : nonul (s2b "://")) by (repeat constructor; discriminate).
  assert (M2 : nonul (s2b "/")) by (repeat constructor; discriminate).
  assert (M3 : nonul (s2b "?")) by (repeat constructor; discriminate).
  destruct (c37_strlcpy (c_scheme c) [] buf len N1 ltac:(lia)) as (b1 & A1 & B1 & _ & D1).
  unfold z at 1. rewrite A1. cbn [bind]. specialize (D1 H0).
  destruct (cat_more b1 _ _ len ltac:(congruence) H0 D1 M1) as (b2 & A2 & B2 & D2). rewrite A2. cbn [bind].
  destruct (cat_more b2 _ _ len B2 H0 D2 N2) as (b3 & A3 & B3 & D3). rewrite A3. cbn [bind].
  destruct (cat_more b3 _ _ len B3 H0 D3 M2) as (b4 & A4 & B4 & D4). rewrite A4. cbn [bind].
  destruct (cat_more b4 _ _ len B4 H0 D4 N3) as (b5 & A5 & B5 & D5). rewrite A5. cbn [bind].
  assert (LP : (0 < length (c_path c))%nat) by (destruct (c_path c); [congruence|cbn; lia]).
  destruct (c_query c) as [|q0 q] eqn:Eq.
  - exists b5. split; [|split; [exact B5|]].
    + f_equal. f_equal. rewrite !app_length in *. cbn [length]. apply eq_true_iff_eq. rewrite !Nat.ltb_lt. lia.
    + rewrite app_nil_r. rewrite !app_assoc in *. exact D5.
  - destruct (cat_more b5 _ _ len B5 H0 D5 M3) as (b6 & A6 & B6 & D6). rewrite A6. cbn [bind].
    rewrite <- Eq in *. assert (LQ : (0 < length (c_query c))%nat) by (rewrite Eq; cbn; lia).
    destruct (cat_more b6 _ _ len B6 H0 D6 N4) as (b7 & A7 & B7 & D7). rewrite A7. cbn [bind].
    exists b7. split; [|split; [exact B7|]].
    + f_equal. f_equal. rewrite !app_length in *. apply eq_true_iff_eq. rewrite !Nat.ltb_lt. lia.
    + rewrite !app_assoc in *. exact D7.
Qed.

Lemma parse_junk ip6 s junk : nonul s -> bytes s ->
  exists b p, parse_iri ip6 (s ++ 0 :: junk) = OK (b, p) /\
    (b = true -> exists c, comps_of p = Some c /\ accepts ip6 s c) /\ (b = false -> forall c, ~ accepts ip6 s c).
Proof.
  intros Hn Hb. destruct (parse_iri_refines ip6 s junk Hn Hb) as (b & p & E & H). exists b, p. split; [exact E|].
  destruct (f_iri ip6 s) as [c|] eqn:F.
  - destruct H as [-> H]. split; [|discriminate]. intros _. exists c. split; [exact H|]. apply accepts_iff; auto. apply f_iri_iff; auto.
  - subst b. split; [discriminate|]. intros _ c A. apply accepts_iff in A; auto. apply f_iri_iff in A; auto. congruence.
Qed.
Lemma accepts_fun ip6 s c c' : accepts ip6 s c -> accepts ip6 s c' -> c = c'.
Proof. intros (p & E & C) (p' & E' & C'). congruence. Qed.
Lemma accepts_nonul ip6 s c : accepts ip6 s c -> nonul (c_scheme c) /\ nonul (c_host c) /\ nonul (c_path c) /\ nonul (c_query c).
Proof.
  intros (p & _ & C). unfold comps_of, cstr_at in C.
  repeat match type of C with context [match cstr ?x with _ => _ end] => destruct (cstr x) as [?|] eqn:?; [|discriminate] end.
  repeat match goal with H : cstr _ = Some _ |- _ => apply cstr_inv in H; destruct H as [H _] end.
  inversion C; subst; cbn. auto.
Qed.

Lemma digits_head : forall f n, n <> 0 -> n < 2 ^ N.of_nat f -> digits f n <> [] /\ hd 0 (digits f n) <> 48.
Proof.
  induction f as [|f IH]; intros n N0 B; [cbn in B; lia|]. cbn [digits]. destruct (N.ltb_spec n 10) as [L|L]; [split; [discriminate|cbn [hd]; lia]|].
  destruct (IH (n / 10)) as [A B'].
  - intros Q. apply N.div_small_iff in Q; lia.
  - rewrite Nat2N.inj_succ, N.pow_succ_r' in B. apply N.div_lt_upper_bound; lia.
  - destruct (digits f (n / 10)); [congruence|]. split; [discriminate|]. exact B'.
Qed.
Lemma dec_numeral n : numeral n (dec n).
Proof.
  destruct (dec_value n) as [V F]. split; [apply forallb_forall; rewrite Forall_forall in F; exact F|]. split; [exact V|].
  destruct (N.eq_dec n 0) as [->|N0]; [split; [discriminate|reflexivity]|].
  destruct (digits_head (S (N.to_nat (N.log2 n))) n N0) as [A B].
  { rewrite Nat2N.inj_succ, N2Nat.id. apply N.log2_lt_pow2; lia. }
  split; [exact A|]. intros Q. exfalso. apply B. exact Q.
Qed.
Lemma digits_nonul l : forallb is_digit l = true -> nonul l.
Proof. intros H. apply Forall_forall. rewrite forallb_forall in H. intros x Hx. apply H in Hx. unfold is_digit in Hx. lia. Qed.
Lemma decz_nonul v : nonul (decz v).
Proof.
  unfold decz. destruct (v <? 0)%Z; [constructor; [discriminate|]|]; apply digits_nonul; apply dec_numeral.
Qed.


Lemma leqb_eq a b : leqb a b = true -> a = b.
Proof. revert b. induction a as [|x a IH]; intros [|y b] H; cbn in H; try discriminate; [reflexivity|]. apply andb_prop in H. destruct H as [H1 H2].
  apply N.eqb_eq in H1. f_equal; auto. Qed.
Lemma leqb_refl a : leqb a a = true.
Proof. induction a; [reflexivity|]. cbn. rewrite N.eqb_refl. exact IHa. Qed.

Lemma titan_path_line c size o : c_scheme c = s2b "titan" ->
  request_line (mkC (c_scheme c) (c_host c) (c_port c) (c_port_no c) (titan_path (c_path c) size o) (c_query c) (c_fragment c)) ++ [13; 10]
  = titan_line c (decz size) (o_token o) (o_mime o).
Proof.
  intros E. unfold request_line, titan_line, titan_path, param. cbn [c_scheme c_host c_path c_query]. rewrite E.
  change (s2b "titan://") with (s2b "titan" ++ s2b "://").
  destruct (o_token o), (o_mime o), (c_query c); rewrite <- ?app_assoc; cbn [app]; rewrite ?app_nil_r; reflexivity.
Qed.

Lemma make_request_spec W o url size : nonul url -> bytes url -> nonul_opt (o_token o) -> nonul_opt (o_mime o) ->
  length (w_iribuf W) = 1025%nat -> length (w_reqbuf W) = 1025%nat ->
  exists q, make_request W o url size = OK q /\
    match q with
    | Some (c, r) => (length url <= 1024)%nat /\ accepts (w_ip6 W) url c /\ c_scheme c = s2b "titan" /\
        r = titan_line c (decz size) (o_token o) (o_mime o) /\ (length r <= 1024)%nat
    | None => (1024 < length url)%nat \/ forall c, accepts (w_ip6 W) url c -> c_scheme c = s2b "titan" ->
        (1024 < length (titan_line c (decz size) (o_token o) (o_mime o)))%nat
    end.
Proof.
  intros Hn Hb Ht Hm Li Lr. unfold make_request. unfold z at 1.
  destruct (c37_strlcpy url [] (w_iribuf W) REQBUF Hn ltac:(unfold REQBUF; lia)) as (b & A & B & _ & C). rewrite A. cbn [bind].
  unfold REQBUF at 1. destruct (Nat.leb_spec 1025 (length url)) as [L|L]; [exists None; split; [reflexivity|left; lia]|].
  specialize (C ltac:(unfold REQBUF; lia)). rewrite firstn_all2 in C by (unfold REQBUF; lia).
  apply cstr_inv in C. destruct C as [_ [junk ->]].
  destruct (parse_junk (w_ip6 W) url junk Hn Hb) as (ok & p & -> & P1 & P2). cbn [bind].
  destruct ok; cbn [negb]; [|exists None; split; [reflexivity|right; intros c Q; destruct (P2 eq_refl c Q)]].
  destruct (P1 eq_refl) as (c & -> & Ac). clear P1 P2.
  destruct (leqb (c_scheme c) (s2b "titan")) eqn:Es; cbn [negb].
  2:{ exists None. split; [reflexivity|]. right. intros c' A' E'. rewrite (accepts_fun _ _ _ _ A' Ac) in E'. rewrite E', leqb_refl in Es. discriminate. }
  apply leqb_eq in Es. destruct (accepts_nonul _ _ _ Ac) as (N1 & N2 & N3 & N4).
  set (c' := mkC (c_scheme c) (c_host c) (c_port c) (c_port_no c) (titan_path (c_path c) size o) (c_query c) (c_fragment c)).
  assert (NT : nonul (c_path c')).
  { cbn [c' c_path]. unfold titan_path. pose proof (decz_nonul size).
    repeat (apply nonul_app; split); auto; try (repeat constructor; discriminate).
    destruct (o_token o), (o_mime o); cbn [nonul_opt] in *; repeat (apply nonul_app; split); auto; try (repeat constructor; discriminate). }
  assert (NE : c_path c' <> []). { cbn [c' c_path]. unfold titan_path. intros Q. apply app_eq_nil in Q. destruct Q as [_ Q]. discriminate. }
  destruct (serialize_all c' (w_reqbuf W) REQBUF Lr ltac:(unfold REQBUF; lia) N1 N2 NT N4 NE) as (b & -> & Bl & Bc). cbn [bind].
  pose proof (titan_path_line c size o Es) as TL. fold c' in TL.
  assert (TLen : length (titan_line c (decz size) (o_token o) (o_mime o)) = (length (request_line c') + 2)%nat).
  { rewrite <- TL, app_length. reflexivity. }
  unfold REQBUF at 1. destruct (Nat.ltb_spec (length (request_line c')) 1025) as [L1|L1]; cbn [negb].
  2:{ exists None. split; [reflexivity|]. right. intros d A' E'. rewrite (accepts_fun _ _ _ _ A' Ac). lia. }
  destruct (cat_more b _ [13; 10] REQBUF Bl ltac:(unfold REQBUF; lia) Bc ltac:(repeat constructor; discriminate)) as (b' & -> & Bl' & Bc'). cbn [bind].
  cbn [length]. unfold REQBUF at 1 2. destruct (Nat.leb_spec 1025 (Nat.min (1025 - 1) (length (request_line c')) + 2)) as [L2|L2].
  { exists None. split; [reflexivity|]. right. intros d A' E'. rewrite (accepts_fun _ _ _ _ A' Ac). lia. }
  rewrite Bc'. exists (Some (c, titan_line c (decz size) (o_token o) (o_mime o))). rewrite firstn_all2.
  2:{ rewrite app_length. cbn [length]. unfold REQBUF. lia. }
  rewrite TL. split; [reflexivity|]. repeat split; auto; lia.
Qed.

(** ** the whole program *)

Lemma answers_bytes s rep : answers s rep -> Forall (fun t => bytes (delivers t)) s -> bytes rep.
Proof.
  destruct 1 as [a t b _ _]. intros F. apply Forall_app in F. destruct F as [F _]. induction F as [|u a Hu F IH]; [constructor|].
  cbn [map concat]. apply bytes_app. split; assumption.
Qed.
Lemma bytes_skipn n s : bytes s -> bytes (skipn n s).
Proof. intros H. rewrite <- (firstn_skipn n s) in H. apply bytes_app in H. tauto. Qed.
Lemma bytes_firstn' n s : bytes s -> bytes (firstn n s).
Proof. intros H. rewrite <- (firstn_skipn n s) in H. apply bytes_app in H. tauto. Qed.

Lemma upload_spec n bufsiz file junk s : bytes junk -> Forall (fun t => bytes (delivers t)) s ->
  exists e w o, upload (S n) bufsiz file junk s = OK (e, w, o) /\ prefix w (firstn bufsiz file) /\
    match e with
    | Exit k => (k = 1%nat /\ o = []) \/ exists rep, answers s rep /\ outcome rep k o
    | Running => o = []
    end /\
    (forall rep, calmly_answers s rep -> exists k, e = Exit k /\ outcome rep k o) /\
    (Forall silent s -> e = Running /\ ((length (firstn bufsiz file) <= takes s)%nat -> w = firstn bufsiz file)).
Proof.
  intros Hj Hs. cbn [upload]. destruct (iomux (firstn bufsiz file) [] RESBUF s) as [[r w] s'] eqn:E.
  assert (P : prefix w (firstn bufsiz file)). { apply mux_prefix in E. exact E. }
  assert (CA : forall rep, calmly_answers s rep -> r = Back (match firstn RESBUF rep with [] => None | g => Some g end)).
  { intros rep H. destruct (mux_answered s rep H (firstn bufsiz file) [] ltac:(cbn; lia)) as (w' & s'' & Q).
    cbn [length] in Q. rewrite Nat.sub_0_r in Q. rewrite Q in E. apply pair3 in E. destruct E as [E _]. symmetry. exact E. }
  assert (SI : Forall silent s -> r = Going /\ ((length (firstn bufsiz file) <= takes s)%nat -> w = firstn bufsiz file)).
  { intros H. destruct (mux_silent s (firstn bufsiz file) RESBUF H) as (w' & Q & Q2). rewrite Q in E. apply pair3 in E. destruct E as (E & E2 & _).
    subst w'. auto. }
  destruct r as [[g|]| |].
  - destruct (mux_back s (firstn bufsiz file) [] g w s' ltac:(cbn; lia) ltac:(cbn [length]; rewrite Nat.sub_0_r; exact E)) as (NE & rep & A & G).
    cbn [app] in G. destruct g as [|g0 g]; [congruence|]. rewrite G.
    assert (Br : bytes rep) by (eapply answers_bytes; eauto).
    rewrite <- G. destruct (reply_outcome (g0 :: g) (skipn (length (g0 :: g)) junk)) as (k & o & -> & O).
    { apply bytes_app. split; [rewrite G; apply bytes_firstn'|apply bytes_skipn]; assumption. }
    { rewrite G, firstn_length. unfold RESBUF. lia. }
    cbn [bind]. exists (Exit k), w, o. split; [reflexivity|]. split; [exact P|]. rewrite G in O. unfold RESBUF in O. pose proof (proj1 (outcome_firstn _ _ _) O) as O1.
    split; [right; exists rep; split; assumption|]. split; [|intros Q; destruct (SI Q) as [? _]; discriminate].
    intros rep' H. exists k. split; [reflexivity|]. apply CA in H.
    apply (proj1 (outcome_firstn _ _ _)). fold RESBUF in O |- *.
    assert (Q : firstn RESBUF rep' = firstn RESBUF rep) by (rewrite <- G; destruct (firstn RESBUF rep'); congruence).
    rewrite Q. exact O.
  - exists (Exit 1), w, []. split; [reflexivity|]. split; [exact P|]. split; [left; auto|]. split; [|intros Q; destruct (SI Q) as [? _]; discriminate].
    intros rep H. exists 1%nat. split; [reflexivity|]. apply CA in H. destruct (firstn RESBUF rep) eqn:F; [|discriminate].
    apply (proj1 (outcome_firstn _ _ _)). unfold RESBUF in F. rewrite F. apply oc_garbage. intros h c m Hd. exfalso. remember (@nil N) as e eqn:Ee. destruct Hd as [h b _ _]. destruct h; discriminate.
  - exists (Exit 1), w, []. split; [reflexivity|]. split; [exact P|]. split; [left; auto|]. split; [|intros Q; destruct (SI Q) as [? _]; discriminate].
    intros rep H. apply CA in H. discriminate.
  - exists Running, w, []. split; [reflexivity|]. split; [exact P|]. split; [reflexivity|]. split; [|intros Q; destruct (SI Q); auto].
    intros rep H. apply CA in H. discriminate.
Qed.


Lemma prefix_cat a b c : prefix b c -> prefix (a ++ b) (a ++ c).
Proof. intros [r ->]. exists r. rewrite app_assoc. reflexivity. Qed.
Lemma prefix_app a b c : prefix a b -> prefix a (b ++ c).
Proof. intros [r ->]. exists (r ++ c). rewrite app_assoc. reflexivity. Qed.

Lemma session_run bufsiz W pair c line file : env_ok W ->
  exists r, session bufsiz W pair c line file = OK r /\
  (r = stop 1 \/
     (r_peer r = None \/ r_peer r = Some (c_host c, default_port (c_port c))) /\ r_pair r = pair /\
     prefix (r_wire r) (line ++ firstn bufsiz file) /\
     (r_peer r = None -> r_wire r = [] /\ r_end r = Exit 1) /\
     match r_end r with
     | Exit k => (k = 1%nat /\ r_out r = []) \/ (prefix line (r_wire r) /\ exists rep, answers (w_talk W) rep /\ outcome rep k (r_out r))
     | Running => r_out r = []
     end) /\
  ((forall f k, pair = Some (f, k) -> w_keypair W f k = true) ->
     w_dial W (c_host c) (default_port (c_port c)) = true -> w_start W = true ->
     r_peer r = Some (c_host c, default_port (c_port c)) /\
     (Forall sending (w_send W) -> (length line < takes (w_send W))%nat ->
       (forall rep, calmly_answers (w_talk W) rep -> exists k, r_end r = Exit k /\ outcome rep k (r_out r)) /\
       (Forall silent (w_talk W) -> r_end r = Running /\
          ((length (firstn bufsiz file) <= takes (w_talk W))%nat -> r_wire r = line ++ firstn bufsiz file)))).
Proof.
  intros (L1 & L2 & L3 & B1 & B2). unfold session. cbv zeta. replace (match c_port c with [] => s2b "1965" | n :: l => n :: l end) with (default_port (c_port c)) by (destruct (c_port c); reflexivity).
  destruct (match pair with Some (f, k) => w_keypair W f k | None => true end) eqn:Kp; cbn [negb].
  2:{ exists (stop 1). split; [reflexivity|]. split; [left; reflexivity|]. intros Q. exfalso. destruct pair as [[f k]|]; [|discriminate].
      specialize (Q f k eq_refl). congruence. }
  destruct (w_dial W (c_host c) (default_port (c_port c))) eqn:Ed; cbn [negb].
  2:{ eexists. split; [reflexivity|]. cbn [r_end r_out r_pair r_peer r_wire]. split; [|intros; congruence].
      right. repeat split; auto. eexists. reflexivity. }
  destruct (w_start W) eqn:Ew; cbn [negb].
  2:{ eexists. split; [reflexivity|]. cbn [r_end r_out r_pair r_peer r_wire]. split; [|intros; congruence].
      right. repeat split; auto; [eexists; reflexivity|discriminate..]. }
  destruct (iomux_write line (w_send W)) as [[r w] s'] eqn:E.
  pose proof (write_prefix _ _ _ _ _ E) as (q & Eq & Q1 & Q2).
  assert (Wall : Forall sending (w_send W) -> (length line < takes (w_send W))%nat -> r = Back (Some []) /\ w = line).
  { intros F T. destruct (write_all _ _ F T) as (s'' & X). rewrite X in E. apply pair3 in E. destruct E as (<- & <- & _). auto. }
  assert (Pw : prefix w (line ++ firstn bufsiz file)). { rewrite Eq, <- app_assoc. eexists. reflexivity. }
  destruct r as [[x|]| |].
  - pose proof (Q2 x eq_refl) as ->. rewrite (Q1 eq_refl), app_nil_r in Eq. subst w.
    destruct (upload_spec (length (w_talk W)) bufsiz file (w_resbuf W) (w_talk W) B1 B2) as (e & w' & out & -> & U1 & U2 & U3 & U4). cbn [bind].
    eexists. split; [reflexivity|]. cbn [r_end r_out r_pair r_peer r_wire]. split.
    + right. split; [right; reflexivity|]. split; [reflexivity|]. split; [apply prefix_cat; exact U1|]. split; [discriminate|].
      destruct e; [|exact U2]. destruct U2 as [U2|U2]; [left; exact U2|right]. split; [eexists; reflexivity|exact U2].
    + intros _ _ _. split; [reflexivity|]. intros _ _. split; [exact U3|]. intros Q. destruct (U4 Q) as [-> U5]. split; [reflexivity|].
      intros L. rewrite (U5 L). reflexivity.
  - eexists. split; [reflexivity|]. cbn [r_end r_out r_pair r_peer r_wire]. split.
    + right. repeat split; auto; discriminate.
    + intros _ _ _. split; [reflexivity|]. intros F T. destruct (Wall F T). discriminate.
  - eexists. split; [reflexivity|]. cbn [r_end r_out r_pair r_peer r_wire]. split.
    + right. repeat split; auto; discriminate.
    + intros _ _ _. split; [reflexivity|]. intros F T. destruct (Wall F T). discriminate.
  - eexists. split; [reflexivity|]. cbn [r_end r_out r_pair r_peer r_wire]. split.
    + right. repeat split; auto; discriminate.
    + intros _ _ _. split; [reflexivity|]. intros F T. destruct (Wall F T). discriminate.
Qed.


Lemma titan_run bufsiz W o url i : env_ok W -> args_ok o url ->
  (exists file size c req, open_input_file i = Some (file, size) /\ (length url <= 1024)%nat /\ accepts (w_ip6 W) url c /\
     c_scheme c = s2b "titan" /\ req = titan_line c (decz size) (o_token o) (o_mime o) /\ (length req <= 1024)%nat /\ (o_cert o = None -> o_key o = None) /\
     titan bufsiz W o url i = session bufsiz W (credentials o) c req file) \/
  (titan bufsiz W o url i = OK (stop 1) /\
   forall file size c, open_input_file i = Some (file, size) -> (length url <= 1024)%nat -> accepts (w_ip6 W) url c ->
     c_scheme c = s2b "titan" -> (length (titan_line c (decz size) (o_token o) (o_mime o)) <= 1024)%nat ->
     o_cert o = None /\ o_key o <> None).
Proof.
  intros (L1 & L2 & L3 & B1 & B2) (Hn & Hb & Ht & Hm). unfold titan, credentials.
  destruct (o_cert o) as [cert|] eqn:Ec; destruct (o_key o) as [key|] eqn:Ek.
  3:{ right. split; [reflexivity|]. intros. split; [reflexivity|discriminate]. }
  all: (destruct (open_input_file i) as [[file size]|] eqn:Ei; [|right; split; [reflexivity|]; intros; discriminate]).
  all: destruct (make_request_spec W o url size Hn Hb Ht Hm L1 L2) as (q & -> & Q); cbn [bind].
  all: (destruct q as [[c req]|]; [left; exists file, size, c, req; repeat (apply conj; [tauto || reflexivity || discriminate|]); reflexivity|]).
  all: right; (split; [reflexivity|]); intros f' s' c' E U A Sc Ln; exfalso; inversion E; subst f' s';
       (destruct Q as [Q|Q]; [lia|]); specialize (Q c' A Sc); lia.
Qed.
