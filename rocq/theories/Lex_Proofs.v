(** The lexer of parse.y ends and stays within its buffer. *)
From Verif Require Import Base BaseLemmas Compat Mime Parse Lex.
From Verif Require Import Iri_Last_Proofs.
Local Open Scope N_scope.

Definition mark (c : N) : Prop := c = 1 \/ c = 2.

(** ** how much is left *)
Lemma getmarks_len : forall s e c r e', getmarks s e = (c, r, e') ->
  match c with Some c => (length r < length s)%nat /\ ~ mark c | None => r = [] end.
Proof.
  induction s as [|x s IH]; intros e c r e'; cbn [getmarks]; [intros H; injection H as <- <- <-; reflexivity|].
  unfold START_EXPAND, DONE_EXPAND. destruct (N.eqb_spec x 1); [|destruct (N.eqb_spec x 2)].
  1,2: intros H; apply IH in H; destruct c; [cbn; intuition lia|exact H].
  intros H; injection H as <- <- <-. cbn. split; [lia|]. intros [?|?]; congruence.
Qed.
Lemma getlines_len : forall s esc e c r e', getlines esc s e = (c, r, e') ->
  match c with Some c => (length r < length s)%nat /\ ~ mark c | None => r = [] end.
Proof.
  induction s as [|x s IH]; intros esc e c r e'; cbn [getlines]; [intros H; injection H as <- <- <-; reflexivity|].
  unfold START_EXPAND, DONE_EXPAND.
  assert (G : forall esc e, getlines esc s e = (c, r, e') -> match c with Some c => (length r < length (x :: s))%nat /\ ~ mark c | None => r = [] end).
  { intros b d H. apply IH in H. destruct c; [cbn; intuition lia|exact H]. }
  destruct (N.eqb_spec x 1); [apply G|]. destruct (N.eqb_spec x 2); [apply G|].
  assert (K : (Some x, s, e) = (c, r, e') -> match c with Some c => (length r < length (x :: s))%nat /\ ~ mark c | None => r = [] end).
  { intros H. injection H as <- <- <-. cbn. split; [lia|]. intros [?|?]; congruence. }
  destruct esc; [destruct (x =? 10); [apply G|apply K]|]. destruct (x =? 92); [apply G|apply K].
Qed.

Definition outer_size (fs : list lfile) : nat := fold_right (fun f n => fsize f + n)%nat 0%nat fs.
Lemma size_eq l : size l = (fsize (lx_cur l) + outer_size (lx_outer l))%nat.
Proof. reflexivity. Qed.

Lemma igetc_some l c l' : igetc l = (Some c, l') ->
  (size l' < size l)%nat /\ ~ mark c /\ lx_syms l' = lx_syms l /\ lx_outer l' = lx_outer l.
Proof.
  unfold igetc. destruct (getmarks (text l) (lx_exp l)) as [[oc r] e] eqn:G. intros H. injection H as -> <-. apply getmarks_len in G.
  rewrite !size_eq. unfold fsize. cbn [set_text set_cur lx_cur lx_outer lf_text lf_eof lx_syms]. unfold text in G. destruct G. repeat split; auto. lia.
Qed.
Lemma igetc_none l l' : igetc l = (None, l') -> (size l' <= size l)%nat /\ text l' = [] /\ lx_syms l' = lx_syms l /\ lx_outer l' = lx_outer l.
Proof.
  unfold igetc. destruct (getmarks (text l) (lx_exp l)) as [[oc r] e] eqn:G. intros H. injection H as -> <-. apply getmarks_len in G. subst r.
  rewrite !size_eq. unfold fsize. cbn [set_text set_cur lx_cur lx_outer lf_text lf_eof lx_syms]. repeat split; auto. cbn [length]. lia.
Qed.
Lemma popfile_some l l' : popfile l = Some l' -> (size l' <= size l)%nat /\ lx_syms l' = lx_syms l /\ exists p, lx_outer l = p :: lx_outer l' /\ text l' = lf_text p /\ lf_eof (lx_cur l') = lf_eof p.
Proof.
  unfold popfile. destruct (lx_outer l) as [|p o] eqn:O; [discriminate|]. intros H. injection H as <-. rewrite !size_eq, O. cbn [lx_cur lx_outer lx_syms lf_eof].
  split; [cbn [outer_size fold_right]; unfold outer_size, fsize; cbn [lf_text lf_eof]; lia|]. split; [reflexivity|]. exists p. auto.
Qed.
Lemma popeof_spec : forall fs l c l', popeof fs l = (c, l') ->
  lx_syms l' = lx_syms l /\ match c with Some c => (size l' < size l)%nat /\ ~ mark c | None => (size l' <= size l)%nat end.
Proof.
  induction fs as [|f fs IH]; intros l c l'; cbn [popeof]; [intros H; injection H as <- <-; auto|].
  destruct (popfile l) as [l1|] eqn:P; [|intros H; injection H as <- <-; auto]. apply popfile_some in P. destruct P as (P1 & P2 & _).
  destruct (igetc l1) as [[d|] l2] eqn:I.
  - intros H. injection H as <- <-. apply igetc_some in I. destruct I as (I1 & I2 & I3 & _). split; [congruence|]. split; [lia|exact I2].
  - intros H. apply igetc_none in I. destruct I as (I1 & _ & I3 & _). apply IH in H. destruct H as (H1 & H2). split; [congruence|]. destruct c; intuition lia.
Qed.
Lemma lgetc_size l c l' : lgetc l = (c, l') ->
  lx_syms l' = lx_syms l /\ match c with Some c => (size l' < size l)%nat /\ ~ mark c | None => (size l' <= size l)%nat end.
Proof.
  unfold lgetc. destruct (getlines false (text l) (lx_exp l)) as [[oc r] e] eqn:G. apply getlines_len in G. destruct oc as [d|].
  - intros H. injection H as <- <-. rewrite !size_eq. unfold fsize. cbn [set_text set_cur lx_cur lx_outer lf_text lf_eof lx_syms]. unfold text in G. destruct G. repeat split; auto. lia.
  - subst r. destruct (lf_eof (lx_cur l)) eqn:E.
    + intros H. apply popeof_spec in H. destruct H as (H1 & H2). split; [exact H1|]. assert (B : (size (set_text [] e l) <= size l)%nat) by (rewrite !size_eq; unfold fsize; cbn [set_text set_cur lx_cur lx_outer lf_text lf_eof length]; lia). destruct c; intuition lia.
    + intros H. injection H as <- <-. rewrite !size_eq. unfold fsize. rewrite E. cbn [set_text set_cur lx_cur lx_outer lf_text lf_eof length lx_syms]. split; [reflexivity|]. split; [lia|]. intros [?|?]; discriminate.
Qed.
Lemma lgetc_q_size q l c l' : lgetc_q q l = (c, l') ->
  lx_syms l' = lx_syms l /\ match c with Some c => ((size l' < size l)%nat /\ ~ mark c) \/ (c = q /\ (size l' <= size l)%nat) | None => True end.
Proof.
  unfold lgetc_q. destruct (igetc l) as [[d|] l1] eqn:I.
  - intros H. injection H as <- <-. apply igetc_some in I. intuition.
  - apply igetc_none in I. destruct I as (I1 & _ & I3 & _).
    destruct (popfile (yyerror l1)) as [l2|] eqn:P; intros H; injection H as <- <-; [|split; [exact I3|exact I]].
    apply popfile_some in P. destruct P as (P1 & P2 & _). assert (size (yyerror l1) = size l1) by reflexivity. split; [rewrite P2; exact I3|]. right. split; [reflexivity|lia].
Qed.
Lemma lungetc_size c l : (size (lungetc (Some c) l) = S (size l))%nat /\ lx_syms (lungetc (Some c) l) = lx_syms l.
Proof. rewrite !size_eq. unfold fsize, lungetc, text. cbn [set_text set_cur lx_cur lx_outer lf_text lf_eof length lx_syms]. split; [lia|reflexivity]. Qed.
Lemma lungetc_syms c l : lx_syms (lungetc c l) = lx_syms l.
Proof. destruct c; reflexivity. Qed.

(** ** the loops *)
Definition no_marks (s : list N) : Prop := Forall (fun c => ~ mark c) s.
Definition tok_ok (t : tok) : Prop := match t with TStr s => no_marks s | TChr c => ~ mark c | _ => True end.

Lemma findeol_loop_total : forall f l, (size l < f)%nat -> exists l', findeol_loop f l = OK (TErr, l') /\ lx_syms l' = lx_syms l.
Proof.
  induction f as [|f IH]; intros l L; [lia|]. cbn [findeol_loop]. destruct (lgetc l) as [[c|] l1] eqn:G; apply lgetc_size in G; destruct G as (G1 & G2).
  - destruct (c =? 10); [eexists; split; [reflexivity|exact G1]|]. destruct (IH l1 ltac:(lia)) as (l' & E & S). exists l'. split; [exact E|congruence].
  - eexists; split; [reflexivity|exact G1].
Qed.
Lemma too_long_total l : exists l', too_long l = OK (TErr, l') /\ lx_syms l' = lx_syms l.
Proof. unfold too_long, findeol. destruct (findeol_loop_total (S (size (yyerror l))) (yyerror l) ltac:(lia)) as (l' & E & S). exists l'. auto. Qed.

Lemma skip_while_total test : forall f l, (size l < f)%nat ->
  exists c l', skip_while test f l = OK (c, l') /\ lx_syms l' = lx_syms l /\ match c with Some c => (size l' < size l)%nat /\ ~ mark c | None => True end.
Proof.
  induction f as [|f IH]; intros l L; [lia|]. cbn [skip_while]. destruct (lgetc l) as [[c|] l1] eqn:G; apply lgetc_size in G; destruct G as (G1 & G2).
  - destruct (test c).
    + destruct (IH l1 ltac:(lia)) as (d & l' & E & S & P). exists d, l'. split; [exact E|]. split; [congruence|]. destruct d; [intuition lia|exact I].
    + exists (Some c), l1. auto.
  - exists None, l1. auto.
Qed.

Lemma blen_app b c : blen (b ++ [c]) = blen b + 1.
Proof. unfold blen. rewrite app_length. cbn. lia. Qed.
Lemma put_ok b c : blen b < BUFSZ -> put b c = OK (b ++ [c]).
Proof. intros H. unfold put. apply N.ltb_lt in H. rewrite H. reflexivity. Qed.
Lemma terminate_ok b : blen b < BUFSZ -> terminate b = OK b.
Proof. intros H. unfold terminate. apply N.ltb_lt in H. rewrite H. reflexivity. Qed.

Lemma no_marks_app s t : no_marks s -> no_marks t -> no_marks (s ++ t).
Proof. intros A B. apply Forall_app. split; assumption. Qed.

Lemma read_name_total : forall f b l, (size l < f)%nat -> no_marks b ->
  (exists t l', read_name f b l = OK (inl (t, l')) /\ lx_syms l' = lx_syms l /\ tok_ok t) \/
  (exists n l', read_name f b l = OK (inr (n, l')) /\ lx_syms l' = lx_syms l /\ no_marks n).
Proof.
  induction f as [|f IH]; intros b l L NB; [lia|]. cbn [read_name]. destruct (lgetc l) as [[c|] l1] eqn:G; apply lgetc_size in G; destruct G as (G1 & G2).
  - destruct (N.leb_spec (BUFSZ - 1) (blen b + 1)) as [B|B].
    + left. destruct (too_long_total l1) as (l' & E & S). exists TErr, l'. rewrite E. cbn. split; [reflexivity|]. split; [congruence|exact I].
    + unfold BUFSZ in B. destruct (name_char c).
      * rewrite put_ok by (unfold BUFSZ; lia). cbn [bind].
        destruct (IH (b ++ [c]) l1 ltac:(lia)) as [(t & l' & E & S & T)|(n & l' & E & S & T)];
          [apply no_marks_app; [exact NB|constructor; [apply G2|constructor]]| |]; [left; exists t, l'|right; exists n, l']; (split; [exact E|]; split; [congruence|exact T]).
      * rewrite terminate_ok by (unfold BUFSZ; lia). cbn [bind]. right. eexists; eexists. split; [reflexivity|]. rewrite lungetc_syms. split; [exact G1|exact NB].
  - left. eexists; eexists. split; [reflexivity|]. split; [exact G1|exact I].
Qed.

Lemma read_quoted_total q : ~ mark q -> q <> 10 -> q <> 92 -> forall f b l, (size l < f)%nat -> blen b < BUFSZ - 1 -> no_marks b ->
  exists t l', read_quoted f q b l = OK (t, l') /\ lx_syms l' = lx_syms l /\ tok_ok t.
Proof.
  intros Q Q10 Q92. induction f as [|f IH]; intros b l L B NB; [lia|]. cbn [read_quoted].
  destruct (lgetc_q q l) as [[c|] l1] eqn:G; apply lgetc_q_size in G; destruct G as (G1 & G2); [|eexists; eexists; split; [reflexivity|]; split; [exact G1|exact I]].
  assert (Long : forall l2, lx_syms l2 = lx_syms l -> exists t l', too_long l2 = OK (t, l') /\ lx_syms l' = lx_syms l /\ tok_ok t).
  { intros l2 S2. destruct (too_long_total l2) as (l' & E & S). exists TErr, l'. split; [exact E|]. split; [congruence|exact I]. }
  assert (Store : forall d l2, ~ mark d -> lx_syms l2 = lx_syms l -> (size l2 < size l)%nat ->
    exists t l', (if BUFSZ - 1 <=? blen b + 1 then too_long l2 else let* b0 := put b d in read_quoted f q b0 l2) = OK (t, l') /\ lx_syms l' = lx_syms l /\ tok_ok t).
  { intros d l2 D S2 L2. destruct (N.leb_spec (BUFSZ - 1) (blen b + 1)) as [B2|B2]; [apply Long; exact S2|]. rewrite put_ok by (unfold BUFSZ in *; lia). cbn [bind].
    destruct (IH (b ++ [d]) l2 ltac:(lia)) as (t & l' & E & S & T); [rewrite blen_app; lia|apply no_marks_app; [exact NB|constructor; [exact D|constructor]]|]. exists t, l'. split; [exact E|]. split; [congruence|exact T]. }
  assert (Loop : forall l2, lx_syms l2 = lx_syms l -> (size l2 < size l)%nat -> exists t l', read_quoted f q b l2 = OK (t, l') /\ lx_syms l' = lx_syms l /\ tok_ok t).
  { intros l2 S2 L2. destruct (IH b l2 ltac:(lia) B NB) as (t & l' & E & S & T). exists t, l'. split; [exact E|]. split; [congruence|exact T]. }
  cbv zeta. destruct (N.eqb_spec c 10) as [->|C10]; [apply Loop; [exact G1|]; destruct G2 as [G2|G2]; [lia|intuition congruence]|].
  destruct (N.eqb_spec c 92) as [->|C92].
  - assert (L1 : (size l1 < size l)%nat) by (destruct G2 as [G2|G2]; [lia|intuition congruence]).
    destruct (lgetc_q q l1) as [[n|] l2] eqn:G3; apply lgetc_q_size in G3; destruct G3 as (G4 & G5); [|eexists; eexists; split; [reflexivity|]; split; [congruence|exact I]].
    assert (L2 : (size l2 < size l)%nat) by (destruct G5 as [G5|G5]; lia). assert (NM : ~ mark n) by (destruct G5 as [G5|G5]; [apply G5|destruct G5 as (-> & _); exact Q]).
    destruct ((n =? q) || (n =? 32) || (n =? 9)) eqn:NQ; [apply Store; auto; congruence|].
    destruct (N.eqb_spec n 10); [apply Loop; [congruence|exact L2]|].
    apply Store; [intros [?|?]; discriminate|rewrite lungetc_syms; congruence|]. rewrite (proj1 (lungetc_size n l2)).
    apply Bool.orb_false_iff in NQ. destruct NQ as (NQ & _). apply Bool.orb_false_iff in NQ. destruct NQ as (NQ & _). apply N.eqb_neq in NQ.
    destruct G5 as [G5|G5]; [|intuition congruence]. lia.
  - destruct (N.eqb_spec c q) as [->|CQ].
    + rewrite terminate_ok by (unfold BUFSZ in *; lia). eexists; eexists. split; [reflexivity|]. split; [exact G1|exact NB].
    + assert (L1 : (size l1 < size l)%nat) by (destruct G2 as [G2|G2]; [lia|intuition congruence]). assert (NM : ~ mark c) by (destruct G2 as [G2|G2]; [apply G2|intuition congruence]).
      destruct (c =? 0); [apply Long; exact G1|apply Store; auto].
Qed.

Lemma read_while_total test : forall f c b l, (size l < f)%nat -> blen b < BUFSZ -> no_marks b -> ~ mark c ->
  (exists t l', read_while test f c b l = OK (inl (t, l')) /\ lx_syms l' = lx_syms l /\ tok_ok t) \/
  (exists s n l', read_while test f c b l = OK (inr (b ++ c :: s, n, l')) /\ lx_syms l' = lx_syms l /\ no_marks s /\ blen (b ++ c :: s) < BUFSZ /\
     (forall x, In x s -> test x = true) /\ match n with Some n => ~ mark n /\ test n = false | None => True end).
Proof.
  induction f as [|f IH]; intros c b l L B NB NC; [lia|]. cbn [read_while]. rewrite put_ok by exact B. cbn [bind].
  destruct (N.leb_spec BUFSZ (blen (b ++ [c]))) as [B2|B2].
  { left. destruct (too_long_total l) as (l' & E & S). exists TErr, l'. rewrite E. cbn. auto. }
  destruct (lgetc l) as [[d|] l1] eqn:G; apply lgetc_size in G; destruct G as (G1 & G2).
  - destruct (test d) eqn:T.
    + destruct (IH d (b ++ [c]) l1 ltac:(lia) B2 ltac:(apply no_marks_app; [exact NB|constructor; [exact NC|constructor]]) (proj2 G2))
        as [(t & l' & E & S & K)|(s & n & l' & E & S & NS & BL & TS & K)].
      * left. exists t, l'. split; [exact E|]. split; [congruence|exact K].
      * right. exists (d :: s), n, l'. rewrite <- app_assoc in E, BL. cbn [app] in E, BL. split; [exact E|]. split; [congruence|]. split; [constructor; [apply G2|exact NS]|].
        split; [exact BL|]. split; [intros x [<-|X]; auto|exact K].
    + right. exists [], (Some d), l1. split; [reflexivity|]. split; [exact G1|]. split; [constructor|]. split; [exact B2|]. split; [intros x []|]. split; [apply G2|exact T].
  - right. exists [], None, l1. split; [reflexivity|]. split; [exact G1|]. split; [constructor|]. split; [exact B2|]. split; [intros x []|exact I].
Qed.

Lemma kw_search_total : forall f s lo hi, (hi - lo < f)%nat -> (hi <= length keywords)%nat -> exists k, kw_search f s lo hi = OK k.
Proof.
  induction f as [|f IH]; intros s lo hi L H; [lia|]. cbn [kw_search]. destruct (Nat.leb_spec hi lo) as [X|X]; [eexists; reflexivity|]. cbv zeta.
  assert (M : (lo <= (lo + hi) / 2 < hi)%nat) by (split; [apply Nat.div_le_lower_bound; lia|apply Nat.div_lt_upper_bound; lia]).
  destruct (nth_error keywords ((lo + hi) / 2)) as [e|] eqn:N; [|apply nth_error_None in N; lia].
  destruct (strcmp s (fst e)); [eexists; reflexivity|apply IH; lia|apply IH; lia].
Qed.
Lemma lookup_total s : exists k, lookup s = OK k.
Proof. apply kw_search_total; lia. Qed.

Lemma read_other_total c l : match c with Some c => ~ mark c | None => True end -> exists t l', read_other c l = OK (t, l') /\ lx_syms l' = lx_syms l /\ tok_ok t.
Proof.
  intros C. unfold read_other. destruct c as [c|]; [|eexists; eexists; split; [reflexivity|]; split; [reflexivity|exact I]].
  destruct (_ || _ || _); [|eexists; eexists; split; [reflexivity|]; split; [reflexivity|destruct (c =? 0); [exact I|exact C]]].
  unfold read_word.
  destruct (read_while_total in_string (S (size l)) c [] l ltac:(lia) ltac:(reflexivity) ltac:(constructor) C) as [(t & l' & -> & S & K)|(s & n & l' & -> & S & NS & BL & _)]; cbn [bind].
  - exists t, l'. auto.
  - cbn [app] in *. rewrite terminate_ok by exact BL. cbn [bind]. destruct (lookup_total (c :: s)) as (k & ->). cbn [bind]. eexists; eexists. split; [reflexivity|].
    rewrite lungetc_syms. split; [exact S|]. destruct k; [exact I|constructor; [exact C|exact NS]].
Qed.
Lemma unget_all_syms : forall s l, lx_syms (fold_left (fun l c => lungetc (Some c) l) s l) = lx_syms l.
Proof. induction s as [|c s IH]; intros l; [reflexivity|]. cbn [fold_left]. rewrite IH. apply lungetc_syms. Qed.
Lemma read_number_total c l : ~ mark c -> exists t l', read_number c l = OK (t, l') /\ lx_syms l' = lx_syms l /\ tok_ok t.
Proof.
  intros C. unfold read_number.
  destruct (read_while_total is_digit (S (size l)) c [] l ltac:(lia) ltac:(reflexivity) ltac:(constructor) C) as [(t & l' & -> & S & K)|(s & n & l' & -> & S & NS & BL & _)]; cbn [bind].
  - exists t, l'. auto.
  - cbn [app] in *. cbv zeta. destruct (_ && _).
    + rewrite terminate_ok by exact BL. cbn [bind]. destruct (strtonum _ _ _) as [z []].
      1: eexists; eexists; split; [reflexivity|]; rewrite lungetc_syms; split; [exact S|exact I].
      all: destruct (too_long_total (lungetc n l')) as (l2 & E & S2); exists TErr, l2; split; [exact E|]; rewrite lungetc_syms in S2; split; [congruence|exact I].
    + assert (U : lx_syms (fold_left (fun l c => lungetc (Some c) l) (rev s) (lungetc n l')) = lx_syms l) by (rewrite unget_all_syms, lungetc_syms; exact S).
      cbn [tl]. destruct (c =? 45); [eexists; eexists; split; [reflexivity|]; split; [exact U|exact C]|].
      destruct (read_other_total (Some c) (fold_left (fun l c => lungetc (Some c) l) (rev s) (lungetc n l')) C) as (t & l2 & E & S2 & T). exists t, l2. split; [exact E|]. split; [congruence|exact T].
Qed.

(** ** jumps to [top]: what is still to be read outside of the expansion *)
Fixpoint past (s : list N) : nat := match s with [] => 0 | c :: r => if c =? DONE_EXPAND then length r else past r end.
Definition live (e : bool) (s : list N) : nat := if e then past s else length s.
Fixpoint fakes (fs : list lfile) : nat := match fs with [] => 0 | f :: fs => ((if lf_eof f then 0 else 1) + fakes fs)%nat end.
Definition lives (l : lex) : nat := (live (lx_exp l) (text l ++ flat_map lf_text (lx_outer l)) + fakes (lx_cur l :: lx_outer l))%nat.
Definition cost (l : lex) : nat := if lx_exp l then 0%nat else 1%nat.

Lemma past_len : forall s, (past s <= length s)%nat.
Proof. induction s as [|c s IH]; cbn [past length]; [lia|]. destruct (c =? DONE_EXPAND); lia. Qed.
Lemma live_len s e : (live e s <= length s)%nat.
Proof. unfold live. pose proof (past_len s). destruct e; lia. Qed.
Lemma all_size l : (length (text l ++ flat_map lf_text (lx_outer l)) + fakes (lx_cur l :: lx_outer l) = size l)%nat.
Proof.
  rewrite size_eq, app_length.
  assert (G : forall fs, (length (flat_map lf_text fs) + fakes fs = outer_size fs)%nat).
  { induction fs as [|f fs IH]; [reflexivity|]. cbn [flat_map fakes fold_right outer_size]. rewrite app_length. unfold outer_size in *. unfold fsize at 1. lia. }
  specialize (G (lx_outer l)). cbn [fakes]. unfold fsize, text in *. lia.
Qed.
Lemma lives_size l : (lives l <= size l)%nat.
Proof. rewrite <- all_size. unfold lives. pose proof (live_len (text l ++ flat_map lf_text (lx_outer l)) (lx_exp l)). lia. Qed.
Lemma live_mark x e s : (x =? START_EXPAND = true -> (live true s <= live e (x :: s))%nat) /\ (x =? DONE_EXPAND = true -> (live false s <= live e (x :: s))%nat) /\
  (x =? DONE_EXPAND = false -> ((if e then 0 else 1) + live e s = live e (x :: s))%nat).
Proof.
  unfold live, START_EXPAND. pose proof (past_len s). cbn [past length].
  split; [|split]; intros X; [apply N.eqb_eq in X; subst x; change (1 =? DONE_EXPAND) with false; cbv iota; destruct e; lia|rewrite X; destruct e; lia|rewrite X; destruct e; lia].
Qed.
Lemma getmarks_live : forall s e c r e', getmarks s e = (c, r, e') -> forall t,
  match c with Some _ => ((if e' then 0 else 1) + live e' (r ++ t) <= live e (s ++ t))%nat | None => (live e' t <= live e (s ++ t))%nat end.
Proof.
  induction s as [|x s IH]; intros e c r e'; cbn [getmarks]; [intros H; injection H as <- <- <-; reflexivity|]. intros H t. cbn [app].
  destruct (live_mark x e (s ++ t)) as (M1 & M2 & M3).
  destruct (x =? START_EXPAND); [specialize (M1 eq_refl); pose proof (IH _ _ _ _ H t) as Q; destruct c; lia|].
  destruct (x =? DONE_EXPAND); [specialize (M2 eq_refl); pose proof (IH _ _ _ _ H t) as Q; destruct c; lia|]. injection H as <- <- <-. rewrite M3 by reflexivity. lia.
Qed.
Lemma getlines_live : forall s esc e c r e', getlines esc s e = (c, r, e') -> forall t,
  match c with Some _ => ((if e' then 0 else 1) + live e' (r ++ t) <= live e (s ++ t))%nat | None => (live e' t <= live e (s ++ t))%nat end.
Proof.
  induction s as [|x s IH]; intros esc e c r e'; cbn [getlines]; [intros H; injection H as <- <- <-; reflexivity|]. intros H t. cbn [app].
  destruct (live_mark x e (s ++ t)) as (M1 & M2 & M3).
  destruct (x =? START_EXPAND); [specialize (M1 eq_refl); pose proof (IH _ _ _ _ _ H t) as Q; destruct c; lia|].
  destruct (x =? DONE_EXPAND); [specialize (M2 eq_refl); pose proof (IH _ _ _ _ _ H t) as Q; destruct c; lia|]. rewrite <- M3 by reflexivity. clear M1 M2 M3.
  assert (G : forall esc, getlines esc s e = (c, r, e') ->
    match c with Some _ => ((if e' then 0 else 1) + live e' (r ++ t) <= (if e then 0 else 1) + live e (s ++ t))%nat | None => (live e' t <= (if e then 0 else 1) + live e (s ++ t))%nat end).
  { intros b K. pose proof (IH _ _ _ _ _ K t) as Q. destruct c; lia. }
  assert (K : (Some x, s, e) = (c, r, e') -> match c with Some _ => ((if e' then 0 else 1) + live e' (r ++ t) <= (if e then 0 else 1) + live e (s ++ t))%nat | None => (live e' t <= (if e then 0 else 1) + live e (s ++ t))%nat end).
  { intros Q. injection Q as <- <- <-. reflexivity. }
  destruct esc; [destruct (x =? 10); [apply (G _ H)|apply (K H)]|]. destruct (x =? 92); [apply (G _ H)|apply (K H)].
Qed.
Lemma popfile_lives l l' : popfile l = Some l' -> text l = [] -> (lives l' <= lives l)%nat.
Proof.
  unfold popfile, lives. destruct (lx_outer l) as [|p o] eqn:O; [discriminate|]. intros H T. injection H as <-. rewrite T. cbn [app flat_map lx_cur lx_outer lf_text text lx_exp fakes lf_eof]. unfold text. cbn [lx_cur lf_text]. lia.
Qed.
Lemma igetc_lives l c l' : igetc l = (c, l') -> ((match c with Some _ => cost l' | None => 0 end) + lives l' <= lives l)%nat.
Proof.
  unfold igetc. destruct (getmarks (text l) (lx_exp l)) as [[oc r] e] eqn:G. intros H. injection H as <- <-. pose proof (getmarks_len _ _ _ _ _ G) as L.
  pose proof (getmarks_live _ _ _ _ _ G (flat_map lf_text (lx_outer l))) as Q.
  unfold lives, cost. cbn. destruct oc; [|subst r]; cbn; lia.
Qed.
Lemma popeof_lives : forall fs l c l', popeof fs l = (c, l') -> text l = [] -> ((match c with Some _ => cost l' | None => 0 end) + lives l' <= lives l)%nat.
Proof.
  induction fs as [|f fs IH]; intros l c l'; cbn [popeof]; [intros H _; injection H as <- <-; cbn; lia|].
  destruct (popfile l) as [l1|] eqn:P; [|intros H _; injection H as <- <-; cbn; lia]. intros H T. pose proof (popfile_lives _ _ P T) as PL.
  destruct (igetc l1) as [[d|] l2] eqn:I; pose proof (igetc_lives _ _ _ I) as IL; cbv iota in IL.
  - injection H as <- <-. cbv iota. lia.
  - apply igetc_none in I. destruct I as (_ & T2 & _). apply IH in H; [|exact T2]. destruct c; lia.
Qed.
Lemma lgetc_lives l c l' : lgetc l = (c, l') -> ((match c with Some _ => cost l' | None => 0 end) + lives l' <= lives l)%nat.
Proof.
  unfold lgetc. destruct (getlines false (text l) (lx_exp l)) as [[oc r] e] eqn:G. pose proof (getlines_len _ _ _ _ _ _ G) as L.
  pose proof (getlines_live _ _ _ _ _ _ G (flat_map lf_text (lx_outer l))) as Q. destruct oc as [d|].
  - intros H. injection H as <- <-. unfold lives, cost. cbn. lia.
  - subst r. assert (B : (lives (set_text [] e l) <= lives l)%nat) by (unfold lives; cbn; lia).
    destruct (lf_eof (lx_cur l)) eqn:E.
    + intros H. apply popeof_lives in H; [lia|reflexivity].
    + intros H. injection H as <- <-. unfold lives, cost in *. cbn in *. rewrite E in B |- *. destruct e; lia.
Qed.
Lemma lungetc_lives c l : ~ mark c -> (lives (lungetc (Some c) l) = cost l + lives l)%nat.
Proof.
  intros M. unfold lives, cost. cbn. destruct (live_mark c (lx_exp l) (text l ++ flat_map lf_text (lx_outer l))) as (_ & _ & M3). rewrite <- M3; [lia|].
  apply N.eqb_neq. intros ->. apply M. right. reflexivity.
Qed.
Lemma skip_while_lives test : forall f l c l', skip_while test f l = OK (Some c, l') -> (cost l' + lives l' <= lives l)%nat.
Proof.
  induction f as [|f IH]; intros l c l'; [discriminate|]. cbn [skip_while]. destruct (lgetc l) as [[d|] l1] eqn:G; apply lgetc_lives in G; cbv iota in G; [|discriminate].
  destruct (test d); [intros H; apply IH in H; lia|intros H; injection H as <- <-; lia].
Qed.
Lemma read_name_size : forall f b l n l', read_name f b l = OK (inr (n, l')) -> (size l' <= size l)%nat.
Proof.
  induction f as [|f IH]; intros b l n l'; [discriminate|]. cbn [read_name]. destruct (lgetc l) as [[c|] l1] eqn:G; [|discriminate].
  apply lgetc_size in G. destruct G as (_ & G & _). destruct (BUFSZ - 1 <=? blen b + 1); [destruct (too_long l1) as [[]| |]; discriminate|]. destruct (name_char c).
  - unfold put. destruct (blen b <? BUFSZ); [|discriminate]. cbn [bind]. intros H. apply IH in H. lia.
  - unfold terminate. destruct (blen b <? BUFSZ); [|discriminate]. cbn [bind]. intros H. assert (EL : l' = lungetc (Some c) l1) by congruence. rewrite EL.
    destruct (lungetc_size c l1) as (-> & _). lia.
Qed.
Lemma past_expand : forall v t, ~ In 2 v -> past (v ++ DONE_EXPAND :: t) = length t.
Proof.
  induction v as [|c v IH]; intros t NI; [reflexivity|]. cbn [app past]. rewrite IH by (intros X; apply NI; right; exact X). unfold DONE_EXPAND.
  destruct (N.eqb_spec c 2) as [->|]; [exfalso; apply NI; left; reflexivity|reflexivity].
Qed.

(** what is read decides *)
Lemma skip_while_mono test : forall f f' l r, skip_while test f l = OK r -> (f <= f')%nat -> skip_while test f' l = OK r.
Proof.
  induction f as [|f IH]; intros f' l r; [discriminate|]. destruct f' as [|f']; [lia|]. cbn [skip_while]. intros H L.
  destruct (lgetc l) as [[c|] l1]; [|exact H]. destruct (test c); [|exact H]. apply IH; [exact H|lia].
Qed.
Lemma skip_same test a b : lgetc a = lgetc b -> skip_while test (S (size a)) a = skip_while test (S (size b)) b.
Proof.
  intros H. cbn [skip_while]. rewrite H. destruct (lgetc b) as [[c|] l1] eqn:G; [|reflexivity]. destruct (test c); [|reflexivity].
  pose proof (lgetc_size _ _ _ G) as (_ & B & _). pose proof (lgetc_size _ _ _ H) as (_ & A & _).
  destruct (skip_while_total test (size a) l1 A) as (d & l' & E & _). rewrite E. destruct (Nat.le_ge_cases (size a) (size b)) as [X|X].
  - symmetry. apply (skip_while_mono _ _ _ _ _ E X).
  - destruct (skip_while_total test (size b) l1 B) as (d2 & l2 & E2 & _). pose proof (skip_while_mono _ _ _ _ _ E2 X). congruence.
Qed.
Lemma top_same f a b : lgetc a = lgetc b -> yylex_top f a = yylex_top f b.
Proof. intros H. destruct f as [|f]; [reflexivity|]. cbn [yylex_top]. rewrite (skip_same _ a b H). reflexivity. Qed.

(** no START_EXPAND is left but the one that may be about to be read *)
Definition outer_clean (l : lex) : Prop := Forall (fun f => ~ In 1 (lf_text f)) (lx_outer l).
Definition inv0 (l : lex) : Prop := ~ In 1 (text l) /\ outer_clean l.
Definition inv1 (l : lex) : Prop := ~ In 1 (tl (text l)) /\ outer_clean l.
Lemma inv0_inv1 l : inv0 l -> inv1 l.
Proof. intros (A & B). split; [|exact B]. intros H. apply A. destruct (text l); [destruct H|right; exact H]. Qed.
Lemma getmarks_in : forall s e c r e', getmarks s e = (c, r, e') -> (forall x, In x r -> In x (tl s)) /\ (~ In 1 s -> e' = true -> e = true).
Proof.
  induction s as [|x s IH]; intros e c r e'; cbn [getmarks]; [intros H; injection H as <- <- <-; split; [intros x []|auto]|].
  assert (TL : forall y, In y (tl s) -> In y s) by (intros y; destruct s; [intros []|intros H; right; exact H]).
  unfold START_EXPAND, DONE_EXPAND. destruct (N.eqb_spec x 1) as [->|]; [|destruct (N.eqb_spec x 2) as [->|]].
  - intros H. apply IH in H. destruct H as (H1 & H2). split; [intros y Y; apply TL, H1, Y|]. intros N1. exfalso. apply N1. left. reflexivity.
  - intros H. apply IH in H. destruct H as (H1 & H2). split; [intros y Y; apply TL, H1, Y|]. intros N1 E. exfalso. discriminate H2; [intros I; apply N1; right; exact I|exact E].
  - intros H. injection H as <- <- <-. split; [auto|auto].
Qed.
Lemma getlines_in : forall s esc e c r e', getlines esc s e = (c, r, e') -> (forall x, In x r -> In x (tl s)) /\ (~ In 1 s -> e' = true -> e = true).
Proof.
  induction s as [|x s IH]; intros esc e c r e'; cbn [getlines]; [intros H; injection H as <- <- <-; split; [intros x []|auto]|].
  assert (TL : forall y, In y (tl s) -> In y s) by (intros y; destruct s; [intros []|intros H; right; exact H]).
  unfold START_EXPAND, DONE_EXPAND. destruct (N.eqb_spec x 1) as [->|]; [|destruct (N.eqb_spec x 2) as [->|]].
  - intros H. apply IH in H. destruct H as (H1 & H2). split; [intros y Y; apply TL, H1, Y|]. intros N1. exfalso. apply N1. left. reflexivity.
  - intros H. apply IH in H. destruct H as (H1 & H2). split; [intros y Y; apply TL, H1, Y|]. intros N1 E. exfalso. discriminate H2; [intros I; apply N1; right; exact I|exact E].
  - assert (G : forall esc, getlines esc s e = (c, r, e') -> (forall y, In y r -> In y (tl (x :: s))) /\ (~ In 1 (x :: s) -> e' = true -> e = true)).
    { intros b H. apply IH in H. destruct H as (H1 & H2). split; [intros y Y; apply TL, H1, Y|]. intros N1. apply H2. intros I. apply N1. right. exact I. }
    assert (K : (Some x, s, e) = (c, r, e') -> (forall y, In y r -> In y (tl (x :: s))) /\ (~ In 1 (x :: s) -> e' = true -> e = true)).
    { intros H. injection H as <- <- <-. auto. }
    destruct esc; [destruct (x =? 10)|destruct (x =? 92)]; first [apply G|apply K].
Qed.
Definition keeps (l l' : lex) : Prop := inv0 l' /\ (inv0 l -> lx_exp l' = true -> lx_exp l = true).
Lemma tl_in (s : list N) y : In y (tl s) -> In y s.
Proof. destruct s; [intros []|intros H; right; exact H]. Qed.
Lemma igetc_keeps l c l' : igetc l = (c, l') -> inv1 l -> keeps l l'.
Proof.
  unfold igetc. destruct (getmarks (text l) (lx_exp l)) as [[oc r] e] eqn:G. intros H (I1 & I2). injection H as <- <-. apply getmarks_in in G. destruct G as (G1 & G2).
  split; [split; [intros X; apply I1, G1, X|exact I2]|]. intros (J & _). apply G2, J.
Qed.
Lemma popfile_keeps l l' : popfile l = Some l' -> outer_clean l -> inv0 l' /\ lx_exp l' = lx_exp l.
Proof.
  unfold popfile, outer_clean. destruct (lx_outer l) as [|p o] eqn:O; [discriminate|]. intros H I2. injection H as <-. inversion I2; subst. split; [split; assumption|reflexivity].
Qed.
Lemma keeps_trans l1 l2 l3 : keeps l1 l2 -> keeps l2 l3 -> keeps l1 l3.
Proof. intros (A & B) (C & D). split; [exact C|]. intros I E. apply B; [exact I|]. apply D; [exact A|exact E]. Qed.
Lemma popeof_keeps : forall fs l c l', popeof fs l = (c, l') -> inv0 l -> keeps l l'.
Proof.
  induction fs as [|f fs IH]; intros l c l'; cbn [popeof]; [intros H I; injection H as <- <-; split; auto|].
  destruct (popfile l) as [l1|] eqn:P; [|intros H I; injection H as <- <-; split; auto]. intros H I. destruct (popfile_keeps _ _ P (proj2 I)) as (P1 & P2).
  assert (K1 : keeps l l1) by (split; [exact P1|intros _; congruence]).
  destruct (igetc l1) as [[d|] l2] eqn:G; pose proof (igetc_keeps _ _ _ G (inv0_inv1 _ P1)) as K2.
  - injection H as <- <-. exact (keeps_trans _ _ _ K1 K2).
  - apply IH in H; [|apply K2]. exact (keeps_trans _ _ _ K1 (keeps_trans _ _ _ K2 H)).
Qed.
Lemma lgetc_keeps l c l' : lgetc l = (c, l') -> inv1 l -> keeps l l'.
Proof.
  unfold lgetc. destruct (getlines false (text l) (lx_exp l)) as [[oc r] e] eqn:G. intros H (I1 & I2). apply getlines_in in G. destruct G as (G1 & G2).
  assert (K : keeps l (set_text r e l)) by (split; [split; [intros X; apply I1, G1, X|exact I2]|intros (J & _); apply G2, J]).
  destruct oc as [d|]; [injection H as <- <-; exact K|]. destruct (lf_eof (lx_cur l)).
  - apply popeof_keeps in H; [|apply K]. exact (keeps_trans _ _ _ K H).
  - injection H as <- <-. exact K.
Qed.
Lemma lgetc_q_keeps q l c l' : lgetc_q q l = (c, l') -> inv0 l -> inv0 l'.
Proof.
  unfold lgetc_q. destruct (igetc l) as [[d|] l1] eqn:I; intros H I0; pose proof (igetc_keeps _ _ _ I (inv0_inv1 _ I0)) as K; [injection H as <- <-; apply K|].
  destruct (popfile (yyerror l1)) as [l2|] eqn:P; injection H as <- <-; [|apply K]. apply popfile_keeps in P; [apply P|apply K].
Qed.
Lemma lungetc_inv c l : match c with Some c => ~ mark c | None => True end -> inv0 l -> inv0 (lungetc c l).
Proof. destruct c as [c|]; [|auto]. intros M (A & B). split; [|exact B]. cbn. intros [->|X]; [apply M; left; reflexivity|exact (A X)]. Qed.
Lemma lungetc_exp c l : lx_exp (lungetc c l) = lx_exp l.
Proof. destruct c; reflexivity. Qed.

Lemma findeol_loop_keeps : forall f l t l', findeol_loop f l = OK (t, l') -> inv1 l -> inv0 l'.
Proof.
  induction f as [|f IH]; intros l t l'; [discriminate|]. cbn [findeol_loop]. destruct (lgetc l) as [[c|] l1] eqn:G; intros H I; pose proof (lgetc_keeps _ _ _ G I) as (K & _).
  - destruct (c =? 10); [injection H as <- <-; exact K|]. apply IH in H; [exact H|apply inv0_inv1, K].
  - injection H as <- <-. exact K.
Qed.
Lemma too_long_keeps l t l' : too_long l = OK (t, l') -> inv0 l -> inv0 l'.
Proof. unfold too_long, findeol. intros H I. apply findeol_loop_keeps in H; [exact H|]. apply inv0_inv1. exact I. Qed.
Lemma skip_while_keeps test : forall f l c l', skip_while test f l = OK (c, l') -> inv1 l -> keeps l l'.
Proof.
  induction f as [|f IH]; intros l c l'; [discriminate|]. cbn [skip_while]. destruct (lgetc l) as [[d|] l1] eqn:G; intros H I; pose proof (lgetc_keeps _ _ _ G I) as K.
  - destruct (test d); [|injection H as <- <-; exact K]. apply IH in H; [exact (keeps_trans _ _ _ K H)|apply inv0_inv1, K].
  - injection H as <- <-. exact K.
Qed.
Lemma read_name_keeps : forall f b l r, read_name f b l = OK r -> inv0 l -> match r with inl (_, l') => inv0 l' | inr (_, l') => keeps l l' end.
Proof.
  induction f as [|f IH]; intros b l r; [discriminate|]. cbn [read_name]. destruct (lgetc l) as [[c|] l1] eqn:G; intros H I; pose proof (lgetc_keeps _ _ _ G (inv0_inv1 _ I)) as K.
  - apply lgetc_size in G. destruct G as (_ & _ & NM). destruct (BUFSZ - 1 <=? blen b + 1).
    + destruct (too_long l1) as [[t l2]| |] eqn:T; try discriminate. cbn [bind] in H. apply OK_inj in H. subst r. apply too_long_keeps in T; [exact T|apply K].
    + destruct (name_char c).
      * unfold put in H. destruct (blen b <? BUFSZ); [|discriminate]. cbn [bind] in H. apply IH in H; [|apply K]. destruct r as [[t l2]|[n l2]]; [exact H|exact (keeps_trans _ _ _ K H)].
      * unfold terminate in H. destruct (blen b <? BUFSZ); [|discriminate]. cbn [bind] in H. apply OK_inj in H. subst r. split; [apply lungetc_inv; [exact NM|apply K]|].
        rewrite lungetc_exp. apply K.
  - apply OK_inj in H. subst r. apply K.
Qed.
Lemma read_quoted_keeps q : forall f b l t l', read_quoted f q b l = OK (t, l') -> inv0 l -> inv0 l'.
Proof.
  induction f as [|f IH]; intros b l t l'; [discriminate|]. cbn [read_quoted].
  destruct (lgetc_q q l) as [[c|] l1] eqn:G; intros H I; pose proof (lgetc_q_keeps _ _ _ _ G I) as K; [|injection H as <- <-; exact K]. cbv zeta in H.
  assert (Store : forall d l2, inv0 l2 -> (if BUFSZ - 1 <=? blen b + 1 then too_long l2 else let* b0 := put b d in read_quoted f q b0 l2) = OK (t, l') -> inv0 l').
  { intros d l2 I2 E. destruct (BUFSZ - 1 <=? blen b + 1); [exact (too_long_keeps _ _ _ E I2)|]. unfold put in E. destruct (blen b <? BUFSZ); [|discriminate]. exact (IH _ _ _ _ E I2). }
  destruct (c =? 10); [exact (IH _ _ _ _ H K)|]. destruct (c =? 92).
  - destruct (lgetc_q q l1) as [[n|] l2] eqn:G2; pose proof (lgetc_q_keeps _ _ _ _ G2 K) as K2; [|injection H as <- <-; exact K2].
    destruct ((n =? q) || (n =? 32) || (n =? 9)) eqn:NQ; [exact (Store _ _ K2 H)|]. destruct (n =? 10); [exact (IH _ _ _ _ H K2)|].
    refine (Store _ _ _ H). apply lungetc_inv; [|exact K2]. apply lgetc_q_size in G2. destruct G2 as (_ & [(_ & M)|(-> & _)]); [exact M|]. rewrite N.eqb_refl in NQ. discriminate.
  - destruct (c =? q); [unfold terminate in H; destruct (blen b <? BUFSZ); [injection H as <- <-; exact K|discriminate]|]. destruct (c =? 0); [exact (too_long_keeps _ _ _ H K)|exact (Store _ _ K H)].
Qed.
Lemma read_while_keeps test : forall f c b l r, read_while test f c b l = OK r -> inv0 l -> match r with inl (_, l') => inv0 l' | inr (_, _, l') => inv0 l' end.
Proof.
  induction f as [|f IH]; intros c b l r; [discriminate|]. cbn [read_while]. unfold put. destruct (blen b <? BUFSZ); [|discriminate]. cbn [bind]. destruct (BUFSZ <=? blen (b ++ [c])).
  { destruct (too_long l) as [[t l2]| |] eqn:T; try discriminate. cbn [bind]. intros H I. apply OK_inj in H. subst r. exact (too_long_keeps _ _ _ T I). }
  destruct (lgetc l) as [[d|] l1] eqn:G; intros H I; pose proof (lgetc_keeps _ _ _ G (inv0_inv1 _ I)) as (K & _).
  - destruct (test d); [exact (IH _ _ _ _ H K)|]. apply OK_inj in H. subst r. exact K.
  - apply OK_inj in H. subst r. exact K.
Qed.
Lemma unget_all_inv : forall s l, no_marks s -> inv0 l -> inv0 (fold_left (fun l c => lungetc (Some c) l) s l).
Proof.
  induction s as [|c s IH]; intros l M I; [exact I|]. cbn [fold_left]. inversion M; subst. apply IH; [assumption|]. apply lungetc_inv; assumption.
Qed.
Lemma read_other_keeps c l t l' : ~ mark c -> read_other (Some c) l = OK (t, l') -> inv0 l -> inv0 l'.
Proof.
  intros C H I. unfold read_other in H. destruct (_ || _ || _); [|injection H as <- <-; exact I]. unfold read_word in H.
  destruct (read_while_total in_string (S (size l)) c [] l ltac:(lia) ltac:(reflexivity) ltac:(constructor) C) as [(t2 & l2 & E & _)|(s & n & l2 & E & _ & _ & BL & _ & NM)];
    rewrite E in H; cbn [bind app] in H; apply read_while_keeps in E; try exact I.
  - injection H as <- <-. exact E.
  - rewrite terminate_ok in H by exact BL. cbn [bind] in H. destruct (lookup (c :: s)) as [k| |]; try discriminate. cbn [bind] in H. injection H as _ <-. apply lungetc_inv; [|exact E]. destruct n; [apply NM|exact Logic.I].
Qed.
Lemma read_number_keeps c l t l' : ~ mark c -> read_number c l = OK (t, l') -> inv0 l -> inv0 l'.
Proof.
  intros C H I. unfold read_number in H.
  destruct (read_while_total is_digit (S (size l)) c [] l ltac:(lia) ltac:(reflexivity) ltac:(constructor) C) as [(t2 & l2 & E & _)|(s & n & l2 & E & _ & NS & BL & _ & NM)];
    rewrite E in H; cbn [bind app] in H; apply read_while_keeps in E; try exact I.
  - injection H as <- <-. exact E.
  - cbv zeta in H. assert (U : inv0 (lungetc n l2)) by (apply lungetc_inv; [destruct n; [apply NM|exact Logic.I]|exact E]).
    destruct (_ && _) in H.
    + rewrite terminate_ok in H by exact BL. cbn [bind] in H. destruct (strtonum _ _ _) as [z []]; try (exact (too_long_keeps _ _ _ H U)). injection H as <- <-. exact U.
    + cbn [tl] in H. assert (U2 : inv0 (fold_left (fun l c => lungetc (Some c) l) (rev s) (lungetc n l2))).
      { apply unget_all_inv; [|exact U]. unfold no_marks. apply Forall_rev, NS. }
      destruct (c =? 45); [injection H as <- <-; exact U2|]. exact (read_other_keeps _ _ _ _ C H U2).
Qed.

(** the value of no macro has a mark in it; or at least no DONE_EXPAND *)
Definition macros_clean (syms : list sym) : Prop := Forall (fun s => no_marks (y_val s)) syms.
Definition macros_end (syms : list sym) : Prop := Forall (fun s => ~ In 2 (y_val s)) syms.
Definition tok_end (t : tok) : Prop := match t with TStr s => ~ In 2 s | _ => True end.
Lemma nomarks_end s : no_marks s -> ~ In 2 s.
Proof. unfold no_marks. rewrite Forall_forall. intros H I. exact (H 2 I (or_intror eq_refl)). Qed.
Lemma tok_ok_end t : tok_ok t -> tok_end t.
Proof. destruct t; cbn; auto using nomarks_end. Qed.
Lemma macros_clean_end syms : macros_clean syms -> macros_end syms.
Proof. intros H. eapply Forall_impl; [|exact H]. intros x. apply nomarks_end. Qed.
Lemma symget_in syms n v (P : list N -> Prop) : Forall (fun s => P (y_val s)) syms -> symget n syms = Some v -> P v.
Proof.
  unfold symget, symfind. intros M H. destruct (find _ syms) as [s|] eqn:F; [|discriminate]. injection H as <-. apply find_some in F. rewrite Forall_forall in M. apply M, F.
Qed.
Lemma symget_clean syms n v : macros_clean syms -> symget n syms = Some v -> no_marks v.
Proof. apply symget_in. Qed.

Lemma unget_in v c : In c (unget v) -> In c v.
Proof. unfold unget. intros H. apply filter_In in H. apply H. Qed.

Lemma m35 {A} (c : N) (a b : A) : match Some c with Some 35 => a | _ => b end = if c =? 35 then a else b.
Proof. destruct c as [|p]; [reflexivity|]. repeat (destruct p as [p|p|]; try reflexivity). Qed.
Lemma yylex_top_total : forall f l, (lives l < f)%nat -> macros_end (lx_syms l) ->
  exists t l', yylex_top f l = OK (t, l') /\ lx_syms l' = lx_syms l /\ tok_end t /\ (macros_clean (lx_syms l) -> inv1 l -> inv0 l').
Proof.
  induction f as [|f IH]; intros l L M; [lia|]. cbn [yylex_top].
  destruct (skip_while_total (fun c => (c =? 32) || (c =? 9)) (S (size l)) l ltac:(lia)) as (c1 & l1 & E1 & S1 & P1). rewrite E1. cbn [bind].
  assert (L1 : match c1 with Some _ => (cost l1 + lives l1 <= lives l)%nat | None => True end) by (destruct c1; [apply (skip_while_lives _ _ _ _ _ E1)|exact I]).
  assert (K1 : inv1 l -> inv0 l1) by (intros J; apply skip_while_keeps in E1; [apply E1|exact J]). clear E1.
  assert (X : exists c2 l2, match c1 with Some 35 => skip_while (fun c => negb (c =? 10)) (S (size l1)) l1 | _ => OK (c1, l1) end = OK (c2, l2) /\
     lx_syms l2 = lx_syms l /\ (inv1 l -> inv0 l2) /\ match c2 with Some c => ~ mark c /\ (cost l2 + lives l2 <= lives l)%nat | None => True end).
  { destruct (skip_while_total (fun c => negb (c =? 10)) (S (size l1)) l1 ltac:(lia)) as (c2 & l2 & E2 & S2 & P2).
    assert (K : exists c2 l2, OK (c1, l1) = OK (c2, l2) /\ lx_syms l2 = lx_syms l /\ (inv1 l -> inv0 l2) /\ match c2 with Some c => ~ mark c /\ (cost l2 + lives l2 <= lives l)%nat | None => True end).
    { exists c1, l1. split; [reflexivity|]. split; [exact S1|]. split; [exact K1|]. destruct c1; [|exact I]. split; [apply P1|exact L1]. }
    assert (K2 : c1 <> None -> exists c3 l3, OK (c2, l2) = OK (c3, l3) /\ lx_syms l3 = lx_syms l /\ (inv1 l -> inv0 l3) /\ match c3 with Some c => ~ mark c /\ (cost l3 + lives l3 <= lives l)%nat | None => True end).
    { intros NN. exists c2, l2. split; [reflexivity|]. split; [congruence|]. split; [intros J; apply skip_while_keeps in E2; [apply E2|apply inv0_inv1, K1, J]|].
      destruct c2 as [c2|]; [|exact I]. split; [apply P2|]. apply skip_while_lives in E2. destruct c1; [lia|congruence]. }
    rewrite E2. destruct c1 as [c1|]; [|exact K]. specialize (K2 ltac:(discriminate)). rewrite m35. destruct (c1 =? 35); [exact K2|exact K]. }
  destruct X as (c2 & l2 & E2 & S2 & K2 & P2). rewrite E2. cbn [bind]. destruct c2 as [c|]; [|eexists; eexists; split; [reflexivity|]; split; [exact S2|split; [exact I|intros _; exact K2]]].
  destruct P2 as (NM & L2).
  destruct (((c =? 36) || (c =? 64)) && negb (lx_exp l2)) eqn:B.
  - apply Bool.andb_true_iff in B. destruct B as (B1 & B2).
    assert (C2 : lx_exp l2 = false) by (destruct (lx_exp l2); [discriminate|reflexivity]).
    destruct (read_name_total (S (size l2)) [] l2 ltac:(lia) ltac:(constructor)) as [(t & l3 & E3 & S3 & T3)|(n & l3 & E3 & S3 & N3)]; rewrite E3; cbn [bind];
      pose proof (read_name_keeps _ _ _ _ E3) as K3; cbv beta iota in K3.
    { eexists; eexists. split; [reflexivity|]. split; [congruence|]. split; [apply tok_ok_end, T3|intros _ J; exact (K3 (K2 J))]. }
    destruct (symget n (lx_syms l3)) as [v|] eqn:SG.
    2:{ destruct (too_long_total l3) as (l4 & E4 & S4). rewrite E4. eexists; eexists. split; [reflexivity|]. split; [congruence|]. split; [exact I|intros _ J; exact (too_long_keeps _ _ _ E4 (proj1 (K3 (K2 J))))]. }
    rewrite S3, S2 in SG. pose proof (symget_in _ _ _ (fun v => ~ In 2 v) M SG) as VC. cbv beta in VC.
    destruct (c =? 36); [eexists; eexists; split; [reflexivity|]; split; [congruence|]; split; [exact VC|intros _ J; exact (proj1 (K3 (K2 J)))]|].
    apply read_name_size in E3.
    set (l4 := set_text _ _ _). set (l4' := set_text (unget v ++ DONE_EXPAND :: text l3) true l3).
    assert (SM : forall g, yylex_top g l4 = yylex_top g l4') by (intros g; apply top_same; reflexivity).
    assert (S4 : lx_syms l4' = lx_syms l) by (cbn; congruence).
    assert (L4 : (lives l4' < lives l)%nat).
    { set (LL := lives l) in *. clearbody LL. unfold l4', lives, set_text, set_cur, text. cbn [lx_cur lf_text lx_outer lx_exp lf_eof live]. rewrite <- app_assoc, <- app_comm_cons.
      rewrite past_expand by (intros I2; apply unget_in in I2; exact (VC I2)).
      pose proof (all_size l3) as A3. pose proof (all_size l2) as A2. unfold text in *. cbn [fakes lx_cur lf_eof] in *.
      unfold lives, cost, text in L2. rewrite C2 in L2. unfold live in L2. cbn [fakes] in L2. lia. }
    rewrite SM. destruct (IH l4') as (t & l5 & E5 & S5 & T5 & K5); [lia|rewrite S4; exact M|]. exists t, l5. split; [exact E5|]. split; [congruence|]. split; [exact T5|].
    intros MC J. rewrite S4 in K5. apply K5; [exact MC|]. apply inv0_inv1. pose proof (symget_clean _ _ _ MC SG) as VN. unfold no_marks in VN. rewrite Forall_forall in VN.
    destruct (K3 (K2 J)) as ((J1 & J2) & _). split; [|exact J2]. unfold l4', set_text, set_cur, text. cbn [lx_cur lf_text].
    intros H. apply in_app_or in H. destruct H as [H|[H|H]]; [exact (VN 1 (unget_in _ _ H) (or_introl eq_refl))|discriminate|exact (J1 H)].
  - destruct ((c =? 39) || (c =? 34)) eqn:Q.
    + destruct (read_quoted_total c NM) with (f := S (size l2)) (b := @nil N) (l := l2) as (t & l3 & E3 & S3 & T3);
        [intros ->; discriminate|intros ->; discriminate|lia|reflexivity|constructor|]. exists t, l3. split; [exact E3|]. split; [congruence|]. split; [apply tok_ok_end, T3|intros _ J; exact (read_quoted_keeps _ _ _ _ _ _ E3 (K2 J))].
    + destruct ((c =? 45) || is_digit c).
      * destruct (read_number_total c l2 NM) as (t & l3 & E3 & S3 & T3). exists t, l3. split; [exact E3|]. split; [congruence|]. split; [apply tok_ok_end, T3|intros _ J; exact (read_number_keeps _ _ _ _ NM E3 (K2 J))].
      * destruct (read_other_total (Some c) l2 NM) as (t & l3 & E3 & S3 & T3). exists t, l3. split; [exact E3|]. split; [congruence|]. split; [apply tok_ok_end, T3|intros _ J; exact (read_other_keeps _ _ _ _ NM E3 (K2 J))].
Qed.
Theorem yylex_total l : macros_end (lx_syms l) ->
  exists t l', yylex l = OK (t, l') /\ lx_syms l' = lx_syms l /\ tok_end t /\ (macros_clean (lx_syms l) -> inv0 l -> inv0 l').
Proof.
  intros M. destruct (yylex_top_total (S (size l)) l) as (t & l' & E & S & T & K); [pose proof (lives_size l); lia|exact M|]. exists t, l'. split; [exact E|]. split; [exact S|]. split; [exact T|].
  intros C J. apply K; [exact C|apply inv0_inv1, J].
Qed.
