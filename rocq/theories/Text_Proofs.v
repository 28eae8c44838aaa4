(** The parser on the text of a configuration file. *)
From Verif Require Import Base BaseLemmas Compat Compat_Proofs Conf Config Mime Fmt Parse Prop_Parse Prop_Mime UpTls Lex LexSpec Lex_Proofs Spell_Proofs Iri_Last_Proofs Gram GramSpec Gram_Proofs.
Local Open Scope N_scope.

(** ** lexer states between lines *)
Definition fstate (s : list N) (o : list lfile) (y : list sym) : lex := mkLex (mkLf s false 0) o false y.
Definition lst (next : option (list N)) (o : list lfile) (y : list sym) : lex :=
  match next with Some s => fstate s o y | None => mkLex (mkLf [] true 0) o false y end.
Definition clean_outer (o : list lfile) : Prop := Forall (fun f => ~ In 1 (lf_text f)) o.
Lemma fstate_pre b e o y : pre b (fstate e o y) = fstate (b ++ e) o y.
Proof. reflexivity. Qed.
Lemma nomarks_1 s : no_marks s -> ~ In 1 s.
Proof. intros M H. unfold no_marks in M. rewrite Forall_forall in M. exact (M 1 H (or_introl eq_refl)). Qed.
Lemma fstate_good s o y : no_marks s -> clean_outer o -> macros_clean y -> good (fstate s o y).
Proof. intros A B C. split; [split; [exact (nomarks_1 _ A)|exact B]|exact C]. Qed.
Lemma fstate_sees s o y : no_marks s -> sees (fstate s o y) s.
Proof.
  intros M N. destruct s as [|c s]; [eexists; reflexivity|]. cbn [next_of hd] in *. exists (fstate s o y).
  apply (lgetc_pre c [] (fstate s o y)). inversion M; subst. split; assumption.
Qed.
Lemma ends_nomarks e next : ends e next -> match next with Some r => no_marks r | None => True end -> no_marks e.
Proof.
  intros E. destruct E as [r|r|s r C| |s C]; intros M.
  - constructor; [unfold mark; lia|exact M].
  - constructor; [unfold mark; lia|exact M].
  - constructor; [unfold mark; lia|]. apply no_marks_app; [apply comment_nomarks, C|]. constructor; [unfold mark; lia|exact M].
  - constructor.
  - constructor; [unfold mark; lia|]. apply comment_nomarks, C.
Qed.
Lemma yylex_10 l l1 : lgetc l = (Some 10, l1) -> yylex l = OK (TChr 10, l1).
Proof. intros G. unfold yylex. rewrite (top_char _ _ 10 l1 G); [|unfold blank; lia|lia]. unfold dispatch. rewrite andb_false_l. reflexivity. Qed.
Lemma ends_yylex e next o y : ends e next -> exists k, (k = TChr 10 \/ k = TChr 59) /\ yylex (fstate e o y) = OK (k, lst next o y).
Proof.
  intros E. destruct E as [r|r|s r C| |s C].
  - exists (TChr 10). split; [auto|]. apply yylex_10. reflexivity.
  - exists (TChr 59). split; [auto|]. unfold yylex. rewrite (top_char _ _ 59 (fstate r o y)); [|reflexivity|unfold blank; lia|lia]. reflexivity.
  - exists (TChr 10). split; [auto|]. unfold yylex. change (35 :: s ++ 10 :: r) with ((35 :: s) ++ 10 :: r). rewrite <- fstate_pre.
    rewrite (top_comment _ s _ (fstate r o y) C); [|reflexivity]. reflexivity.
  - exists (TChr 10). split; [auto|]. apply yylex_10. reflexivity.
  - exists (TChr 10). split; [auto|]. unfold yylex. rewrite <- (app_nil_r (35 :: s)), <- fstate_pre.
    rewrite (top_comment _ s _ (lst None o y) C); [|reflexivity]. reflexivity.
Qed.
Lemma lexes_last : forall ts l l1 u l2, lexes l ts l1 -> yylex l1 = OK (u, l2) -> lexes_to l (ts ++ [u]) l2.
Proof.
  induction ts as [|t ts IH]; intros l l1 u l2 L Y; cbn [lexes lexes_to app] in *.
  - exists l2. split; [congruence|reflexivity].
  - destruct L as (x & YX & L). exists x. split; [exact YX|]. apply (IH x l1); assumption.
Qed.
Lemma lexes_some : forall ts l l1, lexes l ts l1 -> exists l2, lexes_to l ts l2 /\ yylex l2 = yylex l1.
Proof.
  induction ts as [|t ts IH]; intros l l1 L; cbn [lexes lexes_to] in *.
  - exists l. auto.
  - destruct L as (x & YX & L). destruct (IH x l1 L) as (l2 & A & B). exists l2. split; [|exact B]. exists x. auto.
Qed.
Lemma line_lexes y o e b ts : spells (val_of y) false e b ts -> no_marks e -> clean_outer o -> macros_clean y -> lexes (fstate (b ++ e) o y) ts (fstate e o y).
Proof.
  intros S M O Y. rewrite <- fstate_pre. apply (lex_spelled _ _ _ _ _ S (fstate e o y)); [reflexivity|apply fstate_good; assumption|reflexivity|apply fstate_sees, M].
Qed.
Lemma line_lexes_to y o e b ts next : spells (val_of y) false e b ts -> ends e next -> no_marks e -> clean_outer o -> macros_clean y ->
  exists k, (k = TChr 10 \/ k = TChr 59) /\ lexes_to (fstate (b ++ e) o y) (ts ++ [k]) (lst next o y).
Proof.
  intros S E M O Y. destruct (ends_yylex e next o y E) as (k & K & YL). exists k. split; [exact K|]. apply (lexes_last ts _ (fstate e o y)); [apply line_lexes; assumption|exact YL].
Qed.

(** the name of an included file, and what is left *)
Lemma name_lexes y o w name r : file_name w name r -> no_marks r -> r <> [] -> hd 0 r <> 92 -> clean_outer o -> macros_clean y ->
  yylex (fstate (w ++ r) o y) = OK (TStr name, fstate r o y).
Proof.
  intros F M NE H O Y. destruct F as [q s name r Q D LN|w r W EW NB WT].
  - unfold yylex. change ((q :: s ++ [q]) ++ r) with (q :: (s ++ [q]) ++ r). rewrite (top_char _ _ q (fstate ((s ++ [q]) ++ r) o y)).
    + unfold dispatch. replace ((q =? 36) || (q =? 64)) with false by lia. cbn [andb]. replace ((q =? 39) || (q =? 34)) with true by lia.
      rewrite <- fstate_pre. rewrite (read_quoted_spell q Q s name D); [reflexivity| |unfold blen; cbn; lia]. rewrite pre_size, app_length. cbn [length]. lia.
    + apply (lgetc_pre q [] (fstate ((s ++ [q]) ++ r) o y)). unfold plain, mark. lia.
    + unfold blank. lia.
    + lia.
  - pose proof W as W'. destruct W' as (c & r' & -> & ST & _).
    destruct (dispatch_word (size (fstate ((c :: r') ++ r) o y)) c r' (fstate r o y) r (TStr (c :: r')) W EW NB WT (fstate_sees r o y M)) as (l1 & G & YY).
    { intros l1 G. apply (lgetc_size _ _ _ G). }
    unfold yylex. change ((c :: r') ++ r) with (c :: r' ++ r). rewrite (top_char _ _ c (fstate (r' ++ r) o y)).
    + rewrite <- fstate_pre. rewrite fstate_pre. change (fstate (r' ++ r) o y) with (pre r' (fstate r o y)). rewrite <- app_comm_cons in YY. rewrite YY. f_equal. f_equal.
      destruct r as [|x r]; [congruence|]. cbn [next_of hd] in *. assert (G2 : lgetc (fstate (x :: r) o y) = (Some x, fstate r o y)).
      { apply (lgetc_pre x [] (fstate r o y)). inversion M; subst. split; assumption. }
      rewrite G in G2. injection G2 as ->. reflexivity.
    + apply (lgetc_pre c [] (fstate (r' ++ r) o y)). apply start_plain, ST.
    + unfold word_start, letter, digit in ST. unfold blank. lia.
    + unfold word_start, letter, digit in ST. lia.
Qed.
(** at the end of an included file *)
Lemma back_out r o y : no_marks r -> r <> [] -> hd 0 r <> 92 -> clean_outer o -> macros_clean y ->
  yylex (lst None (mkLf r false 0 :: o) y) = yylex (fstate r o y).
Proof.
  intros M NE H O Y. apply lex_same.
  - split; [split; [intros []|]|exact Y]. constructor; [exact (nomarks_1 _ M)|exact O].
  - apply fstate_good; assumption.
  - destruct r as [|c r]; [congruence|]. cbn [hd] in H. inversion M; subst.
    unfold lgetc at 1. cbn [lst lx_cur text lf_text getlines lf_eof lx_outer popeof]. cbv iota. unfold popfile. cbn [set_text set_cur lx_outer lx_cur lf_errors].
    match goal with X : ~ mark c |- _ => destruct (nomark c X) as (A & B) end. apply N.eqb_neq in H. unfold igetc, lgetc, fstate, text. cbn [lx_cur lf_text getmarks getlines lx_exp lf_eof lx_syms]. unfold START_EXPAND, DONE_EXPAND. rewrite A, B, H. reflexivity.
Qed.

(** ** loops over lines *)
Definition reach (B : nat -> nat -> M unit) (d : nat) (g g' : gst) : Prop :=
  forall k n m, (d <= k)%nat -> (d <= n)%nat -> (d <= m)%nat ->
  exists k' n', (optnl k;; B n m) g = (optnl k';; B n' m) g' /\ (Nat.min k m <= k' + d)%nat /\ (n <= n' + d)%nat.
Lemma reach_refl B g : reach B 0 g g.
Proof. intros k n m _ _ _. exists k, n. split; [reflexivity|]. lia. Qed.
Lemma reach_trans B d1 d2 g1 g2 g3 : reach B d1 g1 g2 -> reach B d2 g2 g3 -> reach B (d1 + d2) g1 g3.
Proof.
  intros R1 R2 k n m K N M. destruct (R1 k n m) as (k1 & n1 & E1 & K1 & N1); try lia. destruct (R2 k1 n1 m) as (k2 & n2 & E2 & K2 & N2); try lia.
  exists k2, n2. split; [congruence|]. lia.
Qed.
Lemma optnl_same (B : nat -> nat -> M unit) k n m l l' c : yylex l = yylex l' -> (optnl k;; B n m) (mkG l None c) = (optnl k;; B n m) (mkG l' None c).
Proof.
  intros Y. unfold bnd. replace (optnl k (mkG l None c)) with (optnl k (mkG l' None c)); [reflexivity|].
  destruct k as [|k]; [reflexivity|]. cbn [optnl]. unfold bnd at 1 3. unfold peek. cbn [g_la g_lex]. rewrite Y. destruct (yylex l') as [[t l2]| |]; reflexivity.
Qed.
Lemma reach_same B l l' c : yylex l = yylex l' -> reach B 0 (mkG l None c) (mkG l' None c).
Proof. intros Y k n m _ _ _. exists k, n. split; [apply optnl_same, Y|lia]. Qed.
Lemma reach_nl B l u l' c : yylex l = OK (u, l') -> u = TChr 10 \/ u = TChr 59 -> reach B 1 (mkG l None c) (mkG l' None c).
Proof.
  intros Y U k n m K N M. destruct k as [|k]; [lia|]. exists k, n. split; [|lia]. unfold bnd.
  replace (optnl (S k) (mkG l None c)) with (optnl k (mkG l' None c)); [reflexivity|]. cbn [optnl]. unfold bnd at 1, peek at 1. cbn [g_la g_lex]. rewrite Y, is_nl_or by exact U. reflexivity.
Qed.

Section Loop.
Variable B : nat -> nat -> M unit.
Variable item : nat -> M unit.
Variable fin : tok -> bool.
Hypothesis B_step : forall n m g t, g_la g = Some t -> fin t = false -> B (S n) m g = (item m;; nl m;; B n m) g.
Lemma reach_item d l t ts L c c' u L' : lexes_to l (t :: ts) L -> is_nl t = false -> fin t = false -> u = TChr 10 \/ u = TChr 59 ->
  (forall m g, (d <= m)%nat -> st c (t :: ts) L g -> wp (item m) g (fun _ g' => st c' [u] L' g')) -> reach B (S d) (mkG l None c) (mkG L' None c').
Proof.
  intros LX NT FT U I k n m K N M. destruct k as [|k]; [lia|]. destruct n as [|n]; [lia|]. exists m, n. split; [|lia].
  destruct LX as (l1 & Y & LX). unfold bnd at 1. cbn [optnl]. unfold bnd at 1, peek at 1. cbn [g_la g_lex]. rewrite Y, NT. cbv beta iota. unfold ret at 1.
  set (g1 := set_la (Some t) (set_lex l1 (mkG l None c))). rewrite (B_step n m g1 t eq_refl FT).
  assert (S1 : st c (t :: ts) L g1) by (split; [reflexivity|]; unfold at_; cbn; eauto).
  destruct (I m g1 ltac:(lia) S1) as ([] & g2 & E2 & C2 & A2). unfold bnd at 1. rewrite E2. unfold bnd at 1, nl. unfold bnd at 1.
  destruct (wp_next c' u [] L' g2 (fun t g' => t = u /\ st c' [] L' g') (conj C2 A2) (fun g' S' => conj eq_refl S')) as (u2 & g3 & E3 & -> & C3 & A3).
  rewrite E3, (is_nl_or u U). unfold at_ in A3. destruct g3 as [lx3 [t3|] c3]; cbn [g_la g_lex g_core] in *; [destruct A3 as (? & D & _); discriminate|]. cbn [lexes_to] in A3. subst. reflexivity.
Qed.
End Loop.

(** ** no marks *)
Lemma quoted_value q s b : q = 34 \/ q = 39 -> quoted q s b -> no_marks b.
Proof.
  intros Q D. induction D as [|c t s N D IH|t s D IH|c t s I D IH|t s D IH|c t s N D IH]; try assumption; [constructor|..].
  - constructor; [|exact IH]. cbn [In] in N. unfold mark. intuition congruence.
  - constructor; [|exact IH]. cbn [In] in I. unfold mark. lia.
  - constructor; [unfold mark; lia|exact IH].
Qed.
Lemma spells_clean val e after t ts : (forall n v, val n = Some v -> no_marks v) -> spells val e after t ts -> Forall (fun t => match t with TStr s => no_marks s | _ => True end) ts.
Proof.
  intros V S. induction S as [e after|e after c t ts B S IH|e after t ts S IH|e after s t ts C S IH|s C|e after w k t ts W EW NB WT S IH|e after q s b t ts Q D LB S IH
    |e after n z t ts NU EN S IH|e after t ts D N S IH|e after c t ts B W N E S IH|after n v t ts M EN VV S IH|after n v t vs ts M EN VV N2 S1 IH1 S2 IH2]; try assumption; try (constructor; [exact I|exact IH]); try constructor; try assumption.
  - destruct WT as [(k' & _ & ->)|(_ & ->)]; [exact I|apply word_nomarks, W].
  - apply (quoted_value q s b Q D).
  - apply (V n v VV).
  - apply Forall_app. split; assumption.
Qed.
Lemma symset_clean n v t : no_marks v -> macros_clean t -> macros_clean (symset n v false t).
Proof.
  intros V M. unfold symset, macros_clean in *.
  assert (A : forall u, Forall (fun s => no_marks (y_val s)) u -> Forall (fun s => no_marks (y_val s)) (u ++ [mkSym n v false])) by (intros u U; apply Forall_app; split; [exact U|constructor; [exact V|constructor]]).
  destruct (symfind n t) as [s|]; [|apply A, M]. destruct (y_persist s); [exact M|]. apply A.
  clear - M. induction t as [|x t IH]; cbn; [constructor|]. inversion M; subst. destruct (leqb (y_name x) n); [assumption|]. constructor; auto.
Qed.
Lemma strs_clean v a : strs v a -> Forall (fun t => match t with TStr s => no_marks s | _ => True end) a -> no_marks v.
Proof. intros (ps & _ & -> & ->). induction ps as [|p ps IH]; cbn [map concat]; intros F; [constructor|]. inversion F; subst. apply no_marks_app; auto. Qed.
Lemma name_clean w name r : file_name w name r -> no_marks w.
Proof.
  intros F. destruct F as [q s name r Q D LN|w r W _ _ _].
  - constructor; [unfold mark; lia|]. apply no_marks_app; [apply (quoted_nomarks q s name Q D)|]. constructor; [unfold mark; lia|constructor].
  - apply word_nomarks, W.
Qed.
Definition next_clean (next : option (list N)) : Prop := match next with Some r => no_marks r | None => True end.
Lemma rest_clean y r next : rest_of_line y r next -> next_clean next -> no_marks r.
Proof. intros (b & e & -> & _ & _ & S & E) N. apply no_marks_app; [apply (spells_nomarks _ _ _ _ _ S)|apply (ends_nomarks e next E N)]. Qed.

Section Text.
Variable gai : option (list N) -> list N -> option (list (ainfo * list N)).
Variable service : list N -> option Z.
Variable files : list N -> option (list N).

Lemma types_clean y close next l : types_text files y close next l -> match close with Some r => no_marks r | None => True end -> next_clean next.
Proof.
  intros T C. induction T as [close b rest E S|close E|close b e next l S E T IH|close b e next m es a l S NE F E T IH|close b w name c r next l1 l2 S F FI R T1 IH1 T2 IH2]; cbn [next_clean] in *.
  - subst close. apply no_marks_app; [apply (spells_nomarks _ _ _ _ _ S)|]. constructor; [unfold mark; lia|exact C].
  - exact I.
  - apply no_marks_app; [apply (spells_nomarks _ _ _ _ _ S)|apply (ends_nomarks e next E), IH, C].
  - apply no_marks_app; [apply (spells_nomarks _ _ _ _ _ S)|apply (ends_nomarks e next E), IH, C].
  - apply no_marks_app; [apply (spells_nomarks _ _ _ _ _ S)|]. apply no_marks_app; [apply (name_clean _ _ _ F)|]. apply (rest_clean y r next R), IH2, C.
Qed.
Lemma conf_clean y next sts y' : conf_text service files y next sts y' -> next_clean next.
Proof.
  intros T. induction T as [y|y b e next sts y' S E T IH|y b e next ts s sts y' S TS E T IH|y b t rest b2 e next l sts y' S NE TT EQ S2 E T IH|y b e next n v a sts y' S SV W E T IH
    |y b w name c r next sts1 y1 sts2 y2 S F FI T1 IH1 R T2 IH2]; cbn [next_clean] in *.
  - exact I.
  - apply no_marks_app; [apply (spells_nomarks _ _ _ _ _ S)|apply (ends_nomarks e next E), IH].
  - apply no_marks_app; [apply (spells_nomarks _ _ _ _ _ S)|apply (ends_nomarks e next E), IH].
  - apply no_marks_app; [apply (spells_nomarks _ _ _ _ _ S)|]. apply (types_clean _ _ _ _ TT). subst rest. apply no_marks_app; [apply (spells_nomarks _ _ _ _ _ S2)|apply (ends_nomarks e next E), IH].
  - apply no_marks_app; [apply (spells_nomarks _ _ _ _ _ S)|apply (ends_nomarks e next E), IH].
  - apply no_marks_app; [apply (spells_nomarks _ _ _ _ _ S)|]. apply no_marks_app; [apply (name_clean _ _ _ F)|]. apply (rest_clean y1 r next R), IH2.
Qed.

(** ** includes *)
Lemma include_lexes y o b w name r : spells (val_of y) false (w ++ r) b [TKw INCLUDE] -> file_name w name r -> no_marks r -> r <> [] -> hd 0 r <> 92 -> clean_outer o -> macros_clean y ->
  lexes_to (fstate (b ++ w ++ r) o y) [TKw INCLUDE; TStr name] (fstate r o y).
Proof.
  intros S F M NE H O Y. apply (lexes_last [TKw INCLUDE] _ (fstate (w ++ r) o y)); [|apply name_lexes; assumption].
  apply line_lexes; [exact S| |exact O|exact Y]. apply no_marks_app; [apply (name_clean _ _ _ F)|exact M].
Qed.
Lemma wp_include name c0 r o y c g (Q : unit -> gst -> Prop) : files name = Some c0 -> st c [TStr name] (fstate r o y) g ->
  (forall g', st c [TChr 10] (fstate c0 (mkLf r false 0 :: o) y) g' -> Q tt g') -> wp (include files) g Q.
Proof.
  intros F S H. unfold include. apply wp_bind, (wp_str _ _ _ _ _ _ S). clear g S. intros g (C & A). rewrite F.
  exists tt, (set_lex (include_file c0 (g_lex g)) g). split; [reflexivity|]. apply H. split; [exact C|]. unfold at_ in *. cbn [set_lex g_la g_lex].
  destruct (g_la g) as [t|]; [destruct A as (? & D & _); discriminate|]. cbn [lexes_to] in *. rewrite A. eexists. split; [|reflexivity]. apply yylex_10. reflexivity.
Qed.

(** ** types *)
Lemma l_step n m g t : g_la g = Some t -> is_chr 125 t = false -> mediaopts_l files (S n) m g = (mediaopts files m;; nl m;; mediaopts_l files n m) g.
Proof. intros A F. cbn [mediaopts_l]. unfold bnd at 1, peek. rewrite A, F. reflexivity. Qed.
Lemma types_reach y close next l : types_text files y close next l -> macros_clean y -> forall o c c', clean_outer o -> match close with Some r => no_marks r | None => True end ->
  ofold ev_type l c = Some c' ->
  exists d, reach (mediaopts_l files) d (mkG (lst next o y) None c) (mkG (match close with Some r => fstate (125 :: r) o y | None => lst None o y end) None c').
Proof.
  intros T Y. induction T as [close b rest E S|close E|close b e next l S E T IH|close b e next m es a l S NE F E T IH|close b w name c0 r next l1 l2 S F FI R T1 IH1 T2 IH2]; intros o c c' O C EV.
  - cbn [ofold] in EV. injection EV as <-. subst close. exists 0%nat. apply reach_same. apply (line_lexes y o (125 :: rest) b [] S); [constructor; [unfold mark; lia|exact C]|exact O|exact Y].
  - cbn [ofold] in EV. injection EV as <-. subst close. exists 0%nat. apply reach_refl.
  - destruct (IH o c c' O C EV) as (d & R). pose proof (ends_nomarks e next E (types_clean _ _ _ _ T C)) as EM.
    destruct (line_lexes_to y o e b [] next S E EM O Y) as (k & K & l1 & YL & EL). cbn [lexes_to] in EL. subst l1.
    exists (1 + d)%nat. apply (reach_trans _ _ _ _ _ _ (reach_nl _ _ k _ c YL K) R).
  - cbn [ofold] in EV. destruct (ev_type (m, es) c) as [c1|] eqn:E1; [|discriminate]. destruct (IH o c1 c' O C EV) as (d & R). pose proof (ends_nomarks e next E (types_clean _ _ _ _ T C)) as EM.
    destruct (line_lexes_to y o e b _ next S E EM O Y) as (k & K & LX). exists (1 + (1 + length a) + d)%nat. refine (reach_trans _ _ _ _ _ _ _ R). cbn [app] in LX.
    apply (reach_item (mediaopts_l files) (mediaopts files) (is_chr 125) l_step (1 + length a)%nat _ (TStr m) (a ++ [k]) (lst next o y) c c1 k); auto.
    intros m0 g M0 G. apply (type_run gai service files m0 m es a c c1 k (lst next o y)); auto. destruct K as [->| ->]; reflexivity.
  - assert (EVS : exists c1, ofold ev_type l1 c = Some c1 /\ ofold ev_type l2 c1 = Some c').
    { clear - EV. revert c EV. induction l1 as [|x l1 IH]; intros c EV; cbn [ofold app] in *; [eauto|]. destruct (ev_type x c); [|discriminate]. apply IH, EV. }
    destruct EVS as (c1 & EV1 & EV2). pose proof (types_clean _ _ _ _ T2 C) as NC2. pose proof (rest_clean y r next R NC2) as RM. pose proof R as (b2 & e2 & RE & RN & RH & RS & REN).
    destruct (IH1 (mkLf r false 0 :: o) c c1) as (d1 & R1); [constructor; [exact (nomarks_1 _ RM)|exact O]|exact I|exact EV1|]. destruct (IH2 o c1 c' O C EV2) as (d2 & R2).
    assert (R12 : reach (mediaopts_l files) (0 + 1) (mkG (lst None (mkLf r false 0 :: o) y) None c1) (mkG (lst next o y) None c1)).
    { eapply reach_trans; [apply reach_same, back_out; assumption|]. subst r. pose proof (ends_nomarks e2 next REN NC2) as EM.
      destruct (line_lexes_to y o e2 b2 [] next RS REN EM O Y) as (k & K & lx & YL & EL). cbn [lexes_to] in EL. subst lx. apply (reach_nl _ _ k _ c1 YL K). }
    eexists. refine (reach_trans _ _ _ _ _ _ _ (reach_trans _ _ _ _ _ _ R1 (reach_trans _ _ _ _ _ _ R12 R2))).
    apply (reach_item (mediaopts_l files) (mediaopts files) (is_chr 125) l_step 0 _ (TKw INCLUDE) [TStr name] (fstate r o y) c c (TChr 10)); auto.
    + apply include_lexes; assumption.
    + intros m g _ G. unfold mediaopts. apply wp_bind, (wp_peek _ _ _ _ _ _ G). clear g G. intros g G. apply wp_bind, (wp_next _ _ _ _ _ _ G). clear g G. intros g G.
      apply (wp_include name c0 r o y c g _ FI G). intros g' G'. exact G'.
Qed.

Lemma types_first y close next l : types_text files y close next l -> macros_clean y -> l <> [] -> forall o c, clean_outer o -> match close with Some r => no_marks r | None => True end ->
  exists d, forall k, (d <= k)%nat -> exists g1 t1, optnl k (mkG (lst next o y) None c) = Good (tt, g1) /\ g_la g1 = Some t1 /\ is_chr 125 t1 = false.
Proof.
  intros T Y. assert (ONE : forall l t l' c, yylex l = OK (t, l') -> is_nl t = false -> is_chr 125 t = false ->
    forall k, (1 <= k)%nat -> exists g1 t1, optnl k (mkG l None c) = Good (tt, g1) /\ g_la g1 = Some t1 /\ is_chr 125 t1 = false).
  { intros lx t l' c YL NT N125 k K. destruct k as [|k]; [lia|]. cbn [optnl]. unfold bnd at 1, peek. cbn [g_la g_lex]. rewrite YL, NT. eexists. eexists. split; [reflexivity|]. split; [reflexivity|exact N125]. }
  induction T as [close b rest E S|close E|close b e next l S E T IH|close b e next m es a l S NE F E T IH|close b w name c0 r next l1 l2 S F FI R T1 IH1 T2 IH2]; intros N o c O C.
  - congruence.
  - congruence.
  - destruct (IH N o c O C) as (d & H). pose proof (ends_nomarks e next E (types_clean _ _ _ _ T C)) as EM.
    destruct (line_lexes_to y o e b [] next S E EM O Y) as (u & U & lx & YL & EL). cbn [lexes_to] in EL. subst lx. exists (1 + d)%nat. intros k K. destruct k as [|k]; [lia|]. destruct (H k ltac:(lia)) as (g1 & t1 & A). exists g1, t1.
    destruct A as (A1 & A2). split; [|exact A2]. cbn [optnl]. unfold bnd at 1, peek at 1. cbn [g_la g_lex lst]. rewrite YL, (is_nl_or u U). exact A1.
  - pose proof (ends_nomarks e next E (types_clean _ _ _ _ T C)) as EM. destruct (line_lexes_to y o e b _ next S E EM O Y) as (u & U & lx & YL & _). exists 1%nat. intros k K. apply (ONE _ _ _ c YL); auto.
  - pose proof (types_clean _ _ _ _ T2 C) as NC2. pose proof (rest_clean y r next R NC2) as RM. pose proof R as (b2 & e2 & RE & RN & RH & RS & REN).
    destruct (include_lexes y o b w name r S F RM RN RH O Y) as (lx & YL & _). exists 1%nat. intros k K. apply (ONE _ _ _ c YL); auto.
Qed.

(** `types' { ... } *)
Lemma types_run y o t rest l c c' L : types_text files y (Some rest) (Some t) l -> l <> [] -> macros_clean y -> clean_outer o -> no_marks rest -> ofold ev_type l c = Some c' ->
  yylex L = yylex (fstate t o y) -> exists d, forall m g, (d <= m)%nat -> st c [TKw TYPES; TChr 123] L g -> wp (types_ files m) g (fun _ g' => st c' [] (fstate rest o y) g').
Proof.
  intros T NE Y O R EV YL. destruct (types_reach _ _ _ _ T Y o c c' O R EV) as (d1 & RE). destruct (types_first _ _ _ _ T Y NE o c O R) as (d2 & FI).
  exists (2 + d1 + d2)%nat. intros m g M G. unfold types_. apply wp_bind, (wp_expect_kw _ _ _ _ _ _ G). clear g G. intros g G. apply wp_bind, (wp_expect _ _ _ _ _ _ G). clear g G. intros g (C & A).
  destruct g as [lx la c0]. unfold at_ in A. cbn [g_la g_core g_lex] in *. destruct la as [x|]; [destruct A as (? & D & _); discriminate|]. cbn [lexes_to] in A. subst lx c0.
  assert (EQ : (optnl m;; mediaopts files m;; nl m;; mediaopts_l files m m) (mkG L None c) = (optnl m;; mediaopts_l files (S m) m) (mkG L None c)).
  { assert (E0 : forall X, (optnl m;; X) (mkG L None c) = (optnl m;; X) (mkG (fstate t o y) None c)) by (intros X; apply (optnl_same (fun _ _ => X) m 0 0), YL). rewrite !E0.
    destruct (FI m ltac:(lia)) as (g1 & t1 & E1 & E2 & E3). cbn [lst] in E1. unfold bnd at 1 4. rewrite E1. symmetry. apply (l_step m m g1 t1 E2 E3). }
  unfold wp. rewrite EQ. rewrite (optnl_same (mediaopts_l files) m (S m) m L (fstate t o y) c YL).
  destruct (RE m (S m) m ltac:(lia) ltac:(lia) ltac:(lia)) as (k' & n' & E' & K' & N'). cbn [lst] in E'. rewrite E'. destruct k' as [|k']; [lia|]. destruct n' as [|n']; [lia|].
  assert (Y125 : yylex (fstate (125 :: rest) o y) = OK (TChr 125, fstate rest o y)).
  { unfold yylex. rewrite (top_char _ _ 125 (fstate rest o y)); [reflexivity|reflexivity|unfold blank; lia|lia]. }
  assert (G2 : st c' [TChr 125] (fstate rest o y) (mkG (fstate (125 :: rest) o y) None c')).
  { split; [reflexivity|]. unfold at_. cbn [g_la g_lex lexes_to]. eauto. }
  change (wp (optnl (S k');; mediaopts_l files (S n') m) (mkG (fstate (125 :: rest) o y) None c') (fun _ g' => st c' [] (fstate rest o y) g')).
  apply wp_bind. cbn [optnl]. apply wp_bind, (wp_peek _ _ _ _ _ _ G2). intros g G. cbn [is_nl is_chr N.eqb Pos.eqb orb]. apply wp_ret. cbn [mediaopts_l].
  apply wp_bind, (wp_peek _ _ _ _ _ _ G). clear g G. intros g G. cbn [is_chr N.eqb Pos.eqb]. apply wp_bind, (wp_next _ _ _ _ _ _ G). clear g G. intros g G. apply wp_ret. exact G.
Qed.

(** ** macros *)
Lemma more_la : forall n a g s g', more_strings n a g = Good (s, g') -> exists t, g_la g' = Some t.
Proof.
  induction n as [|n IH]; intros a g s g' E; [discriminate|]. cbn [more_strings] in E. unfold bnd at 1 in E.
  assert (P : forall g t g1, peek g = Good (t, g1) -> g_la g1 = Some t).
  { clear. intros g t g1 E. unfold peek in E. destruct (g_la g) eqn:A; [injection E as <- <-; exact A|]. destruct (yylex (g_lex g)) as [[u l]| |]; try discriminate. injection E as <- <-. reflexivity. }
  destruct (peek g) as [[t g1]| | | |] eqn:PE; try discriminate E.
  destruct t; try (unfold ret in E; injection E as <- <-; eexists; apply (P _ _ _ PE)).
  unfold bnd in E. destruct (next g1) as [[t2 g2]| | | |]; try discriminate E. apply (IH _ _ _ _ E).
Qed.
Lemma varset_run n nm v a c k next o y m g : strs v a -> (length a < m)%nat -> (forall x, In x (tl nm) -> ~ white x) -> k = TChr 10 \/ k = TChr 59 ->
  n = symset nm v false y -> st c (TStr nm :: TChr 61 :: a ++ [k]) (lst next o y) g -> wp (varset m) g (fun _ g' => st c [k] (lst next o n) g').
Proof.
  intros S N W K -> G. unfold varset. apply wp_bind, (wp_str _ _ _ _ _ _ G). clear g G. intros g G. apply wp_bind, (wp_expect _ _ _ _ _ _ G). clear g G. intros g G. apply wp_bind.
  assert (SE : wp (string_ m) g (fun s g' => s = v /\ st c [k] (lst next o y) g' /\ g_la g' = Some k)).
  { destruct (wp_string v a m c k [] (lst next o y) g (fun s g' => s = v /\ st c [k] (lst next o y) g') S N) as (s & g' & E & -> & G'); [destruct K as [->| ->]; reflexivity|exact G|auto|].
    exists v, g'. split; [exact E|]. split; [reflexivity|]. split; [exact G'|]. unfold string_, bnd in E. destruct (Gram.next g) as [[t g1]| | | |]; try discriminate E. destruct t; try discriminate E. destruct (more_la _ _ _ _ _ E) as (t & T).
    destruct G' as (_ & A). unfold at_ in A. rewrite T in *. destruct A as (? & D & _). injection D as -> _. reflexivity. }
  refine (wp_mono _ _ _ _ SE _). clear g G SE. intros s g (-> & (C & A) & LA).
  replace (existsb is_space (tl nm)) with false.
  2:{ symmetry. destruct (existsb is_space (tl nm)) eqn:Q; [|reflexivity]. apply existsb_exists in Q. destruct Q as (x & X & Z). exfalso. apply (W x X). unfold is_space in Z. unfold white. lia. }
  unfold modify_lex. eexists. eexists. split; [reflexivity|]. split; [exact C|]. unfold at_ in *. cbn [set_lex g_la g_lex]. rewrite LA in *. destruct A as (ts' & D & A). injection D as <-. cbn [lexes_to] in A. exists []. split; [reflexivity|]. cbn [lexes_to]. rewrite A.
  destruct next; reflexivity.
Qed.

(** ** the file *)
Definition fin (t : tok) : bool := match t with TEnd => true | _ => false end.
Lemma c_step n m g t : g_la g = Some t -> fin t = false -> conf_ gai service files (S n) m g = (statement gai service files m;; nl m;; conf_ gai service files n m) g.
Proof. intros A F. cbn [conf_]. unfold bnd at 1, peek. rewrite A. destruct t; try discriminate F; reflexivity. Qed.
Lemma ofold_app {A S} (ev : A -> S -> option S) : forall l1 l2 s s', ofold ev (l1 ++ l2) s = Some s' -> exists s1, ofold ev l1 s = Some s1 /\ ofold ev l2 s1 = Some s'.
Proof. induction l1 as [|x l1 IH]; intros l2 s s' E; cbn [ofold app] in *; [eauto|]. destruct (ev x s); [|discriminate]. apply IH, E. Qed.

Theorem conf_reach y next sts y' : conf_text service files y next sts y' -> macros_clean y -> Forall valid_stmt sts ->
  macros_clean y' /\ forall o c c', clean_outer o -> ofold (ev_stmt gai) sts c = Some c' ->
  exists d, reach (conf_ gai service files) d (mkG (lst next o y) None c) (mkG (lst None o y') None c').
Proof.
  set (B := conf_ gai service files). intros T. induction T as [y|y b e next sts y' S E T IH|y b e next ts s sts y' S TS E T IH|y b t rest b2 e next l sts y' S NE TT EQ S2 E T IH|y b e next n v a sts y' S SV W E T IH
    |y b w name c0 r next sts1 y1 sts2 y2 S F FI T1 IH1 R T2 IH2]; intros Y V.
  - split; [exact Y|]. intros o c c' O EV. cbn [ofold] in EV. injection EV as <-. exists 0%nat. apply reach_refl.
  - destruct (IH Y V) as (Y' & H). split; [exact Y'|]. intros o c c' O EV. destruct (H o c c' O EV) as (d & R). pose proof (ends_nomarks e next E (conf_clean _ _ _ _ T)) as EM.
    destruct (line_lexes_to y o e b [] next S E EM O Y) as (k & K & lx & YL & EL). cbn [lexes_to] in EL. subst lx. exists (1 + d)%nat. apply (reach_trans _ _ _ _ _ _ (reach_nl _ _ k _ c YL K) R).
  - inversion V as [|? ? V1 V2]; subst. destruct (IH Y V2) as (Y' & H). split; [exact Y'|]. intros o c c' O EV. cbn [ofold] in EV. destruct (ev_stmt gai s c) as [c1|] eqn:E1; [|discriminate].
    destruct (H o c1 c' O EV) as (d & R). pose proof (ends_nomarks e next E (conf_clean _ _ _ _ T)) as EM. destruct (line_lexes_to y o e b _ next S E EM O Y) as (k & K & LX).
    destruct (stmt_run gai service files (1 + length ts) s ts c c1 TS V1 ltac:(lia) E1) as (_ & t & r & ET & NT & TE). rewrite ET in LX. cbn [app] in LX.
    exists (1 + (1 + length ts) + d)%nat. refine (reach_trans _ _ _ _ _ _ _ R).
    apply (reach_item B (statement gai service files) fin c_step (1 + length ts)%nat _ t (r ++ [k]) (lst next o y) c c1 k); auto; [destruct t; try reflexivity; congruence|].
    intros m g M G. destruct (stmt_run gai service files m s ts c c1 TS V1 ltac:(lia) E1) as (RU & _). apply (RU k [] (lst next o y) g); [destruct K as [->| ->]; reflexivity|]. rewrite ET. exact G.
  - inversion V as [|? ? V1 V2]; subst. destruct (IH Y V2) as (Y' & H). split; [exact Y'|]. intros o c c' O EV. cbn [ofold ev_stmt] in EV. destruct (ofold ev_type l c) as [c1|] eqn:E1; [|discriminate].
    destruct (H o c1 c' O EV) as (d & R). pose proof (ends_nomarks e next E (conf_clean _ _ _ _ T)) as EM.
    assert (RM : no_marks (b2 ++ e)) by (apply no_marks_app; [apply (spells_nomarks _ _ _ _ _ S2)|exact EM]). pose proof (types_clean _ _ _ _ TT RM) as TM. cbn [next_clean] in TM.
    destruct (lexes_some _ _ _ (line_lexes y o t b _ S TM O Y)) as (L1 & LX & YL). destruct (types_run y o t (b2 ++ e) l c c1 L1 TT NE Y O RM E1 YL) as (d2 & RU).
    destruct (line_lexes_to y o e b2 [] next S2 E EM O Y) as (k & K & LE).
    exists (1 + d2 + d)%nat. refine (reach_trans _ _ _ _ _ _ _ R).
    apply (reach_item B (statement gai service files) fin c_step d2 _ (TKw TYPES) [TChr 123] L1 c c1 k); auto.
    intros m g M G. unfold statement. apply wp_bind, (wp_peek _ _ _ _ _ _ G). clear g G. intros g G. refine (wp_mono _ _ _ _ (RU m g M G) _).
    intros _ g' (C & A). split; [exact C|]. unfold at_ in *. destruct (g_la g') as [x|]; [destruct A as (? & D & _); discriminate|]. cbn [lexes_to app] in A. rewrite A. exact LE.
  - pose proof (spells_clean (val_of y) _ _ _ _ (fun n v => symget_clean y n v Y) S) as SC. assert (VM : no_marks v) by (apply (strs_clean v a SV); inversion SC; subst; inversion H2; subst; assumption).
    destruct (IH (symset_clean n v y VM Y) V) as (Y' & H). split; [exact Y'|]. intros o c c' O EV. destruct (H o c c' O EV) as (d & R). pose proof (ends_nomarks e next E (conf_clean _ _ _ _ T)) as EM.
    destruct (line_lexes_to y o e b _ next S E EM O Y) as (k & K & LX). rewrite <- app_assoc in LX. cbn [app] in LX.
    exists (1 + (1 + length a) + d)%nat. refine (reach_trans _ _ _ _ _ _ _ R).
    apply (reach_item B (statement gai service files) fin c_step (1 + length a)%nat _ (TStr n) (TChr 61 :: a ++ [k]) (lst next o y) c c k); auto.
    intros m g M G. unfold statement. apply wp_bind, (wp_peek _ _ _ _ _ _ G). clear g G. intros g G. apply (varset_run _ n v a c k next o y m g); auto.
  - apply Forall_app in V. destruct V as (V1 & V2). destruct (IH1 Y V1) as (Y1 & H1). destruct (IH2 Y1 V2) as (Y2 & H2). split; [exact Y2|]. intros o c c' O EV.
    destruct (ofold_app _ _ _ _ _ EV) as (c1 & EV1 & EV2). pose proof (conf_clean _ _ _ _ T2) as NC2. pose proof (rest_clean y1 r next R NC2) as RM. pose proof R as (b2 & e2 & RE & RN & RH & RS & REN).
    destruct (H1 (mkLf r false 0 :: o) c c1) as (d1 & R1); [constructor; [exact (nomarks_1 _ RM)|exact O]|exact EV1|]. destruct (H2 o c1 c' O EV2) as (d2 & R2).
    assert (R12 : reach B (0 + 1) (mkG (lst None (mkLf r false 0 :: o) y1) None c1) (mkG (lst next o y1) None c1)).
    { eapply reach_trans; [apply reach_same, back_out; assumption|]. subst r. pose proof (ends_nomarks e2 next REN NC2) as EM.
      destruct (line_lexes_to y1 o e2 b2 [] next RS REN EM O Y1) as (k & K & lx & YL & EL). cbn [lexes_to] in EL. subst lx. apply (reach_nl _ _ k _ c1 YL K). }
    eexists. refine (reach_trans _ _ _ _ _ _ _ (reach_trans _ _ _ _ _ _ R1 (reach_trans _ _ _ _ _ _ R12 R2))).
    apply (reach_item B (statement gai service files) fin c_step 0 _ (TKw INCLUDE) [TStr name] (fstate r o y) c c (TChr 10)); auto.
    + apply include_lexes; assumption.
    + intros m g _ G. unfold statement. apply wp_bind, (wp_peek _ _ _ _ _ _ G). clear g G. intros g G. apply wp_bind, (wp_next _ _ _ _ _ _ G). clear g G. intros g G.
      apply (wp_include name c0 r o y c g _ FI G). intros g' G'. exact G'.
Qed.

(** what parse_conf makes of a whole file *)
Theorem text_parsed y s sts y' c' : conf_text service files y (Some s) sts y' -> macros_clean y -> Forall valid_stmt sts ->
  ofold (ev_stmt gai) sts (g_core (start y s)) = Some c' ->
  exists d, forall n, (d <= n)%nat -> parse_conf gai service files n y s = Good c'.
Proof.
  intros T Y V EV. destruct (conf_reach _ _ _ _ T Y V) as (Y' & H). destruct (H [] _ _ (Forall_nil _) EV) as (d & R).
  exists (2 + d)%nat. intros n N. destruct (R n n n ltac:(lia) ltac:(lia) ltac:(lia)) as (k' & n' & E & K' & N'). destruct k' as [|k']; [lia|]. destruct n' as [|n']; [lia|].
  unfold parse_conf, grammar. change (start y s) with (mkG (lst (Some s) [] y) None (g_core (start y s))) at 1. rewrite E. reflexivity.
Qed.
End Text.
