(** What the lexer makes of text that spells tokens. *)
From Verif Require Import Base BaseLemmas Compat Compat_Proofs Mime Parse Lex Lex_Proofs LexSpec.
From Verif Require Import Iri_Last_Proofs Prop_Mime.
Local Open Scope N_scope.

(** ** fuel does not matter *)
Lemma yylex_top_mono : forall f f' l r, yylex_top f l = OK r -> (f <= f')%nat -> yylex_top f' l = OK r.
Proof.
  induction f as [|f IH]; intros f' l r; [discriminate|]. destruct f' as [|f']; [lia|]. cbn [yylex_top]. intros H L.
  destruct (skip_while (fun c => (c =? 32) || (c =? 9)) (S (size l)) l) as [[c1 l1]| |]; try discriminate. cbn [bind] in *.
  destruct (match c1 with Some 35 => _ | _ => _ end) as [[c2 l2]| |]; try discriminate. cbn [bind] in *. destruct c2 as [c|]; [|exact H].
  destruct (_ && _); [|exact H]. destruct (read_name (S (size l2)) [] l2) as [[x|[b l3]]| |]; try discriminate; cbn [bind] in *; [exact H|].
  destruct (symget b (lx_syms l3)) as [v|]; [|exact H]. destruct (c =? 36); [exact H|]. apply IH; [exact H|lia].
Qed.

(** ** states that read on alike *)
Definition good (l : lex) : Prop := inv0 l /\ macros_clean (lx_syms l).
Lemma yylex_fuel l f : good l -> (lives l < f)%nat -> yylex_top f l = yylex l.
Proof.
  intros (I & M) L. destruct (yylex_top_total f l L (macros_clean_end _ M)) as (t & l' & E & _). destruct (yylex_total l (macros_clean_end _ M)) as (t2 & l2 & E2 & _). unfold yylex in *.
  destruct (Nat.le_ge_cases f (S (size l))) as [X|X]; [rewrite (yylex_top_mono _ _ _ _ E X); exact E|rewrite (yylex_top_mono _ _ _ _ E2 X); symmetry; exact E2].
Qed.
Lemma lex_same a b : good a -> good b -> lgetc a = lgetc b -> yylex a = yylex b.
Proof.
  intros A B H. set (f := S (size a + size b)). rewrite <- (yylex_fuel a f A), <- (yylex_fuel b f B).
  - apply top_same, H. 
  - unfold f. pose proof (lives_size b). lia.
  - unfold f. pose proof (lives_size a). lia.
Qed.

(** ** text put before what a state has to read *)
Definition pre (s : list N) (l : lex) : lex := set_text (s ++ text l) (lx_exp l) l.
Lemma pre_nil l : pre [] l = l.
Proof. destruct l as [[] ? ? ?]. reflexivity. Qed.
Lemma pre_app s t l : pre (s ++ t) l = pre s (pre t l).
Proof. unfold pre, set_text, set_cur, text. cbn. rewrite app_assoc. reflexivity. Qed.
Lemma pre_size s l : size (pre s l) = (length s + size l)%nat.
Proof. rewrite !size_eq. unfold pre, fsize, text. cbn [set_text set_cur lx_cur lx_outer lf_text lf_eof]. rewrite app_length. lia. Qed.
Lemma pre_syms s l : lx_syms (pre s l) = lx_syms l. Proof. reflexivity. Qed.
Lemma pre_exp s l : lx_exp (pre s l) = lx_exp l. Proof. reflexivity. Qed.
Lemma lungetc_pre c l : lungetc (Some c) l = pre [c] l. Proof. reflexivity. Qed.
Lemma pre_good s l : no_marks s -> good l -> good (pre s l).
Proof.
  intros M ((A & B) & C). split; [|exact C]. split; [|exact B]. unfold pre, text. cbn. intros H. apply in_app_or in H. destruct H as [H|H]; [|exact (A H)].
  unfold no_marks in M. rewrite Forall_forall in M. exact (M 1 H (or_introl eq_refl)).
Qed.
Lemma fold_pre : forall s l, fold_left (fun l c => lungetc (Some c) l) (rev s) l = pre s l.
Proof.
  induction s as [|c s IH]; intros l; [symmetry; apply pre_nil|]. cbn [rev]. rewrite fold_left_app, IH. cbn [fold_left]. rewrite lungetc_pre, <- pre_app. reflexivity.
Qed.
Definition plain (c : N) : Prop := ~ mark c /\ c <> 92.
Lemma nomark c : ~ mark c -> c =? 1 = false /\ c =? 2 = false.
Proof. intros M. split; apply N.eqb_neq; intros ->; apply M; [left|right]; reflexivity. Qed.
Lemma lgetc_pre c s l : plain c -> lgetc (pre (c :: s) l) = (Some c, pre s l).
Proof.
  intros (M & NB). unfold lgetc, pre at 1, text. cbn [lx_cur set_text set_cur lf_text app getlines lx_exp]. unfold START_EXPAND, DONE_EXPAND.
  destruct (nomark c M) as (-> & ->). apply N.eqb_neq in NB. rewrite NB. reflexivity.
Qed.
Lemma lgetc_esc c s l : ~ mark c -> c <> 10 -> lgetc (pre (92 :: c :: s) l) = (Some c, pre s l).
Proof.
  intros M NB. unfold lgetc, pre at 1, text. cbn [lx_cur set_text set_cur lf_text app getlines lx_exp]. unfold START_EXPAND, DONE_EXPAND.
  change (92 =? 1) with false. change (92 =? 2) with false. change (92 =? 92) with true. cbv iota. destruct (nomark c M) as (-> & ->). apply N.eqb_neq in NB. rewrite NB. reflexivity.
Qed.
Lemma lgetc_join s l : lgetc (pre (92 :: 10 :: s) l) = lgetc (pre s l).
Proof. reflexivity. Qed.
Lemma igetc_pre c s l : ~ mark c -> igetc (pre (c :: s) l) = (Some c, pre s l).
Proof.
  intros M. unfold igetc, pre at 1, text. cbn [lx_cur set_text set_cur lf_text app getmarks lx_exp]. unfold START_EXPAND, DONE_EXPAND. destruct (nomark c M) as (-> & ->). reflexivity.
Qed.

(** what is read next *)
Definition sees (l : lex) (after : list N) : Prop := next_of after <> 92 -> exists l1, lgetc l = (Some (next_of after), l1).
Lemma sees_pre t l after : no_marks t -> sees l after -> sees (pre t l) (t ++ after).
Proof.
  intros M S. destruct t as [|c t]; [rewrite pre_nil; exact S|]. intros N. cbn [app next_of hd] in *. exists (pre t l). apply lgetc_pre. inversion M; subst. split; assumption.
Qed.

(** ** characters *)
Lemma digit_iff c : is_digit c = true <-> digit c.
Proof. unfold is_digit, digit. lia. Qed.
Lemma start_iff c : is_alnum c || (c =? 58) || (c =? 95) = true <-> word_start c.
Proof. unfold is_alnum, is_alpha, is_upper, is_lower, is_digit, word_start, letter, digit. lia. Qed.
Lemma name_iff c : name_char c = true <-> name_byte c.
Proof. unfold name_char, is_alnum, is_alpha, is_upper, is_lower, is_digit, name_byte, letter, digit. lia. Qed.
Lemma string_iff c : in_string c = true <-> word_char c \/ c = 92.
Proof.
  unfold in_string, is_punct, is_alnum, is_alpha, is_upper, is_lower, is_digit, word_char.
  replace (s2b "(){}!=#,;\") with [40; 41; 123; 125; 33; 61; 35; 44; 59; 92] by reflexivity. cbn [In]. lia.
Qed.
Lemma ends_iff c rest : next_of rest = c -> (ends_number c = true <-> ends_num rest).
Proof.
  intros E. unfold ends_number, ends_num, is_space, white. rewrite E. replace (s2b "),/}=") with [41; 44; 47; 125; 61] by reflexivity. cbn [In]. lia.
Qed.
Lemma bool_no b P : (b = true <-> P) -> ~ P -> b = false.
Proof. intros I N. destruct b; [exfalso; apply N, I; reflexivity|reflexivity]. Qed.
Lemma start_plain c : word_start c -> plain c.
Proof. unfold word_start, letter, digit, plain, mark. lia. Qed.
Lemma char_plain c : word_char c -> plain c.
Proof. unfold word_char, plain, mark. replace (s2b "(){}!=#,;\") with [40; 41; 123; 125; 33; 61; 35; 44; 59; 92] by reflexivity. cbn [In]. lia. Qed.
Lemma digit_plain c : digit c -> plain c.
Proof. unfold digit, plain, mark. lia. Qed.
Lemma name_plain c : name_byte c -> plain c.
Proof. unfold name_byte, letter, digit, plain, mark. lia. Qed.

(** ** keywords *)
Definition kbefore (a b : list N * kw) : Prop := strcmp (fst a) (fst b) = Lt.
Lemma keywords_sorted : forall i j a b, (i < j)%nat -> nth_error keywords i = Some a -> nth_error keywords j = Some b -> strcmp (fst a) (fst b) = Lt.
Proof.
  assert (G : forall t : list (list N * kw), (fix ok (t : list (list N * kw)) : bool := match t with [] => true | a :: r => forallb (fun b => match strcmp (fst a) (fst b) with Lt => true | _ => false end) r && ok r end) t = true ->
     forall i j a b, (i < j)%nat -> nth_error t i = Some a -> nth_error t j = Some b -> strcmp (fst a) (fst b) = Lt).
  { induction t as [|x t IH]; intros H i j a b L A B; [destruct i; discriminate|]. apply andb_true_iff in H. destruct H as (H1 & H2).
    destruct j as [|j]; [lia|]. destruct i as [|i]; cbn in A, B.
    - injection A as <-. rewrite forallb_forall in H1. specialize (H1 b (nth_error_In _ _ B)). destruct (strcmp (fst x) (fst b)); congruence.
    - apply (IH H2 i j); [lia|exact A|exact B]. }
  apply G. vm_compute. reflexivity.
Qed.
Lemma kw_search_ok s : forall fuel lo hi, (hi - lo < fuel)%nat -> (hi <= length keywords)%nat ->
  (forall i e, nth_error keywords i = Some e -> fst e = s -> (lo <= i < hi)%nat) ->
  (exists k, kw_search fuel s lo hi = OK (Some k) /\ In (s, k) keywords) \/
  (kw_search fuel s lo hi = OK None /\ forall k, ~ In (s, k) keywords).
Proof.
  induction fuel as [|f IH]; intros lo hi Hf Hh Hin; [lia|]. cbn [kw_search].
  destruct (Nat.leb_spec hi lo).
  { right. split; [reflexivity|]. intros k He. apply In_nth_error in He. destruct He as [i Hi]. specialize (Hin i _ Hi eq_refl). lia. }
  cbv zeta. pose proof (Nat.div_mod (lo + hi) 2 ltac:(lia)) as DM. pose proof (Nat.mod_upper_bound (lo + hi) 2 ltac:(lia)) as DB.
  set (mid := ((lo + hi) / 2)%nat) in *. clearbody mid.
  destruct (nth_error keywords mid) as [e|] eqn:E; [|apply nth_error_None in E; lia].
  destruct (strcmp s (fst e)) eqn:C.
  - apply strcmp_eq in C. left. exists (snd e). split; [reflexivity|]. rewrite C, <- surjective_pairing. eapply nth_error_In; eauto.
  - apply IH; [lia|lia|]. intros i x Hi Hx. pose proof (Hin i x Hi Hx). split; [lia|].
    destruct (Nat.lt_ge_cases i mid) as [|G]; [assumption|]. exfalso. destruct (Nat.eq_dec i mid) as [->|Hne].
    + rewrite Hi in E. injection E as ->. rewrite Hx in C. assert (strcmp s s = Eq) by (apply strcmp_eq; reflexivity). congruence.
    + pose proof (keywords_sorted mid i e x ltac:(lia) E Hi) as B.
      pose proof (strcmp_trans _ _ (fst x) C ltac:(congruence)) as Q. rewrite Hx in Q. assert (strcmp s s = Eq) by (apply strcmp_eq; reflexivity). congruence.
  - apply IH; [lia|lia|]. intros i x Hi Hx. pose proof (Hin i x Hi Hx). split; [|lia].
    destruct (Nat.lt_ge_cases mid i) as [|G]; [assumption|]. exfalso. destruct (Nat.eq_dec i mid) as [->|Hne].
    + rewrite Hi in E. injection E as ->. rewrite Hx in C. assert (strcmp s s = Eq) by (apply strcmp_eq; reflexivity). congruence.
    + pose proof (keywords_sorted i mid x e ltac:(lia) Hi E) as B. rewrite Hx in B. congruence.
Qed.
Lemma keywords_in w k : In (w, k) keywords <-> w = s2b (spelling k).
Proof.
  split.
  - intros H. unfold keywords in H. apply in_map_iff in H. destruct H as ([n j] & E & H). cbn [fst snd] in E.
    assert (K : k = j) by congruence. subst j. assert (W : w = s2b n) by congruence. subst w. f_equal. clear E.
    cbn [In] in H. repeat (destruct H as [H|H]; [injection H as <- <-; reflexivity|]). destruct H.
  - intros ->. unfold keywords. apply in_map_iff. exists (spelling k, k). split; [reflexivity|]. destruct k; cbn [spelling]; repeat (first [left; reflexivity|right]).
Qed.
Lemma lookup_word w t : word_token w t -> exists k, lookup w = OK k /\ t = match k with Some k => TKw k | None => TStr w end.
Proof.
  intros H. destruct (kw_search_ok w (S (length keywords)) 0 (length keywords)) as [(k & E & I)|(E & I)]; [lia|lia| | |].
  - intros i e N _. assert (L : nth_error keywords i <> None) by congruence. apply nth_error_Some in L. lia.
  - exists (Some k). split; [exact E|]. destruct H as [(j & H1 & H2)|(H1 & H2)].
    + subst t. f_equal. apply keywords_in in H1. apply In_nth_error in I. apply In_nth_error in H1. destruct I as (i & I). destruct H1 as (m & H1).
      assert (R : strcmp w w = Eq) by (apply strcmp_eq; reflexivity).
      destruct (Nat.lt_trichotomy i m) as [L|[->|L]]; [|congruence|].
      * pose proof (keywords_sorted _ _ _ _ L I H1) as B. cbn [fst] in B. congruence.
      * pose proof (keywords_sorted _ _ _ _ L H1 I) as B. cbn [fst] in B. congruence.
    + exfalso. apply (H1 k). apply keywords_in, I.
  - exists None. split; [exact E|]. destruct H as [(j & H1 & H2)|(H1 & H2)]; [|exact H2]. exfalso. apply (I j). apply keywords_in, H1.
Qed.

(** ** one token *)
Lemma skip_blank f c s l : (c =? 32) || (c =? 9) = true ->
  skip_while (fun c => (c =? 32) || (c =? 9)) (S f) (pre (c :: s) l) = skip_while (fun c => (c =? 32) || (c =? 9)) f (pre s l).
Proof. intros B. cbn [skip_while]. rewrite lgetc_pre by (unfold plain, mark; lia). rewrite B. reflexivity. Qed.

Definition dispatch (f : nat) (c : option N) (l : lex) : res (tok * lex) :=
  match c with
  | None => OK (TEnd, l)
  | Some c =>
    if ((c =? 36) || (c =? 64)) && negb (lx_exp l) then
      let* r := read_name (S (size l)) [] l in
      match r with
      | inl r => OK r
      | inr (b, l) =>
        match symget b (lx_syms l) with
        | None => too_long l
        | Some v =>
          if c =? 36 then OK (TStr v, l)
          else yylex_top f (set_text (START_EXPAND :: unget v ++ DONE_EXPAND :: text l) (lx_exp l) l)
        end
      end
    else if (c =? 39) || (c =? 34) then read_quoted (S (size l)) c [] l
    else if (c =? 45) || is_digit c then read_number c l
    else read_other (Some c) l
  end.
Lemma top_char f l c l1 : lgetc l = (Some c, l1) -> ~ blank c -> c <> 35 -> yylex_top (S f) l = dispatch f (Some c) l1.
Proof.
  intros G B C. cbn [yylex_top skip_while]. rewrite G. replace ((c =? 32) || (c =? 9)) with false by (unfold blank in B; lia). cbn [bind]. rewrite m35.
  apply N.eqb_neq in C. rewrite C. reflexivity.
Qed.
Lemma skip_comment : forall s, comment s -> forall f X l1, lgetc X = (Some 10, l1) -> (length s < f)%nat ->
  skip_while (fun c => negb (c =? 10)) f (pre s X) = OK (Some 10, l1).
Proof.
  intros s C. induction C as [|c s N C IH|c s N C IH]; intros f X l1 G L; (destruct f as [|f]; [cbn in L; lia|]).
  - rewrite pre_nil. cbn [skip_while]. rewrite G. reflexivity.
  - cbn [skip_while]. cbn [In] in N. rewrite lgetc_pre by (unfold plain, mark; intuition congruence). replace (negb (c =? 10)) with true by (destruct (N.eqb_spec c 10); [intuition congruence|reflexivity]).
    apply IH; [exact G|cbn in L; lia].
  - cbn [In] in N. destruct (N.eq_dec c 10) as [->|NC].
    + specialize (IH (S f) X l1 G ltac:(cbn in L |- *; lia)). cbn [skip_while] in IH |- *. rewrite lgetc_join. exact IH.
    + cbn [skip_while]. rewrite lgetc_esc by (unfold mark; intuition congruence). apply N.eqb_neq in NC. rewrite NC. cbn [negb]. apply IH; [exact G|cbn in L; lia].
Qed.
Lemma top_comment f s X l1 : comment s -> lgetc X = (Some 10, l1) -> yylex_top (S f) (pre (35 :: s) X) = dispatch f (Some 10) l1.
Proof.
  intros C G. cbn [yylex_top].
  assert (E : skip_while (fun c => (c =? 32) || (c =? 9)) (S (size (pre (35 :: s) X))) (pre (35 :: s) X) = OK (Some 35, pre s X)).
  { cbn [skip_while]. rewrite lgetc_pre by (unfold plain, mark; lia). reflexivity. }
  rewrite E. cbn [bind]. rewrite (skip_comment s C (S (size (pre s X))) X l1 G); [reflexivity|]. rewrite pre_size. lia.
Qed.

Lemma read_while_spell test : (forall c, test c = true -> ~ mark c) -> forall s f c b L d l1, Forall (fun c => test c = true /\ c <> 92) s -> lgetc L = (Some d, l1) -> test d = false ->
  (length s < f)%nat -> blen b + N.of_nat (length s) + 1 < BUFSZ -> read_while test f c b (pre s L) = OK (inr (b ++ c :: s, Some d, l1)).
Proof.
  intros TM. induction s as [|x s IH]; intros f c b L d l1 F G T LF LB; (destruct f as [|f]; [cbn in LF; lia|]); cbn [read_while].
  - rewrite put_ok by lia. cbn [bind]. rewrite blen_app. replace (BUFSZ <=? blen b + 1) with false by (cbn in LB; lia). rewrite pre_nil, G, T. reflexivity.
  - rewrite put_ok by (cbn [length] in LB; lia). cbn [bind]. rewrite blen_app. replace (BUFSZ <=? blen b + 1) with false by (cbn [length] in LB; lia).
    inversion F as [|? ? (TX & NX) F']; subst. rewrite lgetc_pre by (split; [apply TM, TX|exact NX]). rewrite TX.
    rewrite (IH f x (b ++ [c]) L d l1 F' G T); [rewrite <- app_assoc; reflexivity|cbn [length] in LF; lia|rewrite blen_app; cbn [length] in LB; lia].
Qed.
Lemma string_nomark c : in_string c = true -> ~ mark c.
Proof. intros H. apply string_iff in H. destruct H as [H| ->]; [apply char_plain in H; apply H|unfold mark; lia]. Qed.
Lemma digit_nomark c : is_digit c = true -> ~ mark c.
Proof. unfold is_digit, mark. lia. Qed.

Lemma read_word_spell c r L d l1 k : Forall word_char r -> N.of_nat (length (c :: r)) <= 8095 -> lgetc L = (Some d, l1) -> ~ word_char d -> d <> 92 -> word_token (c :: r) k ->
  read_word c (pre r L) = OK (k, lungetc (Some d) l1).
Proof.
  intros F LN G D D2 W. unfold read_word. cbn [length] in LN.
  rewrite (read_while_spell in_string string_nomark r (S (size (pre r L))) c [] L d l1).
  - cbn [bind app]. rewrite terminate_ok by (unfold blen, BUFSZ; cbn [length]; lia). cbn [bind]. destruct (lookup_word _ _ W) as (j & -> & ->). reflexivity.
  - eapply Forall_impl; [|exact F]. intros x X. split; [apply string_iff; left; exact X|apply char_plain in X; apply X].
  - exact G.
  - apply (bool_no _ _ (string_iff d)). tauto.
  - rewrite pre_size. lia.
  - unfold blen, BUFSZ. cbn. lia.
Qed.
Lemma read_other_word c L k l' : word_start c -> read_word c L = OK (k, l') -> read_other (Some c) L = OK (k, l').
Proof. intros W E. unfold read_other. apply start_iff in W. rewrite W. exact E. Qed.

(** digits at the beginning of [r] *)
Lemma split_digits : forall r : list N, exists ds r2, r = ds ++ r2 /\ Forall digit ds /\ match r2 with [] => True | x :: _ => ~ digit x end.
Proof.
  induction r as [|x r (ds & r2 & -> & F & N)]; [exists [], []; repeat split; constructor|].
  destruct (is_digit x) eqn:D.
  - exists (x :: ds), r2. apply digit_iff in D. repeat split; [constructor; assumption|exact N].
  - exists [], (x :: ds ++ r2). repeat split; [constructor|]. intros H. apply digit_iff in H. congruence.
Qed.

(** a word, digits first or not *)
Lemma dispatch_word f c r L after k :
  word (c :: r) -> ends_word after -> ~ begins_number (c :: r ++ after) -> word_token (c :: r) k -> sees L after -> (forall l1, lgetc L = (Some (next_of after), l1) -> ~ mark (next_of after)) ->
  exists l1, lgetc L = (Some (next_of after), l1) /\ dispatch f (Some c) (pre r L) = OK (k, lungetc (Some (next_of after)) l1).
Proof.
  intros (c' & r' & E & ST & F & LN) (EW & E92) NB W SE NM. injection E as <- <-.
  destruct (SE E92) as (l1 & G). specialize (NM l1 G). exists l1. split; [exact G|].
  unfold dispatch. assert (X : ((c =? 36) || (c =? 64)) && negb (lx_exp (pre r L)) = false) by (unfold word_start, letter, digit in ST; replace ((c =? 36) || (c =? 64)) with false by lia; reflexivity).
  rewrite X. replace ((c =? 39) || (c =? 34)) with false by (unfold word_start, letter, digit in ST; lia).
  destruct ((c =? 45) || is_digit c) eqn:DG; [|apply read_other_word; [exact ST|apply read_word_spell; assumption]].
  assert (DC : digit c) by (apply digit_iff; unfold word_start, letter, digit in ST; unfold is_digit in *; lia).
  unfold read_number. destruct (split_digits r) as (ds & r2 & -> & FD & ND).
  assert (FD' : Forall (fun c => is_digit c = true /\ c <> 92) ds) by (eapply Forall_impl; [|exact FD]; intros x XD; split; [apply digit_iff, XD|unfold digit in XD; lia]).
  apply Forall_app in F. destruct F as (F1 & F2). cbn [length] in LN. rewrite app_length in LN.
  assert (Q : exists x Y L', lgetc (pre r2 L) = (Some x, Y) /\ ~ digit x /\ ends_number x = false /\ pre ds (lungetc (Some x) Y) = pre (ds ++ r2) L' /\ lgetc L' = (Some (next_of after), l1)).
  { destruct r2 as [|x r2].
    - exists (next_of after), l1, (lungetc (Some (next_of after)) l1). rewrite pre_nil, app_nil_r. split; [exact G|].
      assert (NDA : ~ digit (next_of after)).
      { intros X1. apply EW. unfold word_char, digit in *. split; [lia|]. replace (s2b "(){}!=#,;\") with [40; 41; 123; 125; 33; 61; 35; 44; 59; 92] by reflexivity. cbn [In]. lia. }
      split; [exact NDA|]. split.
      + apply (bool_no _ _ (ends_iff _ after eq_refl)). intros EN. apply NB. exists (c :: ds), after. rewrite app_nil_r. split; [reflexivity|]. split; [discriminate|]. split; [constructor; assumption|]. split; assumption.
      + split; [reflexivity|]. rewrite lungetc_pre, lgetc_pre by (split; assumption). rewrite pre_nil. reflexivity.
    - inversion F2 as [|? ? WX F2']; subst. exists x, (pre r2 L), L. rewrite lgetc_pre by (apply char_plain, WX). split; [reflexivity|]. split; [exact ND|]. split.
      + apply (bool_no _ _ (ends_iff x (x :: r2 ++ after) eq_refl)). intros EN. apply NB. exists (c :: ds), (x :: r2 ++ after). rewrite <- app_assoc. split; [reflexivity|]. split; [discriminate|]. split; [constructor; assumption|]. split; assumption.
      + split; [|exact G]. rewrite lungetc_pre, <- (pre_app [x] r2 L), <- pre_app. reflexivity. }
  destruct Q as (x & Y & L' & GX & NX & EX & PX & GL). rewrite pre_app.
  rewrite (read_while_spell is_digit digit_nomark ds (S (size (pre ds (pre r2 L)))) c [] (pre r2 L) x Y FD' GX (bool_no _ _ (digit_iff x) NX)).
  - cbn [bind app]. cbv zeta. rewrite EX, Bool.andb_false_r. cbn [tl]. rewrite fold_pre, PX. replace (c =? 45) with false by (unfold digit in DC; lia).
    apply read_other_word; [exact ST|]. apply read_word_spell; try assumption; [apply Forall_app; auto|]. cbn [length]. rewrite app_length. exact LN.
  - rewrite !pre_size. lia.
  - unfold blen, BUFSZ. cbn [length]. lia.
Qed.

Lemma dispatch_number f n z L after : number n z -> ends_num after -> sees L after ->
  exists c r l1, n = c :: r /\ (c = 45 \/ digit c) /\ lgetc L = (Some (next_of after), l1) /\ dispatch f (Some c) (pre r L) = OK (TNum z, lungetc (Some (next_of after)) l1).
Proof.
  intros (DEC & (d & DN & FD) & LN & RG) EN SE.
  assert (N92 : next_of after <> 92) by (intros E; unfold ends_num, white in EN; rewrite E in EN; replace (s2b "),/}=") with [41; 44; 47; 125; 61] in EN by reflexivity; cbn [In] in EN; lia).
  assert (ND : ~ digit (next_of after)) by (unfold digit; unfold ends_num, white in EN; replace (s2b "),/}=") with [41; 44; 47; 125; 61] in EN by reflexivity; cbn [In] in EN; lia).
  assert (NE : n <> []) by (intros ->; destruct DEC as (ws & sg & ds & E & _ & NE & _); apply NE; destruct ws, sg, ds; cbn in E; congruence).
  assert (NM : n <> [45]).
  { intros ->. destruct DEC as (ws & sg & ds & E & _ & NED & FDD & _). destruct ds as [|y ds]; [congruence|]. cbn in FDD.
    assert (I : In y [45]) by (rewrite E; apply in_or_app; right; apply in_or_app; right; left; reflexivity). destruct I as [<-|[]]. discriminate. }
  destruct (SE N92) as (l1 & G). destruct n as [|c r]; [congruence|]. exists c, r, l1. split; [reflexivity|].
  assert (CR : (c = 45 \/ digit c) /\ Forall digit r).
  { destruct DN as [<-|DN]; [inversion FD; subst; auto|]. injection DN as -> ->. auto. }
  destruct CR as (C1 & FR). split; [exact C1|]. split; [exact G|].
  unfold dispatch. replace ((c =? 36) || (c =? 64)) with false by (unfold digit in C1; lia). cbn [andb]. replace ((c =? 39) || (c =? 34)) with false by (unfold digit in C1; lia).
  replace ((c =? 45) || is_digit c) with true by (unfold digit in C1; unfold is_digit; lia). unfold read_number.
  rewrite (read_while_spell is_digit digit_nomark r (S (size (pre r L))) c [] L (next_of after) l1).
  - cbn [bind app]. cbv zeta. rewrite (proj2 (ends_iff _ after eq_refl) EN). replace (leqb (c :: r) [45]) with false.
    2:{ symmetry. destruct (leqb (c :: r) [45]) eqn:LE; [|reflexivity]. apply leqb_eq in LE. congruence. }
    cbn [negb andb]. rewrite terminate_ok by (unfold blen, BUFSZ; lia). cbn [bind].
    destruct (strtonum_spec (c :: r) LLONG_MIN LLONG_MAX z ltac:(lia) ltac:(lia)) as (_ & SN).
    rewrite SN by (split; [exact DEC|unfold LLONG_MIN, LLONG_MAX; lia]). unfold int32. rewrite Z.mod_small by lia. do 3 f_equal. lia.
  - eapply Forall_impl; [|exact FR]. intros x XD. split; [apply digit_iff, XD|unfold digit in XD; lia].
  - exact G.
  - exact (bool_no _ _ (digit_iff _) ND).
  - rewrite pre_size. lia.
  - unfold blen, BUFSZ. cbn [length] in *. lia.
Qed.
Lemma dispatch_minus f L d l1 : lgetc L = (Some d, l1) -> ~ digit d -> dispatch f (Some 45) L = OK (TChr 45, lungetc (Some d) l1).
Proof.
  intros G ND. unfold dispatch. change ((45 =? 36) || (45 =? 64)) with false. cbn [andb]. change ((45 =? 39) || (45 =? 34)) with false. change ((45 =? 45) || is_digit 45) with true. cbv iota.
  unfold read_number. cbn [read_while]. rewrite put_ok by reflexivity. cbn [bind app]. change (BUFSZ <=? blen [45]) with false. cbv iota. rewrite G, (bool_no _ _ (digit_iff d) ND). reflexivity.
Qed.

Lemma read_quoted_spell q : (q = 34 \/ q = 39) -> forall s b, quoted q s b -> forall f a X, (length s < f)%nat -> blen a + N.of_nat (length b) <= 8094 ->
  read_quoted f q a (pre (s ++ [q]) X) = OK (TStr (a ++ b), X).
Proof.
  intros Q. assert (QM : ~ mark q) by (unfold mark; lia).
  assert (GQ : forall c t X, ~ mark c -> lgetc_q q (pre (c :: t) X) = (Some c, pre t X)) by (intros c t X M; unfold lgetc_q; rewrite igetc_pre by exact M; reflexivity).
  intros s b D. induction D as [|c t s N D IH|t s D IH|c t s N D IH|t s D IH|c t s N D IH]; intros f a X L B; (destruct f as [|f]; [cbn in L; lia|]); cbn [read_quoted app].
  - rewrite GQ by exact QM. cbv zeta. replace (q =? 10) with false by lia. replace (q =? 92) with false by lia. rewrite N.eqb_refl. rewrite terminate_ok by (unfold BUFSZ; lia). cbn [bind]. rewrite pre_nil, app_nil_r. reflexivity.
  - cbn [In] in N. rewrite GQ by (unfold mark; intuition congruence). cbv zeta. replace (c =? 10) with false by (symmetry; apply N.eqb_neq; intuition congruence).
    replace (c =? 92) with false by (symmetry; apply N.eqb_neq; intuition congruence). replace (c =? q) with false by (symmetry; apply N.eqb_neq; intuition congruence).
    replace (c =? 0) with false by (symmetry; apply N.eqb_neq; intuition congruence). cbn [length] in *. replace (BUFSZ - 1 <=? blen a + 1) with false by (unfold BUFSZ; lia).
    rewrite put_ok by (unfold BUFSZ; lia). cbn [bind]. rewrite IH; [rewrite <- app_assoc; reflexivity|lia|rewrite blen_app; lia].
  - rewrite GQ by (unfold mark; lia). cbv zeta. change (10 =? 10) with true. cbv iota. apply IH; [cbn in L; lia|exact B].
  - rewrite GQ by (unfold mark; lia). cbv zeta. change (92 =? 10) with false. change (92 =? 92) with true. cbv iota. cbn [In] in N. rewrite GQ by (unfold mark; intuition lia).
    replace ((c =? q) || (c =? 32) || (c =? 9)) with true by lia. cbn [length] in *. replace (BUFSZ - 1 <=? blen a + 1) with false by (unfold BUFSZ; lia).
    rewrite put_ok by (unfold BUFSZ; lia). cbn [bind]. rewrite IH; [rewrite <- app_assoc; reflexivity|lia|rewrite blen_app; lia].
  - rewrite GQ by (unfold mark; lia). cbv zeta. change (92 =? 10) with false. change (92 =? 92) with true. cbv iota. rewrite GQ by (unfold mark; lia).
    replace ((10 =? q) || (10 =? 32) || (10 =? 9)) with false by lia. change (10 =? 10) with true. cbv iota. apply IH; [cbn in L; lia|exact B].
  - rewrite GQ by (unfold mark; lia). cbv zeta. change (92 =? 10) with false. change (92 =? 92) with true. cbv iota. cbn [In] in N. rewrite GQ by (unfold mark; intuition congruence).
    replace ((c =? q) || (c =? 32) || (c =? 9)) with false by lia. replace (c =? 10) with false by lia. cbn [length] in *. replace (BUFSZ - 1 <=? blen a + 1) with false by (unfold BUFSZ; lia).
    rewrite put_ok by (unfold BUFSZ; lia). cbn [bind]. rewrite lungetc_pre, <- pre_app. cbn [app] in *. rewrite IH; [rewrite <- app_assoc; reflexivity|lia|rewrite blen_app; lia].
Qed.

Lemma read_name_spell : forall n f b L d l1, Forall name_byte n -> lgetc L = (Some d, l1) -> ~ name_byte d -> (length n < f)%nat -> blen b + N.of_nat (length n) <= 8093 ->
  read_name f b (pre n L) = OK (inr (b ++ n, lungetc (Some d) l1)).
Proof.
  induction n as [|c n IH]; intros f b L d l1 F G N LF LB; (destruct f as [|f]; [cbn in LF; lia|]); cbn [read_name].
  - rewrite pre_nil, G. cbn [length] in LB. replace (BUFSZ - 1 <=? blen b + 1) with false by (unfold BUFSZ; lia). rewrite (bool_no _ _ (name_iff d) N).
    rewrite terminate_ok by (unfold BUFSZ; lia). cbn [bind]. rewrite app_nil_r. reflexivity.
  - inversion F; subst. rewrite lgetc_pre by (apply name_plain; assumption). cbn [length] in *. replace (BUFSZ - 1 <=? blen b + 1) with false by (unfold BUFSZ; lia).
    rewrite (proj2 (name_iff c)) by assumption. rewrite put_ok by (unfold BUFSZ; lia). cbn [bind]. rewrite (IH f (b ++ [c]) L d l1); [rewrite <- app_assoc; reflexivity|assumption|exact G|exact N|lia|rewrite blen_app; lia].
Qed.

(** ** all of it *)
Lemma word_nomarks w : word w -> no_marks w.
Proof.
  intros (c & r & -> & S & F & _). constructor; [apply (start_plain c S)|]. eapply Forall_impl; [|exact F]. intros x X. apply char_plain in X. apply X.
Qed.
Lemma quoted_nomarks q s b : q = 34 \/ q = 39 -> quoted q s b -> no_marks s.
Proof.
  intros Q D. induction D as [|c t s N D IH|t s D IH|c t s N D IH|t s D IH|c t s N D IH]; cbn [In] in *.
  - constructor.
  - constructor; [unfold mark; intuition congruence|exact IH].
  - constructor; [unfold mark; lia|exact IH].
  - constructor; [unfold mark; lia|]. constructor; [unfold mark; intuition lia|exact IH].
  - constructor; [unfold mark; lia|]. constructor; [unfold mark; lia|exact IH].
  - constructor; [unfold mark; lia|exact IH].
Qed.
Lemma comment_nomarks s : comment s -> no_marks s.
Proof. intros C. induction C as [|c s N C IH|c s N C IH]; cbn [In] in *; repeat (constructor; try assumption); unfold mark; intuition congruence. Qed.
Lemma name_nomarks n : Forall name_byte n -> no_marks n.
Proof. apply Forall_impl. intros x X. apply name_plain in X. apply X. Qed.
Lemma number_nomarks n z : number n z -> no_marks n.
Proof.
  intros (_ & (d & [->| ->] & F) & _).
  - eapply Forall_impl; [|exact F]. intros x X. apply digit_plain in X. apply X.
  - constructor; [unfold mark; lia|]. eapply Forall_impl; [|exact F]. intros x X. apply digit_plain in X. apply X.
Qed.
Lemma spells_nomarks val e after t ts : spells val e after t ts -> no_marks t.
Proof.
  intros S. induction S as [e after|e after c t ts B S IH|e after t ts S IH|e after s t ts C S IH|s C|e after w k t ts W EW NB WT S IH|e after q s b t ts Q D LB S IH
    |e after n z t ts NU EN S IH|e after t ts D N S IH|e after c t ts B W N E S IH|after n v t ts M EN V S IH|after n v t vs ts M EN V N2 S1 IH1 S2 IH2].
  - constructor.
  - constructor; [unfold blank in B; unfold mark; lia|exact IH].
  - constructor; [unfold mark; lia|]. constructor; [unfold mark; lia|exact IH].
  - constructor; [unfold mark; lia|]. apply no_marks_app; [apply comment_nomarks, C|exact IH].
  - constructor; [unfold mark; lia|]. apply comment_nomarks, C.
  - apply no_marks_app; [apply word_nomarks, W|exact IH].
  - constructor; [unfold mark; lia|]. apply no_marks_app; [apply (quoted_nomarks q s b Q D)|]. constructor; [unfold mark; lia|exact IH].
  - apply no_marks_app; [apply (number_nomarks n z NU)|exact IH].
  - constructor; [unfold mark; lia|exact IH].
  - constructor; [cbn [In] in N; unfold mark; intuition congruence|exact IH].
  - constructor; [unfold mark; lia|]. apply no_marks_app; [apply name_nomarks, M|exact IH].
  - constructor; [unfold mark; lia|]. apply no_marks_app; [apply name_nomarks, M|exact IH2].
Qed.

Lemma lexes_eq a b ts l : yylex a = yylex b -> lexes b ts l -> lexes a ts l.
Proof. intros E. destruct ts as [|t ts]; cbn [lexes]; [congruence|]. rewrite E. auto. Qed.
Lemma lexes_app a ts1 b c ts2 d : lexes a ts1 b -> yylex b = yylex c -> lexes c ts2 d -> lexes a (ts1 ++ ts2) d.
Proof.
  revert a. induction ts1 as [|t ts IH]; intros a L1 E L2; cbn [lexes app] in *; [apply (lexes_eq a c); [congruence|exact L2]|].
  destruct L1 as (l1 & Y & L1). exists l1. split; [exact Y|]. apply IH; assumption.
Qed.
Lemma yylex_good l t l' : good l -> yylex l = OK (t, l') -> good l' /\ lx_syms l' = lx_syms l.
Proof. intros (I & M) E. destruct (yylex_total l (macros_clean_end _ M)) as (t2 & l2 & E2 & S & _ & I2). rewrite E in E2. injection E2 as <- <-. split; [split; [exact (I2 M I)|rewrite S; exact M]|exact S]. Qed.
Lemma lgetc_good l c l1 : good l -> lgetc l = (c, l1) -> good l1.
Proof. intros (I & M) G. split; [apply (lgetc_keeps _ _ _ G (inv0_inv1 _ I))|]. apply lgetc_size in G. destruct G as (-> & _). exact M. Qed.
(** a token that was ended by the character after it *)
Lemma back_same l c l1 : good l -> lgetc l = (Some c, l1) -> c <> 92 -> yylex (lungetc (Some c) l1) = yylex l.
Proof.
  intros GO G N. pose proof (lgetc_size _ _ _ G) as (_ & _ & M). pose proof (lgetc_good _ _ _ GO G) as G1. apply lex_same.
  - rewrite lungetc_pre. apply pre_good; [constructor; [exact M|constructor]|exact G1].
  - exact GO.
  - rewrite lungetc_pre, lgetc_pre by (split; assumption). rewrite pre_nil. symmetry. exact G.
Qed.

Theorem lex_spelled val e after text ts : spells val e after text ts ->
  forall l, lx_exp l = e -> good l -> (forall n, val n = symget n (lx_syms l)) -> sees l after -> lexes (pre text l) ts l.
Proof.
  intros S. induction S as [e after|e after c t ts B S IH|e after t ts S IH|e after s t ts C S IH|s C|e after w k t ts W EW NB WT S IH|e after q s b t ts Q D LB S IH
    |e after n z t ts NU EN S IH|e after t ts D N S IH|e after c t ts B W N E S IH|after n v t ts M EN V S IH|after n v t vs ts M EN V N2 S1 IH1 S2 IH2]; intros l X GO VA SE.
  - rewrite pre_nil. reflexivity.
  - (* blank *)
    pose proof (spells_nomarks _ _ _ _ _ S) as NM. assert (G1 : good (pre t l)) by (apply pre_good; assumption).
    assert (G2 : good (pre (c :: t) l)) by (apply pre_good; [constructor; [unfold blank in B; unfold mark; lia|exact NM]|exact GO]).
    apply (lexes_eq _ (pre t l)); [|apply IH; assumption].
    assert (CB : (c =? 32) || (c =? 9) = true) by (unfold blank in B; lia).
    unfold yylex. rewrite (pre_size (c :: t)). cbn [length Nat.add]. rewrite <- pre_size.
    transitivity (yylex_top (Datatypes.S (Datatypes.S (size (pre t l)))) (pre t l)); [|apply yylex_fuel; [exact G1|pose proof (lives_size (pre t l)); lia]].
    cbn [yylex_top]. rewrite (pre_size (c :: t)). cbn [length Nat.add]. rewrite <- pre_size. rewrite skip_blank by exact CB. reflexivity.
  - (* continued line *)
    pose proof (spells_nomarks _ _ _ _ _ S) as NM. apply (lexes_eq _ (pre t l)); [|apply IH; assumption].
    apply lex_same; [apply pre_good; [|exact GO]; constructor; [unfold mark; lia|constructor; [unfold mark; lia|exact NM]]|apply pre_good; assumption|apply lgetc_join].
  - (* comment *)
    pose proof (spells_nomarks _ _ _ _ _ S) as NM. apply (lexes_eq _ (pre (10 :: t) l)); [|apply IH; assumption].
    assert (G2 : good (pre (35 :: s ++ 10 :: t) l)) by (apply pre_good; [constructor; [unfold mark; lia|apply no_marks_app; [apply comment_nomarks, C|exact NM]]|exact GO]).
    rewrite (app_comm_cons s (10 :: t) 35), pre_app in *. unfold yylex.
    rewrite (top_comment _ s (pre (10 :: t) l) (pre t l) C) by (apply lgetc_pre; unfold plain, mark; lia).
    symmetry. apply (top_char (size (pre (10 :: t) l)) (pre (10 :: t) l) 10 (pre t l)); [apply lgetc_pre; unfold plain, mark; lia|unfold blank; lia|lia].
  - (* comment at the end of the file *)
    destruct (SE ltac:(discriminate)) as (l1 & G). cbn [next_of hd] in G. cbn [lexes]. unfold yylex.
    rewrite (top_comment _ s l l1 C G), (top_char _ l 10 l1 G) by (unfold blank; lia). reflexivity.
  - (* word *)
    pose proof (spells_nomarks _ _ _ _ _ S) as NM. assert (G1 : good (pre t l)) by (apply pre_good; assumption).
    pose proof W as W'. destruct W' as (c & r & -> & ST & _). rewrite <- app_comm_cons in *.
    destruct (dispatch_word (size (pre ((c :: r) ++ t) l)) c r (pre t l) (t ++ after) k W EW NB WT (sees_pre t l after NM SE)) as (l1 & G & Y).
    { intros l1 G. apply (lgetc_size _ _ _ G). }
    cbn [lexes]. exists (lungetc (Some (next_of (t ++ after))) l1). split.
    + unfold yylex. rewrite app_comm_cons. rewrite (top_char _ (pre ((c :: r) ++ t) l) c (pre (r ++ t) l)).
      * rewrite (pre_app r t). exact Y.
      * cbn [app]. apply lgetc_pre. apply start_plain, ST.
      * unfold word_start, letter, digit in ST. unfold blank. lia.
      * unfold word_start, letter, digit in ST. lia.
    + apply (lexes_eq _ (pre t l)); [apply back_same; [exact G1|exact G|apply EW]|apply IH; assumption].
  - (* quoted *)
    cbn [lexes]. exists (pre t l). split; [|apply IH; assumption]. unfold yylex. rewrite (top_char _ _ q (pre (s ++ q :: t) l)).
    + unfold dispatch. replace ((q =? 36) || (q =? 64)) with false by lia. cbn [andb]. replace ((q =? 39) || (q =? 34)) with true by lia.
      replace (s ++ q :: t) with ((s ++ [q]) ++ t) by (rewrite <- app_assoc; reflexivity). rewrite (pre_app (s ++ [q]) t).
      rewrite (read_quoted_spell q Q s b D); [reflexivity| |unfold blen; cbn; lia]. rewrite pre_size, app_length. cbn [length]. lia.
    + apply lgetc_pre. unfold plain, mark. lia.
    + unfold blank. lia.
    + lia.
  - (* number *)
    pose proof (spells_nomarks _ _ _ _ _ S) as NM. assert (G1 : good (pre t l)) by (apply pre_good; assumption).
    destruct (dispatch_number (size (pre (n ++ t) l)) n z (pre t l) (t ++ after) NU EN (sees_pre t l after NM SE)) as (c & r & l1 & -> & C & G & Y).
    assert (N92 : next_of (t ++ after) <> 92) by (intros Q; unfold ends_num, white in EN; rewrite Q in EN; replace (s2b "),/}=") with [41; 44; 47; 125; 61] in EN by reflexivity; cbn [In] in EN; lia).
    cbn [lexes]. exists (lungetc (Some (next_of (t ++ after))) l1). split.
    + unfold yylex. rewrite (top_char _ (pre ((c :: r) ++ t) l) c (pre (r ++ t) l)).
      * rewrite (pre_app r t). exact Y.
      * cbn [app]. apply lgetc_pre. unfold digit in C. unfold plain, mark. lia.
      * unfold digit in C. unfold blank. lia.
      * unfold digit in C. lia.
    + apply (lexes_eq _ (pre t l)); [apply back_same; assumption|apply IH; assumption].
  - (* minus *)
    pose proof (spells_nomarks _ _ _ _ _ S) as NM. assert (G1 : good (pre t l)) by (apply pre_good; assumption).
    destruct (sees_pre t l after NM SE N) as (l1 & G). cbn [lexes]. exists (lungetc (Some (next_of (t ++ after))) l1). split.
    + unfold yylex. rewrite (top_char _ (pre (45 :: t) l) 45 (pre t l)); [apply dispatch_minus; assumption|apply lgetc_pre; unfold plain, mark; lia|unfold blank; lia|lia].
    + apply (lexes_eq _ (pre t l)); [apply back_same; assumption|apply IH; assumption].
  - (* a character *)
    cbn [lexes]. exists (pre t l). split; [|apply IH; assumption]. cbn [In] in N. unfold yylex. rewrite (top_char _ (pre (c :: t) l) c (pre t l)).
    + unfold dispatch. rewrite pre_exp, X. replace (((c =? 36) || (c =? 64)) && negb e) with false.
      2:{ destruct e; [symmetry; apply Bool.andb_false_r|]. specialize (E eq_refl). symmetry. apply Bool.andb_false_iff. left. lia. }
      replace ((c =? 39) || (c =? 34)) with false by lia. assert (ND : ~ digit c) by (intros Q; apply W; right; left; exact Q).
      replace ((c =? 45) || is_digit c) with false by (rewrite (bool_no _ _ (digit_iff c) ND); lia).
      unfold read_other. rewrite (bool_no _ _ (start_iff c) W). replace (c =? 0) with false by lia. reflexivity.
    + apply lgetc_pre. unfold plain, mark. intuition congruence.
    + exact B.
    + intuition congruence.
  - (* $name *)
    pose proof (spells_nomarks _ _ _ _ _ S) as NM. assert (G1 : good (pre t l)) by (apply pre_good; assumption).
    destruct EN as (EN & N92). destruct (sees_pre t l after NM SE N92) as (l1 & G). destruct M as (M & LN).
    cbn [lexes]. exists (lungetc (Some (next_of (t ++ after))) l1). split.
    + unfold yylex. rewrite (top_char _ (pre (36 :: n ++ t) l) 36 (pre (n ++ t) l)); [|apply lgetc_pre; unfold plain, mark; lia|unfold blank; lia|lia].
      unfold dispatch. rewrite pre_exp, X. change (((36 =? 36) || (36 =? 64)) && negb false) with true. cbv iota. rewrite pre_app.
      rewrite (read_name_spell n _ [] (pre t l) _ l1 M G EN); [|rewrite pre_size; lia|unfold blen; cbn; lia]. cbn [bind app].
      rewrite lungetc_syms. pose proof (lgetc_size _ _ _ G) as (-> & _). rewrite pre_syms, <- VA, V. reflexivity.
    + apply (lexes_eq _ (pre t l)); [apply back_same; assumption|apply IH; assumption].
  - (* @name *)
    pose proof (spells_nomarks _ _ _ _ _ S2) as NM. assert (G1 : good (pre t l)) by (apply pre_good; assumption).
    pose proof (spells_nomarks _ _ _ _ _ S1) as NV.
    destruct EN as (EN & N92). destruct (sees_pre t l after NM SE N92) as (l1 & G). destruct M as (M & LN).
    set (l3 := lungetc (Some (next_of (t ++ after))) l1).
    assert (G3 : good l3). { unfold l3. rewrite lungetc_pre. apply pre_good; [constructor; [apply (lgetc_size _ _ _ G)|constructor]|apply (lgetc_good _ _ _ G1 G)]. }
    assert (X3 : lx_exp l3 = false). { unfold l3. rewrite lungetc_exp. destruct (lx_exp l1) eqn:XE; [|reflexivity]. pose proof (lgetc_keeps _ _ _ G (inv0_inv1 _ (proj1 G1))) as (_ & K). specialize (K (proj1 G1) XE). rewrite pre_exp, X in K. discriminate. }
    assert (Y3 : lx_syms l3 = lx_syms l). { unfold l3. rewrite lungetc_syms. pose proof (lgetc_size _ _ _ G) as (-> & _). reflexivity. }
    assert (A3 : lgetc l3 = lgetc (pre t l)). { unfold l3. rewrite lungetc_pre, lgetc_pre by (split; [apply (lgetc_size _ _ _ G)|exact N92]). rewrite pre_nil. symmetry. exact G. }
    set (L2 := set_text (DONE_EXPAND :: text l3) true l3).
    assert (G2 : good L2). { destruct G3 as ((I1 & I2) & I3). split; [|exact I3]. split; [|exact I2]. unfold L2, text. cbn. intros [Q|Q]; [discriminate|exact (I1 Q)]. }
    assert (A2 : lgetc L2 = lgetc l3). { unfold L2, lgetc, text. cbn [set_text set_cur lx_cur lf_text getlines lx_exp lf_eof]. rewrite X3. reflexivity. }
    assert (UV : unget v = v).
    { clear - N2. unfold unget. induction v as [|x v IHv]; [reflexivity|]. cbn [filter]. destruct (N.eqb_spec x 255) as [->|]; [exfalso; apply N2; left; reflexivity|]. cbn [negb]. f_equal. apply IHv. intros I. apply N2. right. exact I. }
    assert (GV : good (pre v L2)) by (apply pre_good; assumption).
    (* the jump *)
    assert (J : yylex (pre (64 :: n ++ t) l) = yylex (pre v L2)).
    { unfold yylex at 1. rewrite (top_char _ (pre (64 :: n ++ t) l) 64 (pre (n ++ t) l)); [|apply lgetc_pre; unfold plain, mark; lia|unfold blank; lia|lia].
      unfold dispatch. rewrite pre_exp, X. change (((64 =? 36) || (64 =? 64)) && negb false) with true. cbv iota. rewrite (pre_app n).
      rewrite (read_name_spell n _ [] (pre t l) _ l1 M G EN); [|rewrite (pre_size n); lia|unfold blen; cbn; lia]. cbn [bind app]. fold l3.
      rewrite Y3, <- VA, V. change (64 =? 36) with false. cbv iota. rewrite UV.
      transitivity (yylex_top (size (pre (64 :: n ++ t) l)) (pre v L2)).
      - apply top_same. unfold lgetc, L2, pre, text. cbn [set_text set_cur lx_cur lf_text getlines lx_exp lf_eof app]. reflexivity.
      - apply yylex_fuel; [exact GV|].
        assert (LV : (lives (pre v L2) <= lives l3)%nat).
        { unfold lives, L2, pre, text. cbn [set_text set_cur lx_cur lf_text lx_exp lf_eof lx_outer fakes]. rewrite <- app_assoc. cbn [app].
          rewrite X3. unfold live. rewrite past_expand by (apply nomarks_end, NV). unfold text. lia. }
        assert (L31 : (lives l3 <= lives (pre t l))%nat).
        { unfold l3. rewrite lungetc_lives by (apply (lgetc_size _ _ _ G)). pose proof (lgetc_lives _ _ _ G) as Q. cbv iota in Q. lia. }
        pose proof (lives_size (pre t l)) as LS. rewrite (pre_size (64 :: n ++ t)), (pre_size t) in *. cbn [length]. rewrite app_length. lia. }
    apply (lexes_eq _ (pre v L2)); [exact J|].
    apply (lexes_app _ vs L2 (pre t l) ts l).
    + apply IH1; [reflexivity|exact G2|intros m; rewrite VA; change (lx_syms L2) with (lx_syms l3); rewrite Y3; reflexivity|].
      intros Q. rewrite A2, A3. apply (sees_pre t l after NM SE Q).
    + apply lex_same; [exact G2|exact G1|congruence].
    + apply IH2; assumption.
Qed.
