(** C68, C69: the lexer of the configuration file. *)
From Verif Require Import Base BaseLemmas Compat Compat_Proofs Mime Parse Lex LexSpec Iri_Last_Proofs Lex_Proofs Spell_Proofs.
Local Open Scope N_scope.

(** ** C68 *)
(** a file as the parser begins to read it *)
Definition opened_file (syms : list sym) (s : list N) : lex := mkLex (mkLf s false 0) [] false syms.

(** what the parser does with the lexer; [seen] are the strings it got from it: ask
    for a token, report an error, include a file, define a macro as some of the
    strings it got, joined *)
Inductive reading (syms : list sym) (s : list N) : lex -> list (list N) -> Prop :=
| rd_start : reading syms s (opened_file syms s) []
| rd_token l seen t l' : reading syms s l seen -> yylex l = OK (t, l') -> reading syms s l' (match t with TStr w => w :: seen | _ => seen end)
| rd_error l seen : reading syms s l seen -> reading syms s (yyerror l) seen
| rd_include l seen c : reading syms s l seen -> reading syms s (include_file c l) seen
| rd_macro l seen n ws : reading syms s l seen -> incl ws seen ->
    reading syms s (mkLex (lx_cur l) (lx_outer l) (lx_exp l) (symset n (concat ws) false (lx_syms l))) seen.

Lemma symset_end n v p t : ~ In 2 v -> macros_end t -> macros_end (symset n v p t).
Proof.
  intros V M. unfold symset, macros_end in *.
  assert (A : forall u, Forall (fun s => ~ In 2 (y_val s)) u -> Forall (fun s => ~ In 2 (y_val s)) (u ++ [mkSym n v p])) by (intros u U; apply Forall_app; split; [exact U|constructor; [exact V|constructor]]).
  destruct (symfind n t) as [s|]; [|apply A, M]. destruct (y_persist s); [exact M|]. apply A.
  clear - M. induction t as [|x t IH]; cbn; [constructor|]. inversion M; subst. destruct (leqb (y_name x) n); [assumption|]. constructor; auto.
Qed.

(** whatever bytes the files have in them, the next token is found: the lexer ends
    and writes nothing outside of its buffer *)
Theorem c68_lexer_ends syms s l seen :
  (forall m, In m syms -> ~ In 2 (y_val m)) -> reading syms s l seen -> exists t l', yylex l = OK (t, l').
Proof.
  intros M R. assert (K : macros_end (lx_syms l) /\ Forall (fun w => ~ In 2 w) seen).
  { induction R as [|l seen t l' R (IH1 & IH2) Y|l seen R IH|l seen c R IH|l seen n ws R (IH1 & IH2) I].
    - split; [|constructor]. unfold macros_end. apply Forall_forall. exact M.
    - destruct (yylex_total l IH1) as (t2 & l2 & E & S & T & _). rewrite Y in E. apply OK_inj in E. injection E as <- <-. rewrite S. split; [exact IH1|].
      destruct t; try exact IH2. constructor; [exact T|exact IH2].
    - exact IH.
    - exact IH.
    - split; [|exact IH2]. cbn [lx_syms]. apply symset_end; [|exact IH1]. intros H. apply in_concat in H. destruct H as (w & W1 & W2). rewrite Forall_forall in IH2. exact (IH2 w (I w W1) W2). }
  destruct (yylex_total l (proj1 K)) as (t & l' & E & _). exists t, l'. exact E.
Qed.
(** the same of the macros the parser defines: they too have no byte 2 in them *)
Definition after (l : lex) : lex := match yylex l with OK (_, l') => l' | _ => l end.
Definition ex_odd : lex := opened_file [mkSym (s2b "m") (s2b "x@m") true] (s2b "@m ""a" ++ [1; 2; 255] ++ s2b "b""").
Example c68_applies : reading [mkSym (s2b "m") (s2b "x@m") true] (s2b "@m ""a" ++ [1; 2; 255] ++ s2b "b""") (after (after ex_odd)) [s2b "a" ++ [255] ++ s2b "b"; s2b "x@m"].
Proof.
  assert (A : reading [mkSym (s2b "m") (s2b "x@m") true] (s2b "@m ""a" ++ [1; 2; 255] ++ s2b "b""") (after ex_odd) [s2b "x@m"]).
  { refine (rd_token _ _ ex_odd [] (TStr (s2b "x@m")) (after ex_odd) _ _); [constructor|]. vm_compute. reflexivity. }
  refine (rd_token _ _ (after ex_odd) [s2b "x@m"] (TStr (s2b "a" ++ [255] ++ s2b "b")) _ A _). vm_compute. reflexivity.
Qed.

(** without that on the macros of -D it may never end: m = "\002@m", and @m in the
    file.  No number of rounds is enough *)
Theorem c68_loops : let m := mkSym (s2b "m") (2 :: s2b "@m") true in
  forall fuel, yylex_top fuel (opened_file [m] (s2b "@m")) = Fuel.
Proof.
  cbv zeta. set (syms := [mkSym (s2b "m") (2 :: s2b "@m") true]).
  assert (A : forall k fuel, (fuel <= k)%nat -> forall n, yylex_top fuel (mkLex (mkLf (1 :: 2 :: s2b "@m" ++ 2 :: 10 :: repeat 2 n) true 0) [] false syms) = Fuel).
  { intros k. induction k as [|k IH]; intros fuel L n; [replace fuel with 0%nat by lia; reflexivity|]. destruct fuel as [|fuel]; [reflexivity|].
    (* the mark, then @m is read outside of the expansion *)
    cbn [yylex_top].
    assert (E : forall g, skip_while (fun c => (c =? 32) || (c =? 9)) (S g) (mkLex (mkLf (1 :: 2 :: s2b "@m" ++ 2 :: 10 :: repeat 2 n) true 0) [] false syms)
                = OK (Some 64, mkLex (mkLf (s2b "m" ++ 2 :: 10 :: repeat 2 n) true 0) [] false syms)) by reflexivity.
    rewrite E. cbn [bind]. change ((64 =? 36) || (64 =? 64)) with true. cbn [andb negb lx_exp].
    assert (E2 : forall g, read_name (S (S g)) [] (mkLex (mkLf (s2b "m" ++ 2 :: 10 :: repeat 2 n) true 0) [] false syms)
                = OK (inr (s2b "m", mkLex (mkLf (10 :: repeat 2 n) true 0) [] false syms))) by reflexivity.
    change (size (mkLex (mkLf (s2b "m" ++ 2 :: 10 :: repeat 2 n) true 0) [] false syms)) with (S (size (mkLex (mkLf (2 :: 10 :: repeat 2 n) true 0) [] false syms))).
    rewrite E2. cbn [bind]. change (symget (s2b "m") syms) with (Some (2 :: s2b "@m")). cbn [lx_syms]. change (64 =? 36) with false. cbv iota.
    change (symget (s2b "m") syms) with (Some (2 :: s2b "@m")).
    change (set_text (START_EXPAND :: unget (2 :: s2b "@m") ++ DONE_EXPAND :: text (mkLex (mkLf (10 :: repeat 2 n) true 0) [] false syms)) (lx_exp (mkLex (mkLf (10 :: repeat 2 n) true 0) [] false syms)) (mkLex (mkLf (10 :: repeat 2 n) true 0) [] false syms))
      with (mkLex (mkLf (1 :: 2 :: s2b "@m" ++ 2 :: 10 :: repeat 2 n) true 0) [] false syms). apply IH. lia. }
  intros fuel. destruct fuel as [|fuel]; [reflexivity|]. transitivity (yylex_top fuel (mkLex (mkLf (1 :: 2 :: s2b "@m" ++ 2 :: 10 :: repeat 2 0) true 0) [] false syms)); [reflexivity|].
  apply (A fuel fuel); lia.
Qed.

(** ** C69 *)
(** the whole of the file is these tokens, and no error was counted *)
Inductive tokens : lex -> list tok -> Prop :=
| tk_end l l' : yylex l = OK (TEnd, l') -> lf_errors (lx_cur l') = 0%nat -> tokens l []
| tk_cons l t l' ts : yylex l = OK (t, l') -> t <> TEnd -> tokens l' ts -> tokens l (t :: ts).

Lemma spells_noend val e after t ts : spells val e after t ts -> ~ In TEnd ts.
Proof.
  intros S. induction S; cbn [In]; try assumption; try tauto; try (intros [X|X]; [congruence|tauto]).
  - intros [X|X]; [|tauto]. subst k. match goal with H : word_token _ _ |- _ => destruct H as [(j & _ & J)|(_ & J)] end; discriminate.
  - intros X. apply in_app_or in X. tauto.
Qed.
Lemma lexes_tokens : forall ts l l' us, ~ In TEnd ts -> lexes l ts l' -> tokens l' us -> tokens l (ts ++ us).
Proof.
  induction ts as [|t ts IH]; intros l l' us N L T.
  - cbn [app lexes] in *. inversion T; subst; [econstructor 1; [rewrite L; eassumption|assumption]|econstructor 2; [rewrite L; eassumption|assumption|assumption]].
  - destruct L as (l1 & Y & L). cbn [app]. econstructor 2; [exact Y|intros ->; apply N; left; reflexivity|]. apply (IH l1 l'); [intros I; apply N; right; exact I|exact L|exact T].
Qed.
Definition clean_macros (syms : list sym) : Prop := forall m, In m syms -> ~ In 1 (y_val m) /\ ~ In 2 (y_val m).
Lemma clean_macros_ok syms : clean_macros syms -> macros_clean syms.
Proof.
  intros H. unfold macros_clean. apply Forall_forall. intros m M. destruct (H m M) as (A & B). unfold no_marks. apply Forall_forall. intros x X [->| ->]; contradiction.
Qed.

(** the end of the file is an end of line too *)
Theorem c69_spelled syms s ts :
  clean_macros syms -> spells (fun n => symget n syms) false [] s ts -> tokens (opened_file syms s) (ts ++ [TChr 10]).
Proof.
  intros M S. set (l := opened_file syms []).
  assert (G : good l) by (split; [split; [intros []|constructor]|apply clean_macros_ok, M]).
  replace (opened_file syms s) with (pre s l) by (unfold pre, l, opened_file, set_text, set_cur, text; cbn; rewrite app_nil_r; reflexivity).
  apply (lexes_tokens ts _ l).
  - apply (spells_noend _ _ _ _ _ S).
  - apply (lex_spelled _ _ _ _ _ S l); [reflexivity|exact G|reflexivity|]. intros _. eexists. reflexivity.
  - econstructor 2; [reflexivity|discriminate|]. econstructor 1; reflexivity.
Qed.

(** a file that is included stands for its own tokens, between two ends of line *)
Theorem c69_included syms s ts l c r :
  lx_syms l = syms -> clean_macros syms -> lx_exp l = false -> ~ In 1 (text l) -> (forall f, In f (lx_outer l) -> ~ In 1 (lf_text f)) ->
  text l = c :: r -> c <> 2 -> c <> 92 ->
  spells (fun n => symget n syms) false [] s ts -> lexes (include_file s l) ([TChr 10] ++ ts ++ [TChr 10]) l.
Proof.
  intros SY M X N1 NO T C2 C92 S.
  assert (C1 : c <> 1) by (intros ->; apply N1; rewrite T; left; reflexivity).
  assert (NM : ~ mark c) by (intros [Q|Q]; contradiction).
  set (L := pushfile [] l).
  assert (G : good l). { split; [split; [exact N1|]|rewrite SY; apply clean_macros_ok, M]. unfold outer_clean. apply Forall_forall. exact NO. }
  assert (GL : good L). { split; [split; [intros []|]|cbn; rewrite SY; apply clean_macros_ok, M]. unfold outer_clean, L. cbn. constructor; [exact N1|]. apply Forall_forall. exact NO. }
  assert (P : include_file s l = pre (10 :: s) L). { unfold include_file, L, pre, pushfile, lungetc, set_text, set_cur, text. cbn. rewrite app_nil_r. reflexivity. }
  rewrite P. cbn [app lexes]. exists (pre s L). split.
  - unfold yylex. rewrite (top_char _ _ 10 (pre s L)); [|apply lgetc_pre; unfold plain, mark; lia|unfold blank; lia|lia]. unfold dispatch. rewrite andb_false_l. reflexivity.
  - apply (lexes_app _ ts L L [TChr 10] l); [|reflexivity|].
    + apply (lex_spelled _ _ _ _ _ S L); [exact X|exact GL|cbn; rewrite SY; reflexivity|]. intros _. eexists. reflexivity.
    + cbn [lexes]. set (L1 := mkLex (mkLf [] true 0) (lx_cur l :: lx_outer l) (lx_exp l) (lx_syms l)). exists L1. split; [reflexivity|].
      apply lex_same; [|exact G|].
      * split; [split; [intros []|apply GL]|apply G].
      * unfold lgetc at 1, L1. cbn [lx_cur text lf_text getlines lf_eof lx_outer popeof]. cbv iota. unfold popfile. cbn [set_text set_cur lx_outer lx_cur lf_errors].
        destruct l as [[tx eo er] ou ex sy]. cbn [lx_cur lx_outer lx_exp lx_syms lf_text lf_eof lf_errors text] in *. subst tx.
        rewrite Nat.add_0_r. destruct (nomark c NM) as (A & B). apply N.eqb_neq in C92. unfold igetc, lgetc, text. cbn [lx_cur lf_text getmarks getlines lx_exp]. unfold START_EXPAND, DONE_EXPAND. rewrite A, B, C92.
        reflexivity.
Qed.

(** part of a configuration *)
Definition ex_macros : list sym := [mkSym (s2b "dir") (s2b "/var/gemini") true; mkSym (s2b "tls") (s2b "cert $dir '1'") true].
Definition nl : list N := [10].
Local Ltac each := apply Forall_forall; let X := fresh in intros ? X; vm_compute in X; repeat (destruct X as [<-|X]; [unfold name_byte, letter, digit; lia|]); destruct X.
Example c69_applies : spells (fun n => symget n ex_macros) false []
    (s2b "server ""a\""b"" { # one" ++ nl ++ s2b "log on;root $dir" ++ nl ++ s2b "strip -12 }")
    [TKw SERVER; TStr (s2b "a""b"); TChr 123; TChr 10; TKw LOG; TKw ON; TChr 59; TKw ROOT; TStr (s2b "/var/gemini"); TChr 10; TKw STRIP; TNum (-12); TChr 125]
  /\ clean_macros ex_macros.
Proof.
  assert (LOW : forall w, forallb (fun c => (97 <=? c) && (c <=? 122)) w = true -> Forall (fun c => 97 <= c <= 122) w).
  { intros w H. apply Forall_forall. intros x X. rewrite forallb_forall in H. specialize (H x X). lia. }
  assert (NB : forall w, Forall (fun c => 97 <= c <= 122) w -> forall t, hd 0 t < 48 \/ 57 < hd 0 t -> ~ begins_number (w ++ t)).
  { intros w W t H (d & r & E & D & F & _). destruct d as [|x d]; [congruence|]. inversion F; subst. destruct w as [|y w]; cbn [app] in *.
    - subst t. unfold digit in *. cbn [app hd] in H. lia.
    - injection E as -> E. inversion W; subst. unfold digit in *. lia. }
  assert (WD : forall w after k t ts, w <> [] -> Forall (fun c => 97 <= c <= 122) w -> N.of_nat (length w) <= 100 -> (exists c r, t = c :: r /\ In c [32; 10; 59]) -> word_token w k ->
     spells (fun n => symget n ex_macros) false after t ts -> spells (fun n => symget n ex_macros) false after (w ++ t) (k :: ts)).
  { intros w after k t ts NE F LN (c & r & -> & C) W S. apply sp_word; [| | |exact W|exact S].
    - destruct w as [|x w]; [congruence|]. exists x, w. inversion F; subst. split; [reflexivity|]. split; [unfold word_start, letter; lia|]. split; [|lia].
      eapply Forall_impl; [|eassumption]. cbn beta. intros y Y. unfold word_char. replace (s2b "(){}!=#,;\") with [40; 41; 123; 125; 33; 61; 35; 44; 59; 92] by reflexivity. cbn [In]. lia.
    - unfold ends_word, word_char. cbn [next_of hd app]. replace (s2b "(){}!=#,;\") with [40; 41; 123; 125; 33; 61; 35; 44; 59; 92] by reflexivity. cbn [In] in *. lia.
    - apply NB; [exact F|]. cbn [app hd]. cbn [In] in C. lia. }
  assert (KW : forall k, word_token (s2b (spelling k)) (TKw k)) by (intros k; left; exists k; auto).
  split.
  - apply (WD (s2b "server")); [discriminate|apply LOW; reflexivity|vm_compute; discriminate|eexists; eexists; split; [reflexivity|cbn; auto]|apply (KW SERVER)|].
    apply sp_blank; [left; reflexivity|].
    refine (sp_quoted _ _ _ 34 (s2b "a\""b") (s2b "a""b") _ _ _ _ _ _); [left; reflexivity| |vm_compute; discriminate|].
    { apply qd_chr; [cbn; lia|]. apply qd_esc; [cbn; auto|]. apply qd_chr; [cbn; lia|]. constructor. }
    apply sp_blank; [left; reflexivity|].
    apply sp_char; [unfold blank; lia|unfold word_start, letter, digit; lia|cbn; lia|lia|].
    apply sp_blank; [left; reflexivity|].
    refine (sp_comment _ _ _ (s2b " one") _ _ _ _); [vm_compute; repeat (apply cm_chr; [cbn; lia|]); constructor|].
    apply sp_char; [unfold blank; lia|unfold word_start, letter, digit; lia|cbn; lia|lia|].
    apply (WD (s2b "log")); [discriminate|apply LOW; reflexivity|vm_compute; discriminate|eexists; eexists; split; [reflexivity|cbn; auto]|apply (KW LOG)|].
    apply sp_blank; [left; reflexivity|].
    apply (WD (s2b "on")); [discriminate|apply LOW; reflexivity|vm_compute; discriminate|eexists; eexists; split; [reflexivity|cbn; auto]|apply (KW ON)|].
    apply sp_char; [unfold blank; lia|unfold word_start, letter, digit; lia|cbn; lia|lia|].
    apply (WD (s2b "root")); [discriminate|apply LOW; reflexivity|vm_compute; discriminate|eexists; eexists; split; [reflexivity|cbn; auto]|apply (KW ROOT)|].
    apply sp_blank; [left; reflexivity|].
    refine (sp_macro _ _ (s2b "dir") _ _ _ _ _ _ _); [split; [each|vm_compute; discriminate]|split; [unfold name_byte, letter, digit; cbn; lia|cbn; lia]|reflexivity|].
    apply sp_char; [unfold blank; lia|unfold word_start, letter, digit; lia|cbn; lia|lia|].
    apply (WD (s2b "strip")); [discriminate|apply LOW; reflexivity|vm_compute; discriminate|eexists; eexists; split; [reflexivity|cbn; auto]|apply (KW STRIP)|].
    apply sp_blank; [left; reflexivity|].
    refine (sp_number _ _ _ (s2b "-12") (-12)%Z _ _ _ _ _); [|left; left; reflexivity|].
    { split; [|split; [exists (s2b "12"); split; [right; reflexivity|each]|split; [vm_compute; discriminate|lia]]].
      exists [], [45], (s2b "12"). split; [reflexivity|]. split; [reflexivity|]. split; [discriminate|]. split; [reflexivity|]. right. split; reflexivity. }
    apply sp_blank; [left; reflexivity|].
    apply sp_char; [unfold blank; lia|unfold word_start, letter, digit; lia|cbn; lia|lia|]. constructor.
  - intros m [<-|[<-|[]]]; cbn; lia.
Qed.

(** ** what the reader of gmid.conf(5) would not expect *)
(** a number that `;' follows is a string: `strip 1;' and `prefork 3;' are syntax errors *)
Theorem c69_number_semicolon syms s : clean_macros syms -> exists l', yylex (opened_file syms (s2b "3;" ++ s)) = OK (TStr (s2b "3"), l') /\ text l' = 59 :: s.
Proof.
  intros M. eexists. split; [|shelve]. unfold yylex. rewrite (top_char _ _ 51 (opened_file syms (59 :: s))); [|reflexivity|unfold blank; lia|lia]. reflexivity.
  Unshelve. reflexivity.
Qed.
(** numbers are cut down to 32 bits *)
Theorem c69_number_wraps : exists l', yylex (opened_file [] (s2b "4294967297")) = OK (TNum 1, l').
Proof. eexists. vm_compute. reflexivity. Qed.
(** a NUL is the end of the configuration, whatever comes after it *)
Theorem c69_nul_ends syms s : tokens (opened_file syms (0 :: s)) [].
Proof. econstructor 1; [reflexivity|reflexivity]. Qed.
(** [$] stands for itself in the value of a macro *)
Theorem c69_not_nested : let syms := [mkSym (s2b "a") (s2b "$b") true; mkSym (s2b "b") (s2b "x") true] in
  tokens (opened_file syms (s2b "@a")) [TChr 36; TStr (s2b "b"); TChr 10].
Proof.
  cbv zeta. set (l := opened_file _ _). econstructor 2 with (l' := after l); [vm_compute; reflexivity|discriminate|].
  econstructor 2 with (l' := after (after l)); [vm_compute; reflexivity|discriminate|]. econstructor 2 with (l' := after (after (after l))); [vm_compute; reflexivity|discriminate|].
  econstructor 1 with (l' := after (after (after l))); vm_compute; reflexivity.
Qed.
