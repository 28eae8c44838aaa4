(** C66, C67: TLS to upstreams, versions of TLS. *)
From Coq Require Import Lia.
From Verif Require Import Base BaseLemmas Compat Iri IriSpec IriObs IriOut Puny Conf Config Mime Fmt Fcgi Server ServerSpec HistorySpec Iri_Last_Proofs Tls TlsSpec Tls_Proofs Prop_Tls UpTls UpTlsSpec Ups_Proofs Prop_Server Prop_Safe Prop_History Prop_Relay Prop_Proxy BodySpec.
Local Open Scope N_scope.

(** ** C66 *)
Lemma undot_dotless s : dotless s (undot s).
Proof.
  unfold undot, dotless. destruct (rev s) as [|c r] eqn:R.
  - right. split; [reflexivity|]. intros x X. subst s. rewrite rev_app_distr in R. discriminate.
  - assert (S : s = rev r ++ [c]) by (rewrite <- (rev_involutive s), R; reflexivity).
    destruct (N.eq_dec c 46) as [->|NE]; [left; exact S|].
    replace (match c with 46 => rev r | _ => s end) with s by (destruct c as [|p]; [reflexivity|]; do 6 (destruct p as [p|p|]; try reflexivity); congruence).
    right. split; [reflexivity|]. intros x X. rewrite X in S. apply app_inj_tail in S as [_ S]. congruence.
Qed.
Lemma dotless_fun s a b : dotless s a -> dotless s b -> a = b.
Proof.
  intros [A|[A A']] [B|[B B']].
  - rewrite A in B. apply app_inj_tail in B as [B _]. exact B.
  - exfalso. exact (B' _ A).
  - exfalso. exact (A' _ B).
  - congruence.
Qed.

(** An upstream that is to be reached by TLS is sent nothing of the request unless a
    handshake with it was completed, in which, if names are to be verified, it showed a
    certificate for the name the configuration gives it. *)
Theorem c66_verified E pton sets_up U h c p line : uhistory E pton sets_up U h c -> In (AUp p line) (c_acts c) -> p_notls p = false ->
  exists h1 ss h2 c1 peer, h = h1 ++ (EvUpTls UpOk, ss) :: h2 /\ uhistory E pton sets_up U h1 c1 /\ c_pxy c1 = Some p /\
    last ss None = Some (SslDone peer) /\
    (cx_noverify (U p) = false -> exists cert name, peer = Some cert /\ dotless (base_name (U p)) name /\ certified (pton name) cert name).
Proof.
  intros H I NT. induction H as [|h e ss c c' H IH X ST]; [destruct I|]. destruct (step_uk _ _ _ _ ST) as [(new & A & F)|(-> & q & l & PX & QN & A)].
  - rewrite A in I. apply in_app_or in I as [I|I].
    + destruct (IH I) as (h1 & ss1 & h2 & c1 & peer & -> & R). exists h1, ss1, (h2 ++ [(e, ss)]), c1, peer. rewrite <- app_assoc. auto.
    + exfalso. rewrite Forall_forall in F. apply F in I. cbn in I. congruence.
  - rewrite A in I. apply in_app_or in I as [I|[I|[]]].
    + destruct (IH I) as (h1 & ss1 & h2 & c1 & peer & -> & R). exists h1, ss1, (h2 ++ [(EvUpTls UpOk, ss)]), c1, peer. rewrite <- app_assoc. auto.
    + injection I as -> _. cbn in X. destruct (X p PX) as (t & TS & a & x & -> & _ & PH).
      exists h, (a ++ [x]), [], c. unfold proxy_handshake in PH. destruct x as [s|]; [|discriminate].
      destruct (tls_handshake pton t s) eqn:TH; try discriminate. unfold tls_handshake in TH. destruct s as [| | |peer]; try discriminate. exists peer.
      split; [reflexivity|]. split; [exact H|]. split; [exact PX|]. split; [apply last_last|].
      intros NV. unfold proxy_setup_tls in TS. destruct (sets_up (U p)); [|discriminate]. injection TS as <-. cbn [tu_verify tu_name] in TH. rewrite NV in TH. cbn [negb] in TH.
      fold (base_name (U p)) in TH. destruct peer as [crt|]; [|discriminate]. destruct (tls_check_name pton crt (undot (base_name (U p)))) as [[]|] eqn:CN; try discriminate.
      exists crt, (undot (base_name (U p))). split; [reflexivity|]. split; [apply undot_dotless|]. apply (c60_certificate _ _ _ _ CN). reflexivity.
Qed.

(** Conversely a well formed certificate for the name is accepted. *)
Theorem c66_accepted pton sets_up p t cert name : proxy_setup_tls sets_up p = Some t -> dotless (base_name p) name -> sound cert -> certified (pton name) cert name ->
  proxy_handshake pton t (Some (SslDone (Some cert))) = Some UpOk.
Proof.
  unfold proxy_setup_tls. destruct (sets_up p); [|discriminate]. intros H DL S C. injection H as <-. fold (base_name p).
  rewrite (dotless_fun _ _ _ (undot_dotless (base_name p)) DL). unfold proxy_handshake, tls_handshake. cbn [tu_verify tu_name].
  destruct (negb (cx_noverify p)); [|reflexivity]. pose proof (c60_no_error pton _ name S). destruct (tls_check_name pton cert name) as [m|] eqn:CN; [|congruence].
  apply (c60_certificate _ _ _ _ CN) in C. subst m. reflexivity.
Qed.

(** Names are verified unless the block says otherwise; the last `verifyname' counts. *)
Definition last_verify (os : list proxy_opt) : option bool := fold_left (fun d o => match o with PVerifyName b => Some b | _ => d end) os None.
Lemma fold_verify os : forall st d, px_noverify (fst st) = negb (match d with Some b => b | None => true end) ->
  px_noverify (fst (fold_left (fun st o => proxy_option o st) os st)) =
  negb (match fold_left (fun d o => match o with PVerifyName b => Some b | _ => d end) os d with Some b => b | None => true end).
Proof.
  induction os as [|o os IH]; intros [p ok] d H; cbn [fold_left]; [exact H|]. apply IH. cbn [fst] in H.
  destruct o; cbn [proxy_option fst px_noverify]; auto. destruct (tls_config_parse_protocols s); exact H.
Qed.
Theorem c66_default os p : proxy_block os = (p, true) -> (px_noverify p = true <-> last_verify os = Some false).
Proof.
  unfold proxy_block. destruct (fold_left _ os (new_proxy, true)) as [q ok] eqn:F. intros H. injection H as <- _.
  pose proof (fold_verify os (new_proxy, true) None eq_refl) as X. rewrite F in X. cbn [fst] in X. rewrite X. fold (last_verify os).
  destruct (last_verify os) as [[]|]; cbn; split; congruence.
Qed.

(** a case: a proxy to "h.example.org." that shows a wildcard certificate *)
Lemma uhistory_run E pton sets_up U h : 
  Forall (fun x => match fst x with EvUpTls r => forall p, exists t, proxy_setup_tls sets_up (U p) = Some t /\ handshake_seq pton t (snd x) r | _ => snd x = [] end) h ->
  forall h0 c0 c, uhistory E pton sets_up U h0 c0 -> run E (map fst h) c0 = Some (OK c) -> uhistory E pton sets_up U (h0 ++ h) c.
Proof.
  induction 1 as [|[e ss] h X F IH]; intros h0 c0 c H0; cbn [map run fst].
  - intros R. injection R as <-. rewrite app_nil_r. exact H0.
  - destruct (step E e c0) as [[c1| |]|] eqn:ST; try discriminate. intros R. replace (h0 ++ (e, ss) :: h) with ((h0 ++ [(e, ss)]) ++ h) by (rewrite <- app_assoc; reflexivity).
    apply (IH _ c1 c); [|exact R]. econstructor; [exact H0| |exact ST]. cbn [fst snd] in X. unfold explained. destruct e; auto.
Qed.
Definition ex_up (p : proxy) : cproxy := mkCproxy p (s2b "h.example.org.") 24 false None None.
Definition ex_calls : list (option ssl) := [Some SslWantOut; Some SslWantIn; Some (SslDone (Some wild))].
Definition up_hist : list (event * list (option ssl)) := map (fun e => (e, [])) (opening ex_fs (Some (s2b "h")) app_chunks) ++ [(EvUpTls UpOk, ex_calls)].
Example c66_case : exists c p line, uhistory (up_env false) ex_pton (fun _ => true) ex_up up_hist c /\ In (AUp p line) (c_acts c) /\ p_notls p = false /\ cx_noverify (ex_up p) = false.
Proof.
  set (c := ok_state (run (up_env false) (map fst up_hist) fresh)).
  assert (R : run (up_env false) (map fst up_hist) fresh = Some (OK c)) by (subst c; vm_compute; reflexivity).
  assert (A : exists a, last (c_acts c) a = a /\ match a with AUp p _ => p_notls p = false | _ => False end /\ In a (c_acts c)).
  { clear R. exists (last (c_acts c) (AVerify 0)). subst c. vm_compute. auto 20. }
  destruct A as (a & _ & A & I). destruct a; try (destruct A; fail). exists c. eexists _, _. split; [|split; [exact I|split; [exact A|reflexivity]]].
  apply (uhistory_run _ _ _ _ up_hist) with (h0 := []) (c0 := fresh); [|constructor|exact R].
  unfold up_hist. apply Forall_app. split.
  - apply Forall_forall. intros [e ss] I'. apply in_map_iff in I' as (e' & E' & I'). injection E' as <- <-. cbn [fst snd].
    destruct e' as [| | | | | | | |r| |]; try reflexivity. exfalso. revert I'. clear. cbn. intuition discriminate.
  - constructor; [|constructor]. cbn [fst snd]. intros p0. eexists. split; [reflexivity|]. exists [Some SslWantOut; Some SslWantIn], (Some (SslDone (Some wild))).
    split; [reflexivity|]. split; [repeat constructor|]. vm_compute. reflexivity.
Qed.

(** ** C67 *)
Lemma strsep_worded s : worded s (strsep s).
Proof.
  induction s as [|c r IH]; cbn [strsep]; [constructor; intros []|].
  destruct (N.eqb_spec c 44) as [->|N1]; [cbn [orb]; apply (wo_more [] 44 r); auto|].
  destruct (N.eqb_spec c 58) as [->|N2]; [cbn [orb]; apply (wo_more [] 58 r); auto|]. cbn [orb].
  inversion IH as [w A B|w d t ws A B C D]; subst.
  - constructor; intros [X|X]; congruence || contradiction.
  - apply (wo_more (c :: w) d t ws); auto; intros [X|X]; congruence || contradiction.
Qed.
Lemma worded_fun s ws : worded s ws -> strsep s = ws.
Proof.
  assert (P : forall w, ~ In 44 w -> ~ In 58 w -> forall t, strsep (w ++ t) = match strsep t with x :: r => (w ++ x) :: r | [] => [w] end).
  { induction w as [|c w IH]; intros A B t; cbn [app strsep].
    - pose proof (strsep_worded t) as X. destruct X; reflexivity.
    - destruct (N.eqb_spec c 44) as [->|]; [exfalso; apply A; left; reflexivity|]. destruct (N.eqb_spec c 58) as [->|]; [exfalso; apply B; left; reflexivity|]. cbn [orb].
      rewrite IH; [|intros X; apply A; right; exact X|intros X; apply B; right; exact X]. destruct (strsep t); reflexivity. }
  induction 1 as [w A B|w c s ws A B C D IH].
  - rewrite <- (app_nil_r w) at 1. rewrite (P w A B []). cbn. rewrite app_nil_r. reflexivity.
  - rewrite (P w A B (c :: s)). cbn [strsep]. replace ((c =? 44) || (c =? 58)) with true by (symmetry; apply orb_true_iff; rewrite !N.eqb_eq; exact C). rewrite IH, app_nil_r. reflexivity.
Qed.

Definition bits (vs : list version) : N := N.lor (if existsb (veq TLSv12) vs then TLS12 else 0) (if existsb (veq TLSv13) vs then TLS13 else 0).
Lemma case_same a b : strcaseeq a b = true <-> same_name a b.
Proof. apply caseeq_same. Qed.
Definition table : list (list N * N) := [(s2b "tlsv1", 24); (s2b "tlsv1.0", 8); (s2b "tlsv1.1", 8); (s2b "tlsv1.2", 8); (s2b "tlsv1.3", 16); (s2b "all", 24); (s2b "legacy", 24); (s2b "default", 24); (s2b "secure", 24)].
Fixpoint look (p : list N) (t : list (list N * N)) : N := match t with [] => 0 | (s, n) :: r => if strcaseeq p s then n else look p r end.
Lemma proto_look p : proto_of p = look p table.
Proof.
  unfold proto_of, table. cbv zeta. cbn [look]. change TLS_PROTOCOLS_ALL with 24. change TLS_PROTOCOLS_DEFAULT with 24. change TLS_PROTOCOL_TLSv1 with 24. change TLS12 with 8. change TLS13 with 16.
  repeat match goal with |- context[strcaseeq p ?s] => destruct (strcaseeq p s) end; reflexivity.
Qed.

(** what a name stands for, in bits *)
Definition vs_of (n : N) : list version := (if N.testbit n 3 then [TLSv12] else []) ++ (if N.testbit n 4 then [TLSv13] else []).
Lemma look_in p t : look p t <> 0 -> exists s, In (s, look p t) t /\ same_name p s.
Proof.
  induction t as [|[s n] t IH]; cbn [look]; [congruence|]. destruct (strcaseeq p s) eqn:E; intros H.
  - exists s. split; [left; reflexivity|apply case_same; exact E].
  - destruct (IH H) as (s' & I & S). exists s'. split; [right; exact I|exact S].
Qed.
Lemma look_first p s n t : strcaseeq p s = true -> In (s, n) t ->
  (forall s1 s2 n1 n2, In (s1, n1) t -> In (s2, n2) t -> same_name s1 s2 -> n1 = n2) -> look p t = n.
Proof.
  intros E I U. induction t as [|[s' n'] t IH]; [destruct I|]. cbn [look]. destruct (strcaseeq p s') eqn:E'.
  - apply (U s' s n' n); [left; reflexivity|exact I|]. apply case_same. unfold strcaseeq in *. apply leqb_eq in E. apply leqb_eq in E'. apply leqb_eq. congruence.
  - destruct I as [I|I]; [injection I as -> ->; congruence|]. apply IH; [exact I|]. intros s1 s2 n1 n2 A B. apply U; right; assumption.
Qed.
Lemma table_unique s1 s2 n1 n2 : In (s1, n1) table -> In (s2, n2) table -> same_name s1 s2 -> n1 = n2.
Proof.
  intros A B S. apply case_same in S. cbn [table In] in A, B.
  repeat (destruct A as [A|A]; [injection A as <- <-|]); try destruct A;
  repeat (destruct B as [B|B]; [injection B as <- <-; first [reflexivity | vm_compute in S; discriminate S]|]); destruct B.
Qed.
Lemma denotes_bits p vs : denotes p vs -> proto_of p = bits vs /\ (bits vs = 8 \/ bits vs = 16 \/ bits vs = 24) /\ (forall v, existsb (veq v) vs = true -> v = TLSv12 \/ v = TLSv13).
Proof.
  intros D. destruct D as [name s vs I SN]. rewrite proto_look.
  assert (X : In (s, bits vs) table /\ (bits vs = 8 \/ bits vs = 16 \/ bits vs = 24) /\ (forall v, existsb (veq v) vs = true -> v = TLSv12 \/ v = TLSv13)).
  { unfold table. repeat (destruct I as [I|I]; [injection I as <- <-; split; [cbn; tauto|split; [vm_compute; tauto|intros []; cbn; intuition congruence]]|]). destruct I. }
  destruct X as (T & B). split; [|exact B]. apply (look_first _ s); [apply case_same; exact SN|exact T|exact table_unique].
Qed.
Lemma proto_denotes p : proto_of p <> 0 -> exists vs, denotes p vs.
Proof.
  rewrite proto_look. intros H. destruct (look_in _ _ H) as (s & I & SN). revert I. generalize (look p table). intros n I.
  unfold table in I. repeat (destruct I as [I|I]; [injection I as <- <-; eexists; econstructor; [|exact SN]; cbn; tauto|]). destruct I.
Qed.

(** ** one word *)
Lemma skip_blanks_spec w : exists bl r, w = bl ++ r /\ Forall blank bl /\ (forall c, hd_error r = Some c -> ~ blank c) /\ skip_blanks w = r.
Proof.
  induction w as [|c w IH]; [exists [], []; repeat split; auto; discriminate|]. cbn [skip_blanks].
  destruct (N.eqb_spec c 32) as [->|N1]; [|destruct (N.eqb_spec c 9) as [->|N2]]; cbn [orb].
  1,2: destruct IH as (bl & r & -> & F & H & E); eexists (_ :: bl), r; repeat split; auto; constructor; [unfold blank; tauto|exact F].
  exists [], (c :: w). repeat split; auto. intros d D. injection D as <-. unfold blank. tauto.
Qed.
Lemma skip_blanks_app bl r : Forall blank bl -> (forall c, hd_error r = Some c -> ~ blank c) -> skip_blanks (bl ++ r) = r.
Proof.
  induction 1 as [|c bl B F IH]; intros H; cbn [app].
  - destruct r as [|c r]; [reflexivity|]. cbn [skip_blanks]. specialize (H c eq_refl). unfold blank in H.
    destruct (N.eqb_spec c 32); [tauto|]. destruct (N.eqb_spec c 9); [tauto|]. reflexivity.
  - cbn [skip_blanks]. destruct B as [-> | ->]; cbn; auto.
Qed.
Lemma denotes_head p vs : denotes p vs -> exists c r, p = c :: r /\ ~ blank c /\ c <> 33.
Proof.
  intros D. destruct D as [name s vs I SN].
  assert (X : exists c r, s = c :: r /\ 97 <= c).
  { repeat (destruct I as [I|I]; [injection I as <- <-; eexists _, _; split; [reflexivity|vm_compute; discriminate]|]). destruct I. }
  destruct X as (c & r & -> & C). inversion SN as [|x y l l' SL _ E1 E2]; subst. exists x, l. unfold blank, same_letter in *. split; [reflexivity|]. lia.
Qed.
Lemma word_word n w neg vs : word w (neg, vs) ->
  proto_word n w = Some (if neg then N.ldiff (if n =? 0 then 24 else n) (bits vs) else N.lor n (bits vs)).
Proof.
  intros W. inversion W as [bl ng name vs' B D E]; subst. destruct (denotes_bits _ _ D) as (P & PB & _). destruct (denotes_head _ _ D) as (c & r & -> & NB & N33).
  unfold proto_word. destruct neg; cbn [app].
  - rewrite (skip_blanks_app bl (33 :: c :: r) B); [|intros d Q; injection Q as <-; unfold blank; lia]. cbn [andb].
    rewrite P. replace (bits vs =? 0) with false by (symmetry; apply N.eqb_neq; lia). reflexivity.
  - rewrite (skip_blanks_app bl (c :: r) B); [|intros d Q; injection Q as <-; exact NB].
    replace (match c :: r with 33 :: r0 => (true, r0) | _ => (false, c :: r) end) with (false, c :: r)
      by (destruct c as [|q]; [reflexivity|]; do 6 (destruct q as [q|q|]; try reflexivity); congruence).
    cbn [andb]. rewrite P. replace (bits vs =? 0) with false by (symmetry; apply N.eqb_neq; lia). reflexivity.
Qed.
Lemma word_denotes n w m : proto_word n w = Some m -> exists neg vs, word w (neg, vs).
Proof.
  unfold proto_word. destruct (skip_blanks_spec w) as (bl & r & -> & B & H & ->).
  assert (X : forall x, match r with 33 :: r0 => (true, r0) | _ => (false, r) end = x -> (let (neg, p) := x in r = (if neg then [33] else []) ++ p)).
  { intros x <-. destruct r as [|c r]; [reflexivity|]. destruct c as [|q]; [reflexivity|]. do 6 (destruct q as [q|q|]; try reflexivity). }
  destruct (match r with 33 :: r0 => (true, r0) | _ => (false, r) end) as [neg p] eqn:Q. specialize (X _ eq_refl). cbv beta iota in X.
  destruct (N.eqb_spec (proto_of p) 0) as [E|NE]; [discriminate|]. intros _. destruct (proto_denotes _ NE) as (vs & D). exists neg, vs. rewrite X. constructor; assumption.
Qed.

(** A string is refused exactly when one of its words names nothing. *)
Theorem c67_refuses s ws : worded s ws ->
  (tls_config_parse_protocols s = None <-> exists w, In w ws /\ forall neg vs, ~ word w (neg, vs)).
Proof.
  intros W. unfold tls_config_parse_protocols. rewrite (worded_fun _ _ W). clear W. generalize 0. induction ws as [|w ws IH]; intros n; cbn [proto_words].
  - split; [discriminate|intros (w & [] & _)].
  - destruct (proto_word n w) as [m|] eqn:E.
    + rewrite (IH m). split; intros (x & I & X); [exists x; split; [right; exact I|exact X]|]. destruct I as [->|I]; [|exists x; auto].
      exfalso. destruct (word_denotes _ _ _ E) as (neg & vs & Y). exact (X _ _ Y).
    + split; [intros _|reflexivity]. exists w. split; [left; reflexivity|]. intros neg vs Y. rewrite (word_word n _ _ _ Y) in E. discriminate.
Qed.

(** Otherwise, provided no "!" comes when everything was already switched off, the last
    word that mentions a version decides whether it is on. *)
Definition good_n (n : N) : Prop := n = 0 \/ n = 8 \/ n = 16 \/ n = 24.
Lemma last_says_snoc pre w v : last_says (pre ++ [w]) v = if existsb (veq v) (snd w) then Some (negb (fst w)) else last_says pre v.
Proof. unfold last_says. rewrite fold_left_app. reflexivity. Qed.
Lemma enabled_snoc pre w v : pre <> [] -> enabled (pre ++ [w]) v = if existsb (veq v) (snd w) then negb (fst w) else enabled pre v.
Proof.
  intros NE. unfold enabled. rewrite last_says_snoc. destruct (existsb (veq v) (snd w)); [reflexivity|]. destruct (last_says pre v); [reflexivity|].
  destruct pre as [|[] pre]; [congruence|reflexivity].
Qed.
Lemma vs_cases p vs : denotes p vs -> vs = [TLSv12; TLSv13] \/ vs = [TLSv12] \/ vs = [TLSv13].
Proof. intros D. destruct D as [name s vs I SN]. repeat (destruct I as [I|I]; [injection I as _ <-; tauto|]). destruct I. Qed.
Lemma words_enabled ws : forall ds pre n, Forall2 word ws ds -> never_empty (pre ++ ds) -> good_n n ->
  (forall v, version_on n v = enabled pre v) ->
  exists m, proto_words n ws = Some m /\ good_n m /\ forall v, version_on m v = enabled (pre ++ ds) v.
Proof.
  induction ws as [|w ws IH]; intros ds pre n F NV G V.
  - inversion F; subst. exists n. rewrite app_nil_r. auto.
  - inversion F as [|? [neg vs] ? ds' W F']; subst. cbn [proto_words]. rewrite (word_word n _ _ _ W).
    assert (D : exists p, denotes p vs) by (inversion W; subst; eauto). destruct D as (p & D). pose proof (vs_cases _ _ D) as VC.
    replace (pre ++ (neg, vs) :: ds') with ((pre ++ [(neg, vs)]) ++ ds') in NV |- * by (rewrite <- app_assoc; reflexivity).
    apply IH; auto.
    + destruct neg; destruct G as [-> | [-> | [-> | ->]]]; destruct VC as [-> | [-> | ->]]; vm_compute; tauto.
    + intros v. destruct pre as [|d0 pre'] eqn:PE.
      * assert (n = 0) as -> by (destruct G as [-> | [-> | [-> | ->]]]; [reflexivity| | |]; [specialize (V TLSv12)|specialize (V TLSv13)|specialize (V TLSv12)]; discriminate V).
        destruct neg; destruct VC as [-> | [-> | ->]]; destruct v; reflexivity.
      * rewrite enabled_snoc by discriminate. rewrite <- V. rewrite <- PE in V, NV. cbn [snd fst].
        assert (NZ : neg = true -> n <> 0).
        { intros ->. destruct (NV pre vs ds') as (v0 & E0); [rewrite <- app_assoc; reflexivity|congruence|]. rewrite <- V in E0. intros ->. destruct v0; discriminate E0. }
        destruct neg; [specialize (NZ eq_refl)|clear NZ]; destruct G as [-> | [-> | [-> | ->]]]; try congruence; destruct VC as [-> | [-> | ->]]; destruct v; reflexivity.
Qed.
Theorem c67_last_word_partial s ws ds : worded s ws -> Forall2 word ws ds -> never_empty ds ->
  exists n, tls_config_parse_protocols s = Some n /\ forall v, version_on n v = enabled ds v.
Proof.
  intros W F NV. unfold tls_config_parse_protocols. rewrite (worded_fun _ _ W).
  destruct (words_enabled ws ds [] 0 F NV (or_introl eq_refl)) as (m & E & _ & V); [intros []; reflexivity|]. exists m. auto.
Qed.

(** Whatever the setting, nothing older than TLS 1.2 is ever on. *)
Theorem c67_no_old n v : version_on n v = true -> v = TLSv12 \/ v = TLSv13.
Proof. destruct v; cbn [version_on]; auto; discriminate. Qed.

(** The last word does not always decide: "!" when everything is off starts over from
    everything. *)
Theorem c67_restarts_refuted : exists s ws ds n, worded s ws /\ Forall2 word ws ds /\ tls_config_parse_protocols s = Some n /\
  last_says ds TLSv12 = Some false /\ version_on n TLSv12 = true.
Proof.
  exists (s2b "tlsv1.2,!tlsv1.2,!tlsv1.3"), [s2b "tlsv1.2"; s2b "!tlsv1.2"; s2b "!tlsv1.3"], [(false, [TLSv12]); (true, [TLSv12]); (true, [TLSv13])], 8.
  assert (D : forall w vs, In (w, vs) [(s2b "tlsv1.2", [TLSv12]); (s2b "tlsv1.3", [TLSv13])] -> denotes w vs).
  { intros w vs [I|[I|[]]]; injection I as <- <-; [apply (dn _ (s2b "tlsv1.2"))|apply (dn _ (s2b "tlsv1.3"))]; [cbn; tauto|apply case_same; reflexivity|cbn; tauto|apply case_same; reflexivity]. }
  split; [exact (strsep_worded (s2b "tlsv1.2,!tlsv1.2,!tlsv1.3"))|]. split; [|split; [reflexivity|split; reflexivity]].
  repeat constructor.
  - apply (wd [] false (s2b "tlsv1.2")); [constructor|apply D; cbn; tauto].
  - apply (wd [] true (s2b "tlsv1.2")); [constructor|apply D; cbn; tauto].
  - apply (wd [] true (s2b "tlsv1.3")); [constructor|apply D; cbn; tauto].
Qed.
(** And the names of versions that are not supported stand for TLS 1.2: switching TLS
    1.0 off switches TLS 1.2 off. *)
Theorem c67_old_names_refuted : tls_config_parse_protocols (s2b "all,!tlsv1.0") = Some 16 /\ version_on 16 TLSv12 = false /\
  tls_config_parse_protocols (s2b "tlsv1.1") = Some 8 /\ version_on 8 TLSv12 = true.
Proof. repeat split. Qed.

(** a case: "all:!tlsv1.3" *)
Example c67_case : exists ws ds, worded (s2b "all: !TLSv1.3") ws /\ Forall2 word ws ds /\ never_empty ds /\ enabled ds TLSv12 = true /\ enabled ds TLSv13 = false.
Proof.
  exists [s2b "all"; s2b " !TLSv1.3"], [(false, [TLSv12; TLSv13]); (true, [TLSv13])]. split; [exact (strsep_worded (s2b "all: !TLSv1.3"))|]. split; [|split; [|split; reflexivity]].
  - repeat constructor.
    + apply (wd [] false (s2b "all")); [constructor|econstructor; [cbn; left; reflexivity|apply case_same; reflexivity]].
    + apply (wd [32] true (s2b "TLSv1.3")); [repeat constructor|]. apply (dn _ (s2b "tlsv1.3")); [cbn; tauto|apply case_same; reflexivity].
  - intros pre vs post E NE. destruct pre as [|x pre]; [congruence|]. injection E as <- E. destruct pre as [|y pre]; [|exfalso; injection E as _ E; destruct pre; discriminate].
    exists TLSv12. reflexivity.
Qed.
Example c67_case_refused : tls_config_parse_protocols (s2b "tlsv1.2,") = None. Proof. reflexivity. Qed.

Print Assumptions c66_verified.
Print Assumptions c66_accepted.
Print Assumptions c66_default.
Print Assumptions c67_last_word_partial.
Print Assumptions c67_refuses.
Print Assumptions c67_no_old.
