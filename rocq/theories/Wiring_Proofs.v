(** Which connections to applications and upstreams a client of a polite
    history can have. *)
From Verif Require Import Base BaseLemmas Compat Iri IriSpec IriObs IriOut Puny Conf ConfSpec Mime Fmt Fcgi Server ServerSpec Iri_Last_Proofs Server_Proofs Decide_Proofs RequestSpec Request_Proofs HistorySpec.
Local Open Scope N_scope.

(** no connection *)
Definition alone (c : client) : Prop := c_conns c = [] /\ c_cgibev c = None /\ c_up c = None /\ c_closed c = false.

Definition K (c : client) : Prop :=
  (c_closed c = true -> c_up c = None /\ forall k, In k (c_conns c) -> k_open k = false) /\
  (c_closed c = false ->
     (c_hs c = false -> alone c /\ c_type c = UNDECIDED) /\
     ((c_conns c = [] /\ c_cgibev c = None) \/
      (exists k, c_conns c = [k] /\ c_cgibev c = Some 0%nat /\ c_type c <> RPROXY /\ c_up c = None)) /\
     (c_up c <> None -> c_type c = RPROXY \/ c_type c = DONE) /\
     (forall n, c_pfd c = PConn n -> n = 0%nat /\ c_cgibev c <> None)).

Lemma alone_same c c' : same c c' -> alone c -> alone c'.
Proof.
  intros (_ & S1 & _ & _ & _ & _ & _ & _ & _ & _ & S2 & S3 & _ & S4) (A1 & A2 & A3 & A4).
  unfold alone. rewrite S1, S2, S3, S4. auto.
Qed.

(** a client that knows no application *)
Definition plain (c : client) : Prop := alone c /\ c_hs c = true /\ forall n, c_pfd c <> PConn n.
Lemma plain_K c : plain c -> K c.
Proof.
  intros ((A1 & A2 & A3 & A4) & H & F). split; [congruence|]. intros _. split; [congruence|]. split; [auto|]. split; [congruence|].
  intros n X. exfalso. exact (F n X).
Qed.
Lemma plain_same c c' : same c c' -> plain c -> plain c'.
Proof.
  intros S (A & H & F). split; [eapply alone_same; eauto|]. destruct S as (S1 & _ & _ & _ & _ & _ & _ & S2 & _). rewrite S1, S2. auto.
Qed.

Lemma reply_same E code meta c : 10 <= code < 100 -> same c (reply E code meta c).
Proof. intros H. pose proof (reply_spec E code meta c ltac:(lia) ltac:(lia)) as R. cbv zeta in R. exact (proj1 R). Qed.
Lemma plain_reply E code meta c : 10 <= code < 100 -> plain c -> plain (reply E code meta c).
Proof. intros H. apply plain_same. apply reply_same; exact H. Qed.

(** [K] only looks at these *)
Lemma K_eq c c' : c_closed c' = c_closed c -> c_hs c' = c_hs c -> c_conns c' = c_conns c -> c_cgibev c' = c_cgibev c -> c_up c' = c_up c ->
  c_pfd c' = c_pfd c -> (c_type c' = c_type c \/ (c_type c' = DONE /\ c_hs c = true)) -> K c -> K c'.
Proof.
  intros H1 H2 H3 H4 H5 H6 H7 (KC & KL). unfold K, alone. rewrite H1, H2, H3, H4, H5, H6. split; [exact KC|].
  intros L. destruct (KL L) as (A & B & C & D). destruct H7 as [->|[-> Hs]]; [auto|].
  split; [congruence|]. split; [|split; [auto|exact D]].
  destruct B as [B|(k & B1 & B2 & B3 & B4)]; [left; exact B|right; exists k; repeat split; auto; discriminate].
Qed.

(** a reply keeps [K] once the handshake is over *)
Lemma start_reply_type E code meta c : 10 <= code < 100 ->
  c_type (fst (start_reply E code meta c)) = c_type c \/ c_type (fst (start_reply E code meta c)) = DONE.
Proof.
  intros H. pose proof (start_reply_spec E code meta c ltac:(lia) ltac:(lia)) as R. destruct (start_reply E code meta c) as [c' ok].
  destruct R as (_ & _ & _ & R). cbn [fst]. destruct ok; destruct R as (_ & _ & T & _); [destruct (code =? 20)|]; auto.
Qed.
Lemma start_reply_same E code meta c : 10 <= code < 100 -> same c (fst (start_reply E code meta c)).
Proof. exact (reply_same E code meta c). Qed.
Lemma start_reply_K E code meta c : 10 <= code < 100 -> c_hs c = true -> K c -> K (fst (start_reply E code meta c)).
Proof.
  intros H Hs. pose proof (start_reply_same E code meta c H) as (S1 & S2 & _ & _ & _ & _ & _ & S3 & _ & _ & S4 & S5 & _ & S6).
  apply K_eq; auto. destruct (start_reply_type E code meta c H) as [T|T]; auto.
Qed.
Lemma reply_K E code meta c : 10 <= code < 100 -> c_hs c = true -> K c -> K (reply E code meta c).
Proof. exact (start_reply_K E code meta c). Qed.

Lemma add_out_K s c : K c -> K (add_out s c).
Proof.
  destruct (add_out_same s c) as (S1 & S2 & _ & _ & _ & _ & _ & S3 & _ & _ & S4 & S5 & _ & S6).
  apply K_eq; auto. left. apply add_out_type.
Qed.

(** ** the request *)
Lemma listing_plain E v path entries c : plain c -> plain (server_dir_listing E v path entries c).
Proof.
  intros H. unfold server_dir_listing. cbv zeta. destruct (negb _); [apply plain_reply; [lia|exact H]|].
  destruct entries as [es|]; [|apply plain_reply; [lia|exact H]].
  eapply plain_same; [apply add_out_same|]. apply plain_reply; [lia|]. exact H.
Qed.

Lemma file_plain E fs v i c c' : plain c -> serve_file E fs v i c = OK c' -> plain c'.
Proof.
  intros H. unfold serve_file. cbv zeta.
  destruct (vhost_dirfd _ _ _) as [fd|]; [|intros Q; apply OK_inj in Q; subst; apply plain_reply; [lia|exact H]].
  set (p := match skip_slashes _ with [] => _ | _ => _ end).
  assert (H1 : plain (act (AOpen fd p) c)) by exact H.
  destruct (fs fd p) as [| |reg content|look entries].
  - intros Q; apply OK_inj in Q; subst; apply plain_reply; [lia|exact H1].
  - intros Q; apply OK_inj in Q; subst; apply plain_reply; [lia|exact H1].
  - intros Q. apply bind_ok in Q as (ty & _ & Q). apply OK_inj in Q; subst. apply plain_reply; [lia|].
    destruct H1 as (A & B & _). split; [exact A|]. split; [exact B|discriminate].
  - assert (H2 : plain (set_pfd PDir (act (AOpen fd p) c))) by (destruct H1 as (A & B & _); split; [exact A|]; split; [exact B|discriminate]).
    unfold open_dir. destruct (negb _ && negb _).
    + intros Q; apply OK_inj in Q; subst. unfold redirect_canonical_dir. destruct (_ <=? _)%nat; apply plain_reply; try lia; exact H2.
    + cbv zeta. destruct (look _) as [| |[] content|].
      * intros Q; apply OK_inj in Q; subst. apply listing_plain; exact H2.
      * intros Q; apply OK_inj in Q; subst; apply plain_reply; [lia|exact H2].
      * intros Q. apply bind_ok in Q as (ty & _ & Q). apply OK_inj in Q; subst. apply plain_reply; [lia|].
        destruct H2 as (A & B & _). split; [exact A|]. split; [exact B|discriminate].
      * intros Q; apply OK_inj in Q; subst. apply listing_plain; exact H2.
      * intros Q; apply OK_inj in Q; subst. apply listing_plain; exact H2.
Qed.

Lemma cert_plain E ca c : plain c ->
  match (match ca with Some a => check_matching_certificate E a c | None => inr c end) with
  | inl c' => plain c'
  | inr c' => plain c' /\ c_type c' = c_type c
  end.
Proof.
  intros H. destruct ca as [a|]; [|auto]. unfold check_matching_certificate. destruct (e_cert E).
  - cbv zeta. assert (H1 : plain (act (AVerify a) c)) by exact H. destruct (e_valid E a); [auto|apply plain_reply; [lia|exact H1]].
  - apply plain_reply; [lia|exact H].
Qed.

Lemma dispatch_K E fs v i asked c c' : codes_ok v -> plain c -> c_type c = UNDECIDED ->
  dispatch E fs v i asked c = OK c' -> K c'.
Proof.
  intros HC H HT. unfold dispatch. intros Q. apply bind_ok in Q as (r & AR & Q).
  unfold apply_reverse_proxy in AR. destruct (matched_proxy _ _ _ _ _) as [p|].
  - cbv zeta in AR. set (c1 := set_up (Some p) (c_up c) c) in *.
    assert (H1 : plain c1) by exact H.
    pose proof (cert_plain E (p_reqca p) c1 H1) as W.
    destruct (match p_reqca p with Some ca => _ | None => _ end) as [c2|c2].
    + apply OK_inj in AR. subst r. apply OK_inj in Q. subst c'. apply plain_K; exact W.
    + destruct W as [W _]. destruct (negb (e_upstream E p)).
      { apply OK_inj in AR. subst r. apply OK_inj in Q. subst c'. apply plain_K. apply plain_reply; [lia|exact W]. }
      assert (W2 : plain (set_pfd PUp c2)) by (destruct W as (A & B & _); split; [exact A|]; split; [exact B|discriminate]).
      destruct (p_notls p).
      * apply bind_ok in AR as (c3 & PE & AR). apply OK_inj in AR. subst r. apply OK_inj in Q. subst c'.
        unfold proxy_enqueue_req in PE. apply bind_ok in PE as (line & _ & PE). apply OK_inj in PE. subst c3.
        destruct W2 as ((A1 & A2 & A3 & A4) & B & D). split; [intros X; cbn in A4; cbn in X; congruence|]. intros _.
        split; [intros X; cbn in B; cbn in X; congruence|]. split; [left; split; [exact A1|exact A2]|].
        split; [intros _; left; reflexivity|]. intros n X. exfalso. exact (D n X).
      * destruct (e_uptls E p); apply OK_inj in AR; subst r; apply OK_inj in Q; subst c'; apply plain_K.
        -- exact W2.
        -- apply plain_reply; [lia|exact W2].
  - apply OK_inj in AR. subst r.
    destruct (negb _ || negb _); [apply OK_inj in Q; subst; apply plain_K, plain_reply; [lia|exact H]|].
    pose proof (cert_plain E (vhost_require_ca (e_fnm E) v (c_path i)) c H) as W.
    destruct (match vhost_require_ca (e_fnm E) v (c_path i) with Some a => _ | None => _ end) as [c1|c1].
    { apply OK_inj in Q. subst. apply plain_K; exact W. }
    destruct W as [W WT]. rewrite HT in WT.
    apply bind_ok in Q as (r & AB & Q). unfold apply_block_return in AB.
    destruct (governs_exists (e_fnm E) (c_path i) (fun l => l_block_code l <> 0) (fun l => negb (l_block_code l =? 0)) v) as (lb & Gb); [intros l; lia|].
    rewrite (Prop_Conf.c13_block _ _ _ _ Gb) in AB.
    assert (CB : l_block_code lb = 0 \/ 10 <= l_block_code lb < 20 \/ 30 <= l_block_code lb < 70).
    { unfold codes_ok in HC. rewrite Forall_forall in HC. apply HC. eapply governs_in; eauto. }
    destruct (N.eqb_spec (l_block_code lb) 0).
    + apply OK_inj in AB. subst r. apply bind_ok in Q as (r & AF & Q). unfold apply_fastcgi in AF.
      destruct (vhost_fastcgi _ _ _) as [l|]; [|apply OK_inj in AF; subst r; eapply plain_K, file_plain; eauto].
      destruct (l_fcgi l) as [n|]; [|apply OK_inj in AF; subst r; eapply plain_K, file_plain; eauto].
      destruct (nth_error _ _); [|apply OK_inj in AF; subst r; eapply plain_K, file_plain; eauto].
      destruct (negb (e_fcgi E n)).
      * apply OK_inj in AF. subst r. apply OK_inj in Q. subst c'. apply plain_K, plain_reply; [lia|].
        destruct W as (A & B & _). split; [exact A|]. split; [exact B|discriminate].
      * cbv zeta in AF. apply bind_ok in AF as (b & _ & AF). apply OK_inj in AF. subst r. apply OK_inj in Q. subst c'.
        destruct W as ((A1 & A2 & A3 & A4) & B & D). split; [intros X; cbn in X; congruence|]. intros _.
        split; [intros X; cbn in X; congruence|].
        cbn [act set_pfd set_cgi c_conns c_cgibev c_type c_up c_pfd]. rewrite A1, WT, A3. cbn [length app].
        split; [right; exists (mkConn [] true); repeat split; discriminate|]. split; [congruence|]. intros m X. injection X as <-. split; [reflexivity|discriminate].
    + cbv zeta in AB. apply bind_ok in AB as (meta & _ & AB). apply OK_inj in AB. subst r. apply OK_inj in Q. subst c'.
      apply plain_K, plain_reply; [lia|exact W].
Qed.

Lemma K_plain c : K c -> c_closed c = false -> c_hs c = true -> c_type c = UNDECIDED -> c_cgibev c = None -> plain c.
Proof.
  intros (_ & KL) L Hs T G. destruct (KL L) as (_ & B & C & D). split; [|split; [exact Hs|intros n X; destruct (D n X); contradiction]].
  split; [destruct B as [[B _]|(k & _ & B & _)]; congruence|]. split; [exact G|]. split; [|exact L].
  destruct (c_up c); [|reflexivity]. destruct C as [C|C]; [discriminate|congruence|congruence].
Qed.

Lemma client_read_K E fs c c' : conf_ok E -> (forall v, c_vhost c = Some v -> In v (c_hosts (e_conf E))) ->
  K c -> c_closed c = false -> c_hs c = true -> (c_type c = UNDECIDED -> c_cgibev c = None) ->
  client_read E fs c = OK c' -> K c'.
Proof.
  intros HO HV HK L Hs HP. unfold client_read.
  destruct (c_type c) eqn:T; try (intros Q; apply OK_inj in Q; subst; exact HK).
  specialize (HP eq_refl). pose proof (K_plain c HK L Hs T HP) as H0.
  destruct (1026 <? length (c_in c))%nat; [intros Q; apply OK_inj in Q; subst; apply plain_K, plain_reply; [lia|exact H0]|].
  destruct (readln (c_in c)) as [[line rest]|]; [|intros Q; apply OK_inj in Q; subst; exact HK].
  cbv zeta. assert (H1 : plain (set_in rest c)) by exact H0.
  destruct (1026 <? length line)%nat; [intros Q; apply OK_inj in Q; subst; apply plain_K, plain_reply; [lia|exact H1]|].
  destruct (existsb (N.eqb 0) line); [intros Q; apply OK_inj in Q; subst; apply plain_K, plain_reply; [lia|exact H1]|].
  intros Q. apply bind_ok in Q as ((ok & p) & _ & Q). destruct (comps_of p) as [i|]; [|discriminate].
  assert (H2 : plain (set_iri (Some i) (set_in rest c))) by exact H0.
  destruct (negb ok); [apply OK_inj in Q; subst; apply plain_K, plain_reply; [lia|exact H2]|].
  apply bind_ok in Q as (d & _ & Q). destruct d as [|[] out]; [discriminate| |apply OK_inj in Q; subst; apply plain_K, plain_reply; [lia|exact H2]].
  destruct (cstr out) as [dec|]; [|discriminate]. destruct (c_vhost (set_iri (Some i) (set_in rest c))) as [v|] eqn:CV; [|discriminate].
  eapply dispatch_K; [|exact H2|exact T|exact Q].
  unfold conf_ok in HO. rewrite Forall_forall in HO. apply HO. apply HV. exact CV.
Qed.

(** ** closing *)
Lemma close_conn_1 k : close_conn 0 [k] = [mkConn (k_in k) false]. Proof. reflexivity. Qed.
Lemma close_conn_0 i : close_conn i [] = []. Proof. unfold close_conn. destruct i; reflexivity. Qed.

Lemma client_close_K c : K c -> c_closed c = false -> K (client_close c).
Proof.
  intros (_ & KL) L. destruct (KL L) as (_ & B & _ & D). split; [|discriminate]. intros _. split; [reflexivity|].
  unfold client_close. destruct B as [[B1 B2]|(k & B1 & B2 & _)]; rewrite B2.
  - unfold close_pfd, set_closed. destruct (c_pfd c); cbn; rewrite B1; rewrite ?close_conn_0; intros ? [].
  - rewrite B1, close_conn_1. unfold close_pfd. cbn [set_cgi c_pfd c_conns c_cgibev].
    destruct (c_pfd c) as [| | |n|] eqn:PF; cbn [set_closed set_pfd set_cgi c_conns]; try (intros x [<-|[]]; reflexivity).
    destruct (D n eq_refl) as [-> _]. rewrite close_conn_1. intros x [<-|[]]; reflexivity.
Qed.

Lemma client_write_K a c c' : K c -> c_closed c = false -> c_hs c = true -> client_write a c = OK c' -> K c'.
Proof.
  intros H L Hs. unfold client_write. destruct (c_type c) eqn:T.
  - intros Q; apply OK_inj in Q; subst; exact H.
  - assert (CL : K (client_close (set_type DONE c))) by (apply client_close_K; [|exact L]; eapply K_eq; [..|exact H]; try reflexivity; right; split; [reflexivity|exact Hs]).
    destruct a as [|n]; [intros Q; apply OK_inj in Q; subst; exact CL|].
    destruct (c_pfd c) as [|rest| | |] eqn:PF; try (intros Q; apply OK_inj in Q; subst; exact CL).
    cbv zeta. destruct (_ =? 0)%nat; [intros Q; apply OK_inj in Q; subst; apply client_close_K; assumption|].
    intros Q; apply OK_inj in Q. subst c'. apply add_out_K.
    assert (K1 : forall x, K (set_pfd (PFile x) c)).
    { intros x. destruct H as (_ & KL). destruct (KL L) as (A & B & C & D). split; [cbn; congruence|]. intros _.
      split; [exact A|]. split; [exact B|]. split; [exact C|]. discriminate. }
    destruct (_ =? _)%nat; [apply K1|]. eapply K_eq; [..|apply K1]; try reflexivity. right. split; [reflexivity|exact Hs].
  - intros Q. apply bind_ok in Q as (lines & _ & Q). cbv zeta in Q. apply OK_inj in Q. subst c'.
    eapply K_eq; [..|apply (add_out_K lines (set_type DONE (set_dir [] c)))]; try reflexivity; [left; reflexivity|].
    eapply K_eq; [..|exact H]; try reflexivity. right. split; [reflexivity|exact Hs].
  - intros Q; apply OK_inj in Q; subst; exact H.
  - intros Q; apply OK_inj in Q; subst; exact H.
  - intros Q; apply OK_inj in Q; subst. destruct (c_out c); [apply client_close_K; assumption|exact H].
Qed.

(** ** FastCGI *)
Definition KF (c : client) : Prop := K c /\ c_closed c = false /\ c_hs c = true /\ c_conns c <> [].
Lemma KF_one c : KF c -> exists k, c_conns c = [k] /\ c_cgibev c = Some 0%nat /\ c_type c <> RPROXY /\ c_up c = None /\ (forall n, c_pfd c = PConn n -> n = 0%nat).
Proof.
  intros ((_ & KL) & L & Hs & N). destruct (KL L) as (_ & [[B _]|(k & B1 & B2 & B3 & B4)] & _ & D); [contradiction|].
  exists k. repeat split; auto. intros n X. destruct (D n X). assumption.
Qed.
Lemma one_KF c k : c_conns c = [k] -> c_cgibev c = Some 0%nat -> c_type c <> RPROXY -> c_up c = None -> (forall n, c_pfd c = PConn n -> n = 0%nat) ->
  c_closed c = false -> c_hs c = true -> KF c.
Proof.
  intros H1 H2 H3 H4 H5 H6 H7. split; [|rewrite H1; repeat split; auto; discriminate]. split; [congruence|]. intros _.
  split; [congruence|]. split; [right; exists k; auto|]. split; [congruence|]. intros n X. split; [auto|congruence].
Qed.
Lemma KF_eq c c' : same c c' -> (c_type c' = c_type c \/ c_type c' = DONE) -> KF c -> KF c'.
Proof.
  intros (S1 & S2 & _ & _ & _ & _ & _ & S3 & _ & _ & S4 & S5 & _ & S6) T (HK & L & Hs & N).
  split; [eapply K_eq; eauto; destruct T; auto|]. rewrite S2, S1, S5. auto.
Qed.
Lemma KF_type_done c : KF c -> KF (set_type DONE c).
Proof. apply KF_eq; [same_tac|right; reflexivity]. Qed.

Lemma close_pfd_KF c : KF c -> KF (close_pfd c).
Proof.
  intros H. pose proof H as (_ & L & Hs & _). destruct (KF_one c H) as (k & B1 & B2 & B3 & B4 & D). unfold close_pfd. destruct (c_pfd c) as [| | |n|] eqn:PF.
  4:{ rewrite (D n eq_refl), B1, close_conn_1. eapply one_KF; try reflexivity; try assumption. discriminate. }
  all: eapply one_KF; try reflexivity; try eassumption; discriminate.
Qed.

Lemma fcgi_error_KF E c : KF c -> KF (fcgi_error E c) /\ c_type (fcgi_error E c) = DONE.
Proof.
  intros H. unfold fcgi_error. cbv zeta. pose proof (close_pfd_KF c H) as H1. destruct (_ =? 0).
  - split.
    + eapply KF_eq; [apply reply_same; lia|apply (start_reply_type E 42 (s2b "CGI error")); lia|exact H1].
    + pose proof (reply_spec E 42 (s2b "CGI error") (close_pfd c) ltac:(lia) ltac:(lia)) as R. cbv zeta in R. destruct R as (_ & _ & R).
      destruct (fits _ _ _); destruct R as (_ & _ & T & _); exact T.
  - split; [apply KF_type_done; exact H1|reflexivity].
Qed.

Lemma add_out_KF s c : KF c -> KF (add_out s c).
Proof. apply KF_eq; [apply add_out_same|left; apply add_out_type]. Qed.

Lemma status_range sp s code meta : status sp s = Some (code, meta) -> 10 <= code < 70.
Proof.
  unfold status. destruct s as [|a [|b [|x r]]]; try discriminate. destruct (is_digit a && is_digit b && sp x); [|discriminate].
  destruct ((_ <? 10) || (70 <=? _)) eqn:B; [discriminate|]. intros H. injection H as <- _. lia.
Qed.

Lemma stdout_KF E s c : KF c -> KF (fcgi_handle_stdout E s c).
Proof.
  intros H. unfold fcgi_handle_stdout. destruct (c_code c =? 0); [|apply add_out_KF; exact H].
  cbv zeta. set (l := Nat.min _ _). set (c1 := set_sbuf _ c). set (rest := skipn l s). clearbody rest.
  assert (H1 : KF c1) by exact H. clearbody c1.
  destruct (readln (c_sbuf c1)) as [[line t]|].
  2:{ destruct (length (c_sbuf c1) =? SBUF)%nat; [apply fcgi_error_KF; auto|auto]. }
  destruct (status (N.eqb 32) line) as [[code meta]|] eqn:ST; [|apply fcgi_error_KF; auto].
  apply status_range in ST. pose proof (start_reply_same E code meta c1 ltac:(lia)) as S. pose proof (start_reply_type E code meta c1 ltac:(lia)) as T.
  destruct (start_reply E code meta c1) as [c2 ok]. cbn [fst] in S, T. pose proof (KF_eq _ _ S T H1) as H2.
  destruct (negb ok || (c_code c2 <? 20) || (29 <? c_code c2)); [apply fcgi_error_KF; exact H2|].
  apply add_out_KF, add_out_KF; exact H2.
Qed.

Lemma fcgi_loop_KF E : forall f s c s' c' err, KF c -> fcgi_loop E f s c = OK (s', c', err) -> KF c'.
Proof.
  induction f as [|f IH]; intros s c s' c' err H; cbn [fcgi_loop]; [discriminate|].
  assert (ST : forall x b, OK (x, c, b) = OK (s', c', err) -> KF c') by (intros x b X; apply OK_inj in X; injection X as <- <- <-; auto).
  assert (G : (match s with
      | v :: ty :: i1 :: i0 :: l1 :: l0 :: pad :: rsv :: body =>
        if negb (i0 + N.shiftl i1 8 =? 1) then OK (s, c, true) else
        let len := N.to_nat (l0 + N.shiftl l1 8) in
        if (length body <? len + N.to_nat pad)%nat then OK (s, c, false) else
        let content := firstn len body in
        let rest := skipn (len + N.to_nat pad) body in
        if ty =? FCGI_END_REQUEST then
          if negb (len =? 8)%nat then OK (body, c, true)
          else fcgi_loop E f rest (set_type DONE c)
        else if ty =? FCGI_STDERR then fcgi_loop E f rest c
        else if ty =? FCGI_STDOUT then fcgi_loop E f rest (fcgi_handle_stdout E content c)
        else OK (body, c, true)
      | _ => OK (s, c, false)
      end) = OK (s', c', err) -> KF c').
  { destruct s as [|? [|ty [|i1 [|i0 [|l1 [|l0 [|pad [|? body]]]]]]]]; try apply ST.
    cbv zeta. destruct (negb _); [apply ST|].
    destruct (_ <? _)%nat; [apply ST|].
    destruct (ty =? FCGI_END_REQUEST).
    - destruct (negb _); [apply ST|]. apply IH. apply KF_type_done; exact H.
    - destruct (ty =? FCGI_STDERR); [apply IH; auto|].
      destruct (ty =? FCGI_STDOUT); [|apply ST]. apply IH. apply stdout_KF; exact H. }
  destruct (c_type c); eauto.
Qed.

Lemma set_conn_KF i s c : KF c -> KF (set_conn i s c).
Proof.
  intros H. unfold set_conn. destruct (nth_error (c_conns c) i) as [k'|] eqn:X; [|exact H].
  destruct (KF_one c H) as (k & B1 & B2 & B3 & B4 & D). destruct H as (_ & L & Hs & _). rewrite B1 in X |- *.
  destruct i as [|[|]]; try discriminate. eapply one_KF; try reflexivity; assumption.
Qed.

Lemma conn_open_KF i k c : K c -> nth_error (c_conns c) i = Some k -> c_closed c = false -> c_hs c = true /\ KF c.
Proof.
  intros H X L. assert (N : c_conns c <> []) by (intros N; rewrite N in X; destruct i; discriminate).
  assert (Hs : c_hs c = true).
  { destruct (c_hs c) eqn:Hs; [reflexivity|]. destruct H as (_ & KL). destruct (KL L) as (A & _). destruct (A Hs) as ((A1 & _) & _). contradiction. }
  split; [exact Hs|]. exact (conj H (conj L (conj Hs N))).
Qed.

Lemma fcgi_read_K E i c c' : KF c -> fcgi_read E i c = OK c' -> K c'.
Proof.
  intros H. unfold fcgi_read. destruct (nth_error (c_conns c) i) as [k|]; [|discriminate].
  intros Q. apply bind_ok in Q as (((s & c1) & err) & LP & Q). pose proof (fcgi_loop_KF _ _ _ _ _ _ _ H LP) as H1. cbv zeta in Q.
  pose proof (set_conn_KF i s c1 H1) as H2. destruct err.
  - destruct (fcgi_error_KF E _ H2) as ((H3 & L & Hs & _) & _). eapply client_write_K; eauto.
  - apply OK_inj in Q. subst c'. exact (proj1 H2).
Qed.

(** ** the upstream *)
Definition KU (c : client) : Prop := K c /\ c_closed c = false /\ c_hs c = true /\ c_conns c = [] /\ c_cgibev c = None /\ (c_type c = RPROXY \/ c_type c = DONE) /\ forall n, c_pfd c <> PConn n.
Lemma mk_KU c : c_closed c = false -> c_hs c = true -> c_conns c = [] -> c_cgibev c = None -> (c_type c = RPROXY \/ c_type c = DONE) -> (forall n, c_pfd c <> PConn n) -> KU c.
Proof.
  intros H1 H2 H3 H4 H5 H6. split; [|repeat split; auto]. split; [congruence|]. intros _. split; [congruence|]. split; [auto|]. split; [auto|].
  intros n X. exfalso. exact (H6 n X).
Qed.
Lemma KU_eq c c' : same c c' -> (c_type c' = c_type c \/ c_type c' = DONE) -> KU c -> KU c'.
Proof.
  intros (S1 & S2 & _ & _ & _ & _ & _ & S3 & _ & _ & S4 & S5 & _ & S6) T (_ & L & Hs & A & B & C & D).
  apply mk_KU; try congruence. destruct T as [->|]; auto.
Qed.
Lemma up_KU c : K c -> c_up c <> None -> c_closed c = false -> KU c.
Proof.
  intros (_ & KL) U L. destruct (KL L) as (A & B & C & D). destruct B as [[B1 B2]|(k & _ & _ & _ & B)]; [|contradiction].
  apply mk_KU; auto.
  - destruct (c_hs c); [reflexivity|]. destruct (A eq_refl) as ((_ & _ & A1 & _) & _). contradiction.
  - intros n X. destruct (D n X). contradiction.
Qed.

Lemma proxy_error_K E c c' : KU c -> proxy_error E c = OK c' -> K c'.
Proof.
  intros (_ & L & Hs & A & B & C & D). unfold proxy_error. cbv zeta. set (c1 := set_pfd PNone (set_up (c_pxy c) None c)).
  assert (H1 : KU c1) by (apply mk_KU; try assumption; discriminate).
  destruct (c_code c1 =? 0).
  - intros Q. apply OK_inj in Q. subst c'. apply reply_K; [lia|exact Hs|exact (proj1 H1)].
  - apply client_write_K; [|exact L|exact Hs]. eapply K_eq; [..|exact (proj1 H1)]; try reflexivity. right. split; [reflexivity|exact Hs].
Qed.

Lemma proxy_read_K E s c c' : KU c -> proxy_read E s c = OK c' -> K c'.
Proof.
  intros H. unfold proxy_read.
  assert (MU : forall c x, KU c -> KU (set_up (c_pxy c) (Some x) c)).
  { intros d x (_ & L & Hs & A & B & C & D). apply mk_KU; assumption. }
  destruct (c_code c =? 0).
  2:{ intros Q. apply OK_inj in Q. subst c'. apply add_out_K. apply MU; exact H. }
  destruct (readln s) as [[line rest]|].
  2:{ destruct (1029 <? length s)%nat; [apply proxy_error_K; apply MU; exact H|]. intros Q. apply OK_inj in Q. subst c'. apply MU; exact H. }
  cbv zeta. set (c1 := set_up (c_pxy c) (Some rest) c).
  assert (H1 : KU c1) by (apply MU; exact H).
  destruct ((length line <? 3)%nat || (1029 <? length line)%nat); [apply proxy_error_K; auto|].
  destruct (status is_space line) as [[code meta]|] eqn:ST; [|apply proxy_error_K; auto].
  apply status_range in ST. pose proof (start_reply_same E code meta c1 ltac:(lia)) as S. pose proof (start_reply_type E code meta c1 ltac:(lia)) as T.
  destruct (start_reply E code meta c1) as [c2 ok]. cbn [fst] in S, T. pose proof (KU_eq _ _ S T H1) as H2.
  destruct (negb ok || (c_code c2 <? 20) || (29 <? c_code c2)); [apply proxy_error_K; exact H2|].
  intros Q. apply OK_inj in Q. subst c'. apply add_out_K. apply MU; exact H2.
Qed.
