(** The state of a client whose request went to an application or to an
    upstream. *)
From Verif Require Import Base BaseLemmas Compat Iri IriSpec IriObs IriOut Puny Conf ConfSpec Mime Fmt Fcgi Server ServerSpec Iri_Last_Proofs Server_Proofs Decide_Proofs RequestSpec Request_Proofs HistorySpec Run_Proofs Wiring_Proofs Hist_Proofs SafeSpec Safe_Proofs Prop_Safe BodySpec Body_Proofs RelaySpec Relay_Proofs FcgiRelay_Proofs.
Local Open Scope N_scope.

Lemma handshake_form E sni v c0 : run E [EvHandshake sni] fresh = Some (OK c0) -> c_vhost c0 = Some v ->
  exists dom, c0 = set_host dom (Some v) fresh.
Proof.
  cbn [run step fresh c_closed c_hs negb andb]. intros Q V. destruct (handle_handshake E sni fresh) as [c| |] eqn:H; try discriminate. injection Q as ->.
  assert (N : forall d m, c_vhost (reply E 59 m (set_host d None fresh)) = None).
  { intros d m. pose proof (reply_spec E 59 m (set_host d None fresh) ltac:(lia) ltac:(lia)) as R. cbv zeta in R. destruct R as ((_ & _ & _ & _ & _ & _ & X & _) & _). rewrite X. reflexivity. }
  unfold handle_handshake in H. apply bind_ok in H as (d & _ & H). destruct d as [|[] out]; [discriminate| |apply OK_inj in H; subst c0; rewrite N in V; discriminate].
  destruct (cstr out) as [dom|]; [|discriminate]. cbv zeta in H. set (dm := match dom with [] => _ | _ => _ end) in *. clearbody dm.
  destruct (find_host (e_fnm E) (c_hosts (e_conf E)) dm) as [v0|] eqn:FH; apply OK_inj in H; subst c0; [|rewrite N in V; discriminate].
  cbn in V. injection V as ->. eauto.
Qed.

Definition links (c : client) : option nat * list conn * option (list N) := (c_cgibev c, c_conns c, c_up c).
Lemma add_out_links s c : links (add_out s c) = links c. Proof. destruct s; reflexivity. Qed.
Lemma emit_links E code m h c : links (emit E code m h c) = links c.
Proof.
  unfold emit. cbv zeta. set (d := act _ _). assert (D : links d = links c) by (unfold d; apply (add_out_links _ (set_code code c))). clearbody d.
  destruct (vhost_disable_log _ _ _); destruct (code =? 20); exact D.
Qed.
Lemma reply_links E code m c : links (reply E code m c) = links c.
Proof.
  unfold reply, start_reply. destruct (header_line E c code m) as [h l]. destruct (_ || _); cbn [fst]; rewrite emit_links; reflexivity.
Qed.
Lemma listing_links E v p es c : links (server_dir_listing E v p es c) = links c.
Proof.
  unfold server_dir_listing. cbv zeta. destruct (negb _); [apply reply_links|]. destruct es; [|apply reply_links]. rewrite add_out_links, reply_links. reflexivity.
Qed.
Lemma file_links E fs v i c c' : serve_file E fs v i c = OK c' -> links c' = links c.
Proof.
  unfold serve_file. cbv zeta. destruct (vhost_dirfd _ _ _) as [fd|]; [|intros Q; apply OK_inj in Q; subst; apply reply_links].
  destruct (fs fd _) as [| |b content|look entries].
  - intros Q; apply OK_inj in Q; subst; rewrite reply_links; reflexivity.
  - intros Q; apply OK_inj in Q; subst; rewrite reply_links; reflexivity.
  - intros Q. apply bind_ok in Q as (m & _ & Q). apply OK_inj in Q. subst. rewrite reply_links. reflexivity.
  - unfold open_dir. destruct (_ && _).
    { intros Q; apply OK_inj in Q; subst. unfold redirect_canonical_dir. cbv zeta. destruct (_ <=? _)%nat; rewrite reply_links; reflexivity. }
    cbv zeta. destruct (look _) as [| |[] content|]; intros Q; try (apply OK_inj in Q; subst; rewrite ?listing_links, ?reply_links; reflexivity).
    apply bind_ok in Q as (m & _ & Q). apply OK_inj in Q. subst. rewrite reply_links. reflexivity.
Qed.

(** all but the links, the open descriptor and what was done *)
Definition core (c : client) :=
  ((c_hs c, c_closed c, c_type c, c_code c), (c_out c, c_sent c, c_wev c), (c_iri c, c_domain c, c_vhost c), c_sbuf c).

Lemma cert_core E ca c : match (match ca with Some a => check_matching_certificate E a c | None => inr c end) with
  | inl c' => links c' = links c | inr c' => links c' = links c /\ core c' = core c /\ c_pxy c' = c_pxy c end.
Proof.
  destruct ca as [a|]; [|auto]. unfold check_matching_certificate. destruct (e_cert E); [|apply reply_links].
  cbv zeta. destruct (e_valid E a); [repeat split|]. rewrite reply_links. reflexivity.
Qed.

Lemma dispatch_fcgi E fs v i asked c c' : c_cgibev c = None -> c_conns c = [] -> c_up c = None ->
  dispatch E fs v i asked c = OK c' -> c_cgibev c' <> None ->
  core c' = core c /\ c_cgibev c' = Some 0%nat /\ c_conns c' = [mkConn [] true] /\ c_pfd c' = PConn 0 /\ c_up c' = None.
Proof.
  intros CG CN CU. unfold dispatch. intros Q TF. apply bind_ok in Q as (r & AR & Q).
  assert (NO : links c' = links c -> False) by (unfold links; intros X; injection X as X _ _; congruence).
  unfold apply_reverse_proxy in AR. destruct (matched_proxy _ _ _ _ _) as [p|].
  { exfalso. cbv zeta in AR. set (c1 := set_up (Some p) (c_up c) c) in *.
    assert (L1 : links c1 = links c) by reflexivity.
    pose proof (cert_core E (p_reqca p) c1) as W.
    destruct (match p_reqca p with Some ca => _ | None => _ end) as [c2|c2].
    + apply OK_inj in AR. subst r. apply OK_inj in Q. subst c'. apply NO. congruence.
    + destruct W as (W & _). destruct (negb (e_upstream E p)).
      { apply OK_inj in AR. subst r. apply OK_inj in Q. subst c'. apply NO. rewrite reply_links. congruence. }
      destruct (p_notls p).
      * apply bind_ok in AR as (c3 & PE & AR). apply OK_inj in AR. subst r. apply OK_inj in Q. subst c'.
        unfold proxy_enqueue_req in PE. apply bind_ok in PE as (line & _ & PE). apply OK_inj in PE. subst c3.
        cbn in TF. apply TF. rewrite L1 in W. unfold links in W. injection W as W _ _. congruence.
      * destruct (e_uptls E p); apply OK_inj in AR; subst r; apply OK_inj in Q; subst c'.
        -- apply NO. cbn in *. unfold links in *. cbn. congruence.
        -- apply NO. rewrite reply_links. unfold links in *. cbn. congruence. }
  apply OK_inj in AR. subst r.
  destruct (negb _ || negb _); [apply OK_inj in Q; subst; exfalso; apply NO, reply_links|].
  pose proof (cert_core E (vhost_require_ca (e_fnm E) v (c_path i)) c) as W.
  destruct (match vhost_require_ca (e_fnm E) v (c_path i) with Some a => _ | None => _ end) as [c1|c1].
  { apply OK_inj in Q. subst. exfalso. auto. }
  destruct W as (W & WC & _).
  apply bind_ok in Q as (r & AB & Q). unfold apply_block_return in AB.
  assert (ABL : match r with Some d => links d = links c | None => True end).
  { destruct (vhost_block_return _ _ _) as [[code fmt]|]; [|apply OK_inj in AB; subst r; exact I].
    cbv zeta in AB. apply bind_ok in AB as (m & _ & AB). apply OK_inj in AB. subst r. rewrite reply_links. exact W. }
  destruct r as [d|]; [apply OK_inj in Q; subst; exfalso; auto|].
  apply bind_ok in Q as (r & AF & Q).
  assert (FL : serve_file E fs v i c1 = OK c' -> False) by (intros F; apply NO; rewrite (file_links _ _ _ _ _ _ F); exact W).
  unfold apply_fastcgi in AF.
  destruct (vhost_fastcgi _ _ _) as [l|]; [|apply OK_inj in AF; subst r; exfalso; auto].
  destruct (l_fcgi l) as [n|]; [|apply OK_inj in AF; subst r; exfalso; auto].
  destruct (nth_error _ _); [|apply OK_inj in AF; subst r; exfalso; auto].
  destruct (negb (e_fcgi E n)).
  - apply OK_inj in AF. subst r. apply OK_inj in Q. subst c'. exfalso. apply NO. rewrite reply_links. exact W.
  - cbv zeta in AF. apply bind_ok in AF as (b & _ & AF). apply OK_inj in AF. subst r. apply OK_inj in Q. subst c'.
    unfold links in W. injection W as W1 W2 W3. cbn. rewrite W2, CN. split; [exact WC|]. repeat split; cbn; congruence.
Qed.

(** ** a client whose request was given to an application *)
Lemma opening_going E fs sni v line i asked chunks c0 c1 k l os : conf_ok E -> sort_ok E -> request E fs sni v line i asked chunks c0 ->
  run E (opening fs sni chunks) fresh = Some (OK c1) -> decides E fs v i (c_domain c0) asked (mkD os (WFcgi k l)) ->
  going E v i [] c1.
Proof.
  intros HO HS RQ R D. destruct (opening_done E fs sni v line i asked chunks c0 c1 HO HS RQ R) as (d & D' & P & _ & _ & _ & K0 & S0 & T0 & _).
  destruct (Prop_Server.c15_exactly_one _ _ _ _ _ _ _ _ D D') as [OS SW]. cbn [d_open d_what] in OS, SW.
  assert (exists l', d_what d = WFcgi k l') as (l' & DW).
  { destruct SW as [SW|(p & la & lb & X & _)]; [exists l; congruence|discriminate]. }
  pose proof P as (new & _ & SE & CL & IR & P'). cbv zeta in P'. rewrite DW in P'. destruct P' as (PO & PT & bts & _ & _ & PC & _).
  destruct RQ as [R1 R2 R3 R4 R5 R6]. destruct (handshake_form E sni v c0 R1 R2) as (dom & F0).
  destruct (handshake_waiting E sni v c0 R1 R2) as ((W1 & W2 & W3 & W4 & W5 & W6 & W7) & I0 & _).
  unfold opening in R. change (EvHandshake sni :: reads fs chunks) with ([EvHandshake sni] ++ reads fs chunks) in R. rewrite run_app, R1 in R.
  rewrite (reads_line E fs line chunks c0 W1 W2 W3 I0 R3 R4 R6) in R. injection R as R.
  rewrite (client_read_understood E fs (set_in (line ++ CRLF) c0) line [] i asked v) in R.
  - set (d0 := set_iri (Some i) (set_in [] (set_in (line ++ CRLF) c0))) in *.
    destruct (dispatch_fcgi E fs v i asked d0 c1) as (CO & G1 & G2 & G3 & G4); [subst c0; reflexivity|subst c0; reflexivity|subst c0; reflexivity|exact R|congruence|].
    subst d0 c0. unfold core in CO. cbn in CO. injection CO as C1 C2 C3 C4 C5 C6 C7 C8 C9 C10 C11.
    split; [exact C1|]. split; [exact G4|]. split; [exact C2|]. split; [exact C3|].
    split; [split; [exact C10|]; split; [exact C8|]; split; [left; exact C3|]; intros _; unfold stream; rewrite C5, C6; reflexivity|].
    split; [exact G1|]. split; [exact G3|]. exists [], 1%nat. split; [exact G2|]. unfold abs. rewrite C4, C11, C3. unfold stream. rewrite C5, C6. reflexivity.
  - split; [exact W3|]. cbn. rewrite app_length. cbn. lia.
  - split; [reflexivity|exact R4].
  - exact R5.
  - exact W5.
Qed.

(** ** the server closes a relayed connection only when all was sent *)
Lemma write_close a c c' : c_type c <> RFILE -> client_write a c = OK c' -> c_closed c' = true -> c_closed c = false -> c_out c' = [].
Proof.
  intros T. unfold client_write. destruct (c_type c) eqn:TC; try (intros Q; apply OK_inj in Q; subst; congruence); [congruence| |].
  - intros Q. apply bind_ok in Q as (l & _ & Q). apply OK_inj in Q. subst c'. cbn [set_io c_closed]. destruct l; cbn; congruence.
  - intros Q. apply OK_inj in Q. subst c'. destruct (c_out c) eqn:O; [|congruence]. intros _ _.
    unfold client_close, close_pfd. destruct (c_cgibev c); cbn [c_pfd set_cgi]; destruct (c_pfd c); exact O.
Qed.
Lemma same_closed c c' : same c c' -> c_closed c' = c_closed c. Proof. intros (_ & X & _). exact X. Qed.
Lemma reply_closed E code m c : c_closed (reply E code m c) = c_closed c.
Proof.
  unfold reply, start_reply. destruct (header_line E c code m) as [h l].
  assert (EM : forall code m h d, c_closed (emit E code m h d) = c_closed d).
  { intros c1 m1 h1 d. unfold emit. cbv zeta. set (e := act _ _). assert (X : c_closed e = c_closed d) by (unfold e; cbn; destruct (h1 ++ [13; 10]); reflexivity). clearbody e.
    destruct (vhost_disable_log _ _ _); destruct (c1 =? 20); exact X. }
  destruct (_ || _); cbn [fst]; rewrite EM; reflexivity.
Qed.
Lemma close_pfd_closed c : c_closed (close_pfd c) = c_closed c.
Proof. unfold close_pfd. destruct (c_pfd c); reflexivity. Qed.
Lemma fcgi_error_closed E c : c_closed (fcgi_error E c) = c_closed c.
Proof. unfold fcgi_error. destruct (_ =? 0); [rewrite reply_closed|cbn]; apply close_pfd_closed. Qed.
Lemma add_out_closed s c : c_closed (add_out s c) = c_closed c. Proof. destruct s; reflexivity. Qed.
Lemma start_reply_closed E code m c : c_closed (fst (start_reply E code m c)) = c_closed c.
Proof. exact (reply_closed E code m c). Qed.
Lemma handle_stdout_closed E s c : c_closed (fcgi_handle_stdout E s c) = c_closed c.
Proof.
  unfold fcgi_handle_stdout. destruct (_ =? 0); [|apply add_out_closed]. cbv zeta. destruct (readln _) as [[line t]|].
  - destruct (status _ _) as [[code meta]|]; [|rewrite fcgi_error_closed; reflexivity].
    match goal with |- context [start_reply E code meta ?d] => pose proof (start_reply_closed E code meta d) as X; destruct (start_reply E code meta d) as [c1 ok] end.
    cbn [fst] in X. destruct (_ || _); [rewrite fcgi_error_closed; exact X|]. rewrite !add_out_closed. exact X.
  - destruct (_ =? SBUF)%nat; [rewrite fcgi_error_closed|]; reflexivity.
Qed.
Lemma loop_closed E : forall f s c s' c' b, fcgi_loop E f s c = OK (s', c', b) -> c_closed c' = c_closed c.
Proof.
  induction f as [|f IH]; intros s c s' c' b; [discriminate|]. cbn [fcgi_loop]. cbv zeta. intros Q.
  assert (K : forall x y, OK (x, c, y) = OK (s', c', b) -> c_closed c' = c_closed c) by (intros x y W; apply OK_inj in W; injection W as _ <- _; reflexivity).
  destruct (c_type c); try (eapply K; exact Q);
  (do 8 (destruct s as [|? s]; [eapply K; exact Q|]);
   repeat match type of Q with (if ?b then _ else _) = _ => destruct b end; try (eapply K; exact Q); apply IH in Q; rewrite Q; rewrite ?handle_stdout_closed; reflexivity).
Qed.
Lemma fcgi_error_type E c : c_type (fcgi_error E c) = DONE.
Proof.
  unfold fcgi_error. destruct (_ =? 0); [|reflexivity]. pose proof (reply_spec E 42 (s2b "CGI error") (close_pfd c) ltac:(lia) ltac:(lia)) as R. cbv zeta in R.
  destruct R as (_ & _ & R). destruct (fits _ _ _); destruct R as (_ & _ & R & _); exact R.
Qed.

Lemma fcgi_read_close E k c c' : fcgi_read E k c = OK c' -> c_closed c = false -> c_closed c' = true -> c_out c' = [].
Proof.
  unfold fcgi_read. destruct (nth_error _ _) as [kk|]; [|discriminate]. intros Q. apply bind_ok in Q as ([[s d] err] & L & Q).
  apply loop_closed in L. assert (X : c_closed (set_conn k s d) = c_closed c) by (unfold set_conn; destruct (nth_error _ _); exact L).
  destruct err; [|apply OK_inj in Q; subst; congruence]. intros C0 C1.
  eapply write_close; [|exact Q|exact C1|rewrite fcgi_error_closed; congruence]. rewrite fcgi_error_type. discriminate.
Qed.
Lemma proxy_error_close E c c' : proxy_error E c = OK c' -> c_closed c = false -> c_closed c' = true -> c_out c' = [].
Proof.
  unfold proxy_error. cbv zeta. destruct (_ =? 0).
  - intros Q. apply OK_inj in Q. subst. rewrite reply_closed. cbn. congruence.
  - intros Q C0 C1. eapply write_close; [|exact Q|exact C1|exact C0]. discriminate.
Qed.
Lemma proxy_read_close E s c c' : proxy_read E s c = OK c' -> c_closed c = false -> c_closed c' = true -> c_out c' = [].
Proof.
  unfold proxy_read. cbv zeta. intros Q C0 C1.
  assert (PE : forall d, c_closed d = false -> proxy_error E d = OK c' -> c_out c' = []) by (intros d D W; eapply proxy_error_close; eauto).
  destruct (_ =? 0); [|apply OK_inj in Q; subst; rewrite add_out_closed in C1; cbn in C1; congruence].
  destruct (readln s) as [[line rest]|].
  - destruct (_ || _); [exact (PE _ ltac:(exact C0) Q)|]. destruct (status _ _) as [[code meta]|]; [|exact (PE _ ltac:(exact C0) Q)].
    match type of Q with context [start_reply E code meta ?d] => pose proof (start_reply_closed E code meta d) as X; destruct (start_reply E code meta d) as [c1 ok] end.
    cbn [fst] in X. change (c_closed c1 = c_closed c) in X. rewrite C0 in X. destruct (_ || _); [exact (PE _ X Q)|]. apply OK_inj in Q. subst. rewrite add_out_closed in C1. cbn in C1. congruence.
  - destruct (_ <? _)%nat; [exact (PE (set_up (c_pxy c) (Some s) c) ltac:(exact C0) Q)|]. apply OK_inj in Q. subst. cbn in C1. congruence.
Qed.

Definition asked_for (e : event) : bool :=
  match e with EvReadEnd | EvWriteErr | EvHandshakeFail | EvRead _ _ | EvHandshake _ => true | _ => false end.
Lemma step_close E e c c' : step E e c = Some (OK c') -> c_type c <> RFILE -> asked_for e = false -> c_closed c = false -> c_closed c' = true -> c_out c' = [].
Proof.
  unfold step. cbv zeta. intros ST T A C0 C1. rewrite C0 in ST. cbn [negb andb] in ST. destruct e; try discriminate.
  - destruct (c_hs c && c_wev c); [|discriminate]. apply some_inj in ST. set (d := set_io _ _ _ _) in *.
    destruct (skipn _ (c_out c)); [|apply OK_inj in ST; subst; unfold d in C1; cbn in C1; congruence].
    eapply write_close; [|exact ST|exact C1|exact C0]. exact T.
  - destruct (nth_error _ _) as [k|]; [|discriminate]. destruct (_ && _); [|discriminate]. apply some_inj in ST.
    eapply fcgi_read_close; [exact ST| |exact C1]. unfold set_conn. destruct (nth_error _ _); exact C0.
  - destruct (nth_error _ _) as [k|]; [|discriminate]. destruct (k_open k); [|discriminate]. apply some_inj in ST. apply OK_inj in ST. subst.
    rewrite fcgi_error_closed in C1. cbn in C1. congruence.
  - destruct (c_type c); try discriminate. destruct (c_pxy c) as [p|], (c_up c), (c_iri c) as [i|]; try discriminate. destruct (negb (p_notls p)); [|discriminate].
    apply some_inj in ST. destruct r.
    + unfold proxy_enqueue_req in ST. apply bind_ok in ST as (l & _ & ST). apply OK_inj in ST. subst. cbn in C1. congruence.
    + apply OK_inj in ST. subst. rewrite reply_closed in C1. congruence.
    + apply OK_inj in ST. subst. rewrite reply_closed in C1. congruence.
  - destruct (c_up c); [|discriminate]. destruct (negb _); [|discriminate]. apply some_inj in ST. eapply proxy_read_close; [exact ST|exact C0|exact C1].
  - destruct (c_up c); [|discriminate]. apply some_inj in ST. eapply proxy_error_close; [exact ST|exact C0|exact C1].
Qed.

Lemma run_over_sent E es : forall F c c', over F c -> quiet es -> ~ aborted es -> (c_closed c = true -> c_out c = []) ->
  run E es c = Some (OK c') -> c_closed c' = true -> c_out c' = [].
Proof.
  induction es as [|e es IH]; intros F c c' HO HQ NA HC; cbn [run].
  - intros Q. injection Q as <-. exact HC.
  - inversion HQ as [|? ? Q1 Q2]; subst. destruct (step E e c) as [[c1| |]|] eqn:S; try discriminate. intros Q.
    destruct (over_step E F c e c1 HO S) as (O1 & _ & _).
    apply (IH F c1 c' O1 Q2); [|intros C1|exact Q].
    { intros [A|A]; apply NA; [left|right]; right; exact A. }
    destruct (c_closed c) eqn:CL.
    { exfalso. destruct HO as (Hs & U & _ & (k & K & KO) & _). unfold step in S. cbv zeta in S. rewrite CL, U, K in S. cbn [negb andb] in S.
      destruct e as [| | | | | |n x|n| | |]; try discriminate.
      - destruct n as [|[|n]]; cbn [nth_error] in S; try discriminate. rewrite KO in S. discriminate.
      - destruct n as [|[|n]]; cbn [nth_error] in S; try discriminate. rewrite KO in S. discriminate.
      - destruct (c_type c); try discriminate. destruct (c_pxy c), (c_iri c); discriminate. }
    pose proof HO as (Hs & _ & [X|X] & _); [congruence|].
    eapply step_close; [exact S|congruence| |exact CL|exact C1].
    destruct e; try reflexivity; cbn [asked_for].
    + unfold step in S. rewrite Hs, CL in S. discriminate.
    + unfold step in S. rewrite Hs, CL in S. discriminate.
    + contradiction.
    + exfalso. apply NA. left. left. reflexivity.
    + exfalso. apply NA. right. left. reflexivity.
Qed.
Lemma run_going_sent E v i es : forall s c c', going E v i s c -> quiet es -> ~ aborted es ->
  run E es c = Some (OK c') -> c_closed c' = true -> c_out c' = [].
Proof.
  induction es as [|e es IH]; intros s c c' HG HQ NA; cbn [run].
  - intros Q. injection Q as <-. destruct HG as (_ & _ & CL & _). congruence.
  - inversion HQ as [|? ? Q1 Q2]; subst. destruct (step E e c) as [[c1| |]|] eqn:S; try discriminate. intros Q.
    assert (NA2 : ~ aborted es) by (intros [A|A]; apply NA; [left|right]; right; exact A).
    pose proof (going_step E v i s c e c1 HG ltac:(intros x fs ->; exact Q1) S) as X. cbv zeta in X.
    destruct X as [[X EN]|(F & X1 & X2 & _)]; [eapply IH; eauto|].
    eapply (run_over_sent E es F c1 c'); eauto. intros C1. destruct HG as (Hs & _ & CL & T & _).
    eapply step_close; [exact S|congruence| |exact CL|exact C1].
    destruct e; try reflexivity; cbn [asked_for].
    + unfold step in S. rewrite Hs, CL in S. discriminate.
    + unfold step in S. rewrite Hs, CL in S. discriminate.
    + contradiction.
    + exfalso. apply NA. left. left. reflexivity.
    + exfalso. apply NA. right. left. reflexivity.
Qed.
