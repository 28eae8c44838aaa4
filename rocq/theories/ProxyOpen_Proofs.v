(** The state of a client whose request was relayed. *)
From Verif Require Import Base BaseLemmas Compat Iri IriSpec IriObs IriOut Puny Conf ConfSpec Mime Fmt Fcgi Server ServerSpec Iri_Last_Proofs Server_Proofs Decide_Proofs RequestSpec Request_Proofs HistorySpec Run_Proofs Wiring_Proofs Hist_Proofs SafeSpec Safe_Proofs Prop_Safe BodySpec Body_Proofs RelaySpec FcgiRelay_Proofs RelayOpen_Proofs ProxyRelay_Proofs.
Local Open Scope N_scope.

Lemma emit_type E code m h c : c_type (emit E code m h c) = (if code =? 20 then c_type c else DONE).
Proof. pose proof (emit_spec E code m h c) as X. cbv zeta in X. apply X. Qed.
Lemma reply_proxy E code m c : c_type (reply E code m c) = RPROXY -> c_type c = RPROXY.
Proof.
  unfold reply, start_reply. destruct (header_line E c code m) as [h l]. destruct (_ || _); cbn [fst]; rewrite emit_type; [discriminate|].
  destruct (code =? 20); [auto|discriminate].
Qed.

Lemma listing_proxy E v p es c : c_type (server_dir_listing E v p es c) = RPROXY -> c_type c = RPROXY.
Proof.
  unfold server_dir_listing. cbv zeta. destruct (negb _); [apply reply_proxy|]. destruct es; [|apply reply_proxy]. rewrite add_out_type. intros X. apply reply_proxy in X. discriminate.
Qed.
Lemma file_proxy E fs v i c c' : serve_file E fs v i c = OK c' -> c_type c' = RPROXY -> c_type c = RPROXY.
Proof.
  unfold serve_file. cbv zeta. destruct (vhost_dirfd _ _ _) as [fd|]; [|intros Q; apply OK_inj in Q; subst; apply reply_proxy].
  destruct (fs fd _) as [| |b content|look entries].
  - intros Q; apply OK_inj in Q; subst. intros X. apply reply_proxy in X. exact X.
  - intros Q; apply OK_inj in Q; subst. intros X. apply reply_proxy in X. exact X.
  - intros Q. apply bind_ok in Q as (m & _ & Q). apply OK_inj in Q. subst. intros X. apply reply_proxy in X. discriminate.
  - unfold open_dir. destruct (_ && _).
    { intros Q; apply OK_inj in Q; subst. unfold redirect_canonical_dir. cbv zeta. destruct (_ <=? _)%nat; intros X; apply reply_proxy in X; exact X. }
    cbv zeta. destruct (look _) as [| |[] content|]; intros Q; try (apply OK_inj in Q; subst; intros X; first [apply listing_proxy in X|apply reply_proxy in X]; exact X).
    apply bind_ok in Q as (m & _ & Q). apply OK_inj in Q. subst. intros X. apply reply_proxy in X. discriminate.
Qed.

Lemma dispatch_up E fs v i asked c c' : links c = (None, [], None) -> c_hs c = true -> c_closed c = false -> c_type c = UNDECIDED -> c_code c = 0 -> stream c = [] ->
  dispatch E fs v i asked c = OK c' -> c_type c' = RPROXY -> dialing c' \/ listening [] c'.
Proof.
  intros LK Hs CL TU C S. unfold dispatch. intros Q TF. apply bind_ok in Q as (r & AR & Q).
  assert (NO : c_type c = RPROXY -> False) by congruence.
  unfold apply_reverse_proxy in AR. destruct (matched_proxy _ _ _ _ _) as [p|].
  { cbv zeta in AR. set (c1 := set_up (Some p) (c_up c) c) in *.
    assert (L1 : links c1 = links c) by reflexivity. assert (K1 : core c1 = core c) by reflexivity.
    pose proof (cert_core E (p_reqca p) c1) as W.
    assert (W' : forall d, match p_reqca p with Some ca => check_matching_certificate E ca c1 | None => inr c1 end = inl d -> c_type d = RPROXY -> False).
    { intros d X. destruct (p_reqca p) as [ca|]; [|discriminate]. unfold check_matching_certificate in X. destruct (e_cert E).
      - cbv zeta in X. destruct (e_valid E ca); [discriminate|]. injection X as <-. intros Y. apply reply_proxy in Y. apply NO. exact Y.
      - injection X as <-. intros Y. apply reply_proxy in Y. apply NO. exact Y. }
    destruct (match p_reqca p with Some ca => _ | None => _ end) as [c2|c2].
    + apply OK_inj in AR. subst r. apply OK_inj in Q. subst c'. exfalso. eapply W'; [reflexivity|exact TF].
    + destruct W as (W & WC & WP). rewrite L1, LK in W. rewrite K1 in WC. unfold links in W. injection W as W1 W2 W3.
      unfold core in WC. injection WC as C1 C2 C3 C4 C5 C6 C7 C8 C9 C10 C11. unfold stream in S.
      destruct (negb (e_upstream E p)).
      { apply OK_inj in AR. subst r. apply OK_inj in Q. subst c'. apply reply_proxy in TF. congruence. }
      destruct (p_notls p).
      * apply bind_ok in AR as (c3 & PE & AR). apply OK_inj in AR. subst r. apply OK_inj in Q. subst c'.
        unfold proxy_enqueue_req in PE. apply bind_ok in PE as (line & _ & PE). apply OK_inj in PE. subst c3. right.
        split; [repeat split; cbn; congruence|]. repeat split; cbn; try congruence; try lia.
      * destruct (e_uptls E p); apply OK_inj in AR; subst r; apply OK_inj in Q; subst c'.
        -- left. split; [repeat split; cbn; congruence|]. repeat split; cbn; try congruence.
        -- apply reply_proxy in TF. cbn in TF. congruence. }
  exfalso. apply OK_inj in AR. subst r.
  destruct (negb _ || negb _); [apply OK_inj in Q; subst; apply reply_proxy in TF; auto|].
  pose proof (cert_core E (vhost_require_ca (e_fnm E) v (c_path i)) c) as W.
  assert (W' : forall d, match vhost_require_ca (e_fnm E) v (c_path i) with Some ca => check_matching_certificate E ca c | None => inr c end = inl d -> c_type d = RPROXY -> False).
  { intros d X. destruct (vhost_require_ca (e_fnm E) v (c_path i)) as [ca|]; [|discriminate]. unfold check_matching_certificate in X. destruct (e_cert E).
    - cbv zeta in X. destruct (e_valid E ca); [discriminate|]. injection X as <-. intros Y. apply reply_proxy in Y. apply NO. exact Y.
    - injection X as <-. intros Y. apply reply_proxy in Y. apply NO. exact Y. }
  destruct (match vhost_require_ca (e_fnm E) v (c_path i) with Some a => _ | None => _ end) as [c1|c1].
  { apply OK_inj in Q. subst. eapply W'; [reflexivity|exact TF]. }
  destruct W as (W & WC & _). unfold core in WC. injection WC as C1 C2 C3 C4 C5 C6 C7 C8 C9 C10 C11.
  apply bind_ok in Q as (r & AB & Q). unfold apply_block_return in AB.
  assert (ABL : match r with Some d => c_type d = RPROXY -> False | None => True end).
  { destruct (vhost_block_return _ _ _) as [[code fmt]|]; [|apply OK_inj in AB; subst r; exact I].
    cbv zeta in AB. apply bind_ok in AB as (m & _ & AB). apply OK_inj in AB. subst r. intros Y. apply reply_proxy in Y. congruence. }
  destruct r as [d|]; [apply OK_inj in Q; subst; auto|].
  apply bind_ok in Q as (r & AF & Q).
  assert (FL : serve_file E fs v i c1 = OK c' -> False) by (intros F; pose proof (file_proxy _ _ _ _ _ _ F TF); congruence).
  unfold apply_fastcgi in AF.
  destruct (vhost_fastcgi _ _ _) as [l|]; [|apply OK_inj in AF; subst r; auto].
  destruct (l_fcgi l) as [n|]; [|apply OK_inj in AF; subst r; auto].
  destruct (nth_error _ _); [|apply OK_inj in AF; subst r; auto].
  destruct (negb (e_fcgi E n)).
  - apply OK_inj in AF. subst r. apply OK_inj in Q. subst c'. apply reply_proxy in TF. cbn in TF. congruence.
  - cbv zeta in AF. apply bind_ok in AF as (b & _ & AF). apply OK_inj in AF. subst r. apply OK_inj in Q. subst c'. cbn in TF. congruence.
Qed.

Lemma opening_up_ E fs sni v line i asked chunks c0 c1 p os : conf_ok E -> sort_ok E -> request E fs sni v line i asked chunks c0 ->
  run E (opening fs sni chunks) fresh = Some (OK c1) -> decides E fs v i (c_domain c0) asked (mkD os (WUp p)) ->
  dialing c1 \/ listening [] c1.
Proof.
  intros HO HS RQ R D. destruct (opening_done E fs sni v line i asked chunks c0 c1 HO HS RQ R) as (d & D' & P & _ & _ & _ & K0 & S0 & T0 & _).
  destruct (Prop_Server.c15_exactly_one _ _ _ _ _ _ _ _ D D') as [OS SW]. cbn [d_open d_what] in OS, SW.
  assert (DW : d_what d = WUp p).
  { destruct SW as [SW|(q & la & lb & X & _)]; [congruence|discriminate]. }
  pose proof P as (new & _ & SE & CL & IR & P'). cbv zeta in P'. rewrite DW in P'. destruct P' as (PO & PT & _).
  destruct RQ as [R1 R2 R3 R4 R5 R6]. destruct (handshake_form E sni v c0 R1 R2) as (dom & F0).
  destruct (handshake_waiting E sni v c0 R1 R2) as ((W1 & W2 & W3 & W4 & W5 & W6 & W7) & I0 & _).
  unfold opening in R. change (EvHandshake sni :: reads fs chunks) with ([EvHandshake sni] ++ reads fs chunks) in R. rewrite run_app, R1 in R.
  rewrite (reads_line E fs line chunks c0 W1 W2 W3 I0 R3 R4 R6) in R. injection R as R.
  rewrite (client_read_understood E fs (set_in (line ++ CRLF) c0) line [] i asked v) in R.
  - set (d0 := set_iri (Some i) (set_in [] (set_in (line ++ CRLF) c0))) in *.
    apply (dispatch_up E fs v i asked d0 c1); try exact R; try exact PT; try (subst c0; reflexivity).
  - split; [exact W3|]. cbn. rewrite app_length. cbn. lia.
  - split; [reflexivity|exact R4].
  - exact R5.
  - exact W5.
Qed.

Lemma opening_up E fs sni v line i asked chunks c0 c1 p os : conf_ok E -> sort_ok E -> request E fs sni v line i asked chunks c0 ->
  run E (opening fs sni chunks) fresh = Some (OK c1) -> decides E fs v i (c_domain c0) asked (mkD os (WUp p)) ->
  phase false [] false c1.
Proof.
  intros HO HS RQ R D. destruct (opening_up_ E fs sni v line i asked chunks c0 c1 p os HO HS RQ R D) as [X|X]; [apply ph_dial|apply ph_listen]; auto.
Qed.
