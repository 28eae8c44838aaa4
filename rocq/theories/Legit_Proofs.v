(** Every action of every history is one of LegitSpec. *)
From Verif Require Import Base BaseLemmas Compat Iri IriSpec IriObs IriSafeSpec IriOut Puny Conf ConfSpec Mime Prop_Conf Fmt Fcgi Server ServerSpec Iri_Last_Proofs Server_Proofs Decide_Proofs RequestSpec Request_Proofs HistorySpec Wiring_Proofs Hist_Proofs LegitSpec.
Local Open Scope N_scope.

Definition up_ok (E : env) (es : list event) (c : client) : Prop :=
  forall p i, c_pxy c = Some p -> c_iri c = Some i -> exists v sni asked, request_for E es v i sni asked /\
    proxies_to (e_fnm E) (v_proxies v) (c_scheme i) sni (c_port i) (Some p) /\ admitted E (p_reqca p).

(** output waits for the write event *)
Definition wok (c : client) : Prop := c_closed c = true \/ c_out c = [] \/ c_wev c = true.

Definition LI (E : env) (es : list event) (c : client) : Prop :=
  Forall (legit E es) (c_acts c) /\ (bytes (c_in c) /\ wok c) /\
  ((forall v, c_vhost c = Some v -> (exists sni, In (EvHandshake sni) es /\ named E sni (c_domain c)) /\ selects (e_fnm E) (c_hosts (e_conf E)) (c_domain c) (Some v)) /\
   exists pre, received es = pre ++ c_in c) /\
  (c_type c = RPROXY -> up_ok E es c /\ c_hs c = true).

Ltac talks_tac := split; [exists []; split; [symmetry; apply app_nil_r|constructor]|]; repeat (split; [reflexivity|]); split; [first [exact (fun x => x)|intros _; right; right; reflexivity|intros _; left; reflexivity|intros _; right; left; reflexivity]|];
  first [left; reflexivity|right; left; reflexivity|right; right; left; reflexivity|right; right; right; reflexivity].

Section Legit.
Context (es : list event).
(** steps that only reply *)
Definition talks (c c' : client) : Prop :=
  (exists new, c_acts c' = c_acts c ++ new /\ Forall (fun a => match a with AReply _ _ | ALog _ _ | AVerify _ => True | _ => False end) new) /\
  c_in c' = c_in c /\ c_vhost c' = c_vhost c /\ c_iri c' = c_iri c /\ c_pxy c' = c_pxy c /\ c_hs c' = c_hs c /\ c_domain c' = c_domain c /\
  (wok c -> wok c') /\
  (c_type c' = c_type c \/ c_type c' = DONE \/ c_type c' = RFILE \/ c_type c' = RDIR).
Lemma talks_LI E c c' : talks c c' -> LI E es c -> LI E es c'.
Proof.
  intros ((new & A & F) & H1 & H2 & H3 & H4 & H6 & H7 & H8 & H5) (L1 & (L2 & L6) & L3 & L4). unfold LI, up_ok. rewrite A, H1, H2, H3, H4, H6, H7.
  split; [apply Forall_app; split; [exact L1|]; eapply Forall_impl; [|exact F]; intros a X; destruct a; try destruct X; constructor|].
  split; [split; [exact L2|apply H8; exact L6]|]. split; [exact L3|]. intros T. apply L4. destruct H5 as [<-|[H5|[H5|H5]]]; congruence.
Qed.
Lemma talks_trans a b c : talks a b -> talks b c -> talks a c.
Proof.
  intros ((n1 & A1 & F1) & A2 & A3 & A4 & A5 & A7 & A8 & A9 & A6) ((n2 & B1 & F2) & B2 & B3 & B4 & B5 & B7 & B8 & B9 & B6). split.
  - exists (n1 ++ n2). split; [rewrite B1, A1, app_assoc; reflexivity|apply Forall_app; auto].
  - repeat (split; [congruence|]). split; [auto|]. destruct B6 as [->|]; auto.
Qed.
Lemma talks_refl c : talks c c.
Proof. split; [exists []; rewrite app_nil_r; auto|]. repeat (split; [reflexivity|]). split; auto. Qed.


Lemma add_out_talks s c : talks c (add_out s c).
Proof. destruct s; talks_tac. Qed.

Lemma emit_talks E code meta h c : talks c (emit E code meta h c).
Proof.
  destruct (emit_spec E code meta h c) as (Sm & _ & _ & WV & T & A). destruct Sm as (S0 & _ & S1 & _ & S2 & S5 & S3 & _ & _ & _ & _ & _ & S4 & _).
  split.
  - eexists. split; [exact A|]. constructor; [exact Logic.I|]. unfold logged. destruct (vhost_disable_log _ _ _); repeat constructor.
  - repeat (split; [assumption|]). split; [intros _; right; right; exact WV|]. destruct (code =? 20); auto.
Qed.
Lemma start_reply_talks E code meta c : talks c (fst (start_reply E code meta c)).
Proof.
  unfold start_reply. destruct (header_line E c code meta) as [h l]. destruct (_ || _); cbn [fst]; [|apply emit_talks].
  eapply talks_trans; [|apply emit_talks]. talks_tac.
Qed.
Lemma reply_talks E code meta c : talks c (reply E code meta c).
Proof. apply start_reply_talks. Qed.

Lemma close_pfd_talks c : talks c (close_pfd c).
Proof. unfold close_pfd. destruct (c_pfd c); talks_tac. Qed.
Lemma client_close_talks c : talks c (client_close c).
Proof.
  unfold client_close. destruct (c_cgibev c) as [i|].
  - apply (talks_trans _ (close_pfd (set_cgi None (close_conn i (c_conns c)) c))); [|talks_tac].
    apply (talks_trans _ (set_cgi None (close_conn i (c_conns c)) c)); [talks_tac|apply close_pfd_talks].
  - apply (talks_trans _ (close_pfd c)); [apply close_pfd_talks|talks_tac].
Qed.

Lemma client_write_talks a c c' : client_write a c = OK c' -> talks c c'.
Proof.
  unfold client_write. destruct (c_type c) eqn:T.
  - intros Q; apply OK_inj in Q; subst; apply talks_refl.
  - destruct a as [|n]; [intros Q; apply OK_inj in Q; subst; eapply talks_trans; [|apply client_close_talks]; talks_tac|].
    destruct (c_pfd c); try (intros Q; apply OK_inj in Q; subst; eapply talks_trans; [|apply client_close_talks]; talks_tac).
    cbv zeta. destruct (_ =? 0)%nat; [intros Q; apply OK_inj in Q; subst; apply client_close_talks|].
    intros Q; apply OK_inj in Q; subst. eapply talks_trans; [|apply add_out_talks]. destruct (_ =? _)%nat; talks_tac.
  - intros Q. apply bind_ok in Q as (l & _ & Q). cbv zeta in Q. apply OK_inj in Q. subst.
    eapply (talks_trans _ (add_out l (set_type DONE (set_dir [] c)))); [|talks_tac]. eapply talks_trans; [|apply add_out_talks]. talks_tac.
  - intros Q; apply OK_inj in Q; subst; apply talks_refl.
  - intros Q; apply OK_inj in Q; subst; apply talks_refl.
  - intros Q; apply OK_inj in Q; subst. destruct (c_out c); [apply client_close_talks|apply talks_refl].
Qed.

Lemma fcgi_error_talks E c : talks c (fcgi_error E c).
Proof.
  unfold fcgi_error. cbv zeta. eapply talks_trans; [apply close_pfd_talks|]. destruct (_ =? 0); [apply reply_talks|talks_tac].
Qed.
Lemma stdout_talks E s c : talks c (fcgi_handle_stdout E s c).
Proof.
  unfold fcgi_handle_stdout. destruct (c_code c =? 0); [|apply add_out_talks]. cbv zeta.
  set (c1 := set_sbuf _ c). assert (K1 : talks c c1) by talks_tac. eapply talks_trans; [exact K1|]. clearbody c1. clear K1.
  destruct (readln (c_sbuf c1)) as [[line t]|].
  2:{ destruct (_ =? SBUF)%nat; [apply fcgi_error_talks|apply talks_refl]. }
  destruct (status (N.eqb 32) line) as [[code meta]|]; [|apply fcgi_error_talks].
  pose proof (start_reply_talks E code meta c1) as S.
  destruct (start_reply E code meta c1) as [c2 ok]. cbn [fst] in S. eapply talks_trans; [exact S|].
  destruct (negb ok || _ || _); [apply fcgi_error_talks|]. eapply talks_trans; apply add_out_talks.
Qed.

Lemma fcgi_loop_talks E : forall f s c s' c' err, fcgi_loop E f s c = OK (s', c', err) -> talks c c'.
Proof.
  induction f as [|f IH]; intros s c s' c' err; cbn [fcgi_loop]; [discriminate|].
  assert (ST : forall (x : list N) (b : bool), OK (x, c, b) = OK (s', c', err) -> talks c c') by (intros x b X; apply OK_inj in X; injection X as <- <- <-; apply talks_refl).
  assert (G : (match s with
      | v :: ty :: i1 :: i0 :: l1 :: l0 :: pad :: rsv :: body =>
        if negb (i0 + N.shiftl i1 8 =? 1) then OK (s, c, true) else
        let len := N.to_nat (l0 + N.shiftl l1 8) in
        if (length body <? len + N.to_nat pad)%nat then OK (s, c, false) else
        let content := firstn len body in
        let rest := skipn (len + N.to_nat pad) body in
        if ty =? FCGI_END_REQUEST then
          if negb (len =? 8)%nat then OK (body, c, true)
          else fcgi_loop E f rest (set_type DONE c)
        else if ty =? FCGI_STDERR then fcgi_loop E f rest c
        else if ty =? FCGI_STDOUT then fcgi_loop E f rest (fcgi_handle_stdout E content c)
        else OK (body, c, true)
      | _ => OK (s, c, false)
      end) = OK (s', c', err) -> talks c c').
  { destruct s as [|? [|ty [|i1 [|i0 [|l1 [|l0 [|pad [|? body]]]]]]]]; try apply ST.
    cbv zeta. destruct (negb _); [apply ST|]. destruct (_ <? _)%nat; [apply ST|].
    destruct (ty =? FCGI_END_REQUEST).
    - destruct (negb _); [apply ST|]. intros Q. apply IH in Q. eapply talks_trans; [|exact Q]. talks_tac.
    - destruct (ty =? FCGI_STDERR); [apply IH|]. destruct (ty =? FCGI_STDOUT); [|apply ST].
      intros Q. apply IH in Q. eapply talks_trans; [|exact Q]. apply stdout_talks. }
  destruct (c_type c); eauto.
Qed.
Lemma set_conn_talks i s c : talks c (set_conn i s c).
Proof. unfold set_conn. destruct (nth_error (c_conns c) i); talks_tac. Qed.
Lemma fcgi_read_talks E i c c' : fcgi_read E i c = OK c' -> talks c c'.
Proof.
  unfold fcgi_read. destruct (nth_error (c_conns c) i) as [k|]; [|discriminate].
  intros Q. apply bind_ok in Q as (((s & c1) & err) & LP & Q). apply fcgi_loop_talks in LP. cbv zeta in Q.
  pose proof (talks_trans _ _ _ LP (set_conn_talks i s c1)) as K2. destruct err.
  - apply client_write_talks in Q. eapply talks_trans; [|exact Q]. eapply talks_trans; [exact K2|apply fcgi_error_talks].
  - apply OK_inj in Q. subst c'. exact K2.
Qed.

Lemma proxy_error_talks E c c' : proxy_error E c = OK c' -> talks c c'.
Proof.
  unfold proxy_error. cbv zeta. set (c1 := set_pfd PNone (set_up (c_pxy c) None c)).
  assert (K1 : talks c c1) by talks_tac. destruct (c_code c1 =? 0).
  - intros Q. apply OK_inj in Q. subst c'. eapply talks_trans; [exact K1|apply reply_talks].
  - intros Q. apply client_write_talks in Q. eapply talks_trans; [|exact Q]. eapply talks_trans; [exact K1|]. talks_tac.
Qed.
Lemma proxy_read_talks E s c c' : proxy_read E s c = OK c' -> talks c c'.
Proof.
  unfold proxy_read.
  assert (MU : forall d x, talks d (set_up (c_pxy d) (Some x) d)) by (intros; talks_tac).
  destruct (c_code c =? 0).
  2:{ intros Q. apply OK_inj in Q. subst c'. eapply talks_trans; [|apply add_out_talks]. apply MU. }
  assert (PE : forall d, talks c d -> proxy_error E d = OK c' -> talks c c').
  { intros d K1 Q. apply proxy_error_talks in Q. eapply talks_trans; eauto. }
  destruct (readln s) as [[line rest]|].
  2:{ destruct (1029 <? length s)%nat; [apply PE, MU|]. intros Q. apply OK_inj in Q. subst c'. apply MU. }
  cbv zeta. set (c1 := set_up (c_pxy c) (Some rest) c). assert (K1 : talks c c1) by talks_tac.
  destruct ((length line <? 3)%nat || (1029 <? length line)%nat); [apply PE; exact K1|].
  destruct (status is_space line) as [[code meta]|]; [|apply PE; exact K1].
  pose proof (start_reply_talks E code meta c1) as S.
  destruct (start_reply E code meta c1) as [c2 ok]. cbn [fst] in S. pose proof (talks_trans _ _ _ K1 S) as K2.
  destruct (negb ok || _ || _); [apply PE; exact K2|].
  intros Q. apply OK_inj in Q. subst c'. eapply talks_trans; [|apply add_out_talks]. eapply talks_trans; [exact K2|apply MU].
Qed.

(** ** the request *)
Lemma listing_talks E v path entries c : talks c (server_dir_listing E v path entries c).
Proof.
  unfold server_dir_listing. cbv zeta. destruct (negb _); [apply reply_talks|]. destruct entries as [ents|]; [|apply reply_talks].
  eapply talks_trans; [|apply add_out_talks]. eapply talks_trans; [|apply reply_talks].
  talks_tac.
Qed.
Lemma open_dir_talks E v path look entries c c' : open_dir E v path look entries c = OK c' -> talks c c'.
Proof.
  unfold open_dir. destruct (negb _ && negb _).
  { intros Q; apply OK_inj in Q; subst. unfold redirect_canonical_dir. destruct (_ <=? _)%nat; apply reply_talks. }
  cbv zeta. destruct (look _) as [| |[] content|]; intros Q; try (apply OK_inj in Q; subst; first [apply listing_talks|apply reply_talks]).
  apply bind_ok in Q as (ty & _ & Q). apply OK_inj in Q. subst. eapply talks_trans; [|apply reply_talks]. talks_tac.
Qed.

Lemma act_LI E a c : legit E es a -> LI E es c -> LI E es (act a c).
Proof. intros H (L1 & L2 & L3 & L4). split; [apply Forall_app; split; [exact L1|constructor; [exact H|constructor]]|]. auto. Qed.

Lemma file_LI E fs v i sni asked c c' : let_in E es v i sni asked -> application E v i None -> LI E es c -> serve_file E fs v i c = OK c' -> LI E es c'.
Proof.
  intros LE AP HL. unfold serve_file. cbv zeta.
  destruct (option_of E v i l_dirfd (fun x => x <> None) (fun x => match x with Some _ => true | None => false end)) as (ld & Gd & Od).
  { intros [x|]; split; congruence. }
  destruct (option_of E v i l_strip (fun x => x <> 0%nat) (fun x => negb (x =? 0)%nat)) as (ls & Gs & Os); [intros x; lia|].
  rewrite (c13_root _ _ _ _ Gd). destruct (l_dirfd ld) as [fd|] eqn:FD.
  2:{ intros Q; apply OK_inj in Q; subst. eapply talks_LI; [apply reply_talks|exact HL]. }
  rewrite (c13_strip _ _ _ _ Gs), skip_unslash.
  assert (EB : match unslash (strip_path (c_path i) (l_strip ls)) with [] => [46] | n :: l0 => unslash (strip_path (c_path i) (l_strip ls)) end
               = below i (l_strip ls)) by (unfold below; destruct (unslash _); reflexivity).
  rewrite EB.
  assert (HL1 : LI E es (act (AOpen fd (below i (l_strip ls))) c)).
  { apply act_LI; [|exact HL]. eapply lg_open; eauto. }
  destruct (fs fd (below i (l_strip ls))) as [| |reg content|look entries].
  - intros Q; apply OK_inj in Q; subst. eapply talks_LI; [apply reply_talks|exact HL1].
  - intros Q; apply OK_inj in Q; subst. eapply talks_LI; [apply reply_talks|exact HL1].
  - intros Q. apply bind_ok in Q as (ty & _ & Q). apply OK_inj in Q. subst. eapply talks_LI; [apply reply_talks|].
    eapply talks_LI; [|exact HL1]. talks_tac.
  - intros Q. apply open_dir_talks in Q. eapply talks_LI; [exact Q|exact HL1].
Qed.

Lemma cert_LI E ca c :
  match (match ca with Some a => check_matching_certificate E a c | None => inr c end) with
  | inl c' => talks c c'
  | inr c' => talks c c' /\ admitted E ca /\ c_domain c' = c_domain c /\ c_type c' = c_type c
  end.
Proof.
  destruct ca as [a|]; [|split; [apply talks_refl|split; [discriminate|auto]]]. unfold check_matching_certificate.
  destruct (e_cert E) eqn:CE; [|apply reply_talks]. cbv zeta.
  assert (T : talks c (act (AVerify a) c)) by (split; [exists [AVerify a]; split; [reflexivity|repeat constructor]|]; repeat (split; [reflexivity|]); split; [exact (fun x => x)|]; left; reflexivity).
  destruct (e_valid E a) eqn:EV; [|eapply talks_trans; [exact T|apply reply_talks]].
  split; [exact T|]. split; [|auto]. intros b X. injection X as <-. rewrite CE. split; [discriminate|exact EV].
Qed.

Lemma set_iri_LI E x c : c_type c = UNDECIDED -> LI E es c -> LI E es (set_iri x c).
Proof. intros T (L1 & L2 & L3 & L4). split; [exact L1|]. split; [exact L2|]. split; [exact L3|]. cbn. congruence. Qed.

Lemma enqueue_LI E p i c c' : (exists v sni asked, request_for E es v i sni asked /\
    proxies_to (e_fnm E) (v_proxies v) (c_scheme i) sni (c_port i) (Some p) /\ admitted E (p_reqca p)) ->
  c_iri c = Some i -> c_hs c = true -> LI E es c -> proxy_enqueue_req E p i c = OK c' -> LI E es c' /\ up_ok E es c'.
Proof.
  intros (v & sni & asked & R & P & A) CI Hs HL Q. unfold proxy_enqueue_req in Q. apply bind_ok in Q as (line & PL & Q). apply OK_inj in Q. subst c'.
  assert (UO : up_ok E es (act (AUp p line) (set_up (Some p) (Some []) c))).
  { intros p0 i0 H1 H2. cbn in H1, H2. rewrite CI in H2. injection H1 as <-. injection H2 as <-. exists v, sni, asked. auto. }
  split; [|exact UO]. destruct HL as (L1 & L2 & L3 & _). split; [|split; [exact L2|split; [exact L3|intros _; split; [exact UO|exact Hs]]]].
  cbn [act c_acts set_up]. apply Forall_app. split; [exact L1|]. constructor; [|constructor]. eapply lg_up; eauto.
Qed.

Lemma proxy_LI E v i asked c r : request_for E es v i (c_domain c) asked -> c_iri c = Some i -> c_type c = UNDECIDED -> c_hs c = true -> LI E es c ->
  apply_reverse_proxy E v i c = OK r -> match r with Some c' => LI E es c' | None => proxies_to (e_fnm E) (v_proxies v) (c_scheme i) (c_domain c) (c_port i) None end.
Proof.
  intros RF CI T Hs HL. unfold apply_reverse_proxy.
  pose proof (c12_proxy_first_match (e_fnm E) (v_proxies v) (c_scheme i) (c_domain c) (c_port i)) as PX.
  destruct (matched_proxy (e_fnm E) (v_proxies v) (c_scheme i) (c_domain c) (c_port i)) as [p|].
  2:{ intros Q. apply OK_inj in Q. subst r. exact PX. }
  cbv zeta. set (c1 := set_up (Some p) (c_up c) c).
  assert (HL1 : LI E es c1).
  { destruct HL as (L1 & L2 & L3 & L4). split; [exact L1|]. split; [exact L2|]. split; [exact L3|]. cbn. congruence. }
  pose proof (cert_LI E (p_reqca p) c1) as CL.
  destruct (match p_reqca p with Some a => check_matching_certificate E a c1 | None => inr c1 end) as [c2|c2].
  { intros Q. apply OK_inj in Q. subst r. eapply talks_LI; eauto. }
  destruct CL as (TK & AD & _ & TY). pose proof (talks_LI E _ _ TK HL1) as HL2.
  assert (I2 : c_iri c2 = Some i) by (destruct TK as (_ & _ & _ & X & _); rewrite X; exact CI).
  assert (P2 : c_pxy c2 = Some p) by (destruct TK as (_ & _ & _ & _ & X & _); rewrite X; reflexivity).
  assert (S2 : c_hs c2 = true) by (destruct TK as (_ & _ & _ & _ & _ & X & _); rewrite X; exact Hs).
  assert (W : exists v sni asked, request_for E es v i sni asked /\ proxies_to (e_fnm E) (v_proxies v) (c_scheme i) sni (c_port i) (Some p) /\ admitted E (p_reqca p)).
  { exists v, (c_domain c), asked. auto. }
  destruct (negb (e_upstream E p)).
  { intros Q. apply OK_inj in Q. subst r. eapply talks_LI; [apply reply_talks|exact HL2]. }
  assert (HL3 : LI E es (set_pfd PUp c2)) by exact HL2.
  destruct (p_notls p).
  - intros Q. apply bind_ok in Q as (c3 & EQ & Q). apply OK_inj in Q. subst r.
    destruct (enqueue_LI E p i (set_pfd PUp c2) c3 W I2 S2 HL3 EQ) as ((L1 & L2 & L3 & L4) & UO).
    split; [exact L1|]. split; [exact L2|]. split; [exact L3|]. intros _. split; [exact UO|]. cbn [set_type c_hs].
    unfold proxy_enqueue_req in EQ. apply bind_ok in EQ as (ln & _ & EQ). apply OK_inj in EQ. subst c3. exact S2.
  - destruct (e_uptls E p).
    + intros Q. apply OK_inj in Q. subst r. destruct HL3 as (L1 & L2 & L3 & L4).
      split; [exact L1|]. split; [exact L2|]. split; [exact L3|]. intros _. split; [|exact S2]. intros p0 i0 H1 H2. cbn in H1, H2. rewrite P2 in H1. rewrite I2 in H2.
      injection H1 as <-. injection H2 as <-. exact W.
    + intros Q. apply OK_inj in Q. subst r. eapply talks_LI; [apply reply_talks|exact HL3].
Qed.

Lemma dispatch_LI E fs v i asked c c' : request_for E es v i (c_domain c) asked -> c_iri c = Some i -> c_type c = UNDECIDED -> c_hs c = true -> LI E es c ->
  dispatch E fs v i asked c = OK c' -> LI E es c'.
Proof.
  intros RF CI T Hs HL Q. unfold dispatch in Q. apply bind_ok in Q as (r & AR & Q).
  pose proof (proxy_LI E v i asked c r RF CI T Hs HL AR) as PR. destruct r as [c1|].
  { apply OK_inj in Q. subst c'. exact PR. }
  revert Q. destruct (negb (leqb (c_scheme i) (s2b "gemini")) || negb (strcaseeq (c_domain c) asked)) eqn:OU.
  { intros Q. apply OK_inj in Q. subst c'. eapply talks_LI; [apply reply_talks|exact HL]. }
  assert (OUR : ours i (c_domain c) asked).
  { apply orb_false_iff in OU. rewrite !negb_false_iff in OU. destruct OU as [O1 O2]. apply leqb_eq in O1. apply leqb_eq in O2. split; assumption. }
  destruct (option_of E v i l_reqca (fun x => x <> None) (fun x => match x with Some _ => true | None => false end)) as (lc & Gc & Oc);
    [intros [x|]; split; congruence|].
  rewrite (c13_client_ca _ _ _ _ Gc). pose proof (cert_LI E (l_reqca lc) c) as CL.
  destruct (match l_reqca lc with Some a => check_matching_certificate E a c | None => inr c end) as [c1|c1].
  { intros Q. apply OK_inj in Q. subst c'. eapply talks_LI; eauto. }
  destruct CL as (TK & AD & DM & TY). pose proof (talks_LI E _ _ TK HL) as HL1.
  destruct (option_of E v i l_block_code (fun x => x <> 0) (fun x => negb (x =? 0))) as (lb & Gb & Ob); [intros x; lia|].
  unfold apply_block_return. rewrite (c13_block _ _ _ _ Gb).
  destruct (N.eqb_spec (l_block_code lb) 0) as [Z|NZ].
  2:{ intros Q. apply bind_ok in Q as (r & BR & Q). cbv zeta in BR. apply bind_ok in BR as (m & _ & BR). apply OK_inj in BR. subst r. apply OK_inj in Q. subst c'.
      eapply talks_LI; [apply reply_talks|exact HL1]. }
  cbn [bind]. rewrite Z in Ob.
  assert (LE : let_in E es v i (c_domain c) asked).
  { split; [exact RF|]. split; [exact PR|]. split; [exact OUR|]. split; [exists (l_reqca lc); auto|exact Ob]. }
  pose proof (fcgi_application E v i) as FA. unfold apply_fastcgi.
  destruct (vhost_fastcgi (e_fnm E) v (c_path i)) as [l|].
  - destruct FA as (n & Ln & FA). rewrite Ln. destruct (nth_error (c_fcgi (e_conf E)) n).
    + destruct (e_fcgi E n); cbn [negb].
      * intros Q. apply bind_ok in Q as (r & BR & Q). cbv zeta in BR. apply bind_ok in BR as (b & FR & BR). apply OK_inj in BR. subst r. apply OK_inj in Q. subst c'.
        apply act_LI; [eapply lg_fcgi; eauto|]. destruct HL1 as (L1 & L2 & L3 & L4). split; [exact L1|]. split; [exact L2|]. split; [exact L3|]. cbn. congruence.
      * cbn [bind]. intros Q. apply OK_inj in Q. subst c'. eapply talks_LI; [apply reply_talks|exact HL1].
    + cbn [bind]. intros Q. eapply file_LI; eauto.
  - cbn [bind]. intros Q. eapply file_LI; eauto.
Qed.

Lemma client_read_LI E fs c c' : c_hs c = true -> LI E es c -> client_read E fs c = OK c' -> LI E es c'.
Proof.
  intros Hs HL. unfold client_read. assert (SK : OK c = OK c' -> LI E es c') by (intros Q; apply OK_inj in Q; subst; exact HL).
  destruct (c_type c) eqn:T; try exact SK. assert (RP : forall code m d, LI E es d -> OK (reply E code m d) = OK c' -> LI E es c').
  { intros code m d X Q. apply OK_inj in Q. subst c'. eapply talks_LI; [apply reply_talks|exact X]. }
  destruct (1026 <? length (c_in c))%nat eqn:BIG; [apply RP; exact HL|]. apply Nat.ltb_ge in BIG.
  destruct (readln (c_in c)) as [[line rest]|] eqn:RL; [|exact SK]. cbv zeta.
  apply readln_sound in RL. destruct RL as [EQ _].
  assert (HB : bytes line /\ bytes rest).
  { destruct HL as (_ & (HB & _) & _). rewrite EQ in HB. unfold bytes in *. rewrite !Forall_app in HB. tauto. }
  destruct HB as (HB1 & HB2).
  rewrite EQ, !app_length in BIG. change (length CRLF) with 2%nat in BIG.
  assert (HL1 : LI E es (set_in rest c)).
  { destruct HL as (L1 & (_ & L6) & (L3 & pre & R) & L4). split; [exact L1|]. split; [split; [exact HB2|exact L6]|]. split; [|exact L4]. split; [exact L3|].
    exists (pre ++ line ++ CRLF). cbn [set_in c_in]. rewrite R, EQ, <- !app_assoc. reflexivity. }
  destruct (1026 <? length line)%nat; [apply RP; exact HL1|].
  destruct (existsb (N.eqb 0) line) eqn:NN; [apply RP; exact HL1|]. apply nonul_existsb in NN.
  intros Q. apply bind_ok in Q as ((b & p) & PE & Q). destruct (comps_of p) as [i|] eqn:CP; [|discriminate].
  assert (HL2 : LI E es (set_iri (Some i) (set_in rest c))) by (apply set_iri_LI; [exact T|exact HL1]).
  destruct b; cbn [negb] in Q; [|revert Q; apply RP; exact HL2].
  apply bind_ok in Q as (d & PD & Q). destruct d as [|[] out]; [discriminate| |revert Q; apply RP; exact HL2].
  destruct (cstr out) as [asked|] eqn:CO; [|discriminate]. change (c_vhost (set_iri (Some i) (set_in rest c))) with (c_vhost c) in Q.
  destruct (c_vhost c) as [v|] eqn:CV; [|discriminate].
  eapply dispatch_LI; [| | | |exact HL2|exact Q]; [|reflexivity|exact T|exact Hs].
  destruct HL as (_ & _ & (L3 & pre & R) & _). destruct (L3 v CV) as [L5 L6].
  split; [exact L5|]. split; [exact L6|]. split; [|exists out; auto].
  exists line. split; [exists pre, rest; rewrite R; exact (f_equal _ EQ)|]. split; [exact NN|]. split; [exact HB1|]. split; [lia|]. exists p. auto.
Qed.

Lemma handshake_LI E sni c c' : In (EvHandshake sni) es -> c_type c <> RPROXY -> LI E es c -> handle_handshake E sni c = OK c' -> LI E es c'.
Proof.
  intros IN T HL. assert (SH : forall d h, (forall v, h = Some v -> (exists sni, In (EvHandshake sni) es /\ named E sni d) /\ selects (e_fnm E) (c_hosts (e_conf E)) d (Some v)) -> LI E es (set_host d h c)).
  { intros d h X. destruct HL as (L1 & L2 & (L3 & L5) & L4). split; [exact L1|]. split; [exact L2|]. split; [split; [exact X|exact L5]|]. cbn. congruence. }
  assert (RH : forall d m, OK (reply E 59 m (set_host d None c)) = OK c' -> LI E es c').
  { intros d m Q. apply OK_inj in Q. subst. eapply talks_LI; [apply reply_talks|]. apply SH. discriminate. }
  unfold handle_handshake. intros Q. apply bind_ok in Q as (d & PD & Q). destruct d as [|[] out]; [discriminate| |apply RH in Q; exact Q].
  destruct (cstr out) as [dom|] eqn:CO; [|discriminate]. cbv zeta in Q. set (dm := match dom with [] => _ | _ => _ end) in *.
  assert (NM : named E sni dm).
  { exists dom. split; [|reflexivity]. destruct sni as [s|]; [exists out; auto|]. injection PD as <-. cbn in CO. congruence. }
  clearbody dm. pose proof (c12_first_match (e_fnm E) (c_hosts (e_conf E)) dm) as FM.
  destruct (find_host (e_fnm E) (c_hosts (e_conf E)) dm) as [v|] eqn:FH; [|apply RH in Q; exact Q].
  apply OK_inj in Q; subst c'. apply SH. intros v0 X. injection X as <-. split; [exists sni; auto|exact FM].
Qed.
End Legit.

(** more events *)
Lemma sent_line_app es e line : sent_line es line -> sent_line (es ++ [e]) line.
Proof.
  intros (a & b & H). exists a, (b ++ received [e]). unfold received in *. rewrite flat_map_app, H, <- !app_assoc. reflexivity.
Qed.
Lemma request_app E es e v i name asked : request_for E es v i name asked -> request_for E (es ++ [e]) v i name asked.
Proof.
  intros ((sni & IN & NM) & SE & (line & SL & R) & D). split; [exists sni; split; [apply in_or_app; left; exact IN|exact NM]|]. split; [exact SE|].
  split; [|exact D]. exists line. split; [apply sent_line_app; exact SL|exact R].
Qed.
Lemma legit_app E es e a : legit E es a -> legit E (es ++ [e]) a.
Proof.
  intros H. destruct H as [v i name asked fd n L|v i name asked k l bs L|v i name asked p bs R| | |].
  - destruct L as (R & L). eapply lg_open; eauto. split; [apply request_app; exact R|exact L].
  - destruct L as (R & L). eapply lg_fcgi; eauto. split; [apply request_app; exact R|exact L].
  - eapply lg_up; eauto. apply request_app; exact R.
  - constructor.
  - constructor.
  - constructor.
Qed.
Lemma LI_app E es e c : bytes (received [e]) -> LI E es c -> LI E (es ++ [e]) (set_in (c_in c ++ received [e]) c).
Proof.
  intros HB (L1 & (L2 & L6) & (L3 & pre & L5) & L4). split; [eapply Forall_impl; [|exact L1]; intros a; apply legit_app|].
  split; [split; [apply Forall_app; split; assumption|exact L6]|]. split; [split|].
  - intros v V. destruct (L3 v V) as ((sni & IN & NM) & SE). split; [|exact SE]. exists sni. split; [apply in_or_app; left; exact IN|exact NM].
  - exists pre. cbn [set_in c_in]. unfold received in *. rewrite flat_map_app, L5, <- app_assoc. reflexivity.
  - intros T. destruct (L4 T) as [U Hs]. split; [|exact Hs]. intros p i H1 H2. destruct (U p i H1 H2) as (v & sni & asked & R & Q).
    exists v, sni, asked. split; [apply request_app; exact R|exact Q].
Qed.

Lemma step_LI E es0 e c c' : (forall chunk fs, e = EvRead chunk fs -> bytes chunk) -> LI E es0 c -> step E e c = Some (OK c') -> LI E (es0 ++ [e]) c'.
Proof.
  intros HB HL0. pose proof (LI_app E es0 e c) as HL. specialize (fun X => HL X HL0).
  assert (HH : In e (es0 ++ [e])) by (apply in_or_app; right; left; reflexivity).
  assert (BR : bytes (received [e])) by (unfold received; cbn [flat_map]; rewrite app_nil_r; destruct e; try constructor; eapply HB; reflexivity).
  specialize (HL BR). clear BR HL0. set (es := es0 ++ [e]) in *. clearbody es. unfold received in HL. cbn [flat_map] in HL. rewrite app_nil_r in HL.
  destruct e as [sni| |chunk fs| |n a| |i chunk|i|r|chunk|]; try rewrite app_nil_r, set_in_id in HL; unfold step; cbv zeta.
  - destruct (negb (c_closed c) && negb (c_hs c)) eqn:B; [|discriminate]. apply andb_true_iff in B as [_ B]. apply negb_true_iff in B.
    intros Q. injection Q as Q. eapply handshake_LI; [exact HH| |exact HL|exact Q]. intros T. destruct HL as (_ & _ & _ & L4). destruct (L4 T). congruence.
  - destruct (_ && _); [|discriminate]. intros Q. injection Q as <-. eapply talks_LI; [apply client_close_talks|exact HL].
  - destruct (negb (c_closed c) && c_hs c && negb (isnil chunk)) eqn:B; [|discriminate]. apply andb_true_iff in B as [B _]. apply andb_true_iff in B as [_ B].
    intros Q. injection Q as Q. refine (client_read_LI es E fs (set_in (c_in c ++ chunk) c) c' B HL Q).
  - destruct (_ && _); [|discriminate]. intros Q. injection Q as <-. unfold client_error. cbn [andb].
    eapply talks_LI; [|exact HL]. eapply talks_trans; [|apply client_close_talks]. talks_tac.
  - destruct (_ && _); [|discriminate]. intros Q. injection Q as Q.
    set (k := Nat.min _ _) in Q. set (out := skipn k (c_out c)) in Q. set (c1 := set_io out _ _ c) in *. assert (T1 : talks c c1).
    { split; [exists []; split; [symmetry; apply app_nil_r|constructor]|]. repeat (split; [reflexivity|]). split; [|left; reflexivity].
      intros _. unfold wok, c1. cbn [set_io c_out c_wev]. destruct out; [right; left; reflexivity|right; right; reflexivity]. }
    destruct out; [apply client_write_talks in Q|apply OK_inj in Q; subst c'; eapply talks_LI; eauto].
    eapply talks_LI; [|exact HL]. exact (talks_trans _ _ _ T1 Q).
  - destruct (_ && _); [|discriminate]. intros Q. injection Q as <-. unfold client_error. cbn [andb].
    eapply talks_LI; [|exact HL]. eapply talks_trans; [|apply client_close_talks]. talks_tac.
  - destruct (nth_error (c_conns c) i) as [k|]; [|discriminate]. destruct (k_open k && _); [|discriminate]. destruct (negb _); [|discriminate].
    intros Q. injection Q as Q. apply fcgi_read_talks in Q. eapply talks_LI; [|exact HL]. exact (talks_trans _ _ _ (set_conn_talks _ _ _) Q).
  - destruct (nth_error (c_conns c) i) as [k|]; [|discriminate]. destruct (k_open k); [|discriminate]. destruct (negb _); [|discriminate].
    intros Q. injection Q as <-. eapply talks_LI; [|exact HL]. eapply talks_trans; [|apply fcgi_error_talks]. talks_tac.
  - destruct (c_type c) eqn:T; try discriminate. destruct (c_pxy c) as [p|] eqn:CP; [|discriminate]. destruct (c_up c); [discriminate|].
    destruct (c_iri c) as [i|] eqn:CI; [|discriminate]. destruct (_ && _); [|discriminate].
    intros Q. injection Q as Q. destruct r; try (apply OK_inj in Q; subst c'; eapply talks_LI; [apply reply_talks|exact HL]).
    refine (proj1 (enqueue_LI es E p i c c' _ CI _ HL Q)); destruct HL as (_ & _ & _ & L4); destruct (L4 T) as [L5 L6]; [exact (L5 p i CP CI)|exact L6].
  - destruct (c_up c) as [s|]; [|discriminate]. destruct (_ && _); [|discriminate]. intros Q. injection Q as Q.
    apply proxy_read_talks in Q. eapply talks_LI; eauto.
  - destruct (c_up c) as [s|]; [|discriminate]. destruct (negb _); [|discriminate]. intros Q. injection Q as Q.
    apply proxy_error_talks in Q. eapply talks_LI; eauto.
Qed.

Theorem history_LI E es c : bytes_sent es -> history E es c -> LI E es c.
Proof.
  intros HB H. induction H as [|es e c c' H IH S].
  - split; [constructor|]. split; [split; [constructor|right; left; reflexivity]|]. split; [split; [discriminate|exists []; reflexivity]|discriminate].
  - eapply step_LI; [| |exact S].
    + intros chunk fs ->. apply (HB chunk fs). apply in_or_app. right. left. reflexivity.
    + apply IH. intros chunk fs X. apply (HB chunk fs). apply in_or_app. left. exact X.
Qed.
