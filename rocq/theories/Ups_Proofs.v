(** Upstreams that are to be spoken to over TLS are sent nothing until the
    handshake with them is over. *)
From Verif Require Import Base BaseLemmas Compat Iri IriSpec IriObs Puny Conf Mime Fmt Fcgi Server ServerSpec Iri_Last_Proofs Server_Proofs Decide_Proofs HistorySpec.
Local Open Scope N_scope.

Definition upok (a : action) : Prop := match a with AUp p _ => p_notls p = true | _ => True end.
(** from [c] to [c'] nothing was sent to a TLS upstream *)
Definition uk (E : env) (c c' : client) : Prop := exists new, c_acts c' = c_acts c ++ new /\ Forall upok new.

Lemma uk_refl E c : uk E c c.
Proof. exists []. split; [symmetry; apply app_nil_r|constructor]. Qed.
Lemma uk_trans E a b c : uk E a b -> uk E b c -> uk E a c.
Proof. intros (n1 & A1 & A2) (n2 & B1 & B2). exists (n1 ++ n2). split; [rewrite B1, A1, app_assoc; reflexivity|]. apply Forall_app. auto. Qed.
Lemma uk_same E c c' : c_acts c' = c_acts c -> uk E c c'.
Proof. intros C. exists []. rewrite C, app_nil_r. split; [reflexivity|constructor]. Qed.
Ltac uk_tac := apply uk_same; reflexivity.
Lemma uk_act E a c : upok a -> uk E c (act a c).
Proof. intros A. exists [a]. split; [reflexivity|]. constructor; [exact A|constructor]. Qed.

Lemma uk_add_out E s c : uk E c (add_out s c).
Proof. destruct s; uk_tac. Qed.
Lemma uk_emit E code meta h c : uk E c (emit E code meta h c).
Proof.
  unfold emit. cbv zeta.
  set (c1 := add_out (h ++ [13; 10]) (set_code code c)).
  assert (K : uk E c c1) by (eapply uk_trans; [|apply uk_add_out]; uk_tac).
  eapply uk_trans; [exact K|]. clearbody c1. clear K.
  assert (G : forall d, uk E c1 d -> uk E c1 (if code =? 20 then d else set_type DONE d)).
  { intros d X. destruct (code =? 20); [exact X|]. eapply uk_trans; [exact X|uk_tac]. }
  apply G. assert (K : uk E c1 (act (AReply code meta) c1)) by (apply uk_act; exact Logic.I).
  destruct (vhost_disable_log _ _ _); [exact K|]. eapply uk_trans; [exact K|apply uk_act; exact Logic.I].
Qed.
Lemma uk_start E code meta c : uk E c (fst (start_reply E code meta c)).
Proof.
  unfold start_reply. destruct (header_line E c code meta) as [h l]. destruct (_ || _); cbn [fst]; [|apply uk_emit].
  eapply uk_trans; [|apply uk_emit]. uk_tac.
Qed.
Lemma uk_reply E code meta c : uk E c (reply E code meta c).
Proof. apply uk_start. Qed.
Lemma uk_close_pfd E c : uk E c (close_pfd c).
Proof. unfold close_pfd. destruct (c_pfd c); uk_tac. Qed.
Lemma uk_close E c : uk E c (client_close c).
Proof.
  unfold client_close. destruct (c_cgibev c) as [i|].
  - apply (uk_trans _ _ (close_pfd (set_cgi None (close_conn i (c_conns c)) c))); [|uk_tac].
    apply (uk_trans _ _ (set_cgi None (close_conn i (c_conns c)) c)); [uk_tac|apply uk_close_pfd].
  - apply (uk_trans _ _ (close_pfd c)); [apply uk_close_pfd|uk_tac].
Qed.

Lemma uk_write E a c c' : client_write a c = OK c' -> uk E c c'.
Proof.
  unfold client_write. destruct (c_type c) eqn:T.
  - intros Q; apply OK_inj in Q; subst; apply uk_refl.
  - destruct a as [|n]; [intros Q; apply OK_inj in Q; subst; eapply uk_trans; [|apply uk_close]; uk_tac|].
    destruct (c_pfd c); try (intros Q; apply OK_inj in Q; subst; eapply uk_trans; [|apply uk_close]; uk_tac).
    cbv zeta. destruct (_ =? 0)%nat; [intros Q; apply OK_inj in Q; subst; apply uk_close|].
    intros Q; apply OK_inj in Q; subst. eapply uk_trans; [|apply uk_add_out]. destruct (_ =? _)%nat; uk_tac.
  - intros Q. apply bind_ok in Q as (l & _ & Q). cbv zeta in Q. apply OK_inj in Q. subst.
    eapply (uk_trans _ _ (add_out l (set_type DONE (set_dir [] c)))); [|uk_tac]. eapply uk_trans; [|apply uk_add_out]. uk_tac.
  - intros Q; apply OK_inj in Q; subst; apply uk_refl.
  - intros Q; apply OK_inj in Q; subst; apply uk_refl.
  - intros Q; apply OK_inj in Q; subst. destruct (c_out c); [apply uk_close|apply uk_refl].
Qed.

Lemma uk_fcgi_error E c : uk E c (fcgi_error E c).
Proof. unfold fcgi_error. cbv zeta. eapply uk_trans; [apply uk_close_pfd|]. destruct (_ =? 0); [apply uk_reply|uk_tac]. Qed.
Lemma uk_stdout E s c : uk E c (fcgi_handle_stdout E s c).
Proof.
  unfold fcgi_handle_stdout. destruct (c_code c =? 0); [|apply uk_add_out]. cbv zeta.
  set (c1 := set_sbuf _ c). assert (K1 : uk E c c1) by uk_tac. eapply uk_trans; [exact K1|]. clearbody c1. clear K1.
  destruct (readln (c_sbuf c1)) as [[line t]|].
  2:{ destruct (_ =? SBUF)%nat; [apply uk_fcgi_error|apply uk_refl]. }
  destruct (status (N.eqb 32) line) as [[code meta]|]; [|apply uk_fcgi_error].
  pose proof (uk_start E code meta c1) as S.
  destruct (start_reply E code meta c1) as [c2 ok]. cbn [fst] in S. eapply uk_trans; [exact S|].
  destruct (negb ok || _ || _); [apply uk_fcgi_error|]. eapply uk_trans; apply uk_add_out.
Qed.
Lemma uk_fcgi_loop E : forall f s c s' c' err, fcgi_loop E f s c = OK (s', c', err) -> uk E c c'.
Proof.
  induction f as [|f IH]; intros s c s' c' err; cbn [fcgi_loop]; [discriminate|].
  assert (ST : forall (x : list N) (b : bool), OK (x, c, b) = OK (s', c', err) -> uk E c c') by (intros x b X; apply OK_inj in X; injection X as <- <- <-; apply uk_refl).
  destruct (c_type c); try (apply ST);
  (destruct s as [|? [|ty [|i1 [|i0 [|l1 [|l0 [|pad [|? body]]]]]]]]; try apply ST;
    cbv zeta; destruct (negb _); [apply ST|]; destruct (_ <? _)%nat; [apply ST|];
    destruct (ty =? FCGI_END_REQUEST);
    [ destruct (negb _); [apply ST|]; intros Q; apply IH in Q; eapply uk_trans; [|exact Q]; uk_tac
    | destruct (ty =? FCGI_STDERR); [apply IH|]; destruct (ty =? FCGI_STDOUT); [|apply ST];
      intros Q; apply IH in Q; eapply uk_trans; [|exact Q]; apply uk_stdout ]).
Qed.
Lemma uk_set_conn E i s c : uk E c (set_conn i s c).
Proof. unfold set_conn. destruct (nth_error (c_conns c) i); uk_tac. Qed.
Lemma uk_fcgi_read E i c c' : fcgi_read E i c = OK c' -> uk E c c'.
Proof.
  unfold fcgi_read. destruct (nth_error (c_conns c) i) as [k|]; [|discriminate].
  intros Q. apply bind_ok in Q as (((s & c1) & err) & LP & Q). apply uk_fcgi_loop in LP. cbv zeta in Q.
  pose proof (uk_trans _ _ _ _ LP (uk_set_conn E i s c1)) as K2. destruct err.
  - apply (uk_write E) in Q. eapply uk_trans; [|exact Q]. eapply uk_trans; [exact K2|apply uk_fcgi_error].
  - apply OK_inj in Q. subst c'. exact K2.
Qed.
Lemma uk_proxy_error E c c' : proxy_error E c = OK c' -> uk E c c'.
Proof.
  unfold proxy_error. cbv zeta. set (c1 := set_pfd PNone (set_up (c_pxy c) None c)).
  assert (K1 : uk E c c1) by uk_tac. destruct (c_code c1 =? 0).
  - intros Q. apply OK_inj in Q. subst c'. eapply uk_trans; [exact K1|apply uk_reply].
  - intros Q. apply (uk_write E) in Q. eapply uk_trans; [|exact Q]. eapply uk_trans; [exact K1|]. uk_tac.
Qed.
Lemma uk_proxy_read E s c c' : proxy_read E s c = OK c' -> uk E c c'.
Proof.
  unfold proxy_read.
  assert (MU : forall d x, uk E d (set_up (c_pxy d) (Some x) d)) by (intros; uk_tac).
  destruct (c_code c =? 0).
  2:{ intros Q. apply OK_inj in Q. subst c'. eapply uk_trans; [|apply uk_add_out]. apply MU. }
  assert (PE : forall d, uk E c d -> proxy_error E d = OK c' -> uk E c c').
  { intros d K1 Q. apply uk_proxy_error in Q. eapply uk_trans; eauto. }
  destruct (readln s) as [[line rest]|].
  2:{ destruct (1029 <? length s)%nat; [apply PE, MU|]. intros Q. apply OK_inj in Q. subst c'. apply MU. }
  cbv zeta. set (c1 := set_up (c_pxy c) (Some rest) c). assert (K1 : uk E c c1) by uk_tac.
  destruct ((length line <? 3)%nat || (1029 <? length line)%nat); [apply PE; exact K1|].
  destruct (status is_space line) as [[code meta]|]; [|apply PE; exact K1].
  pose proof (uk_start E code meta c1) as S.
  destruct (start_reply E code meta c1) as [c2 ok]. cbn [fst] in S. pose proof (uk_trans _ _ _ _ K1 S) as K2.
  destruct (negb ok || _ || _); [apply PE; exact K2|].
  intros Q. apply OK_inj in Q. subst c'. eapply uk_trans; [|apply uk_add_out]. eapply uk_trans; [exact K2|apply MU].
Qed.
Lemma uk_listing E v path entries c : uk E c (server_dir_listing E v path entries c).
Proof.
  unfold server_dir_listing. cbv zeta. destruct (negb _); [apply uk_reply|]. destruct entries as [ents|]; [|apply uk_reply].
  eapply uk_trans; [|apply uk_add_out]. eapply uk_trans; [|apply uk_reply]. uk_tac.
Qed.
Lemma uk_open_dir E v path look entries c c' : open_dir E v path look entries c = OK c' -> uk E c c'.
Proof.
  unfold open_dir. destruct (negb _ && negb _).
  { intros Q; apply OK_inj in Q; subst. unfold redirect_canonical_dir. destruct (_ <=? _)%nat; apply uk_reply. }
  cbv zeta. destruct (look _) as [| |[] content|]; intros Q; try (apply OK_inj in Q; subst; first [apply uk_listing|apply uk_reply]).
  apply bind_ok in Q as (ty & _ & Q). apply OK_inj in Q. subst. eapply uk_trans; [|apply uk_reply]. uk_tac.
Qed.
Lemma uk_file E fs v i c c' : serve_file E fs v i c = OK c' -> uk E c c'.
Proof.
  unfold serve_file. cbv zeta. destruct (vhost_dirfd _ _ _) as [fd|]; [|intros Q; apply OK_inj in Q; subst; apply uk_reply].
  set (p := match skip_slashes _ with [] => _ | _ => _ end). clearbody p.
  assert (K : uk E c (act (AOpen fd p) c)) by (apply uk_act; exact Logic.I).
  destruct (fs fd p) as [| |reg content|look entries].
  - intros Q; apply OK_inj in Q; subst. eapply uk_trans; [exact K|apply uk_reply].
  - intros Q; apply OK_inj in Q; subst. eapply uk_trans; [exact K|apply uk_reply].
  - intros Q. apply bind_ok in Q as (ty & _ & Q). apply OK_inj in Q. subst. eapply uk_trans; [|apply uk_reply]. eapply uk_trans; [exact K|uk_tac].
  - intros Q. apply uk_open_dir in Q. eapply uk_trans; [|exact Q]. eapply uk_trans; [exact K|uk_tac].
Qed.
Lemma uk_cert E ca c :
  match (match ca with Some a => check_matching_certificate E a c | None => inr c end) with inl c' => uk E c c' | inr c' => uk E c c' end.
Proof.
  destruct ca as [a|]; [|apply uk_refl]. unfold check_matching_certificate. destruct (e_cert E); [|apply uk_reply]. cbv zeta.
  assert (K : uk E c (act (AVerify a) c)) by (apply uk_act; exact Logic.I).
  destruct (e_valid E a); [exact K|]. eapply uk_trans; [exact K|apply uk_reply].
Qed.
Lemma uk_enqueue E p i c c' : p_notls p = true -> proxy_enqueue_req E p i c = OK c' -> uk E c c'.
Proof.
  unfold proxy_enqueue_req. intros NT Q. apply bind_ok in Q as (l & _ & Q). apply OK_inj in Q. subst c'.
  eapply uk_trans; [|apply uk_act; exact NT]. uk_tac.
Qed.
Lemma uk_proxy E v i c r : apply_reverse_proxy E v i c = OK r -> match r with Some c' => uk E c c' | None => True end.
Proof.
  unfold apply_reverse_proxy. destruct (matched_proxy _ _ _ _ _) as [p|]; [|intros Q; apply OK_inj in Q; subst; exact Logic.I].
  cbv zeta. set (c1 := set_up (Some p) (c_up c) c). assert (K1 : uk E c c1) by uk_tac.
  pose proof (uk_cert E (p_reqca p) c1) as CL.
  destruct (match p_reqca p with Some a => check_matching_certificate E a c1 | None => inr c1 end) as [c2|c2];
    pose proof (uk_trans _ _ _ _ K1 CL) as K2.
  { intros Q. apply OK_inj in Q. subst r. exact K2. }
  destruct (negb _). { intros Q. apply OK_inj in Q. subst r. eapply uk_trans; [exact K2|apply uk_reply]. }
  assert (K3 : uk E c (set_pfd PUp c2)) by (eapply uk_trans; [exact K2|uk_tac]).
  destruct (p_notls p) eqn:NT.
  - intros Q. apply bind_ok in Q as (c3 & EQ & Q). apply OK_inj in Q. subst r. apply uk_enqueue in EQ; [|exact NT].
    eapply uk_trans; [exact K3|]. eapply uk_trans; [exact EQ|uk_tac].
  - destruct (e_uptls E p); intros Q; apply OK_inj in Q; subst r; (eapply uk_trans; [exact K3|]); [uk_tac|apply uk_reply].
Qed.
Lemma uk_dispatch E fs v i asked c c' : dispatch E fs v i asked c = OK c' -> uk E c c'.
Proof.
  unfold dispatch. intros Q. apply bind_ok in Q as (r & AR & Q). apply uk_proxy in AR. destruct r as [c1|]; [apply OK_inj in Q; subst; exact AR|].
  revert Q. destruct (_ || _); [intros Q; apply OK_inj in Q; subst; apply uk_reply|].
  pose proof (uk_cert E (vhost_require_ca (e_fnm E) v (c_path i)) c) as CL.
  destruct (match vhost_require_ca (e_fnm E) v (c_path i) with Some a => check_matching_certificate E a c | None => inr c end) as [c1|c1].
  { intros Q. apply OK_inj in Q. subst. exact CL. }
  intros Q. eapply uk_trans; [exact CL|]. clear CL c AR. rename c1 into c.
  apply bind_ok in Q as (r & BR & Q). unfold apply_block_return in BR. destruct (vhost_block_return _ _ _) as [[code fmt]|].
  { apply bind_ok in BR as (m & _ & BR). apply OK_inj in BR. subst r. apply OK_inj in Q. subst. apply uk_reply. }
  apply OK_inj in BR. subst r. apply bind_ok in Q as (r & FR & Q). unfold apply_fastcgi in FR.
  destruct (vhost_fastcgi _ _ _) as [l|]; [|apply OK_inj in FR; subst r; apply uk_file in Q; exact Q].
  destruct (l_fcgi l) as [n|]; [|apply OK_inj in FR; subst r; apply uk_file in Q; exact Q].
  destruct (nth_error _ n); [|apply OK_inj in FR; subst r; apply uk_file in Q; exact Q].
  destruct (negb _).
  - apply OK_inj in FR. subst r. apply OK_inj in Q. subst. eapply uk_trans; [|apply uk_reply]. uk_tac.
  - cbv zeta in FR. apply bind_ok in FR as (b & _ & FR). apply OK_inj in FR. subst r. apply OK_inj in Q. subst.
    eapply uk_trans; [|apply uk_act; exact Logic.I]. uk_tac.
Qed.

Lemma uk_read E fs c c' : client_read E fs c = OK c' -> uk E c c'.
Proof.
  unfold client_read. assert (SK : OK c = OK c' -> uk E c c') by (intros Q; apply OK_inj in Q; subst; apply uk_refl).
  destruct (c_type c) eqn:T; try exact SK.
  assert (RP : forall code m d, c_acts d = c_acts c -> OK (reply E code m d) = OK c' -> uk E c c').
  { intros code m d X Q. apply OK_inj in Q. subst c'. eapply uk_trans; [|apply uk_reply]. apply uk_same. exact X. }
  destruct (1026 <? length (c_in c))%nat; [apply RP; reflexivity|].
  destruct (readln (c_in c)) as [[line rest]|]; [|exact SK]. cbv zeta.
  destruct (1026 <? length line)%nat; [apply RP; reflexivity|]. destruct (existsb _ _); [apply RP; reflexivity|].
  intros Q. apply bind_ok in Q as ((b & p) & PE & Q). destruct (comps_of p) as [i|]; [|discriminate].
  destruct b; cbn [negb] in Q; [|revert Q; apply RP; reflexivity].
  apply bind_ok in Q as (d & PD & Q). destruct d as [|[] out]; [discriminate| |revert Q; apply RP; reflexivity].
  destruct (cstr out) as [asked|]; [|discriminate]. destruct (c_vhost _) as [v|]; [|discriminate].
  apply uk_dispatch in Q. eapply uk_trans; [|exact Q]. uk_tac.
Qed.
Lemma uk_handshake E sni c c' : handle_handshake E sni c = OK c' -> uk E c c'.
Proof.
  assert (RH : forall d m, OK (reply E 59 m (set_host d None c)) = OK c' -> uk E c c').
  { intros d m Q. apply OK_inj in Q. subst. eapply uk_trans; [|apply uk_reply]. uk_tac. }
  unfold handle_handshake. intros Q. apply bind_ok in Q as (d & PD & Q). destruct d as [|[] out]; [discriminate| |apply RH in Q; exact Q].
  destruct (cstr out) as [dom|]; [|discriminate]. cbv zeta in Q. set (dm := match dom with [] => _ | _ => _ end) in *.
  destruct (find_host _ _ dm) as [v|]; [|apply RH in Q; exact Q].
  apply OK_inj in Q; subst c'. uk_tac.
Qed.

(** one event *)
Lemma step_uk E e c c' : step E e c = Some (OK c') ->
  uk E c c' \/ (e = EvUpTls UpOk /\ exists p line, c_pxy c = Some p /\ p_notls p = false /\ c_acts c' = c_acts c ++ [AUp p line]).
Proof.
  destruct e as [sni| |chunk fs| |n a| |i chunk|i|r|chunk|]; unfold step; cbv zeta.
  - destruct (_ && _); [|discriminate]. intros Q. injection Q as Q. left. eapply uk_handshake; eauto.
  - destruct (_ && _); [|discriminate]. intros Q. injection Q as <-. left. apply uk_close.
  - destruct (_ && _); [|discriminate]. intros Q. injection Q as Q. left. apply uk_read in Q. eapply uk_trans; [|exact Q]. uk_tac.
  - destruct (_ && _); [|discriminate]. intros Q. injection Q as <-. left. unfold client_error. cbn [andb]. eapply uk_trans; [|apply uk_close]. uk_tac.
  - destruct (_ && _); [|discriminate]. intros Q. injection Q as Q. left.
    set (k := Nat.min _ _) in Q. set (out := skipn k (c_out c)) in Q. set (c1 := set_io out _ _ c) in *. assert (T1 : uk E c c1) by uk_tac.
    destruct out; [apply (uk_write E) in Q; exact (uk_trans _ _ _ _ T1 Q)|apply OK_inj in Q; subst c'; exact T1].
  - destruct (_ && _); [|discriminate]. intros Q. injection Q as <-. left. unfold client_error. cbn [andb]. eapply uk_trans; [|apply uk_close]. uk_tac.
  - destruct (nth_error (c_conns c) i) as [k|]; [|discriminate]. destruct (k_open k && _); [|discriminate]. destruct (negb _); [|discriminate].
    intros Q. injection Q as Q. left. apply uk_fcgi_read in Q. exact (uk_trans _ _ _ _ (uk_set_conn _ _ _ _) Q).
  - destruct (nth_error (c_conns c) i) as [k|]; [|discriminate]. destruct (k_open k); [|discriminate]. destruct (negb _); [|discriminate].
    intros Q. injection Q as <-. left. eapply uk_trans; [|apply uk_fcgi_error]. uk_tac.
  - destruct (c_type c); try discriminate. destruct (c_pxy c) as [p|]; [|discriminate]. destruct (c_up c); [discriminate|].
    destruct (c_iri c) as [i|]; [|discriminate]. destruct (negb (c_closed c) && negb (p_notls p)) eqn:B; [|discriminate]. apply andb_true_iff in B as [_ B]. apply negb_true_iff in B.
    intros Q. injection Q as Q. destruct r; [right|left|left]; [|apply OK_inj in Q; subst c'; apply uk_reply ..].
    split; [reflexivity|]. unfold proxy_enqueue_req in Q. apply bind_ok in Q as (line & _ & Q). apply OK_inj in Q. subst c'. exists p, line. auto.
  - destruct (c_up c) as [s|]; [|discriminate]. destruct (_ && _); [|discriminate]. intros Q. injection Q as Q. left. eapply uk_proxy_read; eauto.
  - destruct (c_up c) as [s|]; [|discriminate]. destruct (negb _); [|discriminate]. intros Q. injection Q as Q. left. eapply uk_proxy_error; eauto.
Qed.
