(** Whatever replies is followed by the log, in every history. *)
From Verif Require Import Base BaseLemmas Compat Iri IriSpec IriObs Puny Conf Mime Fmt Fcgi Server ServerSpec Iri_Last_Proofs Server_Proofs Decide_Proofs HistorySpec.
Local Open Scope N_scope.

Definition rep1 (a : action) : list (N * list N) := match a with AReply code meta => [(code, meta)] | _ => [] end.
Definition log1 (a : action) : list (N * list N) := match a with ALog code meta => [(code, meta)] | _ => [] end.
Definition disabled (E : env) (c : client) : bool := vhost_disable_log (e_fnm E) (c_vhost c) (path_of c).

(** from [c] to [c'] only whole pairs of replies and log lines were added *)
Definition lk (E : env) (c c' : client) : Prop :=
  (c_vhost c' = c_vhost c /\ c_hs c' = c_hs c) /\ c_iri c' = c_iri c /\
  exists new, c_acts c' = c_acts c ++ new /\
    flat_map log1 new = if disabled E c then [] else flat_map rep1 new.

Lemma lk_refl E c : lk E c c.
Proof. split; [split; reflexivity|]. split; [reflexivity|]. exists []. split; [symmetry; apply app_nil_r|]. destruct (disabled E c); reflexivity. Qed.
Lemma lk_trans E a b c : lk E a b -> lk E b c -> lk E a c.
Proof.
  intros ((A1 & A0) & A2 & n1 & A3 & A4) ((B1 & B0) & B2 & n2 & B3 & B4). split; [split; congruence|]. split; [congruence|].
  exists (n1 ++ n2). split; [rewrite B3, A3, app_assoc; reflexivity|].
  assert (D : disabled E b = disabled E a) by (unfold disabled, path_of; rewrite A1, A2; reflexivity). rewrite D in B4.
  rewrite !flat_map_app, A4, B4. destruct (disabled E a); reflexivity.
Qed.
Lemma lk_same E c c' : c_vhost c' = c_vhost c -> c_hs c' = c_hs c -> c_iri c' = c_iri c -> c_acts c' = c_acts c -> lk E c c'.
Proof. intros A A0 B C. split; [split; assumption|]. split; [exact B|]. exists []. rewrite C, app_nil_r. split; [reflexivity|]. destruct (disabled E c); reflexivity. Qed.
Ltac lk_tac := apply lk_same; reflexivity.
Lemma lk_act E a c : rep1 a = [] -> log1 a = [] -> lk E c (act a c).
Proof.
  intros A B. split; [split; reflexivity|]. split; [reflexivity|]. exists [a]. split; [reflexivity|]. cbn [flat_map]. rewrite A, B. destruct (disabled E c); reflexivity.
Qed.

Lemma lk_add_out E s c : lk E c (add_out s c).
Proof. destruct s; lk_tac. Qed.
Lemma lk_emit E code meta h c : lk E c (emit E code meta h c).
Proof.
  unfold emit. cbv zeta.
  set (c1 := add_out (h ++ [13; 10]) (set_code code c)).
  assert (K : lk E c c1) by (eapply lk_trans; [|apply lk_add_out]; lk_tac).
  eapply lk_trans; [exact K|]. clearbody c1. clear K.
  assert (G : forall d, lk E c1 d -> lk E c1 (if code =? 20 then d else set_type DONE d)).
  { intros d X. destruct (code =? 20); [exact X|]. eapply lk_trans; [exact X|lk_tac]. }
  apply G. split; [destruct (vhost_disable_log _ _ _); split; reflexivity|]. split; [destruct (vhost_disable_log _ _ _); reflexivity|].
  unfold disabled. change (vhost_disable_log (e_fnm E) (c_vhost (act (AReply code meta) c1)) (path_of (act (AReply code meta) c1)))
    with (vhost_disable_log (e_fnm E) (c_vhost c1) (path_of c1)).
  destruct (vhost_disable_log (e_fnm E) (c_vhost c1) (path_of c1)).
  - exists [AReply code meta]. split; reflexivity.
  - exists [AReply code meta; ALog code meta]. split; [cbn [act c_acts]; rewrite <- app_assoc; reflexivity|reflexivity].
Qed.
Lemma lk_start E code meta c : lk E c (fst (start_reply E code meta c)).
Proof.
  unfold start_reply. destruct (header_line E c code meta) as [h l]. destruct (_ || _); cbn [fst]; [|apply lk_emit].
  eapply lk_trans; [|apply lk_emit]. lk_tac.
Qed.
Lemma lk_reply E code meta c : lk E c (reply E code meta c).
Proof. apply lk_start. Qed.
Lemma lk_close_pfd E c : lk E c (close_pfd c).
Proof. unfold close_pfd. destruct (c_pfd c); lk_tac. Qed.
Lemma lk_close E c : lk E c (client_close c).
Proof.
  unfold client_close. destruct (c_cgibev c) as [i|].
  - apply (lk_trans _ _ (close_pfd (set_cgi None (close_conn i (c_conns c)) c))); [|lk_tac].
    apply (lk_trans _ _ (set_cgi None (close_conn i (c_conns c)) c)); [lk_tac|apply lk_close_pfd].
  - apply (lk_trans _ _ (close_pfd c)); [apply lk_close_pfd|lk_tac].
Qed.

Lemma lk_write E a c c' : client_write a c = OK c' -> lk E c c'.
Proof.
  unfold client_write. destruct (c_type c) eqn:T.
  - intros Q; apply OK_inj in Q; subst; apply lk_refl.
  - destruct a as [|n]; [intros Q; apply OK_inj in Q; subst; eapply lk_trans; [|apply lk_close]; lk_tac|].
    destruct (c_pfd c); try (intros Q; apply OK_inj in Q; subst; eapply lk_trans; [|apply lk_close]; lk_tac).
    cbv zeta. destruct (_ =? 0)%nat; [intros Q; apply OK_inj in Q; subst; apply lk_close|].
    intros Q; apply OK_inj in Q; subst. eapply lk_trans; [|apply lk_add_out]. destruct (_ =? _)%nat; lk_tac.
  - intros Q. apply bind_ok in Q as (l & _ & Q). cbv zeta in Q. apply OK_inj in Q. subst.
    eapply (lk_trans _ _ (add_out l (set_type DONE (set_dir [] c)))); [|lk_tac]. eapply lk_trans; [|apply lk_add_out]. lk_tac.
  - intros Q; apply OK_inj in Q; subst; apply lk_refl.
  - intros Q; apply OK_inj in Q; subst; apply lk_refl.
  - intros Q; apply OK_inj in Q; subst. destruct (c_out c); [apply lk_close|apply lk_refl].
Qed.

Lemma lk_fcgi_error E c : lk E c (fcgi_error E c).
Proof. unfold fcgi_error. cbv zeta. eapply lk_trans; [apply lk_close_pfd|]. destruct (_ =? 0); [apply lk_reply|lk_tac]. Qed.
Lemma lk_stdout E s c : lk E c (fcgi_handle_stdout E s c).
Proof.
  unfold fcgi_handle_stdout. destruct (c_code c =? 0); [|apply lk_add_out]. cbv zeta.
  set (c1 := set_sbuf _ c). assert (K1 : lk E c c1) by lk_tac. eapply lk_trans; [exact K1|]. clearbody c1. clear K1.
  destruct (readln (c_sbuf c1)) as [[line t]|].
  2:{ destruct (_ =? SBUF)%nat; [apply lk_fcgi_error|apply lk_refl]. }
  destruct (status (N.eqb 32) line) as [[code meta]|]; [|apply lk_fcgi_error].
  pose proof (lk_start E code meta c1) as S.
  destruct (start_reply E code meta c1) as [c2 ok]. cbn [fst] in S. eapply lk_trans; [exact S|].
  destruct (negb ok || _ || _); [apply lk_fcgi_error|]. eapply lk_trans; apply lk_add_out.
Qed.
Lemma lk_fcgi_loop E : forall f s c s' c' err, fcgi_loop E f s c = OK (s', c', err) -> lk E c c'.
Proof.
  induction f as [|f IH]; intros s c s' c' err; cbn [fcgi_loop]; [discriminate|].
  assert (ST : forall (x : list N) (b : bool), OK (x, c, b) = OK (s', c', err) -> lk E c c') by (intros x b X; apply OK_inj in X; injection X as <- <- <-; apply lk_refl).
  destruct (c_type c); try (apply ST);
  (destruct s as [|? [|ty [|i1 [|i0 [|l1 [|l0 [|pad [|? body]]]]]]]]; try apply ST;
    cbv zeta; destruct (negb _); [apply ST|]; destruct (_ <? _)%nat; [apply ST|];
    destruct (ty =? FCGI_END_REQUEST);
    [ destruct (negb _); [apply ST|]; intros Q; apply IH in Q; eapply lk_trans; [|exact Q]; lk_tac
    | destruct (ty =? FCGI_STDERR); [apply IH|]; destruct (ty =? FCGI_STDOUT); [|apply ST];
      intros Q; apply IH in Q; eapply lk_trans; [|exact Q]; apply lk_stdout ]).
Qed.
Lemma lk_set_conn E i s c : lk E c (set_conn i s c).
Proof. unfold set_conn. destruct (nth_error (c_conns c) i); lk_tac. Qed.
Lemma lk_fcgi_read E i c c' : fcgi_read E i c = OK c' -> lk E c c'.
Proof.
  unfold fcgi_read. destruct (nth_error (c_conns c) i) as [k|]; [|discriminate].
  intros Q. apply bind_ok in Q as (((s & c1) & err) & LP & Q). apply lk_fcgi_loop in LP. cbv zeta in Q.
  pose proof (lk_trans _ _ _ _ LP (lk_set_conn E i s c1)) as K2. destruct err.
  - apply (lk_write E) in Q. eapply lk_trans; [|exact Q]. eapply lk_trans; [exact K2|apply lk_fcgi_error].
  - apply OK_inj in Q. subst c'. exact K2.
Qed.
Lemma lk_proxy_error E c c' : proxy_error E c = OK c' -> lk E c c'.
Proof.
  unfold proxy_error. cbv zeta. set (c1 := set_pfd PNone (set_up (c_pxy c) None c)).
  assert (K1 : lk E c c1) by lk_tac. destruct (c_code c1 =? 0).
  - intros Q. apply OK_inj in Q. subst c'. eapply lk_trans; [exact K1|apply lk_reply].
  - intros Q. apply (lk_write E) in Q. eapply lk_trans; [|exact Q]. eapply lk_trans; [exact K1|]. lk_tac.
Qed.
Lemma lk_proxy_read E s c c' : proxy_read E s c = OK c' -> lk E c c'.
Proof.
  unfold proxy_read.
  assert (MU : forall d x, lk E d (set_up (c_pxy d) (Some x) d)) by (intros; lk_tac).
  destruct (c_code c =? 0).
  2:{ intros Q. apply OK_inj in Q. subst c'. eapply lk_trans; [|apply lk_add_out]. apply MU. }
  assert (PE : forall d, lk E c d -> proxy_error E d = OK c' -> lk E c c').
  { intros d K1 Q. apply lk_proxy_error in Q. eapply lk_trans; eauto. }
  destruct (readln s) as [[line rest]|].
  2:{ destruct (1029 <? length s)%nat; [apply PE, MU|]. intros Q. apply OK_inj in Q. subst c'. apply MU. }
  cbv zeta. set (c1 := set_up (c_pxy c) (Some rest) c). assert (K1 : lk E c c1) by lk_tac.
  destruct ((length line <? 3)%nat || (1029 <? length line)%nat); [apply PE; exact K1|].
  destruct (status is_space line) as [[code meta]|]; [|apply PE; exact K1].
  pose proof (lk_start E code meta c1) as S.
  destruct (start_reply E code meta c1) as [c2 ok]. cbn [fst] in S. pose proof (lk_trans _ _ _ _ K1 S) as K2.
  destruct (negb ok || _ || _); [apply PE; exact K2|].
  intros Q. apply OK_inj in Q. subst c'. eapply lk_trans; [|apply lk_add_out]. eapply lk_trans; [exact K2|apply MU].
Qed.
Lemma lk_listing E v path entries c : lk E c (server_dir_listing E v path entries c).
Proof.
  unfold server_dir_listing. cbv zeta. destruct (negb _); [apply lk_reply|]. destruct entries as [ents|]; [|apply lk_reply].
  eapply lk_trans; [|apply lk_add_out]. eapply lk_trans; [|apply lk_reply]. lk_tac.
Qed.
Lemma lk_open_dir E v path look entries c c' : open_dir E v path look entries c = OK c' -> lk E c c'.
Proof.
  unfold open_dir. destruct (negb _ && negb _).
  { intros Q; apply OK_inj in Q; subst. unfold redirect_canonical_dir. destruct (_ <=? _)%nat; apply lk_reply. }
  cbv zeta. destruct (look _) as [| |[] content|]; intros Q; try (apply OK_inj in Q; subst; first [apply lk_listing|apply lk_reply]).
  apply bind_ok in Q as (ty & _ & Q). apply OK_inj in Q. subst. eapply lk_trans; [|apply lk_reply]. lk_tac.
Qed.
Lemma lk_file E fs v i c c' : serve_file E fs v i c = OK c' -> lk E c c'.
Proof.
  unfold serve_file. cbv zeta. destruct (vhost_dirfd _ _ _) as [fd|]; [|intros Q; apply OK_inj in Q; subst; apply lk_reply].
  set (p := match skip_slashes _ with [] => _ | _ => _ end). clearbody p.
  assert (K : lk E c (act (AOpen fd p) c)) by (apply lk_act; reflexivity).
  destruct (fs fd p) as [| |reg content|look entries].
  - intros Q; apply OK_inj in Q; subst. eapply lk_trans; [exact K|apply lk_reply].
  - intros Q; apply OK_inj in Q; subst. eapply lk_trans; [exact K|apply lk_reply].
  - intros Q. apply bind_ok in Q as (ty & _ & Q). apply OK_inj in Q. subst. eapply lk_trans; [|apply lk_reply]. eapply lk_trans; [exact K|lk_tac].
  - intros Q. apply lk_open_dir in Q. eapply lk_trans; [|exact Q]. eapply lk_trans; [exact K|lk_tac].
Qed.
Lemma lk_cert E ca c :
  match (match ca with Some a => check_matching_certificate E a c | None => inr c end) with inl c' => lk E c c' | inr c' => lk E c c' end.
Proof.
  destruct ca as [a|]; [|apply lk_refl]. unfold check_matching_certificate. destruct (e_cert E); [|apply lk_reply]. cbv zeta.
  assert (K : lk E c (act (AVerify a) c)) by (apply lk_act; reflexivity).
  destruct (e_valid E a); [exact K|]. eapply lk_trans; [exact K|apply lk_reply].
Qed.
Lemma lk_enqueue E p i c c' : proxy_enqueue_req E p i c = OK c' -> lk E c c'.
Proof.
  unfold proxy_enqueue_req. intros Q. apply bind_ok in Q as (l & _ & Q). apply OK_inj in Q. subst c'.
  eapply lk_trans; [|apply lk_act; reflexivity]. lk_tac.
Qed.
Lemma lk_proxy E v i c r : apply_reverse_proxy E v i c = OK r -> match r with Some c' => lk E c c' | None => True end.
Proof.
  unfold apply_reverse_proxy. destruct (matched_proxy _ _ _ _ _) as [p|]; [|intros Q; apply OK_inj in Q; subst; exact Logic.I].
  cbv zeta. set (c1 := set_up (Some p) (c_up c) c). assert (K1 : lk E c c1) by lk_tac.
  pose proof (lk_cert E (p_reqca p) c1) as CL.
  destruct (match p_reqca p with Some a => check_matching_certificate E a c1 | None => inr c1 end) as [c2|c2];
    pose proof (lk_trans _ _ _ _ K1 CL) as K2.
  { intros Q. apply OK_inj in Q. subst r. exact K2. }
  destruct (negb _). { intros Q. apply OK_inj in Q. subst r. eapply lk_trans; [exact K2|apply lk_reply]. }
  assert (K3 : lk E c (set_pfd PUp c2)) by (eapply lk_trans; [exact K2|lk_tac]).
  destruct (p_notls p).
  - intros Q. apply bind_ok in Q as (c3 & EQ & Q). apply OK_inj in Q. subst r. apply lk_enqueue in EQ.
    eapply lk_trans; [exact K3|]. eapply lk_trans; [exact EQ|lk_tac].
  - destruct (e_uptls E p); intros Q; apply OK_inj in Q; subst r; (eapply lk_trans; [exact K3|]); [lk_tac|apply lk_reply].
Qed.
Lemma lk_dispatch E fs v i asked c c' : dispatch E fs v i asked c = OK c' -> lk E c c'.
Proof.
  unfold dispatch. intros Q. apply bind_ok in Q as (r & AR & Q). apply lk_proxy in AR. destruct r as [c1|]; [apply OK_inj in Q; subst; exact AR|].
  revert Q. destruct (_ || _); [intros Q; apply OK_inj in Q; subst; apply lk_reply|].
  pose proof (lk_cert E (vhost_require_ca (e_fnm E) v (c_path i)) c) as CL.
  destruct (match vhost_require_ca (e_fnm E) v (c_path i) with Some a => check_matching_certificate E a c | None => inr c end) as [c1|c1].
  { intros Q. apply OK_inj in Q. subst. exact CL. }
  intros Q. eapply lk_trans; [exact CL|]. clear CL c AR. rename c1 into c.
  apply bind_ok in Q as (r & BR & Q). unfold apply_block_return in BR. destruct (vhost_block_return _ _ _) as [[code fmt]|].
  { apply bind_ok in BR as (m & _ & BR). apply OK_inj in BR. subst r. apply OK_inj in Q. subst. apply lk_reply. }
  apply OK_inj in BR. subst r. apply bind_ok in Q as (r & FR & Q). unfold apply_fastcgi in FR.
  destruct (vhost_fastcgi _ _ _) as [l|]; [|apply OK_inj in FR; subst r; apply lk_file in Q; exact Q].
  destruct (l_fcgi l) as [n|]; [|apply OK_inj in FR; subst r; apply lk_file in Q; exact Q].
  destruct (nth_error _ n); [|apply OK_inj in FR; subst r; apply lk_file in Q; exact Q].
  destruct (negb _).
  - apply OK_inj in FR. subst r. apply OK_inj in Q. subst. eapply lk_trans; [|apply lk_reply]. lk_tac.
  - cbv zeta in FR. apply bind_ok in FR as (b & _ & FR). apply OK_inj in FR. subst r. apply OK_inj in Q. subst.
    eapply lk_trans; [|apply lk_act; reflexivity]. lk_tac.
Qed.

(** one event: whatever was decided about the request, [lk] from there *)
Definition lk0 (E : env) (c c' : client) : Prop := exists c1, (c_acts c1 = c_acts c /\ (c_hs c = true -> c_hs c1 = true /\ c_vhost c1 = c_vhost c)) /\ lk E c1 c'.
Lemma lk_lk0 E c c' : lk E c c' -> lk0 E c c'.
Proof. exists c. split; [split; auto|assumption]. Qed.

Lemma lk_read E fs c c' : client_read E fs c = OK c' -> lk0 E c c'.
Proof.
  unfold client_read. assert (SK : OK c = OK c' -> lk0 E c c') by (intros Q; apply OK_inj in Q; subst; apply lk_lk0, lk_refl).
  destruct (c_type c) eqn:T; try exact SK.
  assert (RP : forall code m d, c_acts d = c_acts c -> c_hs d = c_hs c -> c_vhost d = c_vhost c -> OK (reply E code m d) = OK c' -> lk0 E c c').
  { intros code m d X X1 X2 Q. apply OK_inj in Q. subst c'. exists d. split; [split; [exact X|intros Y; split; congruence]|apply lk_reply]. }
  destruct (1026 <? length (c_in c))%nat; [apply RP; reflexivity|].
  destruct (readln (c_in c)) as [[line rest]|]; [|exact SK]. cbv zeta.
  destruct (1026 <? length line)%nat; [apply RP; reflexivity|]. destruct (existsb _ _); [apply RP; reflexivity|].
  intros Q. apply bind_ok in Q as ((b & p) & PE & Q). destruct (comps_of p) as [i|]; [|discriminate].
  destruct b; cbn [negb] in Q; [|revert Q; apply RP; reflexivity].
  apply bind_ok in Q as (d & PD & Q). destruct d as [|[] out]; [discriminate| |revert Q; apply RP; reflexivity].
  destruct (cstr out) as [asked|]; [|discriminate]. destruct (c_vhost _) as [v|]; [|discriminate].
  apply lk_dispatch in Q. exists (set_iri (Some i) (set_in rest c)). split; [split; [reflexivity|split; [assumption|reflexivity]]|exact Q].
Qed.
Lemma lk_handshake E sni c c' : c_hs c = false -> handle_handshake E sni c = OK c' -> lk0 E c c'.
Proof.
  intros Hs. assert (RH : forall d m, OK (reply E 59 m (set_host d None c)) = OK c' -> lk0 E c c').
  { intros d m Q. apply OK_inj in Q. subst. exists (set_host d None c). split; [split; [reflexivity|congruence]|apply lk_reply]. }
  unfold handle_handshake. intros Q. apply bind_ok in Q as (d & PD & Q). destruct d as [|[] out]; [discriminate| |apply RH in Q; exact Q].
  destruct (cstr out) as [dom|]; [|discriminate]. cbv zeta in Q. set (dm := match dom with [] => _ | _ => _ end) in *.
  destruct (find_host _ _ dm) as [v|]; [|apply RH in Q; exact Q].
  apply OK_inj in Q; subst c'. exists (set_host dm (Some v) c). split; [split; [reflexivity|congruence]|apply lk_refl].
Qed.

Lemma step_lk E e c c' : step E e c = Some (OK c') -> lk0 E c c'.
Proof.
  destruct e as [sni| |chunk fs| |n a| |i chunk|i|r|chunk|]; unfold step; cbv zeta.
  - destruct (negb (c_closed c) && negb (c_hs c)) eqn:B; [|discriminate]. apply andb_true_iff in B as [_ B]. apply negb_true_iff in B.
    intros Q. injection Q as Q. eapply lk_handshake; eauto.
  - destruct (_ && _); [|discriminate]. intros Q. injection Q as <-. apply lk_lk0, lk_close.
  - destruct (_ && _); [|discriminate]. intros Q. injection Q as Q. apply lk_read in Q. destruct Q as (c1 & A & L). exists c1. split; [exact A|exact L].
  - destruct (_ && _); [|discriminate]. intros Q. injection Q as <-. unfold client_error. cbn [andb]. apply lk_lk0. eapply lk_trans; [|apply lk_close]. lk_tac.
  - destruct (_ && _); [|discriminate]. intros Q. injection Q as Q. apply lk_lk0.
    set (k := Nat.min _ _) in Q. set (out := skipn k (c_out c)) in Q. set (c1 := set_io out _ _ c) in *. assert (T1 : lk E c c1) by lk_tac.
    destruct out; [apply (lk_write E) in Q; exact (lk_trans _ _ _ _ T1 Q)|apply OK_inj in Q; subst c'; exact T1].
  - destruct (_ && _); [|discriminate]. intros Q. injection Q as <-. unfold client_error. cbn [andb]. apply lk_lk0. eapply lk_trans; [|apply lk_close]. lk_tac.
  - destruct (nth_error (c_conns c) i) as [k|]; [|discriminate]. destruct (k_open k && _); [|discriminate]. destruct (negb _); [|discriminate].
    intros Q. injection Q as Q. apply lk_fcgi_read in Q. apply lk_lk0. exact (lk_trans _ _ _ _ (lk_set_conn _ _ _ _) Q).
  - destruct (nth_error (c_conns c) i) as [k|]; [|discriminate]. destruct (k_open k); [|discriminate]. destruct (negb _); [|discriminate].
    intros Q. injection Q as <-. apply lk_lk0. eapply lk_trans; [|apply lk_fcgi_error]. lk_tac.
  - destruct (c_type c); try discriminate. destruct (c_pxy c) as [p|]; [|discriminate]. destruct (c_up c); [discriminate|].
    destruct (c_iri c) as [i|]; [|discriminate]. destruct (_ && _); [|discriminate].
    intros Q. injection Q as Q. apply lk_lk0. destruct r; [apply lk_enqueue in Q; exact Q| |]; apply OK_inj in Q; subst c'; apply lk_reply.
  - destruct (c_up c) as [s|]; [|discriminate]. destruct (_ && _); [|discriminate]. intros Q. injection Q as Q. apply lk_lk0. eapply lk_proxy_read; eauto.
  - destruct (c_up c) as [s|]; [|discriminate]. destruct (negb _); [|discriminate]. intros Q. injection Q as Q. apply lk_lk0. eapply lk_proxy_error; eauto.
Qed.
