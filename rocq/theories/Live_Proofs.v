From Coq Require Import Lia.
From Verif Require Import Base BaseLemmas Compat Iri IriSpec IriObs IriOut Puny Conf ConfSpec Mime Prop_Conf Fmt Fcgi Server ServerSpec Iri_Last_Proofs Server_Proofs Decide_Proofs RequestSpec Request_Proofs HistorySpec Run_Proofs Wiring_Proofs Hist_Proofs LiveSpec.
Local Open Scope N_scope.

Lemma civil_polite E es c : civil_history E es c -> polite_history E es c.
Proof. induction 1; econstructor; eauto. Qed.

(** a whole request is not left unread *)
Definition unread (c : client) : Prop := readln (c_in c) = None /\ (length (c_in c) <= 1026)%nat.

Definition W (c : client) : Prop :=
  c_closed c = false ->
  (c_out c <> [] -> c_wev c = true) /\
  (decided c -> c_wev c = true) /\
  (c_type c = RPROXY -> c_up c <> None \/ exists p, c_pxy c = Some p /\ p_notls p = false /\ c_iri c <> None) /\
  c_type c <> RFCGI /\
  (c_type c = UNDECIDED -> forall k, In k (c_conns c) -> k_open k = true) /\
  (c_type c = UNDECIDED -> c_cgibev c = None -> unread c).

(** a write is pending and the type says who goes on *)
Lemma W_done c : c_wev c = true -> c_type c = DONE -> W c.
Proof.
  intros H T L. rewrite T. split; [auto|]. split; [auto|]. split; [discriminate|]. split; [discriminate|]. split; discriminate.
Qed.
Lemma W_sent c : c_wev c = true -> decided c -> W c.
Proof.
  intros H [T|[T|T]] L; rewrite T; (split; [auto|]; split; [auto|]; split; [discriminate|]; split; [discriminate|]; split; discriminate).
Qed.
Lemma W_closed c : c_closed c = true -> W c. Proof. intros H L. congruence. Qed.

Lemma reply_done E code meta c : 10 <= code < 100 -> code <> 20 -> c_wev (reply E code meta c) = true /\ c_type (reply E code meta c) = DONE.
Proof.
  intros H N. pose proof (reply_spec E code meta c ltac:(lia) ltac:(lia)) as R. cbv zeta in R. destruct R as (_ & A & R). split; [exact A|].
  destruct (fits E c meta); destruct R as (_ & _ & T & _); [|exact T]. rewrite T. destruct (N.eqb_spec code 20); [contradiction|reflexivity].
Qed.
Lemma reply_W E code meta c : 10 <= code < 100 -> code <> 20 -> W (reply E code meta c).
Proof. intros H N. destruct (reply_done E code meta c H N). apply W_done; assumption. Qed.
Lemma reply20_W E meta c : c_type c = RFILE \/ c_type c = RDIR -> W (reply E 20 meta c).
Proof.
  intros T. pose proof (reply_spec E 20 meta c ltac:(lia) ltac:(lia)) as R. cbv zeta in R. destruct R as (_ & A & R). apply W_sent; [exact A|].
  destruct (fits E c meta); destruct R as (_ & _ & X & _); unfold decided; rewrite X; [change (20 =? 20) with true; cbn iota; tauto|auto].
Qed.
Lemma add_out_wev s c : c_wev c = true -> c_wev (add_out s c) = true.
Proof. destruct s; auto. Qed.

Lemma listing_W E v path entries c : W (server_dir_listing E v path entries c).
Proof.
  unfold server_dir_listing. cbv zeta. destruct (negb _); [apply reply_W; lia|]. destruct entries as [es|]; [|apply reply_W; lia].
  set (c1 := set_type RDIR _). pose proof (reply_spec E 20 (s2b "text/gemini") c1 ltac:(lia) ltac:(lia)) as R. cbv zeta in R. destruct R as (_ & A & R).
  apply W_sent; [apply add_out_wev; exact A|]. unfold decided. rewrite add_out_type. destruct (fits E c1 _); destruct R as (_ & _ & X & _); rewrite X; auto.
Qed.

Lemma file_W E fs v i c c' : serve_file E fs v i c = OK c' -> W c'.
Proof.
  unfold serve_file. cbv zeta. destruct (vhost_dirfd _ _ _) as [fd|]; [|intros Q; apply OK_inj in Q; subst; apply reply_W; lia].
  set (p := match skip_slashes _ with [] => _ | _ => _ end). destruct (fs fd p) as [| |reg ct|look es].
  - intros Q; apply OK_inj in Q; subst; apply reply_W; lia.
  - intros Q; apply OK_inj in Q; subst; apply reply_W; lia.
  - intros Q. apply bind_ok in Q as (m & _ & Q). apply OK_inj in Q. subst. apply reply20_W. left. reflexivity.
  - unfold open_dir. destruct (_ && _).
    + intros Q; apply OK_inj in Q; subst. unfold redirect_canonical_dir. cbv zeta. destruct (_ <=? _)%nat; apply reply_W; lia.
    + cbv zeta. destruct (look _) as [| |[] ct|? ?]; intros Q; try (apply OK_inj in Q; subst; first [apply listing_W|apply reply_W; lia]).
      apply bind_ok in Q as (m & _ & Q). apply OK_inj in Q. subst. apply reply20_W. left. reflexivity.
Qed.

Lemma cert_W E ca c c' : (match ca with Some a => check_matching_certificate E a c | None => inr c end) = inl c' -> W c'.
Proof.
  destruct ca as [a|]; [|discriminate]. unfold check_matching_certificate. destruct (e_cert E).
  - cbv zeta. destruct (e_valid E a); [discriminate|]. intros Q. injection Q as <-. apply reply_W; lia.
  - intros Q. injection Q as <-. apply reply_W; lia.
Qed.
Lemma cert_keeps E ca c c' : (match ca with Some a => check_matching_certificate E a c | None => inr c end) = inr c' ->
  c_out c' = c_out c /\ c_type c' = c_type c /\ c_pxy c' = c_pxy c /\ c_iri c' = c_iri c /\ c_conns c' = c_conns c /\ c_up c' = c_up c.
Proof.
  destruct ca as [a|]; [|intros Q; injection Q as <-; auto 10]. unfold check_matching_certificate. destruct (e_cert E); [|discriminate].
  cbv zeta. destruct (e_valid E a); [|discriminate]. intros Q. injection Q as <-. auto 10.
Qed.

Lemma dispatch_W E fs v i asked c c' : codes_ok v -> c_out c = [] -> c_type c = UNDECIDED -> c_conns c = [] -> c_iri c = Some i ->
  dispatch E fs v i asked c = OK c' -> W c'.
Proof.
  intros HC HO HT HN HI. unfold dispatch. intros Q. apply bind_ok in Q as (r & AR & Q).
  unfold apply_reverse_proxy in AR. destruct (matched_proxy _ _ _ _ _) as [p|].
  - cbv zeta in AR. set (c1 := set_up (Some p) (c_up c) c) in *.
    destruct (match p_reqca p with Some ca => _ | None => _ end) as [c2|c2] eqn:CE.
    + apply OK_inj in AR. subst r. apply OK_inj in Q. subst c'. eapply cert_W; eauto.
    + apply cert_keeps in CE as (K1 & K2 & K3 & K4 & K5 & K6). destruct (negb (e_upstream E p)).
      { apply OK_inj in AR. subst r. apply OK_inj in Q. subst c'. apply reply_W; lia. }
      destruct (p_notls p) eqn:NT.
      * apply bind_ok in AR as (c3 & PE & AR). apply OK_inj in AR. subst r. apply OK_inj in Q. subst c'.
        unfold proxy_enqueue_req in PE. apply bind_ok in PE as (line & _ & PE). apply OK_inj in PE. subst c3.
        intros _. cbn. split; [intros X; exfalso; apply X; rewrite K1; exact HO|]. split; [intros [X|[X|X]]; discriminate|]. split; [left; discriminate|].
        split; [discriminate|]. split; discriminate.
      * destruct (e_uptls E p); apply OK_inj in AR; subst r; apply OK_inj in Q; subst c'; [|apply reply_W; lia].
        intros _. cbn. split; [intros X; exfalso; apply X; rewrite K1; exact HO|]. split; [intros [X|[X|X]]; discriminate|].
        split; [right; exists p; rewrite K3, K4; cbn; rewrite HI; repeat split; auto; discriminate|]. split; [discriminate|]. split; discriminate.
  - apply OK_inj in AR. subst r.
    destruct (negb _ || negb _); [apply OK_inj in Q; subst; apply reply_W; lia|].
    destruct (match vhost_require_ca (e_fnm E) v (c_path i) with Some a => _ | None => _ end) as [c1|c1] eqn:CE.
    { apply OK_inj in Q. subst. eapply cert_W; eauto. }
    apply cert_keeps in CE as (K1 & K2 & K3 & K4 & K5 & K6).
    apply bind_ok in Q as (r & AB & Q). unfold apply_block_return in AB.
    destruct (governs_exists (e_fnm E) (c_path i) (fun l => l_block_code l <> 0) (fun l => negb (l_block_code l =? 0)) v) as (lb & Gb); [intros l; lia|].
    rewrite (Prop_Conf.c13_block _ _ _ _ Gb) in AB.
    assert (CB : l_block_code lb = 0 \/ 10 <= l_block_code lb < 20 \/ 30 <= l_block_code lb < 70).
    { unfold codes_ok in HC. rewrite Forall_forall in HC. apply HC. eapply governs_in; eauto. }
    destruct (N.eqb_spec (l_block_code lb) 0).
    + apply OK_inj in AB. subst r. apply bind_ok in Q as (r & AF & Q). unfold apply_fastcgi in AF.
      destruct (vhost_fastcgi _ _ _) as [l|]; [|apply OK_inj in AF; subst r; eapply file_W; eauto].
      destruct (l_fcgi l) as [n|]; [|apply OK_inj in AF; subst r; eapply file_W; eauto].
      destruct (nth_error _ _); [|apply OK_inj in AF; subst r; eapply file_W; eauto].
      destruct (negb (e_fcgi E n)).
      * apply OK_inj in AF. subst r. apply OK_inj in Q. subst c'. apply reply_W; lia.
      * cbv zeta in AF. apply bind_ok in AF as (b & _ & AF). apply OK_inj in AF. subst r. apply OK_inj in Q. subst c'.
        intros _. cbn [act set_pfd set_cgi c_out c_wev c_type c_conns c_cgibev decided]. unfold decided. cbn [act set_pfd set_cgi c_type].
        rewrite K1, K2, K5, HO, HT, HN. split; [congruence|]. split; [intros [X|[X|X]]; discriminate|]. split; [discriminate|]. split; [discriminate|].
        split; [intros _ k [<-|[]]; reflexivity|discriminate].
    + cbv zeta in AB. apply bind_ok in AB as (meta & _ & AB). apply OK_inj in AB. subst r. apply OK_inj in Q. subst c'. apply reply_W; lia.
Qed.

Lemma client_read_W E fs c c' : conf_ok E -> (forall v, c_vhost c = Some v -> In v (c_hosts (e_conf E))) ->
  (c_type c = UNDECIDED -> plain c /\ c_out c = []) -> (c_type c <> UNDECIDED -> W c) ->
  client_read E fs c = OK c' -> W c'.
Proof.
  intros HO HV HP HW. unfold client_read.
  destruct (c_type c) eqn:T; try (intros Q; apply OK_inj in Q; subst; apply HW; discriminate). destruct (HP eq_refl) as (((P1 & P2 & P3 & P4) & P5 & P6) & O).
  destruct (Nat.ltb_spec 1026 (length (c_in c))) as [LL|LL]; [intros Q; apply OK_inj in Q; subst; apply reply_W; lia|].
  destruct (readln (c_in c)) as [[line rest]|] eqn:RL.
  2:{ intros Q; apply OK_inj in Q; subst. intros _. rewrite T, O, P1. split; [congruence|]. unfold decided. rewrite T. split; [intros [X|[X|X]]; discriminate|].
      split; [discriminate|]. split; [discriminate|]. split; [intros _ k []|]. intros _ _. split; assumption. }
  cbv zeta. destruct (_ <? _)%nat; [intros Q; apply OK_inj in Q; subst; apply reply_W; lia|].
  destruct (existsb _ _); [intros Q; apply OK_inj in Q; subst; apply reply_W; lia|].
  intros Q. apply bind_ok in Q as ((ok & q) & _ & Q). destruct (comps_of q) as [i|]; [|discriminate]. cbv zeta in Q.
  destruct (negb ok); [apply OK_inj in Q; subst; apply reply_W; lia|].
  apply bind_ok in Q as (d & _ & Q). destruct d as [|[] out]; [discriminate| |apply OK_inj in Q; subst; apply reply_W; lia].
  destruct (cstr out) as [asked|]; [|discriminate]. cbn [set_iri set_in c_vhost] in Q. destruct (c_vhost c) as [v|]; [|discriminate].
  eapply dispatch_W; [..|exact Q]; try assumption; try reflexivity.
  unfold conf_ok in HO. rewrite Forall_forall in HO. apply HO, HV. reflexivity.
Qed.

Lemma client_write_W a c c' : c_closed c = false -> W c \/ (c_type c = DONE) \/ (c_type c = RFILE \/ c_type c = RDIR) -> (c_out c <> [] -> c_wev c = true) ->
  client_write a c = OK c' -> W c'.
Proof.
  intros L H HW. unfold client_write. destruct (c_type c) eqn:T.
  - intros Q; apply OK_inj in Q; subst. destruct H as [H|[H|[H|H]]]; [exact H|congruence..].
  - assert (CL : forall x, W (client_close x)) by (intros x; apply W_closed; unfold client_close; reflexivity).
    destruct a as [|n]; [intros Q; apply OK_inj in Q; subst; apply CL|].
    destruct (c_pfd c) as [|rest| | |]; try (intros Q; apply OK_inj in Q; subst; apply CL).
    cbv zeta. set (r := Nat.min _ _). destruct (Nat.eqb_spec r 0) as [Z|Z]; [intros Q; apply OK_inj in Q; subst; apply CL|].
    assert (FN : firstn r rest <> []) by (destruct rest; [unfold r in Z; cbn [length] in Z; lia|destruct r; [lia|discriminate]]).
    intros Q. apply OK_inj in Q. subst c'. apply W_sent; [rewrite (add_out_eq _ _ FN); reflexivity|]. unfold decided. rewrite add_out_type.
    destruct (r =? BUFSIZ)%nat; [left; exact T|right; right; reflexivity].
  - intros Q. apply bind_ok in Q as (l & _ & Q). cbv zeta in Q. apply OK_inj in Q. subst c'. apply W_done; [reflexivity|].
    cbn [set_io c_type]. rewrite add_out_type. reflexivity.
  - intros Q; apply OK_inj in Q; subst. destruct H as [H|[H|[H|H]]]; [exact H|congruence..].
  - intros Q; apply OK_inj in Q; subst. destruct H as [H|[H|[H|H]]]; [exact H|congruence..].
  - destruct (c_out c) as [|x o] eqn:O; intros Q; apply OK_inj in Q; subst; [apply W_closed; reflexivity|].
    apply W_done; [apply HW; discriminate|exact T].
Qed.

(** FastCGI *)
(** nothing waits to be sent without a write event *)
Definition flows (c : client) : Prop := c_out c <> [] -> c_wev c = true.
Lemma flows_add s c : flows c -> flows (add_out s c).
Proof. unfold flows. destruct s; [auto|reflexivity]. Qed.
Lemma fcgi_error_flows E c : flows c -> flows (fcgi_error E c) /\ c_type (fcgi_error E c) = DONE.
Proof.
  intros H. unfold fcgi_error. cbv zeta. assert (H1 : flows (close_pfd c)) by (unfold close_pfd; destruct (c_pfd c); exact H).
  destruct (_ =? 0).
  - destruct (reply_done E 42 (s2b "CGI error") (close_pfd c) ltac:(lia) ltac:(lia)) as (A & B). split; [intros _; exact A|exact B].
  - split; [exact H1|reflexivity].
Qed.

(** still open, if the reply is not over *)
Definition goes_on (c : client) : Prop := flows c /\ (c_type c = UNDECIDED -> forall k, In k (c_conns c) -> k_open k = true) /\ c_type c <> RFCGI /\ c_cgibev c <> None /\
  c_closed c = false /\ c_type c <> RPROXY /\ (c_type c = RFILE \/ c_type c = RDIR -> c_wev c = true).
Lemma goes_done c : flows c -> c_cgibev c <> None -> c_closed c = false -> c_type c = DONE -> goes_on c.
Proof. intros H1 H2 H3 H4. unfold goes_on. rewrite H4. repeat split; auto; try congruence. intros [X|X]; discriminate. Qed.
Lemma fcgi_error_goes E c : goes_on c -> goes_on (fcgi_error E c).
Proof.
  intros (H1 & H2 & H3 & H4 & H5 & H6 & H7). destruct (fcgi_error_flows E c H1) as (A & B). apply goes_done; auto.
  - unfold fcgi_error. cbv zeta. assert (c_cgibev (close_pfd c) <> None) by (unfold close_pfd; destruct (c_pfd c); exact H4).
    destruct (_ =? 0); [|exact H]. destruct (reply_same E 42 (s2b "CGI error") (close_pfd c) ltac:(lia)) as (_ & _ & _ & _ & _ & _ & _ & _ & _ & _ & S & _). rewrite S. exact H.
  - unfold fcgi_error. cbv zeta. assert (c_closed (close_pfd c) = false) by (unfold close_pfd; destruct (c_pfd c); exact H5).
    destruct (_ =? 0); [|exact H]. destruct (reply_same E 42 (s2b "CGI error") (close_pfd c) ltac:(lia)) as (_ & S & _). rewrite S. exact H.
Qed.
Lemma add_out_goes s c : goes_on c -> goes_on (add_out s c).
Proof.
  intros (H1 & H2 & H3 & H4 & H5 & H6 & H7). destruct (add_out_same s c) as (_ & S1 & _ & _ & _ & _ & _ & _ & _ & _ & S2 & S3 & _).
  unfold goes_on. rewrite add_out_type, S1, S2, S3. split; [apply flows_add; exact H1|]. repeat split; auto. intros X. apply add_out_wev. auto.
Qed.
Lemma stdout_goes E s c : goes_on c -> goes_on (fcgi_handle_stdout E s c).
Proof.
  intros H. unfold fcgi_handle_stdout. destruct (c_code c =? 0); [|apply add_out_goes; exact H].
  cbv zeta. set (l := Nat.min _ _). set (c1 := set_sbuf _ c). set (rest := skipn l s). clearbody rest.
  assert (H1 : goes_on c1) by exact H. clearbody c1.
  destruct (readln (c_sbuf c1)) as [[line t]|].
  2:{ destruct (length (c_sbuf c1) =? SBUF)%nat; [apply fcgi_error_goes; auto|auto]. }
  destruct (status (N.eqb 32) line) as [[code meta]|] eqn:ST; [|apply fcgi_error_goes; auto].
  apply status_range in ST. pose proof (start_reply_spec E code meta c1 ltac:(lia) ltac:(lia)) as R.
  destruct (start_reply E code meta c1) as [c2 ok]. destruct R as (_ & S & WV & R).
  assert (H2 : goes_on c2).
  { destruct H1 as (A1 & A2 & A3 & A4 & A5 & A6 & A7). destruct S as (_ & S1 & _ & _ & _ & _ & _ & _ & _ & _ & S2 & S3 & _).
    assert (TT : c_type c2 = c_type c1 \/ c_type c2 = DONE) by (destruct ok; destruct R as (_ & _ & X & _); [destruct (code =? 20)|]; auto).
    unfold goes_on. rewrite S1, S2, S3. split; [intros _; exact WV|]. destruct TT as [-> | ->]; repeat split; auto; congruence. }
  destruct (negb ok || (c_code c2 <? 20) || (29 <? c_code c2)); [apply fcgi_error_goes; exact H2|].
  apply add_out_goes, add_out_goes; exact H2.
Qed.
Lemma fcgi_loop_goes E : forall f s c s' c' err, goes_on c -> fcgi_loop E f s c = OK (s', c', err) -> goes_on c'.
Proof.
  induction f as [|f IH]; intros s c s' c' err H; cbn [fcgi_loop]; [discriminate|].
  assert (ST : forall x b, OK (x, c, b) = OK (s', c', err) -> goes_on c') by (intros x b X; apply OK_inj in X; injection X as <- <- <-; auto).
  assert (G : (match s with
      | v :: ty :: i1 :: i0 :: l1 :: l0 :: pad :: rsv :: body =>
        if negb (i0 + N.shiftl i1 8 =? 1) then OK (s, c, true) else
        let len := N.to_nat (l0 + N.shiftl l1 8) in
        if (length body <? len + N.to_nat pad)%nat then OK (s, c, false) else
        let content := firstn len body in
        let rest := skipn (len + N.to_nat pad) body in
        if ty =? FCGI_END_REQUEST then
          if negb (len =? 8)%nat then OK (body, c, true)
          else fcgi_loop E f rest (set_type DONE c)
        else if ty =? FCGI_STDERR then fcgi_loop E f rest c
        else if ty =? FCGI_STDOUT then fcgi_loop E f rest (fcgi_handle_stdout E content c)
        else OK (body, c, true)
      | _ => OK (s, c, false)
      end) = OK (s', c', err) -> goes_on c').
  { destruct s as [|? [|ty [|i1 [|i0 [|l1 [|l0 [|pad [|? body]]]]]]]]; try apply ST.
    cbv zeta. destruct (negb _); [apply ST|].
    destruct (_ <? _)%nat; [apply ST|].
    destruct (ty =? FCGI_END_REQUEST).
    - destruct (negb _); [apply ST|]. apply IH. destruct H as (A1 & A2 & A3 & A4 & A5 & A6 & A7). apply goes_done; auto.
    - destruct (ty =? FCGI_STDERR); [apply IH; auto|].
      destruct (ty =? FCGI_STDOUT); [|apply ST]. apply IH. apply stdout_goes; exact H. }
  destruct (c_type c); eauto.
Qed.

Lemma fcgi_loop_more E : forall f s c s' c', fcgi_loop E f s c = OK (s', c', false) -> c_type c' <> DONE.
Proof.
  induction f as [|f IH]; intros s c s' c'; cbn [fcgi_loop]; [discriminate|]. destruct (c_type c) eqn:T; try discriminate.
  all: destruct s as [|? [|ty [|i1 [|i0 [|l1 [|l0 [|pad [|? body]]]]]]]]; try (intros X; apply OK_inj in X; injection X as <- <-; congruence).
  all: cbv zeta; destruct (negb _); [discriminate|]; destruct (_ <? _)%nat; [intros X; apply OK_inj in X; injection X as <- <-; congruence|].
  all: destruct (ty =? FCGI_END_REQUEST); [destruct (negb _); [discriminate|]; apply IH|].
  all: destruct (ty =? FCGI_STDERR); [apply IH|]; destruct (ty =? FCGI_STDOUT); [apply IH|discriminate].
Qed.
Lemma goes_W c : goes_on c -> c_type c <> DONE -> W c.
Proof.
  intros (A1 & A2 & A3 & A4 & A5 & A6 & A7) N _. split; [exact A1|]. split; [intros [X|[X|X]]; [auto|auto|contradiction]|]. split; [intros X; contradiction|].
  split; [exact A3|]. split; [exact A2|]. intros _ X. contradiction.
Qed.
Lemma W_goes c : W c -> KF c -> goes_on c.
Proof.
  intros H F. destruct (KF_one c F) as (k & _ & B2 & B3 & _). destruct F as (_ & L & _ & _). destruct (H L) as (H1 & H2 & H3 & H4 & H5 & H6).
  split; [exact H1|]. split; [exact H5|]. split; [exact H4|]. split; [congruence|]. split; [exact L|]. split; [exact B3|].
  intros [X|X]; apply H2; unfold decided; auto.
Qed.
Lemma set_conn_goes i s c : goes_on c -> goes_on (set_conn i s c).
Proof.
  intros (A1 & A2 & A3 & A4 & A5 & A6 & A7). unfold set_conn. destruct (nth_error (c_conns c) i) as [k|] eqn:NE; [|repeat split; assumption].
  split; [exact A1|]. split; [|repeat split; assumption]. cbn [set_cgi c_type c_conns]. intros T k' IN.
  apply in_app_or in IN as [IN|[<-|IN]].
  - apply A2; [exact T|]. rewrite <- (firstn_skipn i (c_conns c)). apply in_or_app. left. exact IN.
  - cbn. apply A2; [exact T|]. eapply nth_error_In; eauto.
  - apply A2; [exact T|]. rewrite <- (firstn_skipn (S i) (c_conns c)). apply in_or_app. right. exact IN.
Qed.
Lemma fcgi_read_W E i c c' : goes_on c -> fcgi_read E i c = OK c' -> W c'.
Proof.
  intros H. unfold fcgi_read. destruct (nth_error (c_conns c) i) as [k|]; [|discriminate].
  intros Q. apply bind_ok in Q as (((s & c1) & err) & LP & Q). pose proof (fcgi_loop_goes _ _ _ _ _ _ _ H LP) as H1. cbv zeta in Q.
  pose proof (set_conn_goes i s c1 H1) as H2. destruct err.
  - destruct (fcgi_error_goes E _ H2) as (B1 & _ & _ & _ & B5 & _). destruct (fcgi_error_flows E (set_conn i s c1) ltac:(apply H2)) as (_ & T).
    eapply client_write_W; [exact B5|right; left; exact T|exact B1|exact Q].
  - apply OK_inj in Q. subst c'. apply goes_W; [exact H2|]. apply fcgi_loop_more in LP. unfold set_conn. destruct (nth_error (c_conns c1) i); exact LP.
Qed.

(** the upstream *)
Lemma proxy_error_W E c c' : c_closed c = false -> flows c -> proxy_error E c = OK c' -> W c'.
Proof.
  intros L F. unfold proxy_error. cbv zeta. set (c1 := set_pfd PNone (set_up (c_pxy c) None c)). destruct (c_code c1 =? 0).
  - intros Q. apply OK_inj in Q. subst. apply reply_W; lia.
  - intros Q. eapply client_write_W; [..|exact Q]; [exact L|right; left; reflexivity|exact F].
Qed.
Lemma W_up c x : c_closed c = false -> flows c -> (c_type c = RPROXY \/ (c_type c = DONE /\ c_wev c = true)) -> W (set_up (c_pxy c) (Some x) c).
Proof.
  intros L F [T|[T V]] _; cbn; unfold decided; cbn [set_up c_type]; rewrite T;
    (split; [exact F|]; split; [first [intros [X|[X|X]]; discriminate|auto]|]; split; [left; discriminate|]; split; [discriminate|]; split; discriminate).
Qed.
Lemma proxy_read_W E s c c' : KU c -> W c -> proxy_read E s c = OK c' -> W c'.
Proof.
  intros (_ & L & Hs & A & B & TT & D) HW. destruct (HW L) as (F & DW & _).
  assert (TW : c_type c = RPROXY \/ (c_type c = DONE /\ c_wev c = true)) by (destruct TT as [TT|TT]; [left; exact TT|right; split; [exact TT|apply DW; unfold decided; auto]]).
  assert (UP : forall x y, W (add_out x (set_up (c_pxy c) (Some y) c))).
  { intros x y. destruct x as [|z x]; [apply W_up; assumption|]. rewrite add_out_eq by discriminate.
    set (d := set_io _ _ _ _). change d with (set_up (c_pxy d) (Some y) d). apply W_up; [exact L|intros _; reflexivity|].
    destruct TW as [T|[T V]]; [left; exact T|right; split; [exact T|reflexivity]]. }
  unfold proxy_read. destruct (c_code c =? 0).
  - destruct (readln s) as [[line rest]|].
    2:{ destruct (_ <? _)%nat; [intros Q; eapply proxy_error_W; [..|exact Q]; [exact L|exact F]|intros Q; apply OK_inj in Q; subst; exact (UP [] s)]. }
    cbv zeta. set (c1 := set_up (c_pxy c) (Some rest) c). destruct ((_ <? _)%nat || _); [intros Q; eapply proxy_error_W; [..|exact Q]; [exact L|exact F]|].
    destruct (status is_space line) as [[code meta]|] eqn:ST; [|intros Q; eapply proxy_error_W; [..|exact Q]; [exact L|exact F]].
    apply status_range in ST. pose proof (start_reply_spec E code meta c1 ltac:(lia) ltac:(lia)) as R.
    destruct (start_reply E code meta c1) as [c2 ok]. destruct R as (_ & (S1 & S2 & _) & WV & R).
    assert (L2 : c_closed c2 = false) by (rewrite S2; exact L). assert (F2 : flows c2) by (intros _; exact WV).
    destruct (negb ok || (c_code c2 <? 20) || (29 <? c_code c2)); [intros Q; eapply proxy_error_W; [..|exact Q]; assumption|].
    intros Q. apply OK_inj in Q. subst c'.
    assert (T2 : c_type c2 = RPROXY \/ (c_type c2 = DONE /\ c_wev c2 = true)).
    { assert (X : c_type c2 = c_type c1 \/ c_type c2 = DONE) by (destruct ok; destruct R as (_ & _ & X & _); [destruct (code =? 20)|]; auto).
      destruct X as [X|X]; [|right; auto]. change (c_type c1) with (c_type c) in X. destruct TW as [T|[T _]]; [left; congruence|right; split; [congruence|exact WV]]. }
    destruct rest as [|z rest]; [apply W_up; assumption|]. rewrite add_out_eq by discriminate.
    set (d := set_io _ _ _ _). change d with (set_up (c_pxy d) (Some []) d). apply W_up; [exact L2|intros _; reflexivity|].
    destruct T2 as [T|[T _]]; [left; exact T|right; split; [exact T|reflexivity]].
  - intros Q. apply OK_inj in Q. subst. apply UP.
Qed.

Theorem step_W E e c c' : conf_ok E -> Inv E c -> W c -> polite_step c e -> civil_step c e -> step E e c = Some (OK c') -> W c'.
Proof.
  intros HO ((A & HJ) & HK) HW HP HC. assert (CE : forall x b, c_closed x = false -> W (client_error E b x)).
  { intros x b L. unfold client_error. destruct (b && _); [apply reply_W; lia|apply W_closed; reflexivity]. }
  destruct e as [sni| |chunk fs| |n a| |i chunk|i|r|chunk|]; unfold step; cbv zeta.
  - destruct (negb (c_closed c) && negb (c_hs c)) eqn:B; [|discriminate]. apply andb_true_iff in B as [B1 B2]. apply negb_true_iff in B1, B2.
    intros Q. injection Q as Q. unfold handle_handshake in Q. apply bind_ok in Q as (d & _ & Q).
    destruct d as [|[] out]; [discriminate| |apply OK_inj in Q; subst; apply reply_W; lia].
    destruct (cstr out) as [dom|]; [|discriminate]. cbv zeta in Q. set (dm := match dom with [] => _ | _ => _ end) in *. clearbody dm.
    destruct (find_host _ _ _) as [v|]; apply OK_inj in Q; subst c'; [|apply reply_W; lia].
    intros _. exact (HW B1).
  - destruct (negb (c_closed c) && negb (c_hs c)); [|discriminate]. intros Q. injection Q as <-. apply W_closed. reflexivity.
  - destruct (negb (c_closed c) && c_hs c && negb (isnil chunk)) eqn:B; [|discriminate].
    apply andb_true_iff in B as [B B3]. apply andb_true_iff in B as [B1 B2]. apply negb_true_iff in B1. specialize (HJ B1).
    intros Q. injection Q as Q. set (c1 := set_in (c_in c ++ chunk) c) in *.
    pose proof HJ as (_ & _ & J3 & _ & _ & J6).
    eapply (client_read_W E fs c1); [exact HO|exact J6| | |exact Q].
    + intros T. change (c_type c = UNDECIDED) in T. pose proof (HP T) as G. split; [exact (K_plain c HK B1 B2 T G)|]. destruct (J3 T G) as (_ & _ & O & _). exact O.
    + intros T _. change (c_type c <> UNDECIDED) in T. destruct (HW B1) as (W1 & W2 & W3 & W4 & W5 & W6).
      split; [exact W1|]. split; [exact W2|]. split; [exact W3|]. split; [exact W4|]. split; [exact W5|]. intros X. contradiction.
  - destruct (negb (c_closed c) && c_hs c) eqn:B; [|discriminate]. apply andb_true_iff in B as [B1 B2]. apply negb_true_iff in B1.
    intros Q. injection Q as <-. apply CE; assumption.
  - destruct (negb (c_closed c) && c_hs c && c_wev c) eqn:B; [|discriminate].
    apply andb_true_iff in B as [B B3]. apply andb_true_iff in B as [B1 B2]. apply negb_true_iff in B1.
    intros Q. injection Q as Q. set (k := Nat.min _ _) in Q. set (out := skipn k (c_out c)) in Q.
    set (c1 := set_io out (c_sent c ++ firstn k (c_out c)) (negb (isnil out)) c) in *.
    destruct (HW B1) as (W1 & W2 & W3 & W4 & W5 & W6).
    assert (F1 : c_out c1 <> [] -> c_wev c1 = true) by (cbn [c1 set_io c_out c_wev]; destruct out; [congruence|reflexivity]).
    destruct out as [|x out'].
    + eapply (client_write_W a c1); [exact B1| |exact F1|exact Q]. change (c_type c1) with (c_type c).
      destruct (c_type c) eqn:T; auto; left; (intros _; split; [exact F1|]; unfold decided; change (c_type c1) with (c_type c); rewrite T; split; [intros [X|[X|X]]; discriminate|]; split; [first [exact W3|discriminate]|]; split; [first [discriminate|exact W4]|]; split; [first [exact W5|discriminate]|first [exact W6|discriminate]]).
    + apply OK_inj in Q. subst c'. intros _. split; [exact F1|]. split; [reflexivity|]. split; [exact W3|]. split; [exact W4|]. split; [exact W5|exact W6].
  - destruct (negb (c_closed c) && c_hs c && c_wev c) eqn:B; [|discriminate].
    apply andb_true_iff in B as [B B3]. apply andb_true_iff in B as [B1 B2]. apply negb_true_iff in B1.
    intros Q. injection Q as <-. apply CE; assumption.
  - destruct (nth_error (c_conns c) i) as [k|] eqn:NE; [|discriminate]. destruct (k_open k && negb (isnil chunk)); [|discriminate].
    destruct (c_closed c) eqn:L; cbn [negb]; [discriminate|]. intros Q. injection Q as Q.
    destruct (conn_open_KF i k c HK NE L) as [Hs HF]. eapply fcgi_read_W; [|exact Q]. apply set_conn_goes, W_goes; assumption.
  - destruct (nth_error (c_conns c) i) as [k|] eqn:NE; [|discriminate]. destruct (k_open k); [|discriminate].
    destruct (c_closed c) eqn:L; cbn [negb]; [discriminate|]. intros Q. injection Q as <-. destruct (HW L) as (W1 & _).
    set (c1 := set_cgi (c_cgibev c) (close_conn i (c_conns c)) c). unfold fcgi_error. cbv zeta.
    assert (S1 : c_code (close_pfd c1) = c_code c /\ c_wev (close_pfd c1) = c_wev c) by (unfold close_pfd; destruct (c_pfd c1); split; reflexivity).
    destruct S1 as (-> & S1). destruct (N.eqb_spec (c_code c) 0) as [Z|Z]; [apply reply_W; lia|].
    apply W_done; [cbn [set_type c_wev]; rewrite S1; apply W1, HC; exact Z|reflexivity].
  - destruct (c_type c) eqn:T; try discriminate. destruct (c_pxy c) as [p|] eqn:P; [|discriminate]. destruct (c_up c) eqn:U; [discriminate|].
    destruct (c_iri c) as [i|]; [|discriminate]. destruct (negb (c_closed c) && negb (p_notls p)) eqn:B; [|discriminate].
    apply andb_true_iff in B as [B1 B2]. apply negb_true_iff in B1. intros Q. injection Q as Q. destruct (HW B1) as (W1 & W2 & W3 & W4 & W5 & W6).
    destruct r; [|apply OK_inj in Q; subst; apply reply_W; lia..].
    unfold proxy_enqueue_req in Q. apply bind_ok in Q as (line & _ & Q). apply OK_inj in Q. subst c'.
    intros _. split; [exact W1|]. split; [exact W2|]. split; [left; discriminate|]. split; [exact W4|]. split; [exact W5|exact W6].
  - destruct (c_up c) as [s|] eqn:U; [|discriminate]. destruct (negb (c_closed c) && negb (isnil chunk)) eqn:B; [|discriminate].
    apply andb_true_iff in B as [B1 B2]. apply negb_true_iff in B1. intros Q. injection Q as Q.
    eapply proxy_read_W; [apply up_KU; [exact HK|congruence|exact B1]|exact HW|exact Q].
  - destruct (c_up c) as [s|] eqn:U; [|discriminate]. destruct (c_closed c) eqn:L; cbn [negb]; [discriminate|]. intros Q. injection Q as Q.
    destruct (HW L) as (W1 & _). eapply proxy_error_W; [..|exact Q]; assumption.
Qed.

Lemma fresh_W : W fresh.
Proof.
  intros _. cbn. split; [congruence|]. unfold decided. cbn. split; [intros [X|[X|X]]; discriminate|]. split; [discriminate|]. split; [discriminate|].
  split; [intros _ k []|]. intros _ _. split; [reflexivity|cbn; lia].
Qed.
Theorem history_W E es c : conf_ok E -> civil_history E es c -> W c.
Proof.
  intros HO H. induction H as [|es e c c' H IH P C S]; [exact fresh_W|]. eapply step_W; eauto. eapply history_inv; [exact HO|]. apply civil_polite. exact H.
Qed.
