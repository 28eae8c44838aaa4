(** A connection that waits for nothing but bytes does not look at its
    configuration. *)
From Verif Require Import Base BaseLemmas Fmt Conf Fcgi Server ServerSpec HistorySpec Stale.
Local Open Scope N_scope.

Definition not_log (a : action) : bool := match a with ALog _ _ => false | _ => true end.
(** everything but the pointers and the log *)
Definition seen (c : client) : client :=
  mkCl (c_hs c) (c_closed c) (c_type c) (c_code c) (c_in c) (c_out c) (c_sent c) (c_wev c) (c_iri c) (c_domain c) None
    (c_pfd c) (c_dir c) (c_sbuf c) (c_cgibev c) (c_conns c) None (c_up c) (filter not_log (c_acts c)).

Definition settled (c : client) : Prop :=
  c_closed c = true \/ (c_hs c = true /\ (c_code c <> 0 \/ c_type c = RPROXY) /\ (c_type c = RPROXY -> c_up c <> None)).

Lemma seen_stale v p c : seen (stale v p c) = seen c. Proof. reflexivity. Qed.

Lemma OKi (a b : client) : OK a = OK b -> b = a. Proof. congruence. Qed.
Lemma SOi {A} (a b : A) : Some a = Some b -> a = b. Proof. congruence. Qed.
Ltac inj H := try apply SOi in H; apply OKi in H; first [subst|rewrite H in *; clear H].
Definition seen_r (r : option (res client)) : option (res client) :=
  match r with Some (OK c) => Some (OK (seen c)) | x => x end.

Definition relayed_reply (c : client) : Prop := c_type c = RPROXY.

Lemma seen_inv c c' : seen c = seen c' -> exists v p acts, c' = mkCl (c_hs c) (c_closed c) (c_type c) (c_code c) (c_in c) (c_out c) (c_sent c) (c_wev c) (c_iri c) (c_domain c) v
    (c_pfd c) (c_dir c) (c_sbuf c) (c_cgibev c) (c_conns c) p (c_up c) acts /\ filter not_log acts = filter not_log (c_acts c).
Proof. destruct c, c'. unfold seen. cbn. intros H. injection H. intros. subst. do 3 eexists. split; [reflexivity|congruence]. Qed.

Lemma seen_set (f : client -> client) : (forall c, seen (f c) = seen (f (seen c))) -> forall c c', seen c = seen c' -> seen (f c) = seen (f c').
Proof. intros H c c' S. rewrite H, S, <- H. reflexivity. Qed.

Lemma filter2 {A} (f : A -> bool) l : filter f (filter f l) = filter f l.
Proof. induction l as [|a l IH]; cbn; [reflexivity|]. destruct (f a) eqn:E; cbn; [rewrite E, IH|]; auto. Qed.

Ltac sn S := let v := fresh "v" in let p := fresh "p" in let a := fresh "acts" in let F := fresh "F" in
  destruct (seen_inv _ _ S) as (v & p & a & -> & F).
Lemma add_out_seen s c c' : seen c = seen c' -> seen (add_out s c) = seen (add_out s c').
Proof. intros S. sn S. destruct s; unfold add_out, set_io, seen; cbn; rewrite F; reflexivity. Qed.
Lemma set_type_seen t c c' : seen c = seen c' -> seen (set_type t c) = seen (set_type t c').
Proof. intros S. sn S. unfold set_type, seen. cbn. rewrite F. reflexivity. Qed.
Lemma set_code_seen t c c' : seen c = seen c' -> seen (set_code t c) = seen (set_code t c').
Proof. intros S. sn S. unfold set_code, seen. cbn. rewrite F. reflexivity. Qed.
Lemma set_io_seen a b w c c' : seen c = seen c' -> seen (set_io a b w c) = seen (set_io a b w c').
Proof. intros S. sn S. unfold set_io, seen. cbn. rewrite F. reflexivity. Qed.
Lemma act_seen a c c' : seen c = seen c' -> seen (act a c) = seen (act a c').
Proof. intros S. sn S. unfold act, seen. cbn. rewrite !filter_app, F. reflexivity. Qed.
Lemma log_seen code meta c : seen (act (ALog code meta) c) = seen c.
Proof. unfold act, seen. cbn. rewrite filter_app. cbn [filter not_log]. rewrite app_nil_r. reflexivity. Qed.

Lemma emit_seen E E' code meta h c c' : seen c = seen c' -> seen (emit E code meta h c) = seen (emit E' code meta h c').
Proof.
  intros S. unfold emit. cbv zeta. set (x := act (AReply code meta) (add_out (h ++ [13; 10]) (set_code code c))).
  set (x' := act (AReply code meta) (add_out (h ++ [13; 10]) (set_code code c'))).
  assert (X : seen x = seen x') by (apply act_seen, add_out_seen, set_code_seen, S).
  assert (Y : seen (if vhost_disable_log (e_fnm E) (c_vhost x) (path_of x) then x else act (ALog code meta) x) =
    seen (if vhost_disable_log (e_fnm E') (c_vhost x') (path_of x') then x' else act (ALog code meta) x')).
  { destruct (vhost_disable_log _ _ _), (vhost_disable_log _ _ _); rewrite ?log_seen; exact X. }
  destruct (code =? 20); [exact Y|apply set_type_seen, Y].
Qed.
Lemma start_reply_seen E E' code meta c c' : seen c = seen c' -> is_relayed (c_type c) = true \/ meta <> s2b "text/gemini" ->
  seen (fst (start_reply E code meta c)) = seen (fst (start_reply E' code meta c')) /\ snd (start_reply E code meta c) = snd (start_reply E' code meta c').
Proof.
  intros S R. assert (T : c_type c' = c_type c) by (destruct (seen_inv _ _ S) as (v & p & acts & -> & F); reflexivity).
  assert (HL : forall E0 c0, c_type c0 = c_type c -> header_line E0 c0 code meta = (dec code ++ [32] ++ meta, [])).
  { intros E0 c0 T0. unfold header_line. rewrite T0. destruct R as [R|R]; [rewrite R; reflexivity|].
    assert (Q : leqb meta (s2b "text/gemini") = false) by (destruct (leqb meta (s2b "text/gemini")) eqn:Q; [apply leqb_eq in Q; congruence|reflexivity]).
    rewrite Q, andb_false_r. reflexivity. }
  unfold start_reply. rewrite (HL E c eq_refl), (HL E' c' T).
  destruct (1027 <? _)%nat; cbn [orb fst snd].
  - split; [|reflexivity]. apply emit_seen. sn S. apply set_io_seen. exact S.
  - destruct (1027 <? _)%nat; cbn [fst snd]; (split; [|reflexivity]); apply emit_seen; [|exact S]. sn S. apply set_io_seen. exact S.
Qed.
Lemma reply_seen E E' code meta c c' : seen c = seen c' -> is_relayed (c_type c) = true \/ meta <> s2b "text/gemini" ->
  seen (reply E code meta c) = seen (reply E' code meta c').
Proof. intros S R. apply (start_reply_seen E E' code meta c c' S R). Qed.

Lemma close_pfd_seen c c' : seen c = seen c' -> seen (close_pfd c) = seen (close_pfd c').
Proof. intros S. sn S. unfold close_pfd. cbn. destruct (c_pfd c); unfold set_pfd, set_cgi, seen; cbn; rewrite F; reflexivity. Qed.
Lemma client_close_seen c c' : seen c = seen c' -> seen (client_close c) = seen (client_close c').
Proof.
  intros S. unfold client_close. assert (X : seen (close_pfd (match c_cgibev c with Some i => set_cgi None (close_conn i (c_conns c)) c | None => c end)) =
    seen (close_pfd (match c_cgibev c' with Some i => set_cgi None (close_conn i (c_conns c')) c' | None => c' end))).
  { apply close_pfd_seen. assert (G : c_cgibev c' = c_cgibev c /\ c_conns c' = c_conns c) by (sn S; split; reflexivity). destruct G as (-> & ->).
    destruct (c_cgibev c); [|exact S]. sn S. unfold set_cgi, seen. cbn. rewrite F. reflexivity. }
  revert X. generalize (close_pfd (match c_cgibev c with Some i => set_cgi None (close_conn i (c_conns c)) c | None => c end)).
  generalize (close_pfd (match c_cgibev c' with Some i => set_cgi None (close_conn i (c_conns c')) c' | None => c' end)).
  intros x' x X. sn X. unfold set_closed, seen. cbn. rewrite F. reflexivity.
Qed.

Definition seen2 (r : res client) : res client := match r with OK c => OK (seen c) | UB => UB | Fuel => Fuel end.

Lemma set_in_seen a c c' : seen c = seen c' -> seen (set_in a c) = seen (set_in a c').
Proof. intros S. sn S. unfold set_in, seen. cbn. rewrite F. reflexivity. Qed.
Lemma set_pfd_seen a c c' : seen c = seen c' -> seen (set_pfd a c) = seen (set_pfd a c').
Proof. intros S. sn S. unfold set_pfd, seen. cbn. rewrite F. reflexivity. Qed.
Lemma set_dir_seen a c c' : seen c = seen c' -> seen (set_dir a c) = seen (set_dir a c').
Proof. intros S. sn S. unfold set_dir, seen. cbn. rewrite F. reflexivity. Qed.
Lemma set_sbuf_seen a c c' : seen c = seen c' -> seen (set_sbuf a c) = seen (set_sbuf a c').
Proof. intros S. sn S. unfold set_sbuf, seen. cbn. rewrite F. reflexivity. Qed.
Lemma set_cgi_seen a b c c' : seen c = seen c' -> seen (set_cgi a b c) = seen (set_cgi a b c').
Proof. intros S. sn S. unfold set_cgi, seen. cbn. rewrite F. reflexivity. Qed.
Lemma set_up_seen p q a c c' : seen c = seen c' -> seen (set_up p a c) = seen (set_up q a c').
Proof. intros S. sn S. unfold set_up, seen. cbn. rewrite F. reflexivity. Qed.
Lemma set_conn_seen i s c c' : seen c = seen c' -> seen (set_conn i s c) = seen (set_conn i s c').
Proof. intros S. sn S. unfold set_conn. cbn. destruct (nth_error _ _); unfold set_cgi, seen; cbn; rewrite F; reflexivity. Qed.
(** fields *)
Lemma seen_fields c c' : seen c = seen c' -> c_hs c' = c_hs c /\ c_closed c' = c_closed c /\ c_type c' = c_type c /\ c_code c' = c_code c /\
  c_in c' = c_in c /\ c_out c' = c_out c /\ c_sent c' = c_sent c /\ c_wev c' = c_wev c /\ c_iri c' = c_iri c /\ c_domain c' = c_domain c /\
  c_pfd c' = c_pfd c /\ c_dir c' = c_dir c /\ c_sbuf c' = c_sbuf c /\ c_cgibev c' = c_cgibev c /\ c_conns c' = c_conns c /\ c_up c' = c_up c.
Proof. intros S. sn S. repeat split; reflexivity. Qed.
Ltac fields S := let H := fresh "FF" in pose proof (seen_fields _ _ S) as H; cbn [c_hs c_closed c_type c_code c_in c_out c_sent c_wev c_iri c_domain c_pfd c_dir c_sbuf c_cgibev c_conns c_up] in H;
  destruct H as (?FH & ?FC & ?FT & ?FCO & ?FI & ?FO & ?FS & ?FW & ?FIR & ?FD & ?FP & ?FDI & ?FSB & ?FCG & ?FCN & ?FU).

Lemma client_write_seen a c c' : seen c = seen c' -> seen2 (client_write a c) = seen2 (client_write a c').
Proof.
  intros S. fields S. unfold client_write. rewrite FT, FP, FDI, FO. destruct (c_type c); cbn [seen2]; try (f_equal; exact S).
  - destruct a as [|n]; [|destruct (c_pfd c) as [|rest| | |]]; cbn [seen2]; try (f_equal; apply client_close_seen, set_type_seen, S).
    destruct (_ =? 0)%nat; cbn [seen2]; f_equal; [apply client_close_seen, S|]. apply add_out_seen.
    destruct (_ =? BUFSIZ)%nat; [|apply set_type_seen]; apply set_pfd_seen, S.
  - destruct (dir_lines (c_dir c)) as [lines| |]; cbn [bind seen2]; try reflexivity. f_equal.
    assert (X : seen (add_out lines (set_type DONE (set_dir [] c))) = seen (add_out lines (set_type DONE (set_dir [] c')))) by (apply add_out_seen, set_type_seen, set_dir_seen, S).
    fields X. rewrite FO0, FS0. apply set_io_seen, X.
  - f_equal. destruct (c_out c); [apply client_close_seen|]; exact S.
Qed.
Lemma fcgi_error_seen E E' c c' : seen c = seen c' -> seen (fcgi_error E c) = seen (fcgi_error E' c').
Proof.
  intros S. unfold fcgi_error. pose proof (close_pfd_seen _ _ S) as X. fields X. rewrite FCO. destruct (c_code (close_pfd c) =? 0).
  - apply reply_seen; [exact X|right; discriminate].
  - apply set_type_seen, X.
Qed.
Lemma proxy_error_seen E E' c c' : seen c = seen c' -> seen2 (proxy_error E c) = seen2 (proxy_error E' c').
Proof.
  intros S. unfold proxy_error. assert (X : seen (set_pfd PNone (set_up (c_pxy c) None c)) = seen (set_pfd PNone (set_up (c_pxy c') None c'))) by (apply set_pfd_seen, set_up_seen, S).
  fields X. rewrite FCO. destruct (_ =? 0); [cbn [seen2]; f_equal; apply reply_seen; [exact X|right; discriminate]|].
  apply client_write_seen, set_type_seen, X.
Qed.

(** "only relays" *)
Definition relays (c : client) : Prop := c_code c <> 0 \/ c_type c = RPROXY.
Lemma stdout_seen E E' s c c' : seen c = seen c' -> relays c -> seen (fcgi_handle_stdout E s c) = seen (fcgi_handle_stdout E' s c').
Proof.
  intros S R. fields S. unfold fcgi_handle_stdout. rewrite FCO, FSB. destruct (c_code c =? 0) eqn:C0; [|apply add_out_seen, S].
  assert (TR : c_type c = RPROXY) by (destruct R as [R|R]; [lia|exact R]).
  set (l := Nat.min (length s) (SBUF - length (c_sbuf c))). pose proof (set_sbuf_seen (c_sbuf c ++ firstn l s) _ _ S) as X.
  assert (TX : c_type (set_sbuf (c_sbuf c ++ firstn l s) c) = RPROXY) by exact TR.
  change (c_sbuf (set_sbuf (c_sbuf c ++ firstn l s) c')) with (c_sbuf c ++ firstn l s). change (c_sbuf (set_sbuf (c_sbuf c ++ firstn l s) c)) with (c_sbuf c ++ firstn l s).
  destruct (readln (c_sbuf c ++ firstn l s)) as [[line t]|]; [|destruct (_ =? SBUF)%nat; [apply fcgi_error_seen|]; exact X].
  destruct (status (N.eqb 32) line) as [[code meta]|]; [|apply fcgi_error_seen, X].
  destruct (start_reply_seen E E' code meta _ _ X (or_introl (f_equal is_relayed TX))) as (SR & SB).
  destruct (start_reply E code meta _) as [d ok], (start_reply E' code meta _) as [d' ok']. cbn [fst snd] in SR, SB. subst ok'. fields SR. rewrite FCO0.
  destruct (negb ok || (c_code d <? 20) || (29 <? c_code d)); [apply fcgi_error_seen, SR|]. apply add_out_seen, add_out_seen, SR.
Qed.

Lemma emit_code E code meta h c : c_code (emit E code meta h c) = code.
Proof. unfold emit, add_out. destruct (h ++ _); destruct (vhost_disable_log _ _ _), (code =? 20); reflexivity. Qed.
Lemma start_reply_code E code meta c : code <> 0 -> c_code (fst (start_reply E code meta c)) <> 0.
Proof.
  intros C. unfold start_reply. destruct (header_line E c code meta) as [h l]. destruct (_ || _); cbn [fst]; rewrite emit_code; [discriminate|exact C].
Qed.
Lemma status_code sp s code meta : status sp s = Some (code, meta) -> code <> 0.
Proof.
  unfold status. destruct s as [|a [|b [|x m]]]; try discriminate. destruct (_ && sp x); [|discriminate].
  cbv zeta. destruct ((_ <? 10) || _) eqn:Q; [discriminate|]. intros H. injection H as <- _. lia.
Qed.
Lemma fcgi_error_code E c : c_code (fcgi_error E c) <> 0.
Proof.
  unfold fcgi_error. destruct (c_code (close_pfd c) =? 0) eqn:Q; [apply start_reply_code; discriminate|]. cbn [set_type c_code]. lia.
Qed.
Lemma add_out_code s c : c_code (add_out s c) = c_code c. Proof. destruct s; reflexivity. Qed.
Lemma add_out_type s c : c_type (add_out s c) = c_type c. Proof. destruct s; reflexivity. Qed.
Lemma stdout_relays E s c : relays c -> relays (fcgi_handle_stdout E s c).
Proof.
  intros R. unfold fcgi_handle_stdout. destruct (c_code c =? 0) eqn:C0; [|left; rewrite add_out_code; lia].
  cbv zeta. match goal with |- context [set_sbuf ?x c] => set (d := set_sbuf x c) end.
  assert (RD : relays d) by exact R.
  destruct (readln (c_sbuf d)) as [[line t]|]; [|destruct (_ =? SBUF)%nat; [left; apply fcgi_error_code|exact RD]].
  destruct (status (N.eqb 32) line) as [[code meta]|] eqn:ST; [|left; apply fcgi_error_code].
  pose proof (start_reply_code E code meta d (status_code _ _ _ _ ST)) as CD. destruct (start_reply E code meta d) as [e ok]. cbn [fst] in CD.
  destruct (_ || (29 <? _)); left; [apply fcgi_error_code|]. rewrite !add_out_code. exact CD.
Qed.

Definition seen3 (r : res (list N * client * bool)) : res (list N * client * bool) :=
  match r with OK (s, c, b) => OK (s, seen c, b) | UB => UB | Fuel => Fuel end.
Lemma loop_seen E E' : forall fuel s c c', seen c = seen c' -> relays c \/ c_type c = DONE ->
  seen3 (fcgi_loop E fuel s c) = seen3 (fcgi_loop E' fuel s c').
Proof.
  induction fuel as [|f IH]; intros s c c' S R; [reflexivity|]. cbn [fcgi_loop]. fields S. rewrite FT.
  destruct (c_type c) eqn:T; try (cbn [seen3]; rewrite S; reflexivity); destruct R as [R|R]; try discriminate R;
    (destruct s as [|v0 [|ty [|i1 [|i0 [|l1 [|l0 [|pad [|rsv body]]]]]]]]; try (cbn [seen3]; rewrite S; reflexivity);
     destruct (negb (_ =? 1)); [cbn [seen3]; rewrite S; reflexivity|]; cbv zeta; destruct (_ <? _)%nat; [cbn [seen3]; rewrite S; reflexivity|];
     destruct (ty =? FCGI_END_REQUEST); [destruct (negb _); [cbn [seen3]; rewrite S; reflexivity|apply IH; [apply set_type_seen, S|right; reflexivity]]|];
     destruct (ty =? FCGI_STDERR); [apply IH; [exact S|left; exact R]|];
     destruct (ty =? FCGI_STDOUT); [apply IH; [apply stdout_seen; assumption|left; apply stdout_relays; exact R]|cbn [seen3]; rewrite S; reflexivity]).
Qed.
Lemma fcgi_read_seen E E' i c c' : seen c = seen c' -> relays c \/ c_type c = DONE -> seen2 (fcgi_read E i c) = seen2 (fcgi_read E' i c').
Proof.
  intros S R. fields S. unfold fcgi_read. rewrite FCN. destruct (nth_error (c_conns c) i) as [k|]; [|reflexivity].
  pose proof (loop_seen E E' (Datatypes.S (Datatypes.S (length (k_in k)))) (k_in k) c c' S R) as L.
  destruct (fcgi_loop E _ _ c) as [[[s d] err]| |], (fcgi_loop E' _ _ c') as [[[s' d'] err']| |]; cbn [seen3] in L; try discriminate L; try reflexivity.
  assert (L1 : s = s') by congruence. assert (L2 : seen d = seen d') by congruence. assert (L3 : err = err') by congruence. subst s' err'. cbn [bind].
  destruct err; [|cbn [seen2]; f_equal; apply set_conn_seen, L2]. apply client_write_seen, fcgi_error_seen, set_conn_seen, L2.
Qed.
Lemma proxy_read_seen E E' s c c' : seen c = seen c' -> relays c -> seen2 (proxy_read E s c) = seen2 (proxy_read E' s c').
Proof.
  intros S R. fields S. unfold proxy_read. rewrite FCO. destruct (c_code c =? 0) eqn:C0; [|cbn [seen2]; f_equal; apply add_out_seen, set_up_seen, S].
  assert (TR : c_type c = RPROXY) by (destruct R as [R|R]; [lia|exact R]).
  destruct (readln s) as [[line rest]|].
  - cbv zeta. pose proof (set_up_seen (c_pxy c) (c_pxy c') (Some rest) _ _ S) as X. destruct (_ || _); [apply proxy_error_seen, X|].
    destruct (status is_space line) as [[code meta]|]; [|apply proxy_error_seen, X].
    assert (TX : c_type (set_up (c_pxy c) (Some rest) c) = RPROXY) by exact TR.
    destruct (start_reply_seen E E' code meta _ _ X (or_introl (f_equal is_relayed TX))) as (SR & SB).
    destruct (start_reply E code meta _) as [d ok], (start_reply E' code meta _) as [d' ok']. cbn [fst snd] in SR, SB. subst ok'. fields SR. rewrite FCO0.
    destruct (_ || (29 <? _)); [apply proxy_error_seen, SR|]. cbn [seen2]. f_equal. apply add_out_seen, set_up_seen, SR.
  - destruct (1029 <? _)%nat; [apply proxy_error_seen, set_up_seen, S|]. cbn [seen2]. f_equal. apply set_up_seen, S.
Qed.

(** *** one event *)
Definition quiet (c : client) (e : event) : Prop := match e with EvRead _ _ => c_type c <> UNDECIDED | _ => True end.

Lemma seen_r_some r r' : seen2 r = seen2 r' -> seen_r (Some r) = seen_r (Some r').
Proof. destruct r, r'; cbn; congruence. Qed.

Lemma step_seen E E' e c c' : seen c = seen c' -> settled c -> quiet c e -> seen_r (step E e c) = seen_r (step E' e c').
Proof.
  intros S ST Q. fields S. unfold step. rewrite FC, FH, FI, FO, FS, FW, FCN, FT, FU, FIR.
  destruct ST as [CL|(HS & R & UP)].
  { rewrite CL. cbn [negb andb]. destruct e; try reflexivity.
    destruct (c_type c), (c_pxy c), (c_pxy c'), (c_up c), (c_iri c); reflexivity. }
  rewrite HS. destruct e as [sni| |chunk fs| |n a| |i chunk|i|r|chunk|]; try (destruct (c_closed c); reflexivity).
  - destruct (negb (c_closed c)); [|reflexivity]. cbn [andb]. destruct (isnil chunk); [reflexivity|]. cbn [negb]. apply seen_r_some.
    unfold client_read. cbn [quiet] in Q. pose proof (set_in_seen (c_in c ++ chunk) _ _ S) as X.
    change (c_type (set_in (c_in c ++ chunk) c')) with (c_type c'). change (c_type (set_in (c_in c ++ chunk) c)) with (c_type c). rewrite FT.
    destruct (c_type c); [contradiction Q; reflexivity|..]; cbn [seen2]; f_equal; exact X.
  - destruct (negb (c_closed c)); [|reflexivity]. cbn [andb]. apply seen_r_some. cbn [seen2 client_error andb]. f_equal. apply client_close_seen, set_type_seen, S.
  - destruct (negb (c_closed c) && true && c_wev c); [|reflexivity]. cbv zeta. apply seen_r_some.
    destruct (skipn _ (c_out c)); [apply client_write_seen|cbn [seen2]; f_equal]; apply set_io_seen, S.
  - destruct (negb (c_closed c) && true && c_wev c); [|reflexivity]. apply seen_r_some. cbn [seen2 client_error andb]. f_equal. apply client_close_seen, set_type_seen, S.
  - destruct (nth_error (c_conns c) i) as [k|]; [|reflexivity]. destruct (_ && _); [|reflexivity]. destruct (negb (c_closed c)); [|reflexivity].
    apply seen_r_some. apply fcgi_read_seen; [apply set_conn_seen, S|]. left. unfold relays, set_conn. destruct (nth_error _ _); exact R.
  - destruct (nth_error (c_conns c) i) as [k|]; [|reflexivity]. destruct (k_open k); [|reflexivity]. destruct (negb (c_closed c)); [|reflexivity].
    apply seen_r_some. cbn [seen2]. f_equal. apply fcgi_error_seen. rewrite FCG. apply set_cgi_seen, S.
  - destruct (c_type c) eqn:T; try reflexivity. specialize (UP eq_refl). destruct (c_up c); [|congruence]. destruct (c_pxy c), (c_pxy c'); reflexivity.
  - destruct (c_up c); [|reflexivity]. destruct (negb (c_closed c)); [|reflexivity]. cbn [andb]. destruct (negb (isnil chunk)); [|reflexivity].
    apply seen_r_some. apply proxy_read_seen; [exact S|exact R].
  - destruct (c_up c); [|reflexivity]. destruct (negb (c_closed c)); [|reflexivity]. apply seen_r_some. apply proxy_error_seen, S.
Qed.

(** *** it stays so *)
Definition good (c : client) : Prop := c_hs c = true /\ relays c /\ (c_type c = RPROXY -> c_up c <> None).
Definition still (c d : client) : Prop := c_type d = c_type c \/ c_type d = DONE.
Lemma settled_good c : settled c <-> c_closed c = true \/ good c. Proof. reflexivity. Qed.
Lemma still_refl c : still c c. Proof. left; reflexivity. Qed.
Lemma still_trans a b c : still a b -> still b c -> still a c. Proof. unfold still. intros [->|X] [->|Y]; auto. Qed.

Lemma done_good c : c_hs c = true -> c_type c = DONE -> c_code c <> 0 -> good c.
Proof. intros H T C. split; [exact H|]. split; [left; exact C|]. rewrite T. discriminate. Qed.

Lemma emit_hs E code meta h c : c_hs (emit E code meta h c) = c_hs c /\ c_up (emit E code meta h c) = c_up c /\
  c_type (emit E code meta h c) = (if code =? 20 then c_type c else DONE).
Proof. unfold emit, add_out. destruct (h ++ _); destruct (vhost_disable_log _ _ _), (code =? 20); repeat split; reflexivity. Qed.
Lemma start_reply_hs E code meta c : c_hs (fst (start_reply E code meta c)) = c_hs c /\ c_up (fst (start_reply E code meta c)) = c_up c /\
  still c (fst (start_reply E code meta c)) /\ (code <> 20 -> c_type (fst (start_reply E code meta c)) = DONE).
Proof.
  unfold start_reply. destruct (header_line E c code meta) as [h l]. destruct (_ || _); cbn [fst].
  - destruct (emit_hs E 40 (s2b "internal error") (s2b "40 internal error") (set_io [] (c_sent c) (c_wev c) c)) as (-> & -> & T). cbn [set_io c_hs c_up] in *.
    split; [reflexivity|]. split; [reflexivity|]. split; [right; exact T|intros _; exact T].
  - destruct (emit_hs E code meta (h ++ l) c) as (-> & -> & T). split; [reflexivity|]. split; [reflexivity|]. split.
    + unfold still. rewrite T. destruct (code =? 20); auto.
    + intros NE. rewrite T. destruct (N.eqb_spec code 20); [congruence|reflexivity].
Qed.
Lemma fcgi_error_good E c : c_hs c = true -> good (fcgi_error E c) /\ c_type (fcgi_error E c) = DONE.
Proof.
  intros H. assert (T : c_hs (fcgi_error E c) = true /\ c_type (fcgi_error E c) = DONE).
  { unfold fcgi_error. assert (HP : c_hs (close_pfd c) = true) by (unfold close_pfd; destruct (c_pfd c); exact H).
    destruct (_ =? 0); [|split; [exact HP|reflexivity]].
    destruct (start_reply_hs E 42 (s2b "CGI error") (close_pfd c)) as (A & _ & _ & B). unfold reply. rewrite A. split; [exact HP|apply B; discriminate]. }
  split; [|apply T]. apply done_good; [apply T|apply T|apply fcgi_error_code].
Qed.
Lemma client_close_closed c : c_closed (client_close c) = true /\ c_type (client_close c) = c_type c.
Proof. unfold client_close, close_pfd, set_closed. destruct (c_cgibev c); cbn; destruct (c_pfd c); split; reflexivity. Qed.
Lemma add_out_good s c : good c -> good (add_out s c). Proof. destruct s; intros H; exact H. Qed.
Lemma add_out_still s c : still c (add_out s c). Proof. destruct s; left; reflexivity. Qed.

Lemma write_settled a c d : good c -> client_write a c = OK d -> settled d /\ still c d.
Proof.
  intros G. unfold client_write. destruct (c_type c) eqn:T; try (intros H; inj H; split; [right; exact G|apply still_refl]).
  - assert (C : c_code c <> 0) by (destruct G as (_ & [C|X] & _); [exact C|congruence]).
    assert (CL : forall x, settled (client_close x)) by (intros x; left; apply client_close_closed).
    destruct a as [|n]; [|destruct (c_pfd c) as [|rest| | |]]; try (intros H; inj H; split; [apply CL|right; apply client_close_closed]).
    cbv zeta. destruct (_ =? 0)%nat; [intros H; inj H; split; [apply CL|left; apply client_close_closed]|].
    intros H. inj H. split.
    + right. apply add_out_good. destruct G as (G1 & _ & G3). destruct (_ =? BUFSIZ)%nat; (split; [exact G1|split; [left; exact C|]]); cbn [set_pfd set_type c_type c_up]; [exact G3|discriminate].
    + unfold still. rewrite add_out_type. destruct (_ =? BUFSIZ)%nat; auto.
  - assert (C : c_code c <> 0) by (destruct G as (_ & [C|X] & _); [exact C|congruence]).
    destruct (dir_lines (c_dir c)) as [lines| |]; try discriminate. cbn [bind]. intros H. inj H. split.
    + right. apply done_good; [destruct lines; exact (proj1 G)|destruct lines; reflexivity|destruct lines; exact C].
    + right. destruct lines; reflexivity.
  - intros H. destruct (c_out c); inj H; [|split; [right; exact G|apply still_refl]].
    split; [left; apply client_close_closed|left; apply client_close_closed].
Qed.
Lemma proxy_error_settled E c d : c_hs c = true -> proxy_error E c = OK d -> settled d /\ c_type d = DONE.
Proof.
  intros H. unfold proxy_error. set (x := set_pfd PNone _). assert (HX : c_hs x = true) by exact H.
  destruct (c_code x =? 0) eqn:C.
  - intros Q. inj Q. destruct (start_reply_hs E 43 (s2b "protocol error") x) as (A & _ & _ & B). assert (T : c_type (reply E 43 (s2b "protocol error") x) = DONE) by (apply B; discriminate).
    split; [|exact T]. right. apply done_good; [unfold reply; rewrite A; exact HX|exact T|apply start_reply_code; discriminate].
  - intros Q. assert (G : good (set_type DONE x)) by (apply done_good; [exact HX|reflexivity|change (c_code x <> 0); lia]).
    destruct (write_settled _ _ _ G Q) as (S & [T|T]); split; auto.
Qed.
Lemma stdout_good E s c : good c -> good (fcgi_handle_stdout E s c) /\ still c (fcgi_handle_stdout E s c).
Proof.
  intros G. pose proof (stdout_relays E s c (proj1 (proj2 G))) as R. destruct G as (G1 & G2 & G3).
  assert (X : c_hs (fcgi_handle_stdout E s c) = true /\ (c_type (fcgi_handle_stdout E s c) = DONE \/ (c_type (fcgi_handle_stdout E s c) = c_type c /\ c_up (fcgi_handle_stdout E s c) = c_up c))).
  { unfold fcgi_handle_stdout. destruct (c_code c =? 0); [|split; [destruct s; exact G1|right; destruct s; auto]].
    cbv zeta. match goal with |- context [set_sbuf ?x c] => set (d := set_sbuf x c) end. assert (HD : c_hs d = true) by exact G1.
    assert (FE : forall x, c_hs x = true -> c_hs (fcgi_error E x) = true /\ (c_type (fcgi_error E x) = DONE \/ (c_type (fcgi_error E x) = c_type c /\ c_up (fcgi_error E x) = c_up c))).
    { intros x Hx. destruct (fcgi_error_good E x Hx) as ((A & _) & B). auto. }
    destruct (readln (c_sbuf d)) as [[line t]|]; [|destruct (_ =? SBUF)%nat; [apply FE, HD|split; [exact HD|right; auto]]].
    destruct (status (N.eqb 32) line) as [[code meta]|]; [|apply FE, HD].
    destruct (start_reply_hs E code meta d) as (A & B & C & _). destruct (start_reply E code meta d) as [e ok]. cbn [fst] in *.
    destruct (_ || (29 <? _)); [apply FE; rewrite A; exact HD|].
    assert (AO : forall s0 x, c_hs (add_out s0 x) = c_hs x /\ c_up (add_out s0 x) = c_up x) by (intros s0 x; destruct s0; auto).
    split; [rewrite (proj1 (AO _ _)), (proj1 (AO _ _)), A; exact HD|]. rewrite !add_out_type, (proj2 (AO _ _)), (proj2 (AO _ _)), B. destruct C as [C|C]; [right|left; exact C]. split; [exact C|reflexivity]. }
  destruct X as (X1 & X2). split; [split; [exact X1|split; [exact R|]]|destruct X2 as [X2|(X2 & _)]; [right|left]; exact X2].
  destruct X2 as [X2|(X2 & X3)]; [rewrite X2; discriminate|]. rewrite X2, X3. exact G3.
Qed.
Lemma loop_good E : forall fuel s c s' d err, good c \/ (c_hs c = true /\ c_type c = DONE) -> fcgi_loop E fuel s c = OK (s', d, err) ->
  (good d \/ (c_hs d = true /\ err = true)) /\ c_hs d = true /\ still c d.
Proof.
  induction fuel as [|f IH]; intros s c s' d err G H; [discriminate|]. cbn [fcgi_loop] in H.
  assert (HS : c_hs c = true) by (destruct G as [(G & _)|(G & _)]; exact G).
  destruct (c_type c) eqn:T; try (injection H as <- <- <-; split; [right; auto|split; [exact HS|apply still_refl]]; fail);
    (assert (G' : good c) by (destruct G as [G|(_ & G)]; [exact G|congruence]); clear G;
     destruct s as [|v0 [|ty [|i1 [|i0 [|l1 [|l0 [|pad [|rsv body]]]]]]]]; try (injection H as <- <- <-; split; [left; exact G'|split; [exact HS|apply still_refl]]; fail);
     destruct (negb (_ =? 1)); [injection H as <- <- <-; split; [left; exact G'|split; [exact HS|apply still_refl]]|]; cbv zeta in H;
     destruct (_ <? _)%nat; [injection H as <- <- <-; split; [left; exact G'|split; [exact HS|apply still_refl]]|];
     destruct (ty =? FCGI_END_REQUEST);
       [destruct (negb _); [injection H as <- <- <-; split; [left; exact G'|split; [exact HS|apply still_refl]]|];
        destruct (IH _ _ _ _ _ (or_intror (conj HS eq_refl : c_hs (set_type DONE c) = true /\ c_type (set_type DONE c) = DONE)) H) as (A & B & C);
        split; [exact A|]; split; [exact B|]; right; destruct C as [C|C]; exact C|];
     destruct (ty =? FCGI_STDERR); [exact (IH _ _ _ _ _ (or_introl G') H)|];
     destruct (ty =? FCGI_STDOUT); [|injection H as <- <- <-; split; [left; exact G'|split; [exact HS|apply still_refl]]];
     match type of H with fcgi_loop _ _ _ (fcgi_handle_stdout _ ?x _) = _ => destruct (stdout_good E x c G') as (A1 & A2) end;
     destruct (IH _ _ _ _ _ (or_introl A1) H) as (A & B & C); split; [exact A|split; [exact B|exact (still_trans _ _ _ A2 C)]]).
Qed.
Lemma set_conn_good i s c : (good c -> good (set_conn i s c)) /\ still c (set_conn i s c) /\ c_hs (set_conn i s c) = c_hs c.
Proof. unfold set_conn. destruct (nth_error _ _); repeat split; auto; try (left; reflexivity); apply H. Qed.

Lemma step_settled E e c d : settled c -> quiet c e -> step E e c = Some (OK d) -> settled d /\ still c d.
Proof.
  intros S Q H. unfold step in H. destruct S as [CL|G].
  { rewrite CL in H. cbn [negb andb] in H. destruct e; try discriminate H.
    - destruct (nth_error _ _) as [k|]; [|discriminate]. destruct (_ && _); discriminate.
    - destruct (nth_error _ _) as [k|]; [|discriminate]. destruct (k_open k); discriminate.
    - destruct (c_type c), (c_pxy c), (c_up c), (c_iri c); discriminate.
    - destruct (c_up c); discriminate.
    - destruct (c_up c); discriminate. }
  change (good c) in G. pose proof G as (HS & R & UP). rewrite HS in H. destruct e as [sni| |chunk fs| |n a| |i chunk|i|r|chunk|]; try (destruct (c_closed c); discriminate H).
  - destruct (_ && _); [|discriminate]. apply SOi in H. unfold client_read in H. cbn [set_in c_type] in H. cbn [quiet] in Q.
    destruct (c_type c) eqn:T; [contradiction Q; reflexivity|..]; inj H; (split; [right; exact G|left; symmetry; exact T || reflexivity]).
  - destruct (_ && _); [|discriminate]. inj H. cbn [client_error andb]. split; [left; apply client_close_closed|right; apply client_close_closed].
  - destruct (_ && c_wev c); [|discriminate]. apply SOi in H. cbv zeta in H.
    match type of H with (match ?o with [] => _ | _ => _ end = _) => destruct o end.
    + eapply write_settled in H; [exact H|exact G].
    + inj H. split; [right; exact G|left; reflexivity].
  - destruct (_ && c_wev c); [|discriminate]. inj H. cbn [client_error andb]. split; [left; apply client_close_closed|right; apply client_close_closed].
  - destruct (nth_error (c_conns c) i) as [k|]; [|discriminate]. destruct (_ && _); [|discriminate]. destruct (negb (c_closed c)); [|discriminate]. apply SOi in H.
    destruct (set_conn_good i (k_in k ++ chunk) c) as (G2 & S2 & _). specialize (G2 G). unfold fcgi_read in H. destruct (nth_error _ i) as [k'|]; [|discriminate].
    destruct (fcgi_loop E _ _ _) as [[[s' x] err]| |] eqn:L; try discriminate. cbn [bind] in H. destruct (loop_good _ _ _ _ _ _ _ (or_introl G2) L) as (A & B & C).
    destruct (set_conn_good i s' x) as (G3 & S3 & H3). destruct err.
    + destruct (fcgi_error_good E (set_conn i s' x)) as (F1 & F2); [rewrite H3; exact B|]. destruct (write_settled _ _ _ F1 H) as (W1 & W2). split; [exact W1|]. right. destruct W2 as [W2|W2]; congruence.
    + destruct A as [A|(_ & A)]; [|discriminate]. inj H. split; [right; apply G3, A|]. eapply still_trans; [exact S2|]. eapply still_trans; [exact C|exact S3].
  - destruct (nth_error (c_conns c) i) as [k|]; [|discriminate]. destruct (k_open k); [|discriminate]. destruct (negb (c_closed c)); [|discriminate]. inj H.
    destruct (fcgi_error_good E (set_cgi (c_cgibev c) (close_conn i (c_conns c)) c) HS) as (F1 & F2). split; [right; exact F1|right; exact F2].
  - destruct (c_type c) eqn:T; try discriminate. specialize (UP eq_refl). destruct (c_pxy c), (c_up c); try discriminate. congruence.
  - destruct (c_up c) as [s|] eqn:U; [|discriminate]. destruct (_ && _); [|discriminate]. apply SOi in H. unfold proxy_read in H.
    destruct (c_code c =? 0) eqn:C0.
    + destruct (readln (s ++ chunk)) as [[line rest]|].
      * cbv zeta in H. set (x := set_up (c_pxy c) (Some rest) c) in *. assert (HX : c_hs x = true) by exact HS.
        destruct (_ || _); [destruct (proxy_error_settled _ _ _ HX H); split; [assumption|right; assumption]|].
        destruct (status is_space line) as [[code meta]|] eqn:ST; [|destruct (proxy_error_settled _ _ _ HX H); split; [assumption|right; assumption]].
        destruct (start_reply_hs E code meta x) as (A & B & C & _). pose proof (start_reply_code E code meta x (status_code _ _ _ _ ST)) as CD.
        destruct (start_reply E code meta x) as [y ok]. cbn [fst] in *. destruct (_ || (29 <? _)).
        { destruct (proxy_error_settled E y d); [rewrite A; exact HX|exact H|]. split; [assumption|right; assumption]. }
        inj H. split; [right; apply add_out_good; split; [rewrite <- HX, <- A; reflexivity|split; [left; exact CD|intros _; discriminate]]|].
        unfold still in *. rewrite add_out_type. exact C.
      * destruct (1029 <? _)%nat; [destruct (proxy_error_settled E (set_up (c_pxy c) (Some (s ++ chunk)) c) d HS H); split; [assumption|right; assumption]|].
        inj H. split; [right; split; [exact HS|split; [exact R|intros _; discriminate]]|left; reflexivity].
    + inj H. split; [right; apply add_out_good; split; [exact HS|split; [exact R|intros _; discriminate]]|]. unfold still. rewrite add_out_type. left; reflexivity.
  - destruct (c_up c); [|discriminate]. destruct (negb (c_closed c)); [|discriminate]. apply SOi in H.
    destruct (proxy_error_settled _ _ _ HS H). split; [assumption|right; assumption].
Qed.

(** *** once the reply has begun, nothing more is done or logged *)
Definition replied (c d : client) : Prop := c_acts d = c_acts c /\ c_code d = c_code c.
Lemma replied_trans a b c : replied a b -> replied b c -> replied a c. Proof. unfold replied. intros (A & B) (C & D). split; congruence. Qed.
Lemma close_replied c : replied c (client_close c).
Proof. unfold client_close, close_pfd, set_closed. destruct (c_cgibev c); cbn; destruct (c_pfd c); split; reflexivity. Qed.
Lemma add_out_replied s c : replied c (add_out s c). Proof. destruct s; split; reflexivity. Qed.
Lemma write_replied a c d : client_write a c = OK d -> replied c d.
Proof.
  unfold client_write. destruct (c_type c); try (intros H; inj H; split; reflexivity).
  - destruct a as [|n]; [|destruct (c_pfd c) as [|rest| | |]]; try (intros H; inj H; apply (close_replied (set_type DONE c))).
    cbv zeta. destruct (_ =? 0)%nat; [intros H; inj H; apply close_replied|]. intros H. inj H.
    destruct (_ =? BUFSIZ)%nat; (eapply replied_trans; [|apply add_out_replied]; split; reflexivity).
  - destruct (dir_lines (c_dir c)) as [lines| |]; try discriminate. cbn [bind]. intros H. inj H.
    eapply replied_trans; [|split; reflexivity]. eapply replied_trans; [|apply add_out_replied]. split; reflexivity.
  - intros H. destruct (c_out c); inj H; [apply close_replied|split; reflexivity].
Qed.
Lemma fcgi_error_replied E c : c_code c <> 0 -> replied c (fcgi_error E c).
Proof.
  intros C. unfold fcgi_error. assert (X : replied c (close_pfd c)) by (unfold close_pfd; destruct (c_pfd c); split; reflexivity).
  destruct (c_code (close_pfd c) =? 0) eqn:Q; [destruct X as (_ & X); rewrite X in Q; lia|exact X].
Qed.
Lemma loop_replied E : forall fuel s c s' d err, c_code c <> 0 -> fcgi_loop E fuel s c = OK (s', d, err) -> replied c d.
Proof.
  induction fuel as [|f IH]; intros s c s' d err C H; [discriminate|]. cbn [fcgi_loop] in H.
  assert (ST : forall x, replied c (fcgi_handle_stdout E x c)).
  { intros x. unfold fcgi_handle_stdout. destruct (c_code c =? 0) eqn:Q; [lia|]. apply add_out_replied. }
  destruct (c_type c) eqn:T; try (injection H as <- <- <-; split; reflexivity; fail);
    (destruct s as [|v0 [|ty [|i1 [|i0 [|l1 [|l0 [|pad [|rsv body]]]]]]]]; try (injection H as <- <- <-; split; reflexivity; fail);
     destruct (negb (_ =? 1)); [injection H as <- <- <-; split; reflexivity|]; cbv zeta in H;
     destruct (_ <? _)%nat; [injection H as <- <- <-; split; reflexivity|];
     destruct (ty =? FCGI_END_REQUEST); [destruct (negb _); [injection H as <- <- <-; split; reflexivity|]; exact (IH _ (set_type DONE c) _ _ _ C H)|];
     destruct (ty =? FCGI_STDERR); [exact (IH _ _ _ _ _ C H)|];
     destruct (ty =? FCGI_STDOUT); [|injection H as <- <- <-; split; reflexivity];
     (eapply replied_trans; [apply ST|eapply IH; [|exact H]]; rewrite (proj2 (ST _)); exact C)).
Qed.
Lemma step_replied E e c d : c_code c <> 0 -> settled c -> quiet c e -> step E e c = Some (OK d) -> replied c d.
Proof.
  intros C S Q H. unfold step in H. destruct S as [CL|G].
  { rewrite CL in H. cbn [negb andb] in H. destruct e; try discriminate H.
    - destruct (nth_error _ _) as [k|]; [|discriminate]. destruct (_ && _); discriminate.
    - destruct (nth_error _ _) as [k|]; [|discriminate]. destruct (k_open k); discriminate.
    - destruct (c_type c), (c_pxy c), (c_up c), (c_iri c); discriminate.
    - destruct (c_up c); discriminate.
    - destruct (c_up c); discriminate. }
  change (good c) in G. pose proof G as (HS & R & UP). rewrite HS in H. destruct e as [sni| |chunk fs| |n a| |i chunk|i|r|chunk|]; try (destruct (c_closed c); discriminate H).
  - destruct (_ && _); [|discriminate]. apply SOi in H. unfold client_read in H. cbn [set_in c_type] in H. cbn [quiet] in Q.
    destruct (c_type c) eqn:T; [contradiction Q; reflexivity|..]; inj H; split; reflexivity.
  - destruct (_ && _); [|discriminate]. inj H. cbn [client_error andb]. apply (close_replied (set_type DONE c)).
  - destruct (_ && c_wev c); [|discriminate]. apply SOi in H. cbv zeta in H.
    match type of H with (match ?o with [] => _ | _ => _ end = _) => destruct o end.
    + apply write_replied in H. exact H.
    + inj H. split; reflexivity.
  - destruct (_ && c_wev c); [|discriminate]. inj H. cbn [client_error andb]. apply (close_replied (set_type DONE c)).
  - destruct (nth_error (c_conns c) i) as [k|]; [|discriminate]. destruct (_ && _); [|discriminate]. destruct (negb (c_closed c)); [|discriminate]. apply SOi in H.
    assert (SC : forall s x, replied x (set_conn i s x)) by (intros s x; unfold set_conn; destruct (nth_error _ _); split; reflexivity).
    unfold fcgi_read in H. destruct (nth_error _ i) as [k'|]; [|discriminate].
    destruct (fcgi_loop E _ _ _) as [[[s' x] err]| |] eqn:L; try discriminate. cbn [bind] in H. apply loop_replied in L; [|rewrite (proj2 (SC _ _)); exact C].
    assert (RX : replied c (set_conn i s' x)) by (eapply replied_trans; [apply SC|]; eapply replied_trans; [exact L|apply SC]).
    destruct err; [|inj H; exact RX]. apply write_replied in H. eapply replied_trans; [exact RX|]. eapply replied_trans; [|exact H].
    apply fcgi_error_replied. rewrite (proj2 RX). exact C.
  - destruct (nth_error (c_conns c) i) as [k|]; [|discriminate]. destruct (k_open k); [|discriminate]. destruct (negb (c_closed c)); [|discriminate]. inj H.
    apply (fcgi_error_replied E (set_cgi (c_cgibev c) (close_conn i (c_conns c)) c)). exact C.
  - destruct (c_type c) eqn:T; try discriminate. specialize (UP eq_refl). destruct (c_pxy c), (c_up c); try discriminate. congruence.
  - destruct (c_up c) as [s|] eqn:U; [|discriminate]. destruct (_ && _); [|discriminate]. apply SOi in H. unfold proxy_read in H.
    destruct (c_code c =? 0) eqn:C0; [lia|]. inj H. apply (add_out_replied _ (set_up (c_pxy c) (Some []) c)).
  - destruct (c_up c); [|discriminate]. destruct (negb (c_closed c)); [|discriminate]. apply SOi in H. unfold proxy_error in H.
    set (x := set_pfd PNone _) in *. destruct (c_code x =? 0) eqn:C0; [change (c_code x) with (c_code c) in C0; lia|]. apply write_replied in H. exact H.
Qed.
