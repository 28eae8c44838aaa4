(** Property C73: fetching with gg(1).  Specification: GgSpec.v; the program is [gg]
    of Gg.v. *)
From Verif Require Import Base BaseLemmas Iri IriSpec IriObs Fmt Titan TitanSpec Titan_Proofs Gg GgSpec Gg_Proofs.
Local Open Scope N_scope.

(** Whatever the url, the options, the network and the server do, gg has no undefined
    behaviour (and does not loop for ever without the network). *)
Theorem c73_safe : forall W o url, genv_ok W -> nonul url -> bytes url -> exists r, gg W o url = OK r.
Proof.
  intros W o url HW Hn Hb. destruct (gg_run W o url HW Hn Hb) as [[-> _]|(_ & _ & c & _ & [[_ ->]|(_ & h & p & _ & ->)])]; eauto.
  match goal with |- context [gsession W o ?a ?b ?c ?d ?e ?f] => destruct (gsession_run W o a b c d e f HW) as (r & -> & _) end. eauto.
Qed.
Print Assumptions c73_safe.

(** When it connects: the options make sense, the url is valid and at most 1024 bytes
    long, the peer is the proxy or else the host and port of the url (1965 unless
    given), the name asked for is the one of -H or else the peer, it is verified
    unless -N or -P, the certificate and the protocols are the chosen ones, and what
    is sent is the url, as typed, and CRLF, up to where it stopped. *)
Theorem c73_request : forall W o url r host port, genv_ok W -> nonul url -> bytes url ->
  gg W o url = OK r -> gr_peer r = Some (host, port) ->
  gopts_ok W o /\ g_nop o = false /\ (length url <= 1024)%nat /\
  (exists c, accepts (gw_ip6 W) url c /\ target o c host port) /\
  gr_name r = Some (match g_sni o with Some n => n | None => host end) /\
  (gr_verify r = true <-> g_noname o = false /\ g_proxy o = None) /\
  (forall c k, gr_pair r = Some (c, k) <-> g_cert o = Some c /\ g_key o = Some k) /\
  (fst (gr_protos r) = true <-> g_3 o = false) /\ (snd (gr_protos r) = true <-> g_2 o = false) /\
  prefix (gr_wire r) (url ++ [13; 10]).
Proof.
  intros W o url r host port HW Hn Hb E P.
  destruct (gg_run W o url HW Hn Hb) as [[Q _]|(G & L & c & A & [[_ Q]|(Np & h & p & T & Q)])].
  1-2: rewrite Q in E; inversion E; subst r; discriminate P.
  rewrite Q in E. clear Q.
  match type of E with gsession W o ?a ?b ?c ?d ?e ?f = _ => destruct (gsession_run W o a b c d e f HW) as (r' & Q & R1 & R2 & R3 & R) end.
  rewrite Q in E. inversion E; subst r'. clear E Q.
  destruct R as [(_ & _ & _ & R & _)|(R4 & R5 & R6 & _)]; [congruence|]. rewrite R4 in P. inversion P; subst h p.
  split; [exact G|]. split; [exact Np|]. split; [exact L|]. split; [eauto|]. split; [exact R5|]. rewrite R1, R2, R3. cbn [fst snd].
  split; [destruct (g_noname o), (g_proxy o); cbn; intuition congruence|].
  split; [intros c1 k1; destruct (g_cert o), (g_key o); (split; [intros K; inversion K; auto|intros [K1 K2]; congruence])|].
  split; [destruct (g_3 o); cbn; intuition congruence|]. split; [destruct (g_2 o); cbn; intuition congruence|]. exact R6.
Qed.
Print Assumptions c73_request.

(** Contradictory options, a certificate that cannot be loaded, a url that is not
    valid or too long: status 1, nothing printed, nobody contacted. *)
Theorem c73_refused : forall W o url, genv_ok W -> nonul url -> bytes url ->
  ~ gopts_ok W o \/ (1024 < length url)%nat \/ (forall c, ~ accepts (gw_ip6 W) url c) ->
  exists r, gg W o url = OK r /\ gr_end r = Exit 1 /\ gr_out r = [] /\ gr_peer r = None /\ gr_wire r = [].
Proof.
  intros W o url HW Hn Hb H. destruct (gg_run W o url HW Hn Hb) as [[-> _]|(G & L & c & A & _)].
  - eexists. split; [reflexivity|]. repeat split.
  - exfalso. destruct H as [H|[H|H]]; [tauto|lia|apply (H c A)].
Qed.
Print Assumptions c73_refused.

(** -n: status 0 exactly when the url would be requested; nobody is contacted. *)
Theorem c73_check_only : forall W o url, genv_ok W -> nonul url -> bytes url -> g_nop o = true -> gopts_ok W o ->
  exists r k, gg W o url = OK r /\ gr_end r = Exit k /\ gr_out r = [] /\ gr_peer r = None /\ gr_wire r = [] /\
    (k = 0%nat <-> (length url <= 1024)%nat /\ exists c, accepts (gw_ip6 W) url c).
Proof.
  intros W o url HW Hn Hb H Ho. destruct (gg_run W o url HW Hn Hb) as [[-> Q]|(G & L & c & A & [[_ ->]|(Q & _)])]; [| |congruence].
  - exists (stopped o 1), 1%nat. repeat (split; [reflexivity|]). split; [discriminate|]. intros [L [c A]]. destruct Q as [Q|[Q|Q]]; [tauto|lia|destruct (Q c A)].
  - exists (stopped o 0), 0%nat. repeat (split; [reflexivity|]). split; eauto.
Qed.
Print Assumptions c73_check_only.

(** the connection works and the request is taken *)
Definition connected (W : gworld) (o : gopts) (url : list N) : Prop :=
  gopts_ok W o /\ g_nop o = false /\ (length url <= 1024)%nat /\
  (exists c host port, accepts (gw_ip6 W) url c /\ target o c host port /\ gw_dial W host port = true) /\
  gw_start W = true /\ ~ In Herr (gw_shake W) /\ In Hdone (gw_shake W) /\
  ~ In Werr (gw_write W) /\ ~ In Wzero (gw_write W) /\ (length url + 2 <= taken (gw_write W))%nat.

Lemma target_fun o c h p h' p' : target o c h p -> target o c h' p' -> h = h' /\ p = p'.
Proof.
  intros A B. destruct A as [A|a h p A1 A2], B as [B|b h' p' B1 B2]; auto; try congruence.
  apply parse_proxy_iff in A2. apply parse_proxy_iff in B2. rewrite A1 in B1. inversion B1; subst. rewrite A2 in B2. inversion B2. auto.
Qed.
Lemma connected_run W o url : genv_ok W -> nonul url -> bytes url -> connected W o url ->
  exists r f, gg W o url = OK r /\ gr_wire r = url ++ [13; 10] /\ fetch W o (gw_read W) = OK (f, gr_out r, gr_says r) /\
        gr_end r = match f with
               | Fatal => Exit 1
               | Waiting => Running
               | Code code => Exit (if ((20 <=? code) && (code <? 30))%Z then 0%nat else exit_status code)
               end.
Proof.
  intros HW Hn Hb (C1 & C2 & C3 & (c & h & p & C4 & C5 & C6) & C7 & C8 & C9 & C10 & C11 & C12).
  destruct (gg_run W o url HW Hn Hb) as [[_ [Q|[Q|Q]]]|(G & L & c' & A & [[Q _]|(Np & h' & p' & T & ->)])]; [tauto|lia|destruct (Q c C4)|congruence|].
  rewrite (accepts_fun _ _ _ _ A C4) in T. destruct (target_fun _ _ _ _ _ _ T C5) as [-> ->].
  match goal with |- context [gsession W o ?a ?b ?c ?d ?e ?f] => destruct (gsession_run W o a b c d e f HW) as (r & -> & _ & _ & _ & R) end.
  destruct R as [R|(_ & _ & _ & [(_ & _ & _ & R)|(Rw & f & F1 & F2)])].
  - exfalso. destruct R as (_ & _ & _ & _ & _ & R). congruence.
  - exfalso. apply R; auto; [apply handshake_done; auto|]. rewrite doreq_all; auto. rewrite app_length. cbn [length]. lia.
  - eauto 10.
Qed.

Lemma answer_ne rep h b : answer rep h b -> rep <> [].
Proof. intros A. destruct A as [h b F L]. intros Q. apply app_eq_nil in Q. destruct Q as [_ Q]. discriminate. Qed.

(** When the server sends an answer and closes, the status and the output are those
    of the manual, however the answer is split; the text of the server is shown on
    stderr, cleaned, when it is not a success (unless -q, or -d). *)
Theorem c73_output : forall W o url rep h body code meta, genv_ok W -> nonul url -> bytes url -> connected W o url ->
  sends (gw_read W) rep -> answer rep h body -> says h code meta ->
  exists r, gg W o url = OK r /\ gr_end r = Exit (status code) /\ shows (g_debug o) rep h code meta body (gr_out r) /\
    (gr_says r <> None <-> g_debug o = DNone /\ g_quiet o = false /\ (code < 20 \/ 30 <= code)) /\
    (forall t, gr_says r = Some t -> cleaned (gw_ctl W) t).
Proof.
  intros W o url rep h body code meta HW Hn Hb HC S A Sy.
  destruct (connected_run W o url HW Hn Hb HC) as (r & f & -> & _ & F & E). exists r. split; [reflexivity|].
  destruct HW as (_ & _ & Bb & Br). apply sends_strm in S.
  destruct (fetch_spec W o (gw_read W) rep EEof S (strm_bytes _ _ _ S Br) Bb) as (f' & out & sy & F' & H). rewrite F in F'.
  assert (f' = f /\ out = gr_out r /\ sy = gr_says r) as (-> & -> & ->) by (inversion F'; auto). clear F' F.
  destruct H as [(H & _)|[(H & _)|[(_ & _ & _ & _ & _ & H)|(_ & h' & body' & code' & meta' & A' & Sy' & Q & H)]]].
  - exfalso. apply H. right. reflexivity.
  - exfalso. exact (answer_ne _ _ _ A H).
  - exfalso. eapply H; eauto.
  - destruct (answer_fun _ _ _ _ _ A' A) as [-> ->]. destruct (says_fun _ _ _ _ _ Sy' Sy) as [-> ->].
    assert (Cd : code < 100).
    { destruct Sy as (d1 & d2 & _ & D1 & D2 & ->). unfold decimal. cbn [fold_left]. unfold is_digit in *. lia. }
    assert (X : f = Code (Z.of_N code) /\ shows (g_debug o) rep h code meta body (gr_out r)).
    { destruct (g_debug o); cbv zeta in H; try exact H; destruct H as (_ & -> & ->); split; auto; constructor. }
    destruct X as [-> X]. split.
    { rewrite E. f_equal. unfold status, exit_status. rewrite Z.mod_small by lia.
      destruct (N.leb_spec 20 code), (N.ltb_spec code 30), (Z.leb_spec 20 (Z.of_N code)), (Z.ltb_spec (Z.of_N code) 30); cbn [andb]; lia. }
    split; [exact X|]. unfold quiet_or_fine in Q. destruct (gr_says r) as [t|].
    + destruct Q as (Q1 & Q2 & Q3 & Q4). split; [split; [auto|discriminate]|]. intros t' K. inversion K; subst. exact Q4.
    + split; [|discriminate]. split; [congruence|]. intros (Q1 & Q2 & Q3). destruct Q as [Q|[Q|Q]]; [congruence|congruence|lia].
Qed.
Print Assumptions c73_output.

(** ... and when what it sends is not an answer, status 1 and no output. *)
Theorem c73_garbage : forall W o url rep, genv_ok W -> nonul url -> bytes url -> connected W o url ->
  sends (gw_read W) rep -> rep <> [] -> (forall h body code meta, answer rep h body -> ~ says h code meta) ->
  exists r, gg W o url = OK r /\ gr_end r = Exit 1 /\ gr_out r = [] /\ gr_says r = None.
Proof.
  intros W o url rep HW Hn Hb HC S Ne A.
  destruct (connected_run W o url HW Hn Hb HC) as (r & f & -> & _ & F & E). exists r. split; [reflexivity|].
  destruct HW as (_ & _ & Bb & Br). apply sends_strm in S.
  destruct (fetch_spec W o (gw_read W) rep EEof S (strm_bytes _ _ _ S Br) Bb) as (f' & out & sy & F' & H). rewrite F in F'.
  assert (f' = f /\ out = gr_out r /\ sy = gr_says r) as (-> & -> & ->) by (inversion F'; auto).
  destruct H as [(H & _)|[(H & _)|[(_ & _ & H1 & H2 & H3 & _)|(_ & h' & body' & code' & meta' & A' & Sy' & Q & H)]]].
  - exfalso. apply H. right. reflexivity.
  - congruence.
  - subst f. auto.
  - exfalso. eapply A; eauto.
Qed.
Print Assumptions c73_garbage.

(** In every run at all: status 0 means that -n was given, or that the whole request was
    sent and the server's answer has a code in the 2x range (or is "00", see below);
    and without -d or with -d all, that the output is the whole body, or answer. *)
Theorem c73_exit_sound : forall W o url r, genv_ok W -> nonul url -> bytes url ->
  gg W o url = OK r -> gr_end r = Exit 0 ->
  (g_nop o = true /\ gr_out r = []) \/
  exists rep h body code meta, comes (gw_read W) rep /\ answer rep h body /\ says h code meta /\
    gr_wire r = url ++ [13; 10] /\ (20 <= code < 30 \/ code = 0) /\ shows (g_debug o) rep h code meta body (gr_out r) /\
    (g_debug o = DNone \/ g_debug o = DAll -> sends (gw_read W) rep).
Proof.
  intros W o url r HW Hn Hb E Ee.
  destruct (gg_run W o url HW Hn Hb) as [[Q _]|(G & L & c & A & [[Np Q]|(Np & h & p & T & Q)])]; rewrite Q in E.
  { inversion E; subst r. discriminate Ee. }
  { inversion E; subst r. left. auto. }
  right. match type of E with gsession W o ?a ?b ?c ?d ?e ?f = _ => destruct (gsession_run W o a b c d e f HW) as (r' & Q' & _ & _ & _ & R) end.
  rewrite Q' in E. inversion E; subst r'. clear E Q Q'.
  destruct R as [(R & _)|(_ & _ & _ & [([R|R] & _)|(Rw & f & F & R)])]; try congruence.
  rewrite Ee in R. destruct f as [cd| |]; try discriminate. destruct HW as (_ & _ & Bb & Br).
  destruct (strm (gw_read W)) as [rep k] eqn:Es.
  destruct (fetch_spec W o (gw_read W) rep k Es (strm_bytes _ _ _ Es Br) Bb) as (f' & out & sy & F' & H). rewrite F in F'.
  assert (f' = Code cd /\ out = gr_out r /\ sy = gr_says r) as (-> & -> & ->) by (inversion F'; auto). clear F' F.
  destruct H as [(_ & _ & _ & H)|[(_ & _ & H & _)|[(_ & _ & _ & _ & H & _)|(_ & h' & body & code & meta & A' & Sy & _ & H)]]].
  - destruct k; discriminate.
  - assert (cd = (-1)%Z) by congruence. subst cd. discriminate R.
  - discriminate.
  - exists rep, h', body, code, meta. split; [exact (strm_comes _ _ _ Es)|]. split; [exact A'|]. split; [exact Sy|]. split; [exact Rw|].
    assert (X : cd = Z.of_N code /\ shows (g_debug o) rep h' code meta body (gr_out r) /\ (g_debug o = DNone \/ g_debug o = DAll -> sends (gw_read W) rep)).
    { rewrite sends_strm, Es. destruct (g_debug o); cbv zeta in H.
      1,5: destruct H as (_ & H); destruct k; try discriminate; destruct H as [H ->]; repeat split; [congruence|constructor].
      all: destruct H as [H H2]; repeat split; [congruence|exact H2|intros [K|K]; discriminate]. }
    destruct X as (-> & X2 & X3). split; [|auto].
    assert (Cd : code < 100).
    { destruct Sy as (d1 & d2 & _ & D1 & D2 & ->). unfold decimal. cbn [fold_left]. unfold is_digit in *. lia. }
    assert (R' : (if ((20 <=? Z.of_N code) && (Z.of_N code <? 30))%Z then 0%nat else exit_status (Z.of_N code)) = 0%nat) by congruence.
    unfold exit_status in R'. rewrite Z.mod_small in R' by lia.
    destruct (Z.leb_spec 20 (Z.of_N code)), (Z.ltb_spec (Z.of_N code) 30); cbn [andb] in R'; lia.
Qed.
Print Assumptions c73_exit_sound.

(** What is on stdout is at any time a part of what was asked: a prefix of the body, or
    of the answer. *)
Theorem c73_output_prefix : forall W o url r, genv_ok W -> nonul url -> bytes url ->
  gg W o url = OK r -> g_debug o = DNone \/ g_debug o = DAll -> gr_out r <> [] ->
  exists rep h body code meta, comes (gw_read W) rep /\ answer rep h body /\ says h code meta /\
    prefix (gr_out r) (if match g_debug o with DAll => true | _ => false end then rep else body).
Proof.
  intros W o url r HW Hn Hb E Hd Ho.
  destruct (gg_run W o url HW Hn Hb) as [[Q _]|(G & L & c & A & [[Np Q]|(Np & h & p & T & Q)])]; rewrite Q in E.
  { inversion E; subst r. destruct (Ho eq_refl). }
  { inversion E; subst r. destruct (Ho eq_refl). }
  match type of E with gsession W o ?a ?b ?c ?d ?e ?f = _ => destruct (gsession_run W o a b c d e f HW) as (r' & Q' & _ & _ & _ & R) end.
  rewrite Q' in E. inversion E; subst r'. clear E Q Q'.
  destruct R as [(_ & R & _)|(_ & _ & _ & [(_ & R & _)|(Rw & f & F & R)])]; try congruence.
  destruct HW as (_ & _ & Bb & Br).
  destruct (strm (gw_read W)) as [rep k] eqn:Es.
  destruct (fetch_spec W o (gw_read W) rep k Es (strm_bytes _ _ _ Es Br) Bb) as (f' & out & sy & F' & H). rewrite F in F'.
  assert (f' = f /\ out = gr_out r /\ sy = gr_says r) as (-> & -> & ->) by (inversion F'; auto). clear F' F.
  destruct H as [(_ & H & _)|[(_ & _ & _ & H & _)|[(_ & _ & H & _)|(_ & h' & body & code & meta & A' & Sy & _ & H)]]]; try congruence.
  exists rep, h', body, code, meta. split; [exact (strm_comes _ _ _ Es)|]. split; [exact A'|]. split; [exact Sy|].
  destruct Hd as [Hd|Hd]; rewrite Hd in *; cbv zeta in H; destruct H as [H _]; exact H.
Qed.
Print Assumptions c73_output_prefix.

(** example: a redirect through a proxy, answered in two pieces *)
Definition gx_world (reads : list rres) : gworld :=
  mkGW (fun _ => false) (repeat 7 1027) (repeat 7 2048) (fun _ _ => true) (fun _ _ => true) true [Hwant; Hdone]
    (Wwant :: repeat (Wtook 3) 40) reads (fun s => match s with c :: _ => if c <? 128 then Some 0%nat else None | [] => None end)
    (fun w => match w with c :: _ => (c <? 32) && negb (c =? 10) | [] => false end).
Definition gx_opts (d : dmode) : gopts := mkG d false true false false false None None (Some (s2b "[::1]:1966")) None.
Definition gx_reads : list rres := [Rgot 51 (s2b "1 /new"); Rwant; Rgot 27 (s2b "x" ++ [200; 13; 10]); Rgot 98 (s2b "ody"); Reof].
Example c73_example :
  gg (gx_world gx_reads) (gx_opts DNone) (s2b "gemini://h/a") =
  OK (mkGR (Exit 31) (s2b "body") (Some (s2b "/new?x?" ++ [10])) None (Some (s2b "::1", s2b "1966")) (Some (s2b "::1"))
       false (true, false) (s2b "gemini://h/a" ++ [13; 10])).
Proof. vm_compute. reflexivity. Qed.
Example c73_example_meta :
  gg (gx_world [Rgot 50 (s2b "0 text/gemini" ++ [13; 10; 65]); Rwant]) (gx_opts DMeta) (s2b "gemini://h/a") = OK (
   mkGR Running [] None None (Some (s2b "::1", s2b "1966")) (Some (s2b "::1")) false (true, false) (s2b "gemini://h/a" ++ [13; 10])).
Proof. vm_compute. reflexivity. Qed.
Lemma gx_env reads : Forall (fun r => bytes (gives r)) reads -> genv_ok (gx_world reads).
Proof.
  intros F. split; [reflexivity|]. split; [reflexivity|]. split; [|exact F].
  apply Forall_forall. intros x Hx. apply repeat_spec in Hx. subst. reflexivity.
Qed.
Lemma gx_connected d reads : connected (gx_world reads) (gx_opts d) (s2b "gemini://h/a").
Proof.
  assert (P : proxy_arg (s2b "[::1]:1966") (s2b "::1") (s2b "1966")).
  { apply (pa_ip6_port (s2b "::1") (s2b "1966")). cbn. intuition discriminate. }
  split; [split; [reflexivity|split; [exact I|exists (s2b "::1"), (s2b "1966"); exact P]]|]. split; [reflexivity|]. split; [vm_compute; lia|].
  split.
  { exists (mkC (s2b "gemini") (s2b "h") [] 1965 (s2b "a") [] []), (s2b "::1"), (s2b "1966"). split; [|split].
    - eexists. split; vm_compute; reflexivity.
    - eapply tg_proxy; [reflexivity|exact P].
    - reflexivity. }
  split; [reflexivity|]. split; [cbn; intuition discriminate|]. split; [cbn; auto|].
  split; [|split].
  - cbn [gw_write gx_world]. intros [Q|Q]; [discriminate|apply repeat_spec in Q; discriminate].
  - cbn [gw_write gx_world]. intros [Q|Q]; [discriminate|apply repeat_spec in Q; discriminate].
  - vm_compute. lia.
Qed.
Example c73_example_hyps :
  genv_ok (gx_world gx_reads) /\ connected (gx_world gx_reads) (gx_opts DNone) (s2b "gemini://h/a") /\
  sends gx_reads (s2b "31 /new" ++ [27] ++ s2b "x" ++ [200; 13; 10] ++ s2b "body") /\
  answer (s2b "31 /new" ++ [27] ++ s2b "x" ++ [200; 13; 10] ++ s2b "body") (s2b "31 /new" ++ [27] ++ s2b "x" ++ [200]) (s2b "body") /\
  says (s2b "31 /new" ++ [27] ++ s2b "x" ++ [200]) 31 (s2b "/new" ++ [27] ++ s2b "x" ++ [200]).
Proof.
  split; [apply gx_env; repeat constructor|]. split; [apply gx_connected|]. split; [apply sends_strm; reflexivity|]. split.
  - apply (ans (s2b "31 /new" ++ [27] ++ s2b "x" ++ [200]) (s2b "body")); [|vm_compute; lia].
    intros x y Q. assert (K : In 10 (x ++ [13; 10] ++ y)) by (apply in_or_app; right; cbn; auto). rewrite <- Q in K. cbn in K. intuition discriminate.
  - exists 51, 49. repeat split.
Qed.

(** The manual: "If a failure occurs, it exits with status code 1".  A connection
    closed before any answer gives 255. *)
Theorem c73_no_answer_refuted : forall W o url, genv_ok W -> nonul url -> bytes url -> connected W o url ->
  sends (gw_read W) [] -> exists r, gg W o url = OK r /\ gr_end r = Exit 255 /\ gr_out r = [].
Proof.
  intros W o url HW Hn Hb HC S.
  destruct (connected_run W o url HW Hn Hb HC) as (r & f & -> & _ & F & E). exists r. split; [reflexivity|].
  destruct HW as (_ & _ & Bb & Br). apply sends_strm in S.
  destruct (fetch_spec W o (gw_read W) [] EEof S (strm_bytes _ _ _ S Br) Bb) as (f' & out & sy & F' & H). rewrite F in F'.
  assert (f' = f /\ out = gr_out r /\ sy = gr_says r) as (-> & -> & ->) by (inversion F'; auto). clear F' F.
  destruct H as [(H & _)|[(_ & _ & -> & -> & _)|[(H & _)|(_ & h' & body' & code' & meta' & A' & Sy' & Q & H)]]].
  - exfalso. apply H. right. reflexivity.
  - rewrite E. split; reflexivity.
  - congruence.
  - destruct (answer_ne _ _ _ A' eq_refl).
Qed.
Print Assumptions c73_no_answer_refuted.
Example c73_no_answer_hyps : genv_ok (gx_world [Reof]) /\ connected (gx_world [Reof]) (gx_opts DAll) (s2b "gemini://h/a") /\ sends (gw_read (gx_world [Reof])) [].
Proof. split; [apply gx_env; repeat constructor|]. split; [apply gx_connected|]. apply sends_strm; reflexivity. Qed.

(** "exits with zero if the response code was in the 2x range ... Otherwise, the error
    code reflects the Gemini response code": an answer "00 ..." is a success. *)
Theorem c73_zero_refuted : exists W o url r, genv_ok W /\ gg W o url = OK r /\ gr_end r = Exit 0 /\ g_nop o = false /\
  exists rep h body code meta, sends (gw_read W) rep /\ answer rep h body /\ says h code meta /\ ~ (20 <= code < 30).
Proof.
  exists (gx_world [Rgot 48 (s2b "0 no" ++ [13; 10]); Reof]), (gx_opts DAll), (s2b "gemini://h/a"). eexists.
  split; [apply gx_env; repeat constructor|]. split; [vm_compute; reflexivity|]. cbn [gr_end]. split; [reflexivity|]. split; [reflexivity|].
  exists (s2b "00 no" ++ [13; 10]), (s2b "00 no"), [], 0, (s2b "no"). split; [apply sends_strm; reflexivity|]. split.
  - apply (ans (s2b "00 no") []); [|vm_compute; lia].
    intros x y Q. assert (K : In 10 (x ++ [13; 10] ++ y)) by (apply in_or_app; right; cbn; auto). rewrite <- Q in K. cbn in K. intuition discriminate.
  - split; [exists 48, 48; repeat split|lia].
Qed.
Print Assumptions c73_zero_refuted.
