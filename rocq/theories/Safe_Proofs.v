(** No undefined behaviour in the histories of SafeSpec. *)
From Coq Require Import Permutation Sorting.Sorted.
From Verif Require Import Base BaseLemmas Compat Iri IriSpec IriObs IriSafeSpec Prop_Iri IriOut IriOutSpec Prop_IriOut Puny Conf ConfSpec Mime MimeSpec Prop_Mime Prop_Conf Fmt FmtSpec Prop_Fmt Fcgi Prop_Fcgi Server ServerSpec Iri_Last_Proofs Server_Proofs Decide_Proofs RequestSpec Request_Proofs HistorySpec Run_Proofs Wiring_Proofs Hist_Proofs SafeSpec.
Local Open Scope N_scope.

(** a request line that was accepted *)
Definition accepted (E : env) (i : comps) : Prop :=
  exists line, nonul line /\ bytes line /\ (length line <= 1024)%nat /\ accepts (e_ip6 E) line i.

Definition U (E : env) (c : client) : Prop :=
  bytes (c_in c) /\ Forall (fun d => name_ok (fst d)) (c_dir c) /\
  (c_type c = RPROXY -> exists i, c_iri c = Some i /\ accepted E i) /\
  (c_hs c = true -> c_type c = UNDECIDED -> c_vhost c <> None).

(** what most steps keep *)
Definition kept (c c' : client) : Prop :=
  c_hs c' = c_hs c /\ c_in c' = c_in c /\ c_iri c' = c_iri c /\ c_vhost c' = c_vhost c /\ (c_dir c' = c_dir c \/ c_dir c' = []) /\
  (c_type c' = c_type c \/ c_type c' = DONE \/ c_type c' = RFILE \/ c_type c' = RDIR).
Lemma kept_U E c c' : kept c c' -> U E c -> U E c'.
Proof.
  intros (H0 & H1 & H2 & H3 & H4 & H5) (A & B & C & D). unfold U. rewrite H0, H1, H2, H3. split; [exact A|].
  split; [destruct H4 as [->| ->]; auto|]. split.
  - intros X. apply C. destruct H5 as [<-|[H5|[H5|H5]]]; congruence.
  - intros Y X. apply D; [exact Y|]. destruct H5 as [<-|[H5|[H5|H5]]]; congruence.
Qed.
Lemma kept_trans a b c : kept a b -> kept b c -> kept a c.
Proof.
  intros (A0 & A1 & A2 & A3 & A4 & A5) (B0 & B1 & B2 & B3 & B4 & B5). unfold kept. rewrite B0, B1, B2, B3, A0, A1, A2, A3.
  repeat (split; [reflexivity|]). split.
  - destruct B4 as [->|]; auto.
  - destruct B5 as [->|]; auto.
Qed.
Lemma kept_refl c : kept c c. Proof. repeat split; auto. Qed.
Lemma same_kept c c' : same c c' -> (c_type c' = c_type c \/ c_type c' = DONE) -> kept c c'.
Proof.
  intros (S1 & _ & S2 & _ & S3 & _ & S4 & _ & S5 & _) T. repeat split; auto. destruct T; auto.
Qed.
Lemma start_reply_kept E code meta c : 10 <= code < 100 -> kept c (fst (start_reply E code meta c)).
Proof. intros H. apply same_kept; [apply start_reply_same; exact H|apply start_reply_type; exact H]. Qed.
Lemma reply_kept E code meta c : 10 <= code < 100 -> kept c (reply E code meta c).
Proof. exact (start_reply_kept E code meta c). Qed.
Lemma add_out_kept s c : kept c (add_out s c).
Proof. apply same_kept; [apply add_out_same|left; apply add_out_type]. Qed.
Ltac kept_tac := repeat split; auto.

Lemma close_pfd_kept c : kept c (close_pfd c).
Proof. unfold close_pfd. destruct (c_pfd c); kept_tac. Qed.
Lemma client_close_kept c : kept c (client_close c).
Proof.
  unfold client_close. destruct (c_cgibev c) as [i|].
  - apply (kept_trans _ (close_pfd (set_cgi None (close_conn i (c_conns c)) c))); [|kept_tac].
    apply (kept_trans _ (set_cgi None (close_conn i (c_conns c)) c)); [kept_tac|apply close_pfd_kept].
  - apply (kept_trans _ (close_pfd c)); [apply close_pfd_kept|kept_tac].
Qed.

(** ** client_write *)
Lemma dir_lines_ok ds : Forall (fun d => name_ok (fst d)) ds -> exists l, dir_lines ds = OK l.
Proof.
  induction ds as [|d ds IH]; intros H; [exists []; reflexivity|]. inversion H as [|? ? [N B] H2]; subst.
  destruct (IH H2) as (l & E). cbn [dir_lines]. unfold dir_line.
  destruct (c08_encode_path (fst d) PATH_MAX N B) as (r & buf & E1 & _ & S & L); [apply Nat.ltb_lt; reflexivity|].
  rewrite E1, E. cbn [bind].
  assert (C : exists x, cstr buf = Some x).
  { destruct (Nat.lt_ge_cases (length (pct_encode (fst d))) PATH_MAX) as [X|X]; [destruct (S X) as [_ ->]; eauto|].
    destruct (L X) as (_ & a & b & _ & ->). eauto. }
  destruct C as (x & ->). cbn [bind]. eauto.
Qed.

Lemma client_write_safe E a c : U E c -> exists c', client_write a c = OK c' /\ kept c c'.
Proof.
  intros (_ & D & _). unfold client_write. destruct (c_type c) eqn:T.
  - eexists. split; [reflexivity|apply kept_refl].
  - destruct a as [|n]; [eexists; split; [reflexivity|]; eapply kept_trans; [|apply client_close_kept]; kept_tac|].
    destruct (c_pfd c); try (eexists; split; [reflexivity|]; eapply kept_trans; [|apply client_close_kept]; kept_tac).
    cbv zeta. destruct (_ =? 0)%nat; [eexists; split; [reflexivity|apply client_close_kept]|].
    eexists. split; [reflexivity|]. eapply kept_trans; [|apply add_out_kept]. destruct (_ =? _)%nat; kept_tac.
  - destruct (dir_lines_ok _ D) as (l & ->). cbn [bind]. cbv zeta. eexists. split; [reflexivity|].
    eapply (kept_trans _ (add_out l (set_type DONE (set_dir [] c)))); [|kept_tac]. eapply kept_trans; [|apply add_out_kept]. kept_tac.
  - eexists. split; [reflexivity|apply kept_refl].
  - eexists. split; [reflexivity|apply kept_refl].
  - eexists. split; [reflexivity|]. destruct (c_out c); [apply client_close_kept|apply kept_refl].
Qed.

(** ** FastCGI *)
Lemma fcgi_error_kept E c : kept c (fcgi_error E c).
Proof.
  unfold fcgi_error. cbv zeta. eapply kept_trans; [apply close_pfd_kept|]. destruct (_ =? 0); [apply reply_kept; lia|kept_tac].
Qed.
Lemma stdout_kept E s c : kept c (fcgi_handle_stdout E s c).
Proof.
  unfold fcgi_handle_stdout. destruct (c_code c =? 0); [|apply add_out_kept]. cbv zeta.
  set (c1 := set_sbuf _ c). assert (K1 : kept c c1) by kept_tac. eapply kept_trans; [exact K1|]. clearbody c1. clear K1.
  destruct (readln (c_sbuf c1)) as [[line t]|].
  2:{ destruct (_ =? SBUF)%nat; [apply fcgi_error_kept|apply kept_refl]. }
  destruct (status (N.eqb 32) line) as [[code meta]|] eqn:ST; [|apply fcgi_error_kept].
  apply status_range in ST. pose proof (start_reply_kept E code meta c1 ltac:(lia)) as S.
  destruct (start_reply E code meta c1) as [c2 ok]. cbn [fst] in S. eapply kept_trans; [exact S|].
  destruct (negb ok || _ || _); [apply fcgi_error_kept|]. eapply kept_trans; apply add_out_kept.
Qed.

(** every record is at least eight bytes *)
Lemma fcgi_loop_safe E : forall f s c, (S (length s) < f)%nat \/ (c_type c = DONE /\ (length s < f)%nat) ->
  exists s' c' err, fcgi_loop E f s c = OK (s', c', err) /\ kept c c'.
Proof.
  induction f as [|f IH]; intros s c L; [lia|]. cbn [fcgi_loop].
  assert (ST : forall (x : list N) (b : bool), exists s' c' err, OK (x, c, b) = OK (s', c', err) /\ kept c c') by (intros x b; exists x, c, b; split; [reflexivity|apply kept_refl]).
  assert (G : (S (length s) < S f)%nat -> exists s' c' err, (match s with
      | v :: ty :: i1 :: i0 :: l1 :: l0 :: pad :: rsv :: body =>
        if negb (i0 + N.shiftl i1 8 =? 1) then OK (s, c, true) else
        let len := N.to_nat (l0 + N.shiftl l1 8) in
        if (length body <? len + N.to_nat pad)%nat then OK (s, c, false) else
        let content := firstn len body in
        let rest := skipn (len + N.to_nat pad) body in
        if ty =? FCGI_END_REQUEST then
          if negb (len =? 8)%nat then OK (body, c, true)
          else fcgi_loop E f rest (set_type DONE c)
        else if ty =? FCGI_STDERR then fcgi_loop E f rest c
        else if ty =? FCGI_STDOUT then fcgi_loop E f rest (fcgi_handle_stdout E content c)
        else OK (body, c, true)
      | _ => OK (s, c, false)
      end) = OK (s', c', err) /\ kept c c').
  { intros L1. destruct s as [|? [|ty [|i1 [|i0 [|l1 [|l0 [|pad [|? body]]]]]]]]; try apply ST.
    cbn [length] in L1. cbv zeta. destruct (negb _); [apply ST|]. destruct (_ <? _)%nat; [apply ST|].
    assert (LR : forall k, (S (length (skipn k body)) < f)%nat) by (intros k; rewrite skipn_length; lia).
    assert (GO : forall k c1, kept c c1 -> exists s' c' err, fcgi_loop E f (skipn k body) c1 = OK (s', c', err) /\ kept c c').
    { intros k c1 K1. destruct (IH (skipn k body) c1 (or_introl (LR k))) as (s' & c' & e & Q & K2). exists s', c', e. split; [exact Q|]. eapply kept_trans; eauto. }
    destruct (ty =? FCGI_END_REQUEST).
    - destruct (negb _); [apply ST|]. apply GO. kept_tac.
    - destruct (ty =? FCGI_STDERR); [apply GO, kept_refl|]. destruct (ty =? FCGI_STDOUT); [apply GO, stdout_kept|apply ST]. }
  destruct (c_type c) eqn:T; try (apply G; destruct L as [L|[L _]]; [lia|congruence]). apply ST.
Qed.

Lemma set_conn_kept i s c : kept c (set_conn i s c).
Proof. unfold set_conn. destruct (nth_error (c_conns c) i); kept_tac. Qed.

Lemma fcgi_read_safe E i c : U E c -> nth_error (c_conns c) i <> None -> exists c', fcgi_read E i c = OK c' /\ kept c c'.
Proof.
  intros HU N. unfold fcgi_read. destruct (nth_error (c_conns c) i) as [k|]; [|contradiction].
  destruct (fcgi_loop_safe E (S (S (length (k_in k)))) (k_in k) c) as (s & c1 & err & -> & K1); [left; lia|]. cbn [bind]. cbv zeta.
  pose proof (kept_trans _ _ _ K1 (set_conn_kept i s c1)) as K2. destruct err; [|eauto].
  pose proof (kept_trans _ _ _ K2 (fcgi_error_kept E _)) as K3.
  destruct (client_write_safe E RdErr _ (kept_U _ _ _ K3 HU)) as (c' & -> & K4). exists c'. split; [reflexivity|]. eapply kept_trans; eauto.
Qed.

(** ** the upstream *)
Lemma proxy_error_safe E c : U E c -> exists c', proxy_error E c = OK c' /\ kept c c'.
Proof.
  intros HU. unfold proxy_error. cbv zeta. set (c1 := set_pfd PNone (set_up (c_pxy c) None c)).
  assert (K1 : kept c c1) by kept_tac. destruct (c_code c1 =? 0).
  - eexists. split; [reflexivity|]. eapply kept_trans; [exact K1|]. apply reply_kept; lia.
  - assert (K2 : kept c (set_type DONE c1)) by kept_tac.
    destruct (client_write_safe E RdErr _ (kept_U _ _ _ K2 HU)) as (c' & -> & K3). exists c'. split; [reflexivity|]. eapply kept_trans; eauto.
Qed.

Lemma proxy_read_safe E s c : U E c -> exists c', proxy_read E s c = OK c' /\ kept c c'.
Proof.
  intros HU. unfold proxy_read.
  assert (MU : forall d x, kept d (set_up (c_pxy d) (Some x) d)) by (intros; kept_tac).
  assert (PE : forall d, kept c d -> exists c', proxy_error E d = OK c' /\ kept c c').
  { intros d K1. destruct (proxy_error_safe E d (kept_U _ _ _ K1 HU)) as (c' & -> & K2). exists c'. split; [reflexivity|]. eapply kept_trans; eauto. }
  destruct (c_code c =? 0).
  2:{ eexists. split; [reflexivity|]. eapply kept_trans; [|apply add_out_kept]. apply MU. }
  destruct (readln s) as [[line rest]|].
  2:{ destruct (1029 <? length s)%nat; [apply PE, MU|]. eexists. split; [reflexivity|apply MU]. }
  cbv zeta. set (c1 := set_up (c_pxy c) (Some rest) c). assert (K1 : kept c c1) by kept_tac.
  destruct ((length line <? 3)%nat || (1029 <? length line)%nat); [apply PE; exact K1|].
  destruct (status is_space line) as [[code meta]|] eqn:ST; [|apply PE; exact K1].
  apply status_range in ST. pose proof (start_reply_kept E code meta c1 ltac:(lia)) as S.
  destruct (start_reply E code meta c1) as [c2 ok]. cbn [fst] in S. pose proof (kept_trans _ _ _ K1 S) as K2.
  destruct (negb ok || _ || _); [apply PE; exact K2|].
  eexists. split; [reflexivity|]. eapply kept_trans; [|apply add_out_kept]. eapply kept_trans; [exact K2|apply MU].
Qed.

Lemma enqueue_safe E p i c : length (e_junk E) = GEMINI_URL_LEN -> accepted E i -> exists line, proxy_enqueue_req E p i c = OK (act (AUp p line) (set_up (Some p) (Some []) c)).
Proof.
  intros HJ (line & N & B & L & A). unfold proxy_enqueue_req.
  rewrite (c42_upstream_line _ _ _ _ N B L HJ A). cbn [bind]. eauto.
Qed.

(** ** the request *)
Lemma mime_ok E v p : (exists t, sort_mime t (c_mime (e_conf E))) -> p <> [] -> exists ty, mime (e_fnm E) (c_mime (e_conf E)) (Some v) p = OK ty.
Proof. intros (t & H) N. eapply c28_total; eauto. Qed.

Lemma query_ok ip6 s i : nonul s -> bytes s -> accepts ip6 s i -> nonul (c_query i) /\ bytes (c_query i).
Proof.
  intros N B A. apply (c04_accepts_iff_grammar ip6 s i N B) in A. destruct A as [c sch hs h ps p no rest path q f H1 H2 H3 H4 R]. cbn [c_query].
  unfold nonul, bytes in *. rewrite !Forall_app in N, B. destruct N as (_ & _ & _ & _ & N), B as (_ & _ & _ & _ & B).
  destruct R; try (split; constructor).
  - inversion N; subst. inversion B; subst. rewrite Forall_app in *. repeat match goal with H : _ /\ _ |- _ => destruct H | H : Forall _ (63 :: _) |- _ => inversion H; subst; clear H end. auto.
  - inversion N; subst. inversion B; subst. rewrite Forall_app in *. repeat match goal with H : _ /\ _ |- _ => destruct H | H : Forall _ (63 :: _) |- _ => inversion H; subst; clear H | H : Forall _ (_ ++ _) |- _ => rewrite Forall_app in H end. auto.
Qed.

Lemma vhost_index_ne fnm v path : vhost_index fnm v path <> [].
Proof.
  unfold vhost_index. destruct (scan_locs _ _ _ _) as [l|] eqn:S.
  - assert (X : forall ls, scan_locs fnm (fun l => negb (isnil (l_index l))) path ls = Some l -> l_index l <> []).
    { induction ls as [|x ls IH]; cbn [scan_locs]; [discriminate|]. destruct (negb (isnil (l_index x))) eqn:Y; [|exact IH].
      destruct (matches fnm (l_match x) path); [|exact IH]. intros Q. injection Q as <-. destruct (l_index x); [discriminate Y|discriminate]. }
    exact (X _ S).
  - destruct (l_index (v_loc0 v)) eqn:X; cbn [isnil]; [discriminate|]. rewrite ?X. discriminate.
Qed.

(** result of serving: safe, and [U] holds of it *)
Definition fine (E : env) (r : res client) : Prop := exists c', r = OK c' /\ U E c'.

Lemma listing_fine E v path entries c : sort_ok E -> (forall l, entries = Some l -> Forall (fun d => name_ok (fst d)) l) -> U E c ->
  U E (server_dir_listing E v path entries c).
Proof.
  intros HS HE HU. unfold server_dir_listing. cbv zeta. destruct (negb _); [eapply kept_U; [apply reply_kept; lia|exact HU]|].
  destruct entries as [es|]; [|eapply kept_U; [apply reply_kept; lia|exact HU]].
  eapply kept_U; [apply add_out_kept|]. eapply kept_U; [apply reply_kept; lia|].
  destruct HU as (A & B & C & D). split; [exact A|]. split; [|split; discriminate]. cbn [set_type set_dir c_dir].
  destruct (scandir_shown E (leqb path [47] || isnil path) es HS) as [P _]. specialize (HE es eq_refl).
  rewrite Forall_forall in HE |- *. intros x IN. apply HE. apply (Permutation_in _ P) in IN. apply filter_In in IN. tauto.
Qed.

Lemma file_fine E fs v i c : sound_env E -> (forall fd p, node_ok (fs fd p)) -> U E c -> c_type c = UNDECIDED -> fine E (serve_file E fs v i c).
Proof.
  intros SO NK HU HT. unfold serve_file. cbv zeta.
  assert (RK : forall code meta d, 10 <= code < 100 -> U E d -> fine E (OK (reply E code meta d))).
  { intros code meta d R X. eexists. split; [reflexivity|]. eapply kept_U; [apply reply_kept; exact R|exact X]. }
  destruct (vhost_dirfd _ _ _) as [fd|]; [|apply RK; [lia|exact HU]].
  set (p := match skip_slashes _ with [] => _ | _ => _ end).
  assert (NP : p <> []) by (unfold p; destruct (skip_slashes _); discriminate).
  clearbody p. assert (HU1 : U E (act (AOpen fd p) c)) by exact HU.
  specialize (NK fd p). destruct (fs fd p) as [| |reg content|look entries].
  - apply RK; [lia|exact HU1].
  - apply RK; [lia|exact HU1].
  - destruct (mime_ok E v p (so_mime E SO) NP) as (ty & ->). cbn [bind]. apply RK; [lia|]. eapply kept_U; [|exact HU1]. kept_tac.
  - assert (HU2 : U E (set_pfd PDir (act (AOpen fd p) c))) by exact HU. inversion NK as [| | |? ? NK1 NK2]; subst.
    unfold open_dir. destruct (negb _ && negb _).
    + unfold redirect_canonical_dir. destruct (_ <=? _)%nat; apply RK; try lia; exact HU2.
    + cbv zeta. destruct (look _) as [| |[] content|].
      * eexists. split; [reflexivity|]. apply listing_fine; auto. apply SO.
      * apply RK; [lia|exact HU2].
      * destruct (mime_ok E v (firstn (PATH_MAX - 1) (c_path i ++ vhost_index (e_fnm E) v (c_path i))) (so_mime E SO)) as (ty & ->).
        { pose proof (vhost_index_ne (e_fnm E) v (c_path i)) as X. destruct (c_path i ++ vhost_index (e_fnm E) v (c_path i)) eqn:Y; [|discriminate].
          apply app_eq_nil in Y as [_ Y]. contradiction. }
        cbn [bind]. apply RK; [lia|]. eapply kept_U; [|exact HU2]. kept_tac.
      * eexists. split; [reflexivity|]. apply listing_fine; auto. apply SO.
      * eexists. split; [reflexivity|]. apply listing_fine; auto. apply SO.
Qed.

Lemma cert_kept E ca c : match (match ca with Some a => check_matching_certificate E a c | None => inr c end) with
  | inl c' => kept c c'
  | inr c' => kept c c' /\ c_type c' = c_type c
  end.
Proof.
  destruct ca as [a|]; [|split; [apply kept_refl|reflexivity]]. unfold check_matching_certificate. destruct (e_cert E).
  - cbv zeta. assert (K1 : kept c (act (AVerify a) c)) by kept_tac. destruct (e_valid E a); [auto|]. eapply kept_trans; [exact K1|apply reply_kept; lia].
  - apply reply_kept; lia.
Qed.

Lemma dispatch_fine E fs v i asked c : sound_env E -> In v (c_hosts (e_conf E)) -> (forall fd p, node_ok (fs fd p)) -> accepted E i -> c_iri c = Some i ->
  U E c -> c_type c = UNDECIDED -> fine E (dispatch E fs v i asked c).
Proof.
  intros SO HV NK AC HI HU HT. unfold dispatch, apply_reverse_proxy.
  assert (RK : forall code meta d, 10 <= code < 100 -> U E d -> fine E (OK (reply E code meta d))).
  { intros code meta d R X. eexists. split; [reflexivity|]. eapply kept_U; [apply reply_kept; exact R|exact X]. }
  pose proof (so_codes E SO) as HC. unfold conf_ok in HC. rewrite Forall_forall in HC. specialize (HC v HV).
  pose proof (so_fmts E SO) as HF. rewrite Forall_forall in HF. specialize (HF v HV).
  destruct (matched_proxy _ _ _ _ _) as [p|].
  - cbv zeta. set (c1 := set_up (Some p) (c_up c) c).
    assert (K1 : kept c c1) by kept_tac.
    pose proof (cert_kept E (p_reqca p) c1) as W. destruct (match p_reqca p with Some ca => _ | None => _ end) as [c2|c2]; cbn [bind].
    { eexists. split; [reflexivity|]. eapply kept_U; [|exact HU]. exact (kept_trans _ _ _ K1 W). }
    destruct W as [W _]. pose proof (kept_trans _ _ _ K1 W) as K2. pose proof (kept_U _ _ _ K2 HU) as HU2.
    destruct (negb (e_upstream E p)); cbn [bind]; [apply RK; [lia|exact HU2]|].
    assert (UP : forall d, c_in d = c_in c2 -> c_dir d = c_dir c2 -> c_iri d = c_iri c2 -> U E (set_type RPROXY d)).
    { intros d D1 D2 D3. destruct HU2 as (A & B & _). split; [cbn; rewrite D1; exact A|]. split; [cbn; rewrite D2; exact B|].
      split; [|discriminate]. intros _. exists i. split; [|exact AC]. cbn. rewrite D3. destruct K2 as (_ & _ & K2 & _). congruence. }
    destruct (p_notls p).
    + destruct (enqueue_safe E p i (set_pfd PUp c2) (so_junk E SO) AC) as (line & ->). cbn [bind]. eexists. split; [reflexivity|]. apply UP; reflexivity.
    + destruct (e_uptls E p); cbn [bind]; [eexists; split; [reflexivity|]; apply UP; reflexivity|]. apply RK; [lia|exact HU2].
  - cbn [bind]. destruct (negb _ || negb _); [apply RK; [lia|exact HU]|].
    pose proof (cert_kept E (vhost_require_ca (e_fnm E) v (c_path i)) c) as W.
    destruct (match vhost_require_ca (e_fnm E) v (c_path i) with Some a => _ | None => _ end) as [c1|c1].
    { eexists. split; [reflexivity|]. eapply kept_U; eauto. }
    destruct W as [W WT]. pose proof (kept_U _ _ _ W HU) as HU1. rewrite HT in WT.
    unfold apply_block_return.
    destruct (governs_exists (e_fnm E) (c_path i) (fun l => l_block_code l <> 0) (fun l => negb (l_block_code l =? 0)) v) as (lb & Gb); [intros l; lia|].
    rewrite (c13_block _ _ _ _ Gb). pose proof (governs_in _ _ _ _ _ Gb) as IN.
    unfold codes_ok in HC. rewrite Forall_forall in HC. specialize (HC lb IN).
    unfold fmts_ok in HF. rewrite Forall_forall in HF. specialize (HF lb IN).
    destruct (N.eqb_spec (l_block_code lb) 0) as [Z|Z]; cbn [bind].
    + unfold apply_fastcgi.
      destruct (vhost_fastcgi _ _ _) as [l|]; [|cbn [bind]; apply file_fine; auto].
      destruct (l_fcgi l) as [n|]; [|cbn [bind]; apply file_fine; auto].
      destruct (nth_error _ _); [|cbn [bind]; apply file_fine; auto].
      destruct (negb (e_fcgi E n)); cbn [bind]; [apply RK; [lia|]; eapply kept_U; [|exact HU1]; kept_tac|].
      cbv zeta. destruct AC as (line & N1 & N2 & _ & N4). destruct (query_ok _ _ _ N1 N2 N4) as [Q1 Q2].
      destruct (c46_request_described i l (v_loc0 v) (e_rhost E) (e_version E) (e_cert E) Q1 Q2) as (env & _ & _ & sent & -> & _).
      cbn [bind]. eexists. split; [reflexivity|]. eapply kept_U; [|exact HU1]. kept_tac.
    + cbv zeta. destruct (c19_safe (mkFmt (strip_path (c_path i) (vhost_strip (e_fnm E) v (c_path i))) (c_query i) (e_port E) (c_domain c1)) GEMINI_URL_LEN (l_block_fmt lb)) as (out & ->).
      { apply c19_check_exact. auto. }
      cbn [bind]. apply RK; [lia|exact HU1].
Qed.

Lemma client_read_fine E fs c : sound_env E -> (forall fd p, node_ok (fs fd p)) -> (forall v, c_vhost c = Some v -> In v (c_hosts (e_conf E))) ->
  U E c -> c_hs c = true -> (forall line rest i, first_line (c_in c) line rest -> accepts (e_ip6 E) line i -> tame (c_host i)) ->
  fine E (client_read E fs c).
Proof.
  intros SO NK HV HU Hs TM. unfold client_read.
  destruct (c_type c) eqn:T; try (eexists; split; [reflexivity|exact HU]).
  assert (RK : forall code meta d, 10 <= code < 100 -> U E d -> fine E (OK (reply E code meta d))).
  { intros code meta d R X. eexists. split; [reflexivity|]. eapply kept_U; [apply reply_kept; exact R|exact X]. }
  destruct (1026 <? length (c_in c))%nat eqn:BIG; [apply RK; [lia|exact HU]|]. apply Nat.ltb_ge in BIG.
  destruct (readln (c_in c)) as [[line rest]|] eqn:RL; [|eexists; split; [reflexivity|exact HU]].
  apply readln_sound in RL. pose proof RL as [EQ _]. pose proof HU as (HB & _ & _ & HVN). rewrite EQ in HB. unfold bytes in HB. rewrite !Forall_app in HB. destruct HB as (HB1 & _ & HB2).
  rewrite EQ, !app_length in BIG. change (length CRLF) with 2%nat in BIG.
  assert (SU : forall x, match x with None => True | Some i => True end -> U E (set_iri x (set_in rest c))).
  { intros x _. destruct HU as (A & B & C & D). split; [exact HB2|]. split; [exact B|]. split; [cbn; rewrite T; discriminate|exact D]. }
  cbv zeta. assert (HU1 : U E (set_in rest c)) by exact (SU (c_iri c) ltac:(destruct (c_iri c); exact Logic.I)).
  destruct (1026 <? length line)%nat; [apply RK; [lia|exact HU1]|].
  destruct (existsb (N.eqb 0) line) eqn:NN; [apply RK; [lia|exact HU1]|]. apply nonul_existsb in NN.
  destruct (c03_parse_safe (e_ip6 E) line [] NN HB1) as (b & p & PE & _ & CO). rewrite PE. cbn [bind].
  assert (CP : exists i, comps_of p = Some i) by (destruct b; [auto|eapply refused_comps; exact PE]).
  destruct CP as (i & CP). rewrite CP. specialize (SU (Some i) Logic.I).
  destruct b; cbn [negb]; [|apply RK; [lia|exact SU]].
  assert (AC : accepts (e_ip6 E) line i) by (exists p; auto).
  destruct (TM line rest i RL AC) as [(out & ->)|(out & d & -> & CD)]; cbn [bind]; [apply RK; [lia|exact SU]|]. rewrite CD.
  cbn [set_iri set_in c_vhost]. destruct (c_vhost c) as [v|] eqn:CV; [|exfalso; apply HVN; auto].
  apply dispatch_fine; auto. exists line. repeat split; auto. lia.
Qed.

(** ** all events *)
Definition SInv (E : env) (c : client) : Prop := Inv E c /\ U E c.

Lemma fresh_sinv E : SInv E fresh.
Proof. split; [apply fresh_inv|]. split; [constructor|]. split; [constructor|]. split; discriminate. Qed.

Theorem step_safe E e c r : sound_env E -> SInv E c -> polite_step c e -> event_ok E c e -> step E e c = Some r ->
  exists c', r = OK c' /\ SInv E c'.
Proof.
  intros SO (HI & HU) HP HE ST. assert (G : fine E r).
  2:{ destruct G as (c' & -> & HU'). exists c'. split; [reflexivity|]. split; [|exact HU']. eapply step_inv; eauto. apply SO. }
  pose proof HI as ((A & HJ) & HK). revert ST.
  assert (KF : forall c', kept c c' -> fine E (OK c')) by (intros c' X; eexists; split; [reflexivity|]; eapply kept_U; eauto).
  assert (KX : forall x, (exists c', x = OK c' /\ kept c c') -> fine E x) by (intros x (c' & -> & X); apply KF; exact X).
  destruct e as [sni| |chunk fs| |n a| |i chunk|i|w|chunk|]; unfold step; cbv zeta.
  - destruct (negb (c_closed c) && negb (c_hs c)) eqn:B; [|discriminate]. apply andb_true_iff in B as [B1 B2]. apply negb_true_iff in B1, B2.
    intros Q. injection Q as <-. unfold handle_handshake.
    assert (TT : c_type c = UNDECIDED) by (destruct HK as (_ & KL); destruct (KL B1) as (X & _); apply X; exact B2).
    assert (UH : forall d h, h <> None -> U E (set_host d h c)).
    { intros d h NH. destruct HU as (U1 & U2 & U3 & U4). split; [exact U1|]. split; [exact U2|]. split; [cbn; rewrite TT; discriminate|]. intros _ _. exact NH. }
    assert (RH : forall d m, fine E (OK (reply E 59 m (set_host d None c)))).
    { intros d m. eexists. split; [reflexivity|]. pose proof (reply_spec E 59 m (set_host d None c) ltac:(lia) ltac:(lia)) as R. cbv zeta in R. destruct R as (Sm & _ & R).
      assert (TD : c_type (reply E 59 m (set_host d None c)) = DONE) by (destruct (fits _ _ _); destruct R as (_ & _ & T & _); exact T).
      destruct Sm as (_ & _ & S2 & _ & _ & _ & _ & _ & S5 & _). destruct HU as (U1 & U2 & _). unfold U. rewrite TD, S2, S5. split; [exact U1|]. split; [exact U2|]. split; discriminate. }
    assert (DEC : fine E (match (match sni with None => OK (Ret true [0]) | Some s => puny_decode s DOMAIN_NAME_LEN end) with OK _ => OK c | UB => UB | Fuel => Fuel end) -> True) by auto.
    clear DEC. destruct sni as [s|].
    + cbn [event_ok] in HE. destruct HE as [(out & ->)|(out & d & -> & CD)]; cbn [bind]; [apply RH|]. rewrite CD. cbv zeta.
      destruct (find_host _ _ _); [eexists; split; [reflexivity|]; apply UH; discriminate|apply RH].
    + cbn [bind cstr]. change (0 =? 0) with true. cbv iota zeta.
      destruct (find_host _ _ _); [eexists; split; [reflexivity|]; apply UH; discriminate|apply RH].
  - destruct (negb (c_closed c) && negb (c_hs c)) eqn:B; [|discriminate]. intros Q. injection Q as <-. apply KF, client_close_kept.
  - destruct (negb (c_closed c) && c_hs c && negb (isnil chunk)) eqn:B; [|discriminate].
    apply andb_true_iff in B as [B B3]. apply andb_true_iff in B as [B1 B2]. apply negb_true_iff in B1. specialize (HJ B1).
    intros Q. injection Q as <-. destruct HE as (E1 & E2 & E3).
    apply client_read_fine; auto.
    + apply HJ.
    + destruct HU as (U1 & U2 & U3 & U4). split; [apply Forall_app; split; assumption|]. auto.
  - destruct (negb (c_closed c) && c_hs c); [|discriminate]. intros Q. injection Q as <-. apply KF. unfold client_error. cbn [andb].
    eapply kept_trans; [|apply client_close_kept]. kept_tac.
  - destruct (negb (c_closed c) && c_hs c && c_wev c); [|discriminate]. intros Q. injection Q as <-.
    set (k := Nat.min _ _). set (out := skipn k (c_out c)).
    set (c1 := set_io out (c_sent c ++ firstn k (c_out c)) (negb (isnil out)) c). assert (K1 : kept c c1) by kept_tac.
    destruct out; [|apply KF; exact K1]. apply KX.
    destruct (client_write_safe E a c1 (kept_U _ _ _ K1 HU)) as (c' & -> & K2). exists c'. split; [reflexivity|]. exact (kept_trans _ _ _ K1 K2).
  - destruct (negb (c_closed c) && c_hs c && c_wev c); [|discriminate]. intros Q. injection Q as <-. apply KF. unfold client_error. cbn [andb].
    eapply kept_trans; [|apply client_close_kept]. kept_tac.
  - destruct (nth_error (c_conns c) i) as [k|] eqn:NE; [|discriminate]. destruct (k_open k && negb (isnil chunk)) eqn:KO; [|discriminate].
    apply andb_true_iff in KO as [KO _]. destruct (c_closed c) eqn:L; cbn [negb].
    { exfalso. destruct HK as (KC & _). destruct (KC L) as [_ X]. rewrite (X k (nth_error_In _ _ NE)) in KO. discriminate. }
    intros Q. injection Q as <-. apply KX. pose proof (set_conn_kept i (k_in k ++ chunk) c) as K1.
    destruct (fcgi_read_safe E i (set_conn i (k_in k ++ chunk) c) (kept_U _ _ _ K1 HU)) as (c' & -> & K2).
    { unfold set_conn. rewrite NE. cbn [set_cgi c_conns]. apply nth_error_Some. rewrite app_length. cbn [length]. rewrite skipn_length, firstn_length.
      assert (i < length (c_conns c))%nat by (apply nth_error_Some; congruence). lia. }
    exists c'. split; [reflexivity|]. exact (kept_trans _ _ _ K1 K2).
  - destruct (nth_error (c_conns c) i) as [k|] eqn:NE; [|discriminate]. destruct (k_open k) eqn:KO; [|discriminate].
    destruct (c_closed c) eqn:L; cbn [negb].
    { exfalso. destruct HK as (KC & _). destruct (KC L) as [_ X]. rewrite (X k (nth_error_In _ _ NE)) in KO. discriminate. }
    intros Q. injection Q as <-. apply KF. eapply kept_trans; [|apply fcgi_error_kept]. kept_tac.
  - destruct (c_type c) eqn:T; try discriminate. destruct (c_pxy c) as [p|]; [|discriminate]. destruct (c_up c); [discriminate|].
    destruct (c_iri c) as [i|] eqn:CI; [|discriminate]. destruct (negb (c_closed c) && negb (p_notls p)); [|discriminate]. intros Q. injection Q as <-.
    destruct w; [|apply KF, reply_kept; lia|apply KF, reply_kept; lia].
    destruct HU as (U1 & U2 & U3 & U4). destruct (U3 T) as (i' & CI' & AC). rewrite CI in CI'. injection CI' as <-.
    destruct (enqueue_safe E p i c (so_junk E SO) AC) as (line & ->). apply KF. kept_tac.
  - destruct (c_up c) as [s|]; [|discriminate]. destruct (negb (c_closed c) && negb (isnil chunk)); [|discriminate].
    intros Q. injection Q as <-. apply KX, proxy_read_safe; exact HU.
  - destruct (c_up c) as [s|]; [|discriminate]. destruct (negb (c_closed c)); [|discriminate].
    intros Q. injection Q as <-. apply KX, proxy_error_safe; exact HU.
Qed.

Theorem sound_inv E es c : sound_env E -> sound_history E es c -> SInv E c.
Proof.
  intros SO H. induction H as [|es e c c' H IH P K S]; [apply fresh_sinv|].
  destruct (step_safe E e c (OK c') SO IH P K S) as (c1 & Q & X). apply OK_inj in Q. subst c1. exact X.
Qed.
