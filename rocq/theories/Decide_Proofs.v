(** client_read does what the decision table says. *)
From Coq Require Import Permutation Sorting.Sorted.
From Verif Require Import Base BaseLemmas Compat Iri IriSpec IriObs Puny Conf ConfSpec Mime Prop_Conf Fmt FmtSpec Prop_Fmt Fcgi Server ServerSpec Iri_Last_Proofs Server_Proofs.
Local Open Scope N_scope.

Lemma governs_ext fnm path P Q v l : (forall l, P l <-> Q l) -> governs fnm path P v l -> governs fnm path Q v l.
Proof.
  intros H [(b & a & E & (S & M) & F)|(E & F)].
  - left. exists b, a. split; [exact E|]. split; [split; [apply H; exact S|exact M]|].
    eapply Forall_impl; [|exact F]. cbv beta. intros x N (X & Y). apply N. split; [apply H; exact X|exact Y].
  - right. split; [exact E|]. eapply Forall_impl; [|exact F]. cbv beta. intros x N (X & Y). apply N. split; [apply H; exact X|exact Y].
Qed.

Lemma governs_exists fnm path (P : location -> Prop) (b : location -> bool) v :
  (forall l, b l = true <-> P l) -> exists l, governs fnm path P v l.
Proof.
  intros H. destruct (c13_governed fnm path b v) as (l & G & _). exists l. eapply governs_ext; [|exact G]. exact H.
Qed.

(** the configuration was accepted by the parser: block codes (C19) *)
Definition codes_ok (v : vhost) : Prop :=
  Forall (fun l => l_block_code l = 0 \/ 10 <= l_block_code l < 20 \/ 30 <= l_block_code l < 70) (v_loc0 v :: v_locs v).
(** qsort(3) sorts *)
Definition sort_ok (E : env) : Prop :=
  forall l, Permutation (e_sort E l) l /\ StronglySorted (fun a b => name_le (fst a) (fst b)) (e_sort E l).

Lemma governs_in fnm path P v l : governs fnm path P v l -> In l (v_loc0 v :: v_locs v).
Proof.
  intros [(b & a & E & _)|(E & _)]; [right; rewrite E; apply in_or_app; right; left; reflexivity|left; auto].
Qed.

(** the wire form of a reply of a client whose request is [i] *)
Lemma full_meta_sent E c v i meta : c_vhost c = Some v -> c_iri c = Some i -> is_relayed (c_type c) = false ->
  meta_sent E v i meta (full_meta E c meta).
Proof.
  intros Hv Hi Hr. unfold full_meta, path_of. rewrite Hv, Hi, Hr. cbn [negb andb option_map].
  destruct (leqb meta (s2b "text/gemini")) eqn:L.
  - right. apply leqb_eq in L. split; [exact L|].
    destruct (governs_exists (e_fnm E) (c_path i) (fun l => l_lang l <> []) (fun l => negb (isnil (l_lang l))) v) as (l & G).
    { intros l. destruct (l_lang l); cbn; split; congruence. }
    exists (l_lang l). split; [exists l; auto|]. rewrite (c13_lang _ _ _ _ G).
    destruct (l_lang l); [apply app_nil_r|reflexivity].
  - left. split; [intros ->; cbn in L; discriminate|apply app_nil_r].
Qed.

(** what [performed] needs of a client reached from [c0] on the way *)
Definition midway (i : comps) (v : vhost) (c0 c : client) (pre : list action) : Prop :=
  c_acts c = c_acts c0 ++ pre /\ c_sent c = c_sent c0 /\ c_closed c = c_closed c0 /\ c_iri c = Some i /\ c_vhost c = Some v /\
  c_out c = [] /\ is_relayed (c_type c) = false.

Lemma reply_performs E v i c0 c pre code meta os : 10 <= code -> code < 100 -> code <> 20 ->
  midway i v c0 c pre -> filter visible pre = map (fun o => AOpen (fst o) (snd o)) os ->
  performed E v i (mkD os (WReply code meta)) c0 (reply E code meta c).
Proof.
  intros H1 H2 H3 (A & S & Cl & I & V & O & R) F.
  pose proof (reply_spec E code meta c H1 H2) as H. cbv zeta in H. destruct H as (Sm & W & H).
  unfold same in Sm. decompose [and] Sm. clear Sm.
  pose proof (full_meta_sent E c v i meta V I R) as M.
  destruct (N.eqb_spec code 20); [contradiction|].
  unfold performed. cbn [d_what d_open]. unfold fits in H.
  destruct (length (full_meta E c meta) <=? 1024)%nat eqn:L; destruct H as (O' & C' & T' & A'); rewrite A', A, <- app_assoc;
    (eexists; split; [reflexivity|]); (split; [congruence|]); (split; [congruence|]); (split; [congruence|]).
  - exists (header code (full_meta E c meta)). split; [exists (full_meta E c meta); rewrite L; auto|].
    rewrite O', O. split; [reflexivity|]. split; [exact T'|]. split; [lia|].
    exists code, meta. rewrite !filter_app, F, logged_invisible. split; [reflexivity|auto].
  - exists (header 40 (s2b "internal error")). split; [exists (full_meta E c meta); rewrite L; auto|].
    split; [exact O'|]. split; [exact T'|]. split; [lia|].
    eexists _, _. rewrite !filter_app, F, logged_invisible. split; [reflexivity|auto].
Qed.

Lemma body_performs E v i c0 c pre ty content os :
  midway i v c0 c pre -> filter visible pre = map (fun o => AOpen (fst o) (snd o)) os ->
  performed E v i (mkD os (WBody ty content)) c0 (reply E 20 ty (set_type RFILE (set_pfd (PFile content) c))).
Proof.
  intros (A & S & Cl & I & V & O & R) F.
  set (c1 := set_type RFILE (set_pfd (PFile content) c)).
  pose proof (reply_spec E 20 ty c1 ltac:(lia) ltac:(lia)) as H. cbv zeta in H. destruct H as (Sm & W & H).
  unfold same in Sm. decompose [and] Sm. clear Sm.
  pose proof (full_meta_sent E c1 v i ty V I eq_refl) as M.
  unfold performed. cbn [d_what d_open]. unfold fits in H.
  assert (X1 : c_sent c1 = c_sent c) by reflexivity. assert (X2 : c_closed c1 = c_closed c) by reflexivity.
  assert (X3 : c_iri c1 = c_iri c) by reflexivity.
  assert (X4 : c_pfd c1 = PFile content) by reflexivity.
  assert (A1 : c_acts c1 = c_acts c0 ++ pre) by exact A.
  destruct (length (full_meta E c1 ty) <=? 1024)%nat eqn:L; destruct H as (O' & C' & T' & A'); rewrite A', A1, <- app_assoc;
    (eexists; split; [reflexivity|]); (split; [congruence|]); (split; [congruence|]); (split; [congruence|]).
  - exists (header 20 (full_meta E c1 ty)). split; [exists (full_meta E c1 ty); rewrite L; auto|].
    rewrite O'. change (c_out c1) with (c_out c). rewrite O. split; [reflexivity|]. left.
    rewrite !filter_app, F, logged_invisible. split; [reflexivity|]. split; [exact T'|congruence].
  - exists (header 40 (s2b "internal error")). split; [exists (full_meta E c1 ty); rewrite L; auto|].
    split; [exact O'|auto].
Qed.

Lemma hidden_selected root d : selected root d = negb (hidden root (fst d)).
Proof. unfold selected, hidden. change (s2b ".") with [46]. change (s2b "..") with [46; 46].
  destruct (leqb (fst d) [46]), root, (leqb (fst d) [46; 46]); reflexivity. Qed.

Lemma scandir_shown E root es : sort_ok E -> shown root es (scandir_fd E root es).
Proof.
  intros H. unfold scandir_fd, shown.
  rewrite (filter_ext (selected root) (fun d => negb (hidden root (fst d)))) by (intros a; apply hidden_selected).
  destruct (filter _ es) as [|x l] eqn:F.
  - split; constructor.
  - exact (H (x :: l)).
Qed.

Lemma option_of {A} E v i (f : location -> A) (set : A -> Prop) (b : A -> bool) :
  (forall x, b x = true <-> set x) -> exists l, governs (e_fnm E) (c_path i) (fun l => set (f l)) v l /\ option_is E v i f set (f l).
Proof.
  intros H. destruct (governs_exists (e_fnm E) (c_path i) (fun l => set (f l)) (fun l => b (f l)) v) as (l & G); [intros l; apply H|].
  exists l. split; [exact G|exists l; auto].
Qed.

Lemma listing_performs E v i c0 c pre entries os : sort_ok E ->
  midway i v c0 c pre -> filter visible pre = map (fun o => AOpen (fst o) (snd o)) os ->
  exists w, lists E v i entries w /\ performed E v i (mkD os w) c0 (server_dir_listing E v (c_path i) entries c).
Proof.
  intros HS M F. unfold server_dir_listing. cbv zeta.
  destruct (option_of E v i l_auto_index (fun x => x <> 0%Z) (fun x => negb (x =? 0)%Z)) as (l & G & Oi); [intros x; lia|].
  pose proof (c13_auto_index _ _ _ _ G) as Ai.
  destruct (vhost_auto_index (e_fnm E) v (c_path i)) eqn:VA; cbn [negb].
  2:{ eexists. split; [apply (ls_off _ _ _ _ _ Oi); rewrite <- Ai; discriminate|]. eapply reply_performs; eauto; lia. }
  assert (A1 : l_auto_index l = 1%Z) by (apply Ai; reflexivity). rewrite A1 in Oi.
  destruct entries as [es|].
  2:{ eexists. split; [apply ls_fail; auto|]. eapply reply_performs; eauto; lia. }
  set (root := leqb (c_path i) [47] || isnil (c_path i)).
  exists (WList (c_path i) (scandir_fd E root es)). split; [eapply ls_ok; eauto; apply scandir_shown; exact HS|].
  destruct M as (A & S & Cl & I & V & O & R).
  set (c1 := set_type RDIR (set_dir (scandir_fd E root es) c)).
  pose proof (reply_spec E 20 (s2b "text/gemini") c1 ltac:(lia) ltac:(lia)) as H. cbv zeta in H. destruct H as (Sm & W & H).
  set (c2 := reply E 20 (s2b "text/gemini") c1) in *.
  pose proof (add_out_same (s2b "# Index of /" ++ c_path i ++ [10; 10]) c2) as Sm2.
  pose proof (same_trans _ _ _ Sm Sm2) as Sm3. clear Sm Sm2. unfold same in Sm3. decompose [and] Sm3. clear Sm3.
  pose proof (full_meta_sent E c1 v i (s2b "text/gemini") V I eq_refl) as Mm.
  unfold performed. cbn [d_what d_open]. unfold fits in H.
  assert (X1 : c_sent c1 = c_sent c) by reflexivity. assert (X2 : c_closed c1 = c_closed c) by reflexivity.
  assert (X3 : c_iri c1 = c_iri c) by reflexivity.
  assert (X4 : c_dir c1 = scandir_fd E root es) by reflexivity.
  assert (A1' : c_acts c1 = c_acts c0 ++ pre) by exact A.
  rewrite add_out_acts, add_out_out, add_out_type.
  destruct (length (full_meta E c1 (s2b "text/gemini")) <=? 1024)%nat eqn:L; destruct H as (O' & C' & T' & A'); rewrite A', A1', <- app_assoc;
    (eexists; split; [reflexivity|]); (split; [congruence|]); (split; [congruence|]); (split; [congruence|]).
  - exists (header 20 (full_meta E c1 (s2b "text/gemini"))). split; [exists (full_meta E c1 (s2b "text/gemini")); rewrite L; auto|].
    rewrite O'. change (c_out c1) with (c_out c). rewrite O. split; [reflexivity|]. left.
    rewrite !filter_app, F, logged_invisible. split; [reflexivity|]. split; [exact T'|congruence].
  - exists (header 40 (s2b "internal error")). split; [exists (full_meta E c1 (s2b "text/gemini")); rewrite L; auto|].
    rewrite O'. split; [reflexivity|auto].
Qed.

Lemma dir_performs E v i c0 c pre look entries os c' : sort_ok E ->
  midway i v c0 c pre -> filter visible pre = map (fun o => AOpen (fst o) (snd o)) os ->
  open_dir E v (c_path i) look entries c = OK c' ->
  exists w, directory E v i look entries w /\ performed E v i (mkD os w) c0 c'.
Proof.
  intros HS M F. unfold open_dir. cbv zeta.
  assert (DS : negb (isnil (c_path i)) && negb (ends_slash (c_path i)) = false <-> dir_style i).
  { unfold dir_style, ends_slash. destruct (c_path i) as [|x p]; [cbn; split; auto|].
    cbn [isnil negb andb]. split; intros H.
    - right. destruct (N.eqb_spec (last (x :: p) 0) 47); [assumption|discriminate].
    - destruct H as [H|H]; [discriminate|]. rewrite H. reflexivity. }
  destruct (negb (isnil (c_path i)) && negb (ends_slash (c_path i))) eqn:B.
  - intros H. apply OK_inj in H; subst c'. unfold redirect_canonical_dir. cbv zeta.
    assert (ND : ~ dir_style i) by (rewrite <- DS; discriminate).
    cbn [length]. rewrite app_length. cbn [length].
    destruct (Nat.leb_spec IriOut.GEMINI_URL_LEN (S (length (c_path i) + 1))) as [H|H]; unfold IriOut.GEMINI_URL_LEN in H.
    + eexists. split; [apply dr_long; [exact ND|lia]|]. eapply reply_performs; eauto; lia.
    + eexists. split; [apply dr_slash; [exact ND|lia]|]. eapply reply_performs; eauto; lia.
  - assert (D : dir_style i) by (apply DS; reflexivity).
    destruct (option_of E v i l_index (fun x => x <> []) (fun x => negb (isnil x))) as (l & G & Oi); [intros x; destruct x; cbn; split; congruence|].
    rewrite (c13_index _ _ _ _ G).
    set (idx := match l_index l with [] => s2b "index.gmi" | _ => l_index l end).
    assert (EI : match l_index l with [] => s2b "index.gmi" | n :: l0 => n :: l0 end = idx) by (unfold idx; destruct (l_index l); reflexivity).
    rewrite EI.
    destruct (look idx) as [| |reg content|a b] eqn:LK.
    + intros H. apply OK_inj in H; subst c'. destruct (listing_performs E v i c0 c pre entries os HS M F) as (w & Lw & Pw).
      exists w. split; [eapply dr_list; [exact D|exact Oi|reflexivity| |exact Lw]; rewrite <- LK; auto|exact Pw].
    + intros H. apply OK_inj in H; subst c'. eexists. split; [eapply dr_bad; [exact D|exact Oi|reflexivity|]; exact LK|].
      eapply reply_performs; eauto; lia.
    + destruct reg.
      * set (n := (PATH_MAX - 1)%nat). destruct (mime _ _ _ _) as [ty| |] eqn:Mi; cbn [bind]; [|discriminate|discriminate].
        intros H. apply OK_inj in H; subst c'. eexists. split; [eapply dr_index; [exact D|exact Oi|reflexivity|exact LK|]; exact Mi|].
        eapply body_performs; eauto.
      * intros H. apply OK_inj in H; subst c'. destruct (listing_performs E v i c0 c pre entries os HS M F) as (w & Lw & Pw).
        exists w. split; [eapply dr_list; [exact D|exact Oi|reflexivity| |exact Lw]; right; left; eauto|exact Pw].
    + intros H. apply OK_inj in H; subst c'. destruct (listing_performs E v i c0 c pre entries os HS M F) as (w & Lw & Pw).
      exists w. split; [eapply dr_list; [exact D|exact Oi|reflexivity| |exact Lw]; right; right; eauto|exact Pw].
Qed.

Lemma skip_unslash p : skip_slashes p = unslash p.
Proof.
  induction p as [|x p IH]; [reflexivity|]. cbn [skip_slashes unslash].
  destruct (N.eqb_spec x 47) as [->|H]; [exact IH|].
  destruct x as [|q]; [reflexivity|].
  repeat (match goal with |- context[match ?q with xI _ => _ | xO _ => _ | xH => _ end] => destruct q end; try reflexivity).
  exfalso; apply H; reflexivity.
Qed.

Lemma file_performs E fs v i c0 c pre c' : sort_ok E ->
  midway i v c0 c pre -> filter visible pre = [] ->
  option_is E v i l_block_code (fun x => x <> 0) 0 -> application E v i None ->
  serve_file E fs v i c = OK c' ->
  exists d, admitted_to E fs v i (c_domain c) d /\ performed E v i d c0 c'.
Proof.
  intros HS M F HB HA. unfold serve_file. cbv zeta.
  destruct (option_of E v i l_strip (fun x => x <> 0%nat) (fun x => negb (x =? 0)%nat)) as (ls & Gs & Os); [intros x; lia|].
  rewrite (c13_strip _ _ _ _ Gs). rewrite skip_unslash. 
  assert (EB : match unslash (strip_path (c_path i) (l_strip ls)) with [] => [46] | n :: l0 => unslash (strip_path (c_path i) (l_strip ls)) end
               = below i (l_strip ls)) by (unfold below; destruct (unslash _); reflexivity).
  rewrite EB.
  destruct (option_of E v i l_dirfd (fun x => x <> None) (fun x => match x with Some _ => true | None => false end)) as (ld & Gd & Od);
    [intros [x|]; split; congruence|].
  rewrite (c13_root _ _ _ _ Gd). destruct (l_dirfd ld) as [fd|] eqn:EF.
  2:{ intros H. apply OK_inj in H; subst c'. eexists. split; [apply a_noroot; auto|]. eapply reply_performs; eauto; lia. }
  set (b := below i (l_strip ls)) in *.
  assert (M' : midway i v c0 (act (AOpen fd b) c) (pre ++ [AOpen fd b])).
  { destruct M as (A & M). split; [cbn [act c_acts]; rewrite A, app_assoc; reflexivity|exact M]. }
  assert (F' : filter visible (pre ++ [AOpen fd b]) = map (fun o => AOpen (fst o) (snd o)) [(fd, b)]) by (rewrite filter_app, F; reflexivity).
  assert (K : forall w, found E v i b (fs fd b) w -> admitted_to E fs v i (c_domain c) (mkD [(fd, b)] w))
    by (intros w Hw; eapply a_file; eauto).
  destruct (fs fd b) as [| |reg content|look entries] eqn:EN.
  - intros H. apply OK_inj in H; subst c'. eexists. split; [apply K; constructor|]. eapply reply_performs; eauto; lia.
  - intros H. apply OK_inj in H; subst c'. eexists. split; [apply K; constructor|]. eapply reply_performs; eauto; lia.
  - destruct (mime _ _ _ _) as [ty| |] eqn:Mi; cbn [bind]; [|discriminate|discriminate].
    intros H. apply OK_inj in H; subst c'. eexists. split; [apply K; constructor; exact Mi|]. eapply body_performs; eauto.
  - intros H. destruct (dir_performs E v i c0 (set_pfd PDir (act (AOpen fd b) c)) (pre ++ [AOpen fd b]) look entries [(fd, b)] c' HS) as (w & Dw & Pw); auto.
    exists (mkD [(fd, b)] w). split; [apply K; constructor; exact Dw|exact Pw].
Qed.

Lemma cert_performs E v i c0 c pre ca : midway i v c0 c pre -> filter visible pre = [] ->
  match (match ca with Some a => check_matching_certificate E a c | None => inr c end) with
  | inl c' => exists w, refused E ca w /\ performed E v i (mkD [] w) c0 c'
  | inr c' => admitted E ca /\ (exists pre', midway i v c0 c' pre' /\ filter visible pre' = []) /\
       c_domain c' = c_domain c /\ c_conns c' = c_conns c /\ c_type c' = c_type c /\ c_pxy c' = c_pxy c
  end.
Proof.
  intros M F. destruct ca as [a|].
  2:{ split; [intros ? H; discriminate|]. repeat split; try reflexivity. exists pre; auto. }
  unfold check_matching_certificate. destruct (e_cert E) as [pe|] eqn:C.
  - cbv zeta. assert (M' : midway i v c0 (act (AVerify a) c) (pre ++ [AVerify a])).
    { destruct M as (A & M). split; [cbn [act c_acts]; rewrite A, app_assoc; reflexivity|exact M]. }
    assert (F' : filter visible (pre ++ [AVerify a]) = []) by (rewrite filter_app, F; reflexivity).
    destruct (e_valid E a) eqn:V.
    + split; [intros x H; inversion H; subst; rewrite C; split; [discriminate|exact V]|].
      repeat split; try reflexivity. exists (pre ++ [AVerify a]). auto.
    + eexists. split; [apply rf_bad; [rewrite C; discriminate|exact V]|]. eapply reply_performs; eauto; lia.
  - eexists. split; [apply rf_none; exact C|]. eapply reply_performs; eauto; lia.
Qed.

Lemma proxy_performs E v i c0 c pre p : midway i v c0 c pre -> filter visible pre = [] ->
  matched_proxy (e_fnm E) (v_proxies v) (c_scheme i) (c_domain c) (c_port i) = Some p ->
  forall r, apply_reverse_proxy E v i c = OK r ->
  exists c' w, r = Some c' /\ relays E p w /\ performed E v i (mkD [] w) c0 c'.
Proof.
  intros M F H r. unfold apply_reverse_proxy. rewrite H. cbv zeta.
  assert (M1 : midway i v c0 (set_up (Some p) (c_up c) c) pre) by exact M.
  pose proof (cert_performs E v i c0 _ pre (p_reqca p) M1 F) as K.
  destruct (match p_reqca p with Some a => check_matching_certificate E a (set_up (Some p) (c_up c) c) | None => inr (set_up (Some p) (c_up c) c) end) as [c'|c'].
  - intros Hr. apply OK_inj in Hr; subst r. destruct K as (w & Rw & Pw). exists c', w. split; [reflexivity|]. split; [apply rl_refused; exact Rw|exact Pw].
  - destruct K as (Ad & (pre' & M' & F') & _ & _ & _ & Px). cbn [set_up c_pxy] in Px.
    destruct (e_upstream E p) eqn:U; cbn [negb].
    2:{ intros Hr. apply OK_inj in Hr; subst r. eexists _, _. split; [reflexivity|]. split; [apply rl_down; auto|]. eapply reply_performs; eauto; lia. }
    destruct M' as (A & S & Cl & I & V & O & R).
    destruct (p_notls p) eqn:NT.
    + unfold proxy_enqueue_req. destruct (IriOut.proxy_request_line i (e_junk E)) as [line| |] eqn:PL; cbn [bind]; [|discriminate|discriminate].
      intros Hr. apply OK_inj in Hr; subst r. eexists _, _. split; [reflexivity|]. split; [apply rl_up; auto|].
      unfold performed. cbn. rewrite A, <- app_assoc. eexists. split; [reflexivity|]. repeat (split; [assumption||reflexivity|]).
      rewrite NT. exists line. split; [exact PL|]. rewrite filter_app, F'. split; reflexivity.
    + destruct (e_uptls E p) eqn:UT.
      * intros Hr. apply OK_inj in Hr; subst r. eexists _, _. split; [reflexivity|]. split; [apply rl_up; auto|].
        unfold performed. cbn. rewrite A. eexists. split; [reflexivity|]. repeat (split; [assumption||reflexivity|]).
        rewrite NT. exact F'.
      * intros Hr. apply OK_inj in Hr; subst r. eexists _, _. split; [reflexivity|]. split; [apply rl_notls; auto|].
        eapply reply_performs; eauto; try lia. repeat split; eauto.
Qed.

Lemma fcgi_application E v i : match vhost_fastcgi (e_fnm E) v (c_path i) with
  | Some l => exists n, l_fcgi l = Some n /\
      application E v i (match nth_error (c_fcgi (e_conf E)) n with Some _ => Some (n, l) | None => None end)
  | None => application E v i None
  end.
Proof.
  destruct (governs_exists (e_fnm E) (c_path i) fcgi_set (fun l => match l_fcgi l with Some _ => true | None => l_nofcgi l end) v) as (l & G).
  { intros l. unfold fcgi_set. destruct (l_fcgi l); split; intros H; auto; [left; discriminate|destruct H; congruence]. }
  rewrite (c13_fastcgi _ _ _ _ G). destruct (l_fcgi l) as [n|] eqn:L.
  - exists n. split; [exact L|]. exists l. split; [exact G|].
    destruct (nth_error (c_fcgi (e_conf E)) n) eqn:NE; [repeat split; congruence|]. intros m Hm. rewrite L in Hm. congruence.
  - exists l. split; [exact G|]. intros m Hm. congruence.
Qed.

Theorem dispatch_performs E fs v i asked c0 c pre c' : sort_ok E -> codes_ok v ->
  midway i v c0 c pre -> filter visible pre = [] -> c_conns c = c_conns c0 -> c_type c = c_type c0 ->
  dispatch E fs v i asked c = OK c' ->
  exists d, decides E fs v i (c_domain c) asked d /\ performed E v i d c0 c'.
Proof.
  intros HS HC M F HK HT. unfold dispatch.
  pose proof (c12_proxy_first_match (e_fnm E) (v_proxies v) (c_scheme i) (c_domain c) (c_port i)) as PX.
  destruct (matched_proxy (e_fnm E) (v_proxies v) (c_scheme i) (c_domain c) (c_port i)) as [p|] eqn:MP.
  - pose proof (proxy_performs E v i c0 c pre p M F MP) as K.
    destruct (apply_reverse_proxy E v i c) as [r| |] eqn:AR; cbn [bind]; [|discriminate|discriminate].
    destruct (K r eq_refl) as (c1 & w & -> & Rw & Pw). intros H. apply OK_inj in H; subst c'.
    exists (mkD [] w). split; [eapply d_proxy; eauto|exact Pw].
  - assert (AR : apply_reverse_proxy E v i c = OK None) by (unfold apply_reverse_proxy; rewrite MP; reflexivity).
    rewrite AR. cbn [bind]. clear AR.
    destruct (negb (leqb (c_scheme i) (s2b "gemini")) || negb (strcaseeq (c_domain c) asked)) eqn:OU.
    + intros H. apply OK_inj in H; subst c'. eexists. split; [apply d_foreign; [exact PX|]|eapply reply_performs; eauto; lia].
      intros [O1 O2]. unfold strcaseeq in OU. rewrite O1, O2 in OU.
      rewrite !(proj2 (leqb_eq _ _) eq_refl) in OU. discriminate.
    + assert (OUR : ours i (c_domain c) asked).
      { apply orb_false_iff in OU. rewrite !negb_false_iff in OU. destruct OU as [O1 O2].
        apply leqb_eq in O1. apply leqb_eq in O2. split; assumption. }
      destruct (option_of E v i l_reqca (fun x => x <> None) (fun x => match x with Some _ => true | None => false end)) as (lc & Gc & Oc);
        [intros [x|]; split; congruence|].
      rewrite (c13_client_ca _ _ _ _ Gc).
      pose proof (cert_performs E v i c0 c pre (l_reqca lc) M F) as K.
      destruct (match l_reqca lc with Some a => check_matching_certificate E a c | None => inr c end) as [c1|c1].
      * intros H. apply OK_inj in H; subst c'. destruct K as (w & Rw & Pw). exists (mkD [] w). split; [eapply d_refused; eauto|exact Pw].
      * destruct K as (Ad & (pre' & M' & F') & Dm & Cn & Ty & _). rewrite <- Dm in *.
        enough (G : forall c', (let* r := apply_block_return E v i c1 in
             match r with Some c2 => OK c2 | None => let* r0 := apply_fastcgi E v i c1 in
               match r0 with Some c2 => OK c2 | None => serve_file E fs v i c1 end end) = OK c' ->
             exists d, admitted_to E fs v i (c_domain c1) d /\ performed E v i d c0 c').
        { intros H. destruct (G c' H) as (d & Dd & Pd). exists d. split; [eapply d_admitted; eauto|exact Pd]. }
        clear c'. intros c'.
        destruct (option_of E v i l_block_code (fun x => x <> 0) (fun x => negb (x =? 0))) as (lb & Gb & Ob); [intros x; lia|].
        unfold apply_block_return. rewrite (c13_block _ _ _ _ Gb).
        destruct (N.eqb_spec (l_block_code lb) 0) as [Z|NZ].
        -- cbn [bind]. rewrite Z in Ob. pose proof (fcgi_application E v i) as FA. unfold apply_fastcgi.
           destruct (vhost_fastcgi (e_fnm E) v (c_path i)) as [l|].
           ++ destruct FA as (n & Ln & FA). rewrite Ln. destruct (nth_error (c_fcgi (e_conf E)) n).
              ** destruct (e_fcgi E n) eqn:EF; cbn [negb].
                 --- destruct (fcgi_req i l (v_loc0 v) (e_rhost E) (e_version E) (e_cert E)) as [b| |] eqn:FR; cbn [bind]; [|discriminate|discriminate].
                     intros H. apply OK_inj in H; subst c'. exists (mkD [] (WFcgi n l)). split; [eapply a_fcgi; eauto|].
                     destruct M' as (A & S & Cl & I & V & O & R). unfold performed. cbn.
                     rewrite A, <- app_assoc. eexists. split; [reflexivity|]. repeat (split; [assumption||congruence|]).
                     exists b. split; [exact FR|]. rewrite filter_app, F'. split; [reflexivity|]. rewrite Cn, HK. split; reflexivity.
                 --- cbn [bind]. intros H. apply OK_inj in H; subst c'. eexists. split; [eapply a_fcgi_down; eauto|]. eapply reply_performs; eauto; lia.
              ** cbn [bind]. apply (file_performs E fs v i c0 c1 pre'); auto.
           ++ cbn [bind]. apply (file_performs E fs v i c0 c1 pre'); auto.
        -- destruct (option_of E v i l_strip (fun x => x <> 0%nat) (fun x => negb (x =? 0)%nat)) as (ls & Gs & Os); [intros x; lia|].
           rewrite (c13_strip _ _ _ _ Gs).
           destruct (fmtbuf _ _ _) as [meta| |] eqn:FB; cbn [bind]; [|discriminate|discriminate].
           intros H. apply OK_inj in H; subst c'. eexists. split; [eapply a_block; eauto|].
           assert (CB : l_block_code lb = 0 \/ 10 <= l_block_code lb < 20 \/ 30 <= l_block_code lb < 70).
           { unfold codes_ok in HC. rewrite Forall_forall in HC. apply HC. eapply governs_in; eauto. }
           eapply reply_performs; eauto; lia.
Qed.
