(** A configuration that is accepted is well formed: invariants of the parser, for
    runs in which no error is counted. *)
From Verif Require Import Base BaseLemmas Compat Conf Config Mime Fmt FmtSpec Prop_Fmt Parse Prop_Parse UpTls Lex Lex_Proofs Iri_Last_Proofs Lex_Nul Gram GramSpec WellSpec.
Local Open Scope N_scope.

Definition gbase (g : gst) : Prop := lclean (g_lex g) /\ match g_la g with Some t => tgood t (g_lex g) | None => True end.
Definition gi (P : core -> Prop) (g : gst) : Prop := gbase g /\ (tot (g_lex g) = 0%nat -> P (g_core g)).
Definition tri {A} (P : core -> Prop) (m : M A) (Q : A -> core -> Prop) : Prop :=
  forall g a g', gi P g -> m g = Good (a, g') -> gi (Q a) g'.

Lemma good_inj {A} (a b : A) : Good a = Good b -> a = b. Proof. congruence. Qed.
Lemma tri_ret {A} (P : core -> Prop) (a : A) (Q : A -> core -> Prop) : (forall c, P c -> Q a c) -> tri P (ret a) Q.
Proof. intros H g b g' (B & I) E. apply good_inj in E. injection E as <- <-. split; auto. Qed.
Lemma tri_bind {A B} P (m : M A) Q (f : A -> M B) R : tri P m Q -> (forall a, tri (Q a) (f a) R) -> tri P (bnd m f) R.
Proof. intros H1 H2 g b g' G E. unfold bnd in E. destruct (m g) as [[a g1]| | | |] eqn:X; try discriminate. apply (H2 a _ _ _ (H1 _ _ _ G X) E). Qed.
Lemma tri_pre {A} (P P' : core -> Prop) (m : M A) Q : (forall c, P c -> P' c) -> tri P' m Q -> tri P m Q.
Proof. intros H T g a g' (B & I). apply T. split; auto. Qed.
Lemma tri_post {A} P (m : M A) (Q Q' : A -> core -> Prop) : (forall a c, Q a c -> Q' a c) -> tri P m Q -> tri P m Q'.
Proof. intros H T g a g' G E. destruct (T _ _ _ G E) as (B & I). split; auto. Qed.
Lemma tri_fail {A} P Q : tri P (@fail A) Q. Proof. intros g a g' _ E. discriminate. Qed.
Lemma tri_out {A} P Q : tri P (fun _ => @Out (A * gst)) Q. Proof. intros g a g' _ E. discriminate. Qed.
Lemma tri_modify (P : core -> Prop) f (Q : unit -> core -> Prop) : (forall c, P c -> Q tt (f c)) -> tri P (modify f) Q.
Proof. intros H g a g' (B & I) E. apply good_inj in E. injection E as <- <-. split; [exact B|]. intros T. apply H, I, T. Qed.
Lemma tri_err P Q : tri P err Q.
Proof.
  intros g a g' ((C & L) & _) E. apply good_inj in E. injection E as <- <-. destruct (yyerror_nul _ C) as (Y1 & Y2). split.
  - split; [exact (proj1 Y1)|]. cbn [g_la set_lex g_lex]. destruct (g_la g) as [[]|]; exact L.
  - cbn [set_lex g_lex g_core]. intros T. rewrite Y2 in T. discriminate.
Qed.
Lemma tri_err_if (P : core -> Prop) b : tri P (err_if b) (fun _ c => P c /\ b = false).
Proof. unfold err_if. destruct b; [apply tri_err|apply tri_ret; auto]. Qed.
Lemma tri_errs P n : tri P (errs n) (fun _ c => P c /\ n = 0%nat).
Proof.
  destruct n as [|n]; cbn [errs]; [apply tri_ret; auto|]. apply tri_bind with (Q := fun _ _ => False); [apply tri_err|]. intros ?. induction n as [|n IH]; cbn [errs]; [apply tri_ret; intros ? []|].
  apply tri_bind with (Q := fun _ _ => False); [apply tri_err|]. intros ?. eapply tri_post; [|exact IH]. cbn. intros _ c (_ & F). discriminate.
Qed.
Lemma tri_of_res {A} P (r : res A) : tri P (of_res r) (fun a c => P c /\ r = OK a).
Proof. intros g a g' (B & I) E. unfold of_res in E. destruct r; try discriminate. apply good_inj in E. injection E as <- <-. split; auto. Qed.
Definition tpure (t : tok) : Prop := match t with TStr s => nonul s | _ => True end.
Lemma tri_peek P : tri P peek (fun t c => P c /\ tpure t).
Proof.
  intros g t g' ((C & L) & I) E. unfold peek in E. destruct (g_la g) as [u|] eqn:LA.
  - apply good_inj in E. injection E as <- <-. split; [split; [exact C|rewrite LA; exact L]|]. intros T. split; [auto|]. destruct u; exact L || exact Logic.I.
  - destruct (yylex (g_lex g)) as [[u l]| |] eqn:Y; try discriminate. apply good_inj in E. injection E as <- <-. destruct (yylex_nul _ _ _ Y C) as (G1 & G2). split; [split; [exact (proj1 G1)|exact G2]|].
    cbn [set_la set_lex g_lex g_core]. intros T. split; [apply I; destruct G1; lia|]. destruct u; exact G2 || exact Logic.I.
Qed.
Lemma tri_next P : tri P next (fun t c => P c /\ tpure t).
Proof.
  unfold next. eapply tri_bind; [apply tri_peek|]. intros t g a g' ((C & L) & I) E. apply good_inj in E. injection E as <- <-. split; [split; [exact C|exact Logic.I]|exact I].
Qed.
Lemma tri_weak {A} P (m : M A) Q : tri P m (fun a c => P c /\ Q a) -> tri P m (fun _ => P).
Proof. apply tri_post. cbn. tauto. Qed.
Lemma tri_expect P c : tri P (expect c) (fun _ => P).
Proof. unfold expect. eapply tri_bind; [apply tri_next|]. intros t. destruct (is_chr c t); [apply tri_ret; tauto|apply tri_fail]. Qed.
Lemma tri_expect_kw P k : tri P (expect_kw k) (fun _ => P).
Proof. unfold expect_kw. eapply tri_bind; [apply tri_next|]. intros t. destruct (is_kw k t); [apply tri_ret; tauto|apply tri_fail]. Qed.
Lemma tri_optnl P n : tri P (optnl n) (fun _ => P).
Proof.
  induction n as [|n IH]; cbn [optnl]; [apply tri_out|]. eapply tri_bind; [apply tri_peek|]. intros t. destruct (is_nl t); [|apply tri_ret; tauto]. eapply tri_bind; [apply tri_next|]. intros u. eapply tri_pre; [|exact IH]. cbn. tauto.
Qed.
Lemma tri_nl P n : tri P (nl n) (fun _ => P).
Proof. unfold nl. eapply tri_bind; [apply tri_next|]. intros t. destruct (is_nl t); [|apply tri_fail]. eapply tri_pre; [|apply tri_optnl]. cbn. tauto. Qed.
Lemma tri_more P n : forall a, tri (fun c => P c /\ nonul a) (more_strings n a) (fun s c => P c /\ nonul s).
Proof.
  induction n as [|n IH]; intros a; cbn [more_strings]; [apply tri_out|]. eapply tri_bind; [apply tri_peek|]. intros t. destruct t; try (apply tri_ret; cbn; tauto). eapply tri_bind; [apply tri_next|]. intros u. eapply tri_pre; [|apply IH].
  cbn [tpure]. intros c (((X & Y) & Z) & _). split; [exact X|apply nonul_app; assumption].
Qed.
Lemma tri_string P n : tri P (string_ n) (fun s c => P c /\ nonul s).
Proof. unfold string_. eapply tri_bind; [apply tri_next|]. intros t. destruct t; try apply tri_fail. apply tri_more. Qed.
Lemma tri_bool P : tri P bool_ (fun _ => P).
Proof. unfold bool_. eapply tri_bind; [apply tri_next|]. intros t. destruct t; try apply tri_fail. destruct k; try apply tri_fail; apply tri_ret; tauto. Qed.
Lemma tri_num P : tri P num (fun _ => P).
Proof. unfold num. eapply tri_bind; [apply tri_next|]. intros []; try apply tri_fail; apply tri_ret; cbn; tauto. Qed.
Lemma tri_str P : tri P str (fun s c => P c /\ nonul s).
Proof. unfold str. eapply tri_bind; [apply tri_next|]. intros []; try apply tri_fail; apply tri_ret; cbn; tauto. Qed.
Lemma tri_copy P n s : (1 <= n)%nat -> tri P (copy n s) (fun a c => P c /\ a = s /\ shorter n s).
Proof.
  intros N0. unfold copy. eapply tri_bind; [apply tri_err_if|]. intros ?. apply tri_ret. intros c (H & L). apply Nat.leb_gt in L. unfold shorter. split; [exact H|]. split; [apply firstn_all2; lia|exact L].
Qed.
Lemma tri_absolute P s : tri P (absolute s) (fun a c => P c /\ a = s /\ abs_path s).
Proof.
  unfold absolute. eapply tri_bind; [apply tri_err_if|]. intros ?. apply tri_ret. intros c (H & L). split; [exact H|]. split; [reflexivity|]. destruct s as [|x s]; [discriminate|]. cbn [hd] in L. apply negb_false_iff, N.eqb_eq in L. subst x. exists s. reflexivity.
Qed.
Lemma tri_items P item n m : tri P item (fun _ => P) -> tri P (items item n m) (fun _ => P).
Proof.
  intros H. induction n as [|n IH]; cbn [items]; [apply tri_out|]. eapply tri_bind; [apply tri_peek|]. intros t. destruct (is_chr 125 t).
  - eapply tri_bind; [apply tri_next|]. intros u. apply tri_ret. tauto.
  - eapply tri_bind; [eapply tri_pre; [|exact H]; cbn; tauto|]. intros u. cbn beta. eapply tri_bind; [apply tri_optnl|]. intros ?. exact IH.
Qed.
Lemma tri_block P item n : tri P item (fun _ => P) -> tri P (block item n) (fun _ => P).
Proof. intros H. unfold block. eapply tri_bind; [apply tri_expect|]. intros ?. eapply tri_bind; [apply tri_optnl|]. intros ?. apply tri_items, H. Qed.
Lemma tri_on_host (P : core -> Prop) f (Q : unit -> core -> Prop) :
  (forall c h r, P c -> g_hosts c = h :: r -> Q tt (set_hosts (g_addrs c) (f h :: r) c)) -> tri P (on_host f) Q.
Proof. intros H g a g' (B & I) E. unfold on_host in E. destruct (g_hosts (g_core g)) as [|h r] eqn:G; try discriminate. apply good_inj in E. injection E as <- <-. split; [exact B|]. intros T. cbn [set_core g_core]. apply H; auto. Qed.

(** ** the server that is being read *)
Definition in_table (al : list address) (h : vh) : Prop := NoDup (map a_ai (vh_addrs h)) /\ forall a, In a (vh_addrs h) -> exists b, In b al /\ a_ai b = a_ai a /\ a_proxy b = a_proxy a.
Definition part (k : nat) (Y : list pproxy -> Prop) (n : nat) (al : list address) (h : vh) : Prop :=
  shorter 256 (vh_domain h) /\ Forall (shorter 256) (vh_aliases h) /\ opt_path (vh_cert h) /\ opt_path (vh_key h) /\ opt_path (vh_ocsp h) /\
  in_table al h /\ (exists l0 r, vh_locs h = l0 :: r /\ l_match (pl l0) = s2b "*" /\ (k <= length r)%nat) /\ Forall (loc_fine n) (vh_locs h) /\ Y (vh_proxies h).
Definition cur (X : nat -> list address -> vh -> Prop) (c : core) : Prop :=
  exists h r, g_hosts c = h :: r /\ X (length (g_fcgi c)) (g_addrs c) h /\ well_formed (set_hosts (g_addrs c) r c).
Definition all_fine : list pproxy -> Prop := Forall proxy_fine.

Lemma tri_cur_host (P : core -> Prop) f X (X' : nat -> list address -> vh -> Prop) :
  (forall c, P c -> cur X c) -> (forall c n al h, P c -> X n al h -> X' n al (f h)) -> tri P (on_host f) (fun _ => cur X').
Proof.
  intros H1 H2. apply tri_on_host. intros c h r PC G. destruct (H1 c PC) as (h' & r' & G' & XH & W). rewrite G in G'. injection G' as <- <-.
  exists (f h), r. split; [reflexivity|]. split; [apply (H2 c _ _ _ PC XH)|exact W].
Qed.
Lemma on_last_one {A} (f : A -> A) a : on_last f [a] = [f a]. Proof. reflexivity. Qed.
Lemma on_last_snoc {A} (f : A -> A) l x : on_last f (l ++ [x]) = l ++ [f x].
Proof. unfold on_last. rewrite rev_app_distr. cbn [rev app]. rewrite rev_involutive. reflexivity. Qed.
Lemma on_last_ind {A} (l : list A) : l <> [] -> exists r x, l = r ++ [x].
Proof. intros H. destruct (exists_last H) as (r & x & E). exists r, x. exact E. Qed.
Lemma tri_cur_loc (P : core -> Prop) f k Y :
  (forall c, P c -> cur (part k Y) c) -> (forall c n l, P c -> loc_fine n l -> loc_fine n (f l) /\ (k = 0%nat -> l_match (pl (f l)) = l_match (pl l))) ->
  tri P (on_loc f) (fun _ => cur (part k Y)).
Proof.
  intros H1 H2. unfold on_loc. eapply tri_cur_host; [exact H1|]. intros c n al h PC (A1 & A2 & A3 & A4 & A5 & A6 & (l0 & r & A7 & A8 & A9) & A10 & A11).
  unfold part. cbn [vh_domain vh_aliases vh_cert vh_key vh_ocsp vh_locs vh_proxies set_locs]. repeat (split; [assumption|]). rewrite A7 in A10 |- *.
  destruct r as [|l1 r].
  - rewrite on_last_one. inversion A10 as [|? ? F0 _]; subst. destruct (H2 c n l0 PC F0) as (F1 & F2). assert (k = 0%nat) by (cbn [length] in A9; lia). split; [|split; [constructor; [exact F1|constructor]|exact A11]].
    exists (f l0), []. split; [reflexivity|]. split; [rewrite F2 by assumption; exact A8|exact A9].
  - destruct (on_last_ind (l1 :: r) ltac:(discriminate)) as (q & x & E). rewrite E in *. change (l0 :: q ++ [x]) with ((l0 :: q) ++ [x]) in *. rewrite on_last_snoc. apply Forall_app in A10. destruct A10 as (B1 & B2). inversion B2 as [|? ? F0 _]; subst. destruct (H2 c n x PC F0) as (F1 & _).
    split; [|split; [apply Forall_app; split; [exact B1|constructor; [exact F1|constructor]]|exact A11]]. exists l0, (q ++ [f x]). split; [reflexivity|]. split; [exact A8|]. rewrite app_length in A9 |- *. exact A9.
Qed.
Lemma loc_more n m l : (n <= m)%nat -> loc_fine n l -> loc_fine m l.
Proof. intros L (A1 & A2 & A3 & A4 & A5 & A6 & A7 & A8 & A9). unfold loc_fine. repeat (split; [assumption|]). split; [|exact A9]. intros i E. specialize (A8 i E). lia. Qed.
Lemma host_more n m al al' h : (n <= m)%nat -> incl al al' -> host_fine n al h -> host_fine m al' h.
Proof.
  intros L I (A1 & A2 & A3 & A4 & A5 & A6 & A7 & A8 & A9 & A10). unfold host_fine. repeat (split; [assumption|]). split; [|split; [exact A8|split; [|exact A10]]].
  - destruct A7 as (A70 & A7). split; [exact A70|]. intros a J. destruct (A7 a J) as (b & B & C). exists b. split; [apply I, B|exact C].
  - eapply Forall_impl; [|exact A9]. intros l. apply loc_more, L.
Qed.
Lemma part_more k Y n m al al' h : (n <= m)%nat -> incl al al' -> part k Y n al h -> part k Y m al' h.
Proof.
  intros L I (A1 & A2 & A3 & A4 & A5 & A6 & A7 & A8 & A9). unfold part. repeat (split; [assumption|]). split; [|split; [exact A7|split; [|exact A9]]].
  - destruct A6 as (A60 & A6). split; [exact A60|]. intros a J. destruct (A6 a J) as (b & B & C). exists b. split; [apply I, B|exact C].
  - eapply Forall_impl; [|exact A8]. intros l. apply loc_more, L.
Qed.

(** the commands *)
Ltac go := eapply tri_bind; [first [apply tri_string | apply tri_str | apply tri_num | apply tri_bool | apply tri_next | apply tri_peek | apply tri_expect | apply tri_expect_kw | apply tri_copy; lia | apply tri_absolute | apply tri_err_if | apply tri_errs | apply tri_of_res]|intros ?].
Ltac loc_ops := cbn [pl pl_ca lmap with_match with_lang with_mime with_index with_auto with_block with_strip with_nolog with_fcgi with_fstrip with_params with_dir
  l_match l_lang l_default_mime l_index l_auto_index l_block_code l_block_fmt l_strip l_reqca l_disable_log l_fcgi l_nofcgi l_fcgi_strip l_params l_dir l_dirfd].
Ltac split_all := repeat match goal with H : _ /\ _ |- _ => destruct H end.
(** the last step is about the location *)
Ltac leaf := eapply tri_cur_loc; [cbn beta; intros; split_all; eassumption|]; cbn beta; intros; split_all; subst;
  match goal with H : loc_fine _ _ |- _ => destruct H as (? & ? & ? & ? & ? & ? & ? & ? & ? & ? & ?) end; unfold loc_fine; loc_ops; split; [repeat (split; [assumption|])|auto].

Lemma tri_fcgi_conf (P : core -> Prop) path port k Y : (forall c, P c -> cur (part k Y) c) -> tri P (fcgi_conf path port) (fun _ => cur (part k Y)).
Proof.
  intros H g a g' (B & I) E. unfold fcgi_conf in E. destruct (fastcgi_conf path port (g_fcgi (g_core g))) as [[[i t] e]| |] eqn:F; try discriminate.
  set (P1 := fun c => (cur (part k Y) c /\ (i < length (g_fcgi c))%nat)). assert (T : tri (fun c => e = 0%nat -> P1 c) (bnd (errs e) (fun _ => on_loc (lmap (fun l => with_fcgi (Some i) (l_nofcgi l) l)))) (fun _ => cur (part k Y))).
  { eapply tri_bind; [apply tri_errs|]. intros u. cbn beta. eapply tri_pre with (P' := P1); [intros c (X1 & X2); auto|]. unfold on_loc. apply tri_on_host. intros c h r (C1 & C2) G. destruct C1 as (h' & r' & G' & PH & W). rewrite G in G'. injection G' as <- <-.
    exists (set_locs (on_last (lmap (fun l => with_fcgi (Some i) (l_nofcgi l) l)) (vh_locs h)) h), r. split; [reflexivity|]. split; [|exact W]. cbn [g_fcgi g_addrs set_hosts].
    destruct PH as (A1 & A2 & A3 & A4 & A5 & A6 & (l0 & q & A7 & A8 & A9) & A10 & A11).
    assert (FL : forall l, loc_fine (length (g_fcgi c)) l -> loc_fine (length (g_fcgi c)) (lmap (fun l => with_fcgi (Some i) (l_nofcgi l) l) l)).
    { intros l (Z1 & Z2 & Z3 & Z4 & Z5 & Z6 & Z7 & Z8 & Z9). unfold loc_fine. loc_ops. repeat (split; [assumption|]). split; [|exact Z9]. intros j J. injection J as <-. exact C2. }
    unfold part. cbn [vh_domain vh_aliases vh_cert vh_key vh_ocsp vh_locs vh_proxies set_locs]. repeat (split; [assumption|]).
    destruct (on_last_ind (vh_locs h) ltac:(rewrite A7; discriminate)) as (p & x & EL). rewrite EL, on_last_snoc. rewrite EL in A10, A7. apply Forall_app in A10. destruct A10 as (B1 & B2). inversion B2; subst.
    split; [|split; [apply Forall_app; split; [exact B1|constructor; [apply FL; assumption|constructor]]|exact A11]].
    destruct p as [|p0 p]; injection A7 as -> <-; [exists (lmap (fun l => with_fcgi (Some i) (l_nofcgi l) l) l0), []; auto|]. exists l0, (p ++ [lmap (fun l => with_fcgi (Some i) (l_nofcgi l) l) x]). split; [reflexivity|]. split; [exact A8|]. rewrite app_length in *. exact A9. }
  apply (T _ _ _) with (2 := E). split; [exact B|]. cbn [set_core g_lex g_core]. intros TO EZ. specialize (I TO). apply H in I. subst e.
  unfold fastcgi_conf in F. destruct (fcgi_find path port (g_fcgi (g_core g)) 0) as [[j|]| |] eqn:FF; cbn [bind] in F; try discriminate; apply OK_inj in F.
  - injection F as <- <-. pose proof (fcgi_find_spec _ _ _ _ _ FF) as FS. split; [destruct (g_core g); exact I|]. cbn [g_fcgi set_fcgis]. destruct FS as (_ & FS).
    apply nth_error_Some. rewrite Nat.sub_0_r in FS. congruence.
  - assert (EZ : (((if (FCGI_PATH_MAX <=? length path)%nat then 1 else 0) + (if (FCGI_PORT_MAX <=? length match port with Some p => p | None => [] end)%nat then 1 else 0))%nat = 0%nat)) by congruence.
    assert (EI : i = length (g_fcgi (g_core g))) by congruence. assert (ET : t = g_fcgi (g_core g) ++ [mkF (firstn (FCGI_PATH_MAX - 1) path) (firstn (FCGI_PORT_MAX - 1) match port with Some p => p | None => [] end)]) by congruence. clear F E T. subst i t. set (p := match port with Some p => p | None => [] end) in *. destruct (FCGI_PATH_MAX <=? length path)%nat eqn:Z1; [discriminate|]. destruct (FCGI_PORT_MAX <=? length p)%nat eqn:Z2; [discriminate|]. apply Nat.leb_gt in Z1, Z2. unfold P1. cbn [g_fcgi set_fcgis]. rewrite app_length. cbn [length]. split; [|lia].
    destruct I as (h & r & G & PH & W). exists h, r. split; [exact G|]. cbn [g_fcgi g_addrs set_fcgis]. split; [eapply part_more; [|apply incl_refl|exact PH]; rewrite app_length; lia|].
    destruct W as (W1 & W2 & W3 & W4 & W5 & W6 & W7 & W8 & W9). unfold well_formed. cbn [set_fcgis set_hosts g_chroot g_user g_prefork g_style g_facility g_mime g_fcgi g_addrs g_hosts] in *. repeat (split; [assumption|]).
    split; [apply Forall_app; split; [exact W7|]; constructor; [|constructor]; cbn [f_path f_port]; unfold shorter; split; rewrite firstn_length; unfold FCGI_PATH_MAX, FCGI_PORT_MAX in *; lia|].
    split; [exact W8|]. eapply Forall_impl; [|exact W9]. intros x. apply host_more; [rewrite app_length; lia|apply incl_refl].
Qed.

Lemma tri_add_param n k Y : tri (cur (part k Y)) (add_param n) (fun _ => cur (part k Y)).
Proof.
  unfold add_param. go. go. go. go. go. leaf. split; [apply Forall_app; split; [assumption|constructor; [auto|constructor]]|]. auto.
Qed.
Lemma is_kw_dec (k : kw) t : {is_kw k t = true} + {is_kw k t = false}. Proof. destruct (is_kw k t); auto. Qed.
Lemma tri_fastcgiopt n k Y : tri (cur (part k Y)) (fastcgiopt n) (fun _ => cur (part k Y)).
Proof.
  unfold fastcgiopt. go. destruct a; try apply tri_fail. destruct k0; try apply tri_fail.
  - eapply tri_pre; [|apply tri_add_param]. cbn. tauto.
  - go. destruct (is_kw TCP a).
    + go. go. go. destruct (is_kw PORT a2).
      * go. go. destruct a4; try (go; apply tri_fcgi_conf; cbn; intros; split_all; assumption).
      * apply tri_fcgi_conf. cbn. intros. split_all. assumption.
    + go. apply tri_fcgi_conf. cbn. intros. split_all. assumption.
  - go. leaf. auto.
Qed.
Lemma fmt_back s : check_block_fmt s = OK true -> fmt_text s.
Proof. intros H. apply c19_check_exact in H. induction H as [|c f N0 W IH|d f D W IH]; [constructor|constructor; assumption|]. apply fm_sub; [exact D|exact IH]. Qed.
Lemma code_back z : check_block_code z = true -> (10 <= Z.to_N z <= 19 \/ 30 <= Z.to_N z <= 69).
Proof. intros H. apply c19_check_code in H. lia. Qed.
Lemma tempfail_fine : fmt_text TEMPFAIL /\ shorter 1027 TEMPFAIL.
Proof. split; [apply fmt_back; vm_compute; reflexivity|]. apply Nat.ltb_lt. vm_compute. reflexivity. Qed.
Lemma tri_locopt n t k Y : tri (cur (part k Y)) (locopt_ n t) (fun _ => cur (part k Y)).
Proof.
  unfold locopt_. destruct t as [| | | | |kk]; try apply tri_fail. destruct kk; try apply tri_fail.
  - go. go. leaf. auto.
  - go. destruct (is_kw RETURN a).
    + go. go. go.
      assert (W : tri (fun c : core => ((cur (part k Y) c /\ tpure a) /\ tpure a0) /\ tpure a2) (err_if (negb (check_block_code a1));; on_loc (lmap (with_block (Z.to_N a1) TEMPFAIL));; err_if ((30 <=? a1)%Z && (a1 <? 40)%Z)) (fun _ : unit => cur (part k Y))).
      { go. eapply tri_bind with (Q := fun _ => cur (part k Y)); [|intros ?; eapply tri_post; [|apply tri_err_if]; cbn beta; intros ? ? (? & ?); assumption].
        leaf. split; [right; split; [apply code_back, negb_false_iff; assumption|apply tempfail_fine]|auto]. }
      destruct a2; try exact W.
      go. go. go. go. go. leaf. split; [|auto]. right. split; [apply code_back, negb_false_iff; assumption|]. split; [|assumption]. apply fmt_back. match goal with H : check_block_fmt _ = OK ?b, J : negb ?b = false |- _ => rewrite H; apply negb_false_iff in J; rewrite J end. reflexivity.
    + leaf. split; [right; split; [lia|apply tempfail_fine]|auto].
  - go. go. go. leaf. auto.
  - go. assert (W : tri (fun c => cur (part k Y) c /\ tpure a) (fastcgiopt n) (fun _ => cur (part k Y))) by (eapply tri_pre; [|apply tri_fastcgiopt]; cbn; tauto).
    destruct a as [| |ch|s| |kk]; try exact W.
    + assert (V : tri (fun c => cur (part k Y) c /\ tpure (TChr ch)) (block (fastcgiopt n) n) (fun _ => cur (part k Y))) by (eapply tri_pre; [|apply tri_block, tri_fastcgiopt]; cbn; tauto).
      repeat match goal with |- context [match ?x with _ => _ end] => is_var x; destruct x; try exact V; try exact W end.
    + go. apply tri_fcgi_conf. cbn. intros. split_all. assumption.
    + destruct kk; try exact W. go. leaf. split; [discriminate|auto].
  - go. go. leaf. auto.
  - go. go. leaf. auto.
  - go. leaf. auto.
  - go. go. go. go. leaf. auto.
  - go. go. leaf. auto.
  - go. go. leaf. auto.
Qed.

(** ** addresses *)
Definition same_in (al : list address) (h : list address) : Prop := NoDup (map a_ai h) /\ forall a, In a h -> exists b, In b al /\ a_ai b = a_ai a /\ a_proxy b = a_proxy a.
Lemma add_addr_fine a ai pp proxy a' e : add_to_addr_queue a ai pp proxy = Some (a', e) -> e = false ->
  incl a a' /\ (exists x, In x a' /\ a_ai x = ai /\ a_proxy x = proxy) /\ (addrs_fine a -> addrs_fine a') /\ (forall x, In x a' -> In x a \/ a_ai x = ai /\ a_proxy x = proxy) /\ (NoDup (map a_ai a) -> NoDup (map a_ai a')).
Proof.
  unfold add_to_addr_queue. destruct (SS_SIZE <? length (i_sa ai))%nat eqn:SZ; [discriminate|]. apply Nat.ltb_ge in SZ. destruct (find _ a) as [x|] eqn:F.
  - intros E EF. assert (a' = a /\ e = negb (Bool.eqb (a_proxy x) proxy)) as (-> & ->) by (split; congruence). apply negb_false_iff, eqb_prop in EF. apply find_some in F. destruct F as (F1 & F2). apply ainfo_eqb_eq in F2.
    split; [apply incl_refl|]. split; [exists x; auto|]. split; auto.
  - destruct ((i_family ai =? AF_INET) || (i_family ai =? AF_INET6)) eqn:FA; [|discriminate]. intros E _. match type of E with Some (?u, _) = _ => assert (a' = u) as -> by congruence end. split; [apply incl_tl, incl_refl|].
    split; [eexists; split; [left; reflexivity|auto]|]. assert (NI : ~ In ai (map a_ai a)) by (intros I; apply in_map_iff in I; destruct I as (x & E1 & I); pose proof (find_none _ _ F _ I) as X; cbn beta in X; rewrite E1, (proj2 (ainfo_eqb_eq ai ai) eq_refl) in X; discriminate).
    split; [|split; [intros x [<-|I]; auto|intros N0; cbn [map a_ai]; constructor; assumption]]. intros (N0 & FO). split.
    + cbn [map a_ai]. constructor; [exact NI|exact N0].
    + constructor; [|exact FO]. cbn [a_ai a_pp]. apply orb_true_iff in FA. rewrite !N.eqb_eq in FA. split; [exact FA|]. split; [exact SZ|]. unfold shorter. rewrite firstn_length. unfold NI_MAXHOST. lia.
Qed.
Lemma listen_on_fine : forall l proxy h al n st, listen_on l proxy (mkL [h] al n) = Some st -> exists h', s_hosts st = [h'] /\ (n <= s_errors st)%nat /\
  (s_errors st = n -> same_in al h -> addrs_fine al -> addrs_fine (s_all st) /\ incl al (s_all st) /\ same_in (s_all st) h' /\ incl h h' /\ (l <> [] -> h' <> [])).
Proof.
  induction l as [|[ai pp] l IH]; intros proxy h al n st; cbn [listen_on s_hosts s_all s_errors].
  - intros E. assert (st = mkL [h] al n) as -> by congruence. exists h. split; [reflexivity|]. split; [cbn; lia|]. cbn [s_all s_errors]. intros _ S F. split; [exact F|]. split; [apply incl_refl|]. split; [exact S|]. split; [apply incl_refl|congruence].
  - destruct (add_to_addr_queue h ai pp proxy) as [[h1 e1]|] eqn:A1; [|discriminate]. destruct (add_to_addr_queue al ai pp proxy) as [[al1 e2]|] eqn:A2; [|discriminate]. intros E. destruct (IH _ _ _ _ _ E) as (h' & H1 & H2 & H3). exists h'. split; [exact H1|]. split; [lia|].
    intros EN S F. destruct e1; [lia|]. destruct e2; [lia|]. destruct (add_addr_fine _ _ _ _ _ _ A1 eq_refl) as (B1 & B2 & _ & B4 & B5). destruct (add_addr_fine _ _ _ _ _ _ A2 eq_refl) as (C1 & C2 & C3 & _).
    destruct (H3 ltac:(lia)) as (D1 & D2 & D3 & D4 & D5).
    + destruct S as (SN & S). split; [apply B5, SN|]. intros x I. destruct (B4 x I) as [J|(J1 & J2)]; [destruct (S x J) as (b & K1 & K2); exists b; split; [apply C1, K1|exact K2]|]. destruct C2 as (b & K1 & K2 & K3). exists b. split; [exact K1|]. split; congruence.
    + apply C3, F.
    + split; [exact D1|]. split; [eapply incl_tran; eassumption|]. split; [exact D3|]. split; [eapply incl_tran; eassumption|]. intros _ Z. subst h'. destruct B2 as (x & I & _). apply (D4 x) in I. destruct I.
Qed.
Section Listen.
Variable gai : option (list N) -> list N -> option (list (ainfo * list N)).
Hypothesis gai_some : forall h p, gai h p <> Some [].
Definition listening (X : nat -> list address -> vh -> Prop) n al h : Prop := X n al h /\ vh_addrs h <> [].
Definition set_addrs a (h : vh) : vh := mkVh (vh_domain h) (vh_cert h) (vh_key h) (vh_ocsp h) a (vh_locs h) (vh_aliases h) (vh_proxies h).
Lemma tri_listen (P : core -> Prop) (X : nat -> list address -> vh -> Prop) h p x : (forall c, P c -> cur X c) ->
  (forall n al v, X n al v -> in_table al v) ->
  (forall n al al' v a, X n al v -> incl al al' -> in_table al' (set_addrs a v) -> X n al' (set_addrs a v)) ->
  tri P (listen gai h p x) (fun _ => cur (listening X)).
Proof.
  intros H XT XM g a g' (B & I) E. unfold listen in E. destruct (gai h p) as [l|] eqn:GA; [|exact (tri_err P _ g a g' (conj B I) E)].
  destruct (g_hosts (g_core g)) as [|v r] eqn:G; [discriminate|]. destruct (listen_on l x (mkL [vh_addrs v] (g_addrs (g_core g)) 0)) as [st|] eqn:L; [|discriminate]. destruct st as [hs al n].
  destruct (listen_on_fine _ _ _ _ _ _ L) as (h' & H1 & _ & H3). cbn [s_hosts s_all s_errors] in *. subst hs.
  refine (tri_post _ _ _ _ _ (tri_errs (fun c => n = 0%nat -> cur (listening X) c) n) _ _ _ _ E); [cbn; tauto|]. split; [exact B|]. cbn [set_core g_lex g_core]. intros TO EN. specialize (H _ (I TO)). destruct H as (v' & r' & G' & PH & W). rewrite G in G'. injection G' as <- <-.
  pose proof (XT _ _ _ PH) as ST. destruct W as (W1 & W2 & W3 & W4 & W5 & W6 & W7 & W8 & W9). cbn [set_hosts g_addrs g_fcgi g_hosts] in W8, W9, W7. destruct (H3 EN ST W8) as (D1 & D2 & D3 & D4 & D5). fold (set_addrs h' v).
  eexists. eexists. split; [reflexivity|]. cbn [set_hosts g_addrs g_fcgi g_hosts]. split; [split; [|apply D5; intros ->; exact (gai_some _ _ GA)]|].
  - eapply XM; [exact PH|exact D2|exact D3].
  - unfold well_formed. cbn [set_hosts g_chroot g_user g_prefork g_style g_facility g_mime g_fcgi g_addrs g_hosts] in *. repeat (split; [assumption|]). eapply Forall_impl; [|exact W9]. intros y. apply host_more; [lia|exact D2].
Qed.
Lemma part_table k Y n al v : part k Y n al v -> in_table al v. Proof. intros (_ & _ & _ & _ & _ & X & _). exact X. Qed.
Lemma part_addrs k Y n al al' v a : part k Y n al v -> incl al al' -> in_table al' (set_addrs a v) -> part k Y n al' (set_addrs a v).
Proof. intros (A1 & A2 & A3 & A4 & A5 & A6 & A7) I T. unfold part. repeat (split; [assumption|]). exact A7. Qed.
Lemma tri_listen_opt n k Y : tri (cur (part k Y)) (listen_opt gai n) (fun _ => cur (part k Y)).
Proof.
  unfold listen_opt. go. go. eapply tri_bind with (Q := fun _ => cur (part k Y)).
  { destruct a0 as [| |ch|s| |kk]; try apply tri_fail; [|apply tri_ret; tauto]. repeat match goal with |- context [match ?x with _ => _ end] => is_var x; destruct x; try apply tri_fail end; apply tri_ret; tauto. }
  intros h. go. eapply tri_bind with (Q := fun _ => cur (part k Y)).
  { destruct (is_kw PORT a1); [|apply tri_ret; tauto]. go. go. destruct a3; try apply tri_fail; apply tri_ret; cbn; intros; split_all; assumption. }
  intros p. go. eapply tri_bind with (Q := fun _ => cur (part k Y)).
  { destruct (is_kw PROXYV1 a2); [|apply tri_ret; tauto]. go. apply tri_ret. cbn. intros; split_all; assumption. }
  intros x. eapply tri_post; [|apply (tri_listen _ (part k Y)); [auto|apply part_table|apply part_addrs]]. cbn beta. intros _ c (v & r & G & (PH & _) & W). exists v, r. auto.
Qed.
End Listen.

(** ** proxies *)
Definition proxy_half (p : pproxy) : Prop :=
  shorter 32 (p_match_proto (px p)) /\ shorter 256 (p_match_host (px p)) /\ shorter 256 (p_host (px p)) /\ shorter 255 (px_sni p) /\
  opt_path (px_cert p) /\ opt_path (px_key p) /\ opt_path (px_ca p) /\ p_reqca (px p) = None.
Definition one_half (l : list pproxy) : Prop := exists q p, l = q ++ [p] /\ Forall proxy_fine q /\ proxy_half p.
Lemma part_y k (Y Y' : list pproxy -> Prop) n al h ps : part k Y n al h -> Y' ps -> part k Y' n al (set_proxies ps h).
Proof. intros (A1 & A2 & A3 & A4 & A5 & A6 & A7 & A8 & A9) I. unfold part. cbn [vh_domain vh_aliases vh_cert vh_key vh_ocsp vh_locs vh_proxies set_proxies]. repeat (split; [assumption|]). exact I. Qed.
Lemma tri_cur_proxy (P : core -> Prop) f k : (forall c, P c -> cur (part k one_half) c) -> (forall c p, P c -> proxy_half p -> proxy_half (f p)) ->
  tri P (on_proxy f) (fun _ => cur (part k one_half)).
Proof.
  intros H1 H2. unfold on_proxy. eapply tri_cur_host; [exact H1|]. intros c n al h PC PH. apply (part_y k one_half); [exact PH|]. destruct PH as (_ & _ & _ & _ & _ & _ & _ & _ & (q & p & E & A & B)). rewrite E, on_last_snoc. exists q, (f p). eauto.
Qed.
Ltac leafp := eapply tri_cur_proxy; [cbn beta; intros; split_all; eassumption|]; cbn beta; intros; split_all; subst;
  match goal with H : proxy_half _ |- _ => destruct H as (? & ? & ? & ? & ? & ? & ? & ?) end; unfold proxy_half; cbn [pmap px px_sni px_protos px_noverify px_cert px_key px_ca p_match_proto p_match_host p_match_port p_host p_port p_notls p_proxy p_reqca]; repeat (split; [assumption|]); try assumption.
Section Proxy.
Variable service : list N -> option Z.
Lemma tri_proxy_port P n : tri P (proxy_port service n) (fun _ => P).
Proof.
  unfold proxy_port. go. destruct (is_kw PORT a); [|apply tri_ret; tauto]. go. go. destruct a1; try apply tri_fail; [|apply tri_ret; cbn; tauto].
  destruct (getservice service s); [apply tri_ret; cbn; tauto|]. eapply tri_bind; [apply tri_err|]. intros ?. apply tri_ret. intros c H. exact H.
Qed.
Lemma tri_proxy_matches n m k : tri (cur (part k one_half)) (proxy_matches service n m) (fun _ => cur (part k one_half)).
Proof.
  induction n as [|n IH]; cbn [proxy_matches]; [apply tri_out|]. go. destruct a; try (apply tri_ret; tauto). destruct k0; try (apply tri_ret; tauto).
  - go. go. eapply tri_bind; [apply tri_proxy_port|intros ?]. go. eapply tri_bind; [|intros ?; exact IH]. leafp.
  - go. go. go. eapply tri_bind; [|intros ?; exact IH]. leafp.
Qed.
Definition popt_fine (o : proxy_opt) : Prop := match o with PCert s | PKey s | PReqCa s => abs_path s | _ => True end.
Lemma popt_half o p p' : proxy_option o (p, true) = (p', true) -> popt_fine o -> proxy_half p -> proxy_half p'.
Proof.
  intros E F (A1 & A2 & A3 & A4 & A5 & A6 & A7 & A8). destruct o; cbn [proxy_option] in E; try (match type of E with (_, _) = _ => idtac end; assert (E1 := f_equal fst E); cbn [fst] in E1; subst p'; unfold proxy_half; cbn [px px_sni px_protos px_noverify px_cert px_key px_ca p_match_proto p_match_host p_match_port p_host p_port p_notls p_proxy p_reqca]; repeat (split; [assumption|]); try assumption).
  - destruct (tls_config_parse_protocols s); [|discriminate]. assert (E1 := f_equal fst E); cbn [fst] in E1; subst p'. unfold proxy_half; cbn [px px_sni px_protos px_noverify px_cert px_key px_ca]. repeat (split; [assumption|]); assumption.
  - split; [unfold shorter; rewrite firstn_length; unfold HOST_NAME_MAX; lia|]. repeat (split; [assumption|]); assumption.
  - split; [unfold shorter; rewrite firstn_length; unfold HOST_NAME_MAX; lia|]. repeat (split; [assumption|]); assumption.
Qed.
Lemma tri_proxy_act (P : core -> Prop) o k : (forall c, P c -> cur (part k one_half) c) -> (forall c, P c -> popt_fine o) -> tri P (proxy_act o) (fun _ => cur (part k one_half)).
Proof.
  intros H1 H2 g a g' (B & I) E. unfold proxy_act in E. destruct (g_hosts (g_core g)) as [|v r] eqn:G; [discriminate|]. destruct (rev (vh_proxies v)) as [|p q] eqn:R; [discriminate|]. destruct (proxy_option o (p, true)) as [p' ok] eqn:PO.
  refine (tri_post _ _ _ _ _ (tri_err_if (fun c => negb ok = false -> cur (part k one_half) c) (negb ok)) _ _ _ _ E); [cbn; tauto|]. split; [exact B|]. cbn [set_core g_lex g_core]. intros TO OK_. apply negb_false_iff in OK_. subst ok. specialize (I TO). pose proof (H2 _ I) as PF. destruct (H1 _ I) as (v' & r' & G' & PH & W). rewrite G in G'. injection G' as <- <-.
  eexists. eexists. split; [reflexivity|]. split; [|exact W]. cbn [set_hosts g_addrs g_fcgi]. apply (part_y k one_half); [exact PH|]. destruct PH as (_ & _ & _ & _ & _ & _ & _ & _ & (q' & p0 & E1 & A & Bh)). rewrite E1, rev_app_distr in R. cbn [rev app] in R. injection R as <- <-. rewrite rev_involutive. exists q', p'. split; [reflexivity|]. split; [exact A|]. apply (popt_half _ _ _ PO PF Bh).
Qed.
Ltac leafa := apply tri_proxy_act; cbn beta; intros; split_all; subst; first [assumption|exact Logic.I].
Lemma tri_proxy_opt n k : tri (cur (part k one_half)) (proxy_opt_ service n) (fun _ => cur (part k one_half)).
Proof.
  unfold proxy_opt_. go. destruct a; try apply tri_fail. destruct k0; try apply tri_fail.
  - go. go. leafa.
  - go. go. leafa.
  - go. leafa.
  - leafa.
  - go. eapply tri_bind; [apply tri_proxy_port|intros ?]. leafa.
  - go. go. go. go. leafa.
  - go. leafa.
  - go. leafa.
  - go. leafa.
Qed.
Lemma new_half : proxy_half new_proxy.
Proof. repeat split; cbn; unfold shorter; cbn; lia. Qed.
Lemma tri_proxy n k : tri (cur (part k all_fine)) (proxy_ service n) (fun _ => cur (part k all_fine)).
Proof.
  unfold proxy_. eapply tri_bind with (Q := fun _ => cur (part k one_half)).
  { apply (tri_cur_host _ _ (part k all_fine)); [auto|]. cbn beta. intros c m al h _ PH. apply (part_y k all_fine); [exact PH|]. destruct PH as (_ & _ & _ & _ & _ & _ & _ & _ & PH). exists (vh_proxies h), new_proxy. split; [reflexivity|]. split; [exact PH|apply new_half]. }
  intros ?. eapply tri_bind; [apply tri_proxy_matches|intros ?]. eapply tri_bind; [apply tri_block, tri_proxy_opt|intros ?]. cbn beta.
  intros g aa g' (B & I) E. destruct (g_hosts (g_core g)) as [|v r] eqn:G; [discriminate|]. destruct (rev (vh_proxies v)) as [|p q] eqn:R; [discriminate|].
  refine (tri_post _ _ _ _ _ (tri_errs (fun c => c = g_core g /\ cur (part k one_half) c) _) _ _ _ (conj B (fun T => conj eq_refl (I T))) E). cbn beta. intros u c ((EC & C) & Z). subst c. destruct C as (v' & r' & G' & PH & W). rewrite G in G'. injection G' as <- <-. exists v, r. split; [exact G|]. split; [|exact W].
  destruct (isnil (p_host (px p))) eqn:NI; [discriminate|]. pose proof PH as (_ & _ & _ & _ & _ & _ & _ & _ & (q' & p0 & E1 & A & (H1 & H2 & H3 & H4 & H5 & H6 & H7 & H8))). rewrite E1, rev_app_distr in R. cbn [rev app] in R. injection R as <- <-.
  replace v with (set_proxies (vh_proxies v) v) by (destruct v; reflexivity). apply (part_y k one_half); [exact PH|]. rewrite E1. apply Forall_app. split; [exact A|]. constructor; [|constructor]. unfold proxy_fine. split; [exact H1|]. split; [exact H2|]. split; [intros X; rewrite X in NI; discriminate|]. split; [exact H3|]. split; [exact H4|].
  split; [destruct (px_cert p0), (px_key p0); try discriminate Z; split; congruence|]. auto.
Qed.
End Proxy.

(** ** locations and servers *)
Lemma new_loc_fine n : loc_fine n (mkPloc new_location None).
Proof. unfold loc_fine. cbn. unfold shorter. cbn [length]. repeat split; try lia; try constructor; try discriminate. Qed.
Lemma tri_location n k : tri (cur (part k all_fine)) (location_ n) (fun _ => cur (part k all_fine)).
Proof.
  unfold location_. eapply tri_bind with (Q := fun _ => cur (part (S k) all_fine)).
  { apply (tri_cur_host _ _ (part k all_fine)); [auto|]. intros c m al h _ (A1 & A2 & A3 & A4 & A5 & A6 & (l0 & r & A7 & A8 & A9) & A10 & A11). unfold part. cbn [vh_domain vh_aliases vh_cert vh_key vh_ocsp vh_locs vh_proxies set_locs]. repeat (split; [assumption|]).
    split; [|split; [apply Forall_app; split; [exact A10|constructor; [apply new_loc_fine|constructor]]|exact A11]]. exists l0, (r ++ [mkPloc new_location None]). rewrite A7. split; [reflexivity|]. split; [exact A8|]. rewrite app_length. cbn [length]. lia. }
  intros ?. go. eapply tri_bind with (Q := fun _ => cur (part (S k) all_fine)).
  { eapply tri_pre; [|apply tri_block]; [cbn; tauto|]. go. eapply tri_pre; [|apply tri_locopt]. cbn. tauto. }
  intros ?. go. apply (tri_post _ _ (fun _ => cur (part (S k) all_fine))).
  { intros u c (h & r & G & (A1 & A2 & A3 & A4 & A5 & A6 & (l0 & q & A7 & A8 & A9) & A10 & A11) & W). exists h, r. split; [exact G|]. split; [|exact W]. unfold part. repeat (split; [assumption|]). split; [exists l0, q; split; [exact A7|split; [exact A8|lia]]|auto]. }
  eapply tri_cur_loc; [cbn beta; intros; split_all; eassumption|]. cbn beta. intros. split_all. subst. split; [|discriminate].
  match goal with H : loc_fine _ _ |- _ => destruct H as (? & ? & ? & ? & ? & ? & ? & ? & ? & ? & ?) end. unfold loc_fine. loc_ops. repeat (split; [assumption|]). assumption.
Qed.
Section Server.
Variable gai : option (list N) -> list N -> option (list (ainfo * list N)).
Variable service : list N -> option Z.
Variable files : list N -> option (list N).
Hypothesis gai_some : forall h p, gai h p <> Some [].
Hypothesis files_text : forall f t, files f = Some t -> nonul t.
Ltac leafh := apply (tri_cur_host _ _ (part 0 all_fine)); [cbn beta; intros; split_all; assumption|]; cbn beta; intros; split_all; subst;
  unfold part in *; cbn [vh_domain vh_aliases vh_cert vh_key vh_ocsp vh_locs vh_proxies add_alias set_cert set_key set_ocsp]; split_all; repeat (split; [assumption|]).
Lemma tri_servitem n : tri (cur (part 0 all_fine)) (servitem gai service n) (fun _ => cur (part 0 all_fine)).
Proof.
  unfold servitem. go. assert (L : tri (fun c => cur (part 0 all_fine) c /\ tpure a) (locopt_ n a) (fun _ => cur (part 0 all_fine))) by (eapply tri_pre; [|apply tri_locopt]; cbn; tauto).
  destruct a; try exact L. destruct k; try exact L; clear L.
  - go. go. leafh. split; [apply Forall_app; auto|]. repeat (split; [assumption|]). assumption.
  - go. go. leafh. assumption.
  - go. apply tri_err.
  - go. go. leafh. assumption.
  - eapply tri_pre; [|apply tri_listen_opt, gai_some]. cbn. tauto.
  - eapply tri_pre; [|apply tri_location]. cbn. tauto.
  - go. go. leafh. assumption.
  - eapply tri_pre; [|apply tri_add_param]. cbn. tauto.
  - eapply tri_pre; [|apply tri_proxy]. cbn. tauto.
Qed.
Lemma tri_vhost n : tri well_formed (vhost_ gai service n) (fun _ => well_formed).
Proof.
  unfold vhost_. go. go. go. eapply tri_bind with (Q := fun _ => cur (part 0 all_fine)).
  { apply tri_modify. cbn beta. intros c H. split_all. subst. eexists. eexists. split; [reflexivity|]. split; [|destruct c; eassumption]. unfold part. cbn [vh_domain vh_aliases vh_cert vh_key vh_ocsp vh_locs vh_proxies opt_path]. split; [assumption|]. split; [constructor|]. repeat (split; [exact Logic.I|]).
    split; [split; [constructor|intros x []]|]. split; [exists (mkPloc (with_match (s2b "*") new_location) None), []; split; [reflexivity|split; [reflexivity|cbn; lia]]|]. split; [|constructor]. constructor; [|constructor]. pose proof (new_loc_fine (length (g_fcgi c))) as F. destruct F as (? & ? & ? & ? & ? & ? & ? & ? & ? & ? & ?). unfold loc_fine. loc_ops. split; [unfold shorter; cbn; lia|]. repeat (split; [assumption|]). assumption. }
  intros ?. eapply tri_bind; [apply tri_block, tri_servitem|intros ?]. cbn beta.
  intros g aa g' (B & I) E. destruct (g_hosts (g_core g)) as [|v r] eqn:G; [discriminate|].
  set (X := fun n al h => part 0 all_fine n al h /\ vh_cert h <> None /\ vh_key h <> None).
  assert (D : forall c, cur (listening X) c -> well_formed c).
  { intros c (h & q & GH & ((A & C & K) & L) & (W1 & W2 & W3 & W4 & W5 & W6 & W7 & W8 & W9)). unfold well_formed. cbn [set_hosts g_chroot g_user g_prefork g_style g_facility g_mime g_fcgi g_addrs g_hosts] in *. repeat (split; [assumption|]). rewrite GH. constructor; [|exact W9].
    destruct A as (A1 & A2 & A3 & A4 & A5 & A6 & (l0 & rr & A7 & A8 & A9) & A10 & A11). unfold host_fine. split; [exact A1|]. split; [exact A2|]. destruct (vh_cert h) as [ce|] eqn:EC; [|congruence]. destruct (vh_key h) as [ke|] eqn:EK; [|congruence]. split; [eauto|]. split; [eauto|]. split; [exact A5|]. split; [exact L|]. split; [exact A6|]. split; [eauto|]. split; [exact A10|exact A11]. }
  refine (tri_bind (fun c => c = g_core g /\ cur (part 0 all_fine) c) _ _ _ _ (tri_err_if _ _) _ _ _ _ (conj B (fun T => conj eq_refl (I T))) E). intros u. cbn beta.
  assert (PX : forall c, (c = g_core g /\ cur (part 0 all_fine) c) /\ match vh_cert v with Some _ => match vh_key v with Some _ => false | None => true end | None => true end = false -> cur X c).
  { intros c ((-> & C) & Z). destruct C as (v' & r' & G' & PH & W). rewrite G in G'. injection G' as <- <-. exists v, r. split; [exact G|]. split; [|exact W]. split; [exact PH|]. destruct (vh_cert v), (vh_key v); try discriminate; split; discriminate. }
  destruct (vh_addrs v) as [|x xs] eqn:AV.
  - apply (tri_post _ _ (fun _ => cur (listening X))); [intros _; exact D|]. apply (tri_listen gai gai_some _ X); [exact PX| |].
    + intros m al h (P1 & _). apply (part_table _ _ _ _ _ P1).
    + intros m al al' h a4 (P1 & P2) I1 T. split; [apply (part_addrs _ _ _ al); assumption|exact P2].
  - apply tri_ret. intros c C. apply D. destruct (PX c C) as (v' & r' & G' & PH & W). destruct C as ((-> & _) & _). rewrite G in G'. injection G' as <- <-. exists v, r. split; [exact G|]. split; [|exact W]. split; [exact PH|]. rewrite AV. discriminate.
Qed.

(** ** the rest *)
Lemma tri_include P : tri P (include files) (fun _ => P).
Proof.
  unfold include. intros g a g' G E. unfold bnd at 1 in E. destruct (str g) as [[f g1]| | | |] eqn:S1; try discriminate. pose proof (tri_str P _ _ _ G S1) as (B1 & I1).
  destruct (files f) as [t|] eqn:FT; [|discriminate]. apply good_inj in E. injection E as <- <-. 
  assert (LA : g_la g1 = None). { unfold str, bnd in S1. destruct (next g) as [[t1 g2]| | | |] eqn:NX; try discriminate. assert (g_la g2 = None). { unfold next, bnd in NX. destruct (peek g) as [[t2 g3]| | | |]; try discriminate. apply good_inj in NX. injection NX as _ <-. reflexivity. } destruct t1; try discriminate. apply good_inj in S1. injection S1 as _ <-. assumption. }
  destruct B1 as ((C1 & C2 & C3) & _). split; [split|].
  - split; [apply nonul_cons; [discriminate|exact (files_text _ _ FT)]|]. split; [constructor; [exact C1|exact C2]|exact C3].
  - cbn [set_lex g_la g_lex]. rewrite LA. exact Logic.I.
  - cbn [set_lex g_core g_lex]. intros T. apply I1. change (tot (include_file t (g_lex g1))) with (0 + tot (g_lex g1))%nat in T. lia.
Qed.
Lemma peek_pure g t g' : gbase g -> peek g = Good (t, g') -> tpure t /\ gbase g'.
Proof.
  intros (C & L) E. unfold peek in E. destruct (g_la g) as [u|] eqn:LA.
  - apply good_inj in E. injection E as <- <-. split; [destruct u; exact L || exact Logic.I|]. split; [exact C|rewrite LA; exact L].
  - destruct (yylex (g_lex g)) as [[u l]| |] eqn:Y; try discriminate. apply good_inj in E. injection E as <- <-. destruct (yylex_nul _ _ _ Y C) as (G1 & G2). split; [destruct u; exact G2 || exact Logic.I|]. split; [exact (proj1 G1)|exact G2].
Qed.
Lemma next_pure g t g' : gbase g -> next g = Good (t, g') -> tpure t /\ gbase g'.
Proof. intros B E. unfold next, bnd in E. destruct (peek g) as [[u g1]| | | |] eqn:P; try discriminate. apply good_inj in E. injection E as <- <-. destruct (peek_pure _ _ _ B P) as (A & (C & _)). split; [exact A|]. split; [exact C|exact Logic.I]. Qed.
Lemma more_pure n : forall a g s g', gbase g -> nonul a -> more_strings n a g = Good (s, g') -> nonul s /\ gbase g'.
Proof.
  induction n as [|n IH]; intros a g s g' B NA E; cbn [more_strings] in E; [discriminate|]. unfold bnd in E. destruct (peek g) as [[t g1]| | | |] eqn:P; try discriminate. destruct (peek_pure _ _ _ B P) as (T & B1).
  assert (R : ret a g1 = Good (s, g') -> nonul s /\ gbase g') by (intros R; apply good_inj in R; injection R as <- <-; auto).
  destruct t; try exact (R E). destruct (next g1) as [[t2 g2]| | | |] eqn:NX; try discriminate. destruct (next_pure _ _ _ B1 NX) as (_ & B2). apply (IH _ _ _ _ B2 (nonul_app _ _ NA T) E).
Qed.
Lemma string_pure n g s g' : gbase g -> string_ n g = Good (s, g') -> nonul s.
Proof. intros B E. unfold string_, bnd in E. destruct (next g) as [[t g1]| | | |] eqn:NX; try discriminate. destruct (next_pure _ _ _ B NX) as (T & B1). destruct t; try discriminate. apply (more_pure _ _ _ _ _ B1 T E). Qed.
Lemma tri_varset P n : tri P (varset n) (fun _ => P).
Proof.
  unfold varset. go. go. intros g u g' (B & I) E. unfold bnd at 1 in E. destruct (string_ n g) as [[v g1]| | | |] eqn:S1; try discriminate. pose proof (string_pure _ _ _ _ B S1) as NV. pose proof (tri_string (fun c => P c /\ nonul a) n _ _ _ (conj B I) S1) as ((B1 & L1) & I1).
  destruct (existsb is_space (tl a)); [discriminate|]. apply good_inj in E. injection E as <- <-. destruct B1 as (C1 & C2 & C3). split; [split|].
  - split; [exact C1|]. split; [exact C2|]. cbn [set_lex g_lex lx_syms]. apply symset_nul; assumption.
  - cbn [set_lex g_la g_lex]. destruct (g_la g1) as [[]|]; exact L1.
  - cbn [set_lex g_core g_lex]. intros T. destruct (I1 T) as ((X & _) & _). exact X.
Qed.
(** an option changes what it says *)
Ltac wf := cbn beta; intros; split_all; subst; unfold well_formed in *; split_all;
  cbn [set_globals set_log set_mime set_defaults set_hosts g_chroot g_user g_prefork g_style g_facility g_mime g_fcgi g_addrs g_hosts] in *; repeat (split; [first [assumption|split; assumption]|]); try assumption.
Lemma style_le s f : style s = Some f -> f <= 3.
Proof. unfold style. repeat match goal with |- context [if ?b then _ else _] => destruct b end; intros E; try discriminate; assert (X := E); clear E; injection X as <-; lia. Qed.
Lemma tri_logopt n : tri well_formed (logopt_ n) (fun _ => well_formed).
Proof.
  unfold logopt_. go. destruct a; try apply tri_fail. destruct k; try apply tri_fail.
  - go. apply tri_modify. wf.
  - go. destruct (style a) as [f|] eqn:ST; [|apply tri_err]. apply style_le in ST. apply tri_modify. wf.
  - go. assert (W : tri (fun c => (well_formed c /\ tpure (TKw SYSLOG)) /\ tpure a) (modify (fun g => set_log (g_access g) (g_style g) true (g_facility g) g)) (fun _ => well_formed)) by (apply tri_modify; wf).
    destruct a; try exact W. destruct k; try exact W.
    + go. go. apply tri_modify. wf. split; [|auto]. destruct (facility a0) as [f|] eqn:F; [|assumption]. unfold facility in F. apply find_some in F. destruct F as (F & _). unfold facilities in F. apply in_map_iff in F. destruct F as (m & <- & F). exists m. auto.
    + go. apply tri_modify. wf.
Qed.
Lemma tri_option n : tri well_formed (option_ n) (fun _ => well_formed).
Proof.
  unfold option_. go. destruct a; try apply tri_fail. destruct k; try apply tri_fail.
  - go. go. apply tri_modify. wf.
  - go. apply tri_modify. wf.
  - go. destruct (is_chr 123 a); [eapply tri_pre; [|apply tri_block, tri_logopt]|eapply tri_pre; [|apply tri_logopt]]; cbn; tauto.
  - go. apply tri_modify. wf.
  - go. go. apply tri_modify. wf. split; [|auto 10]. match goal with H : _ || _ = false |- _ => apply orb_false_iff in H; destruct H end. unfold PROC_MAX_INSTANCES in *. lia.
  - go. destruct (tls_config_parse_protocols a); [|apply tri_err]. apply tri_modify. wf.
  - go. go. apply tri_modify. wf.
Qed.
Lemma tri_add_mime (P : core -> Prop) ext : (forall c, P c -> well_formed c) -> tri P (add_mime_ ext) (fun _ => well_formed).
Proof.
  intros H g a g' (B & I) E. unfold add_mime_ in E. destruct (add_mime (g_mime (g_core g)) (g_media (g_core g)) ext) as [[[] m]| |] eqn:A; try discriminate. apply good_inj in E. injection E as <- <-. split; [exact B|]. cbn [set_core g_lex g_core]. intros T. specialize (H _ (I T)).
  assert (F : Forall (fun e => shorter 128 (fst e) /\ shorter 128 (snd e)) (m_t m)).
  { unfold add_mime in A. set (m0 := if (length (m_t (g_mime (g_core g))) =? m_cap (g_mime (g_core g)))%nat then mkMime (m_t (g_mime (g_core g))) (m_cap (g_mime (g_core g)) * 3 / 2) else g_mime (g_core g)) in A. assert (M0 : m_t m0 = m_t (g_mime (g_core g))) by (unfold m0; destruct (_ =? _)%nat; reflexivity). destruct (m_cap m0 <=? length (m_t m0))%nat; [discriminate|]. destruct (MEDIATYPE_TYPEMAX <=? length (g_media (g_core g)))%nat eqn:L1; [discriminate|]. destruct (MEDIATYPE_NAMEMAX <=? length ext)%nat eqn:L2; [discriminate|]. apply Nat.leb_gt in L1, L2.
    match type of A with OK (true, ?u) = _ => assert (m = u) as -> by congruence end. cbn [m_t]. rewrite M0. apply Forall_app. split; [apply H|]. constructor; [|constructor]. split; assumption. }
  revert H. generalize (g_core g). intros c W. wf.
Qed.
Lemma tri_medianames n : tri well_formed (medianames n) (fun _ => well_formed).
Proof.
  induction n as [|n IH]; cbn [medianames]; [apply tri_out|]. go. destruct a; try (apply tri_ret; tauto); (go; eapply tri_bind; [apply tri_add_mime; cbn; intros; split_all; assumption|intros ?; exact IH]).
Qed.
Lemma tri_mediaopts n : tri well_formed (mediaopts files n) (fun _ => well_formed).
Proof.
  unfold mediaopts. go.
  assert (W : tri (fun c => well_formed c /\ tpure a) (do s <- str; modify (fun g => set_defaults (g_dhost g) (g_dport g) s g);; do t <- peek; match t with TStr _ | TNum _ => medianames n | _ => fail end) (fun _ => well_formed)).
  { go. eapply tri_bind with (Q := fun _ => well_formed); [apply tri_modify; wf|intros ?]. go. destruct a2; try apply tri_fail; (eapply tri_pre; [|apply tri_medianames]; cbn; tauto). }
  destruct a; try exact W. destruct k; try exact W. go. eapply tri_post; [|apply tri_include]. cbn. intros; split_all; assumption.
Qed.
Lemma tri_mediaopts_l n m : tri well_formed (mediaopts_l files n m) (fun _ => well_formed).
Proof.
  induction n as [|n IH]; cbn [mediaopts_l]; [apply tri_out|]. go. destruct (is_chr 125 a); [go; apply tri_ret; cbn; intros; split_all; assumption|]. eapply tri_bind with (Q := fun _ => well_formed); [eapply tri_pre; [|apply tri_mediaopts]; cbn; tauto|intros ?]. eapply tri_bind; [apply tri_nl|intros ?]. exact IH.
Qed.
Lemma tri_types n : tri well_formed (types_ files n) (fun _ => well_formed).
Proof. unfold types_. go. go. eapply tri_bind; [apply tri_optnl|intros ?]. eapply tri_bind; [apply tri_mediaopts|intros ?]. eapply tri_bind; [apply tri_nl|intros ?]. apply tri_mediaopts_l. Qed.
Lemma tri_statement n : tri well_formed (statement gai service files n) (fun _ => well_formed).
Proof.
  unfold statement. go. assert (W : tri (fun c => well_formed c /\ tpure a) (option_ n) (fun _ => well_formed)) by (eapply tri_pre; [|apply tri_option]; cbn; tauto).
  destruct a; try exact W.
  - eapply tri_pre; [|apply tri_varset]. cbn. tauto.
  - destruct k; try exact W.
    + go. eapply tri_post; [|apply tri_include]. cbn. intros; split_all; assumption.
    + eapply tri_pre; [|apply tri_vhost]. cbn. tauto.
    + eapply tri_pre; [|apply tri_types]. cbn. tauto.
Qed.
Lemma conf_fine n m : forall g u g', gi well_formed g -> conf_ gai service files n m g = Good (u, g') -> gi well_formed g' /\ g_la g' = Some TEnd.
Proof.
  induction n as [|n IH]; intros g u g' G E; cbn [conf_] in E; [discriminate|]. unfold bnd at 1 in E. destruct (peek g) as [[t g1]| | | |] eqn:P; try discriminate. pose proof (tri_peek _ _ _ _ G P) as G1. assert (LA : g_la g1 = Some t). { unfold peek in P. destruct (g_la g) eqn:L; [apply good_inj in P; congruence|]. destruct (yylex (g_lex g)) as [[x l]| |]; try discriminate. apply good_inj in P. injection P as <- <-. reflexivity. }
  assert (GW : gi well_formed g1) by (destruct G1 as (X & Y); split; [exact X|]; intros T; apply Y, T).
  assert (K : (statement gai service files m;; nl m;; conf_ gai service files n m) g1 = Good (u, g') -> gi well_formed g' /\ g_la g' = Some TEnd).
  { clear E. intros E. unfold bnd in E. destruct (statement gai service files m g1) as [[u1 g2]| | | |] eqn:S1; try discriminate. pose proof (tri_statement m _ _ _ GW S1) as G2. destruct (nl m g2) as [[u2 g3]| | | |] eqn:N1; try discriminate. pose proof (tri_nl _ m _ _ _ G2 N1) as G3. apply (IH _ _ _ G3 E). }
  destruct t; try exact (K E). apply good_inj in E. injection E as <- <-. auto.
Qed.
(** an accepted configuration is well formed *)
Lemma accepted_fine n macros s c : nonul s -> Forall (fun m => nonul (y_val m)) macros -> parse_conf gai service files n macros s = Good c -> well_formed c.
Proof.
  intros NS NM E. unfold parse_conf in E. destruct (grammar gai service files n (start macros s)) as [[u g]| | | |] eqn:GR; try discriminate. destruct (lf_errors (lx_cur (g_lex g)) =? 0)%nat eqn:Z; [|discriminate]. apply good_inj in E. subst c. apply Nat.eqb_eq in Z.
  unfold grammar, bnd in GR. destruct (optnl n (start macros s)) as [[u1 g1]| | | |] eqn:O; try discriminate.
  assert (G0 : gi well_formed (start macros s)).
  { split; [split; [split; [exact NS|split; [constructor|exact NM]]|exact Logic.I]|]. intros _. unfold well_formed. cbn [start g_core g_chroot g_user g_prefork g_style g_facility g_mime g_fcgi g_addrs g_hosts m_t]. unfold shorter.
    split; [cbn [length]; lia|]. split; [cbn [length]; lia|]. split; [lia|]. split; [lia|]. split; [exists "daemon"%string; split; [left; reflexivity|reflexivity]|]. split; [constructor|]. split; [constructor|]. split; [split; constructor|constructor]. }
  pose proof (tri_optnl _ n _ _ _ G0 O) as G1. destruct (conf_fine _ _ _ _ _ G1 GR) as (((C & L) & W) & LA). apply W. rewrite LA in L. cbn [tgood] in L. unfold tot. rewrite L. cbn [fold_right]. lia.
Qed.
End Server.
