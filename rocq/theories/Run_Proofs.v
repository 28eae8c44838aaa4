(** The invariant of polite histories: at most one reply. *)
From Coq Require Import Permutation Sorting.Sorted.
From Verif Require Import Base BaseLemmas Compat Iri IriSpec IriObs Puny Conf ConfSpec Mime Prop_Conf Fmt FmtSpec Prop_Fmt Fcgi Server ServerSpec Iri_Last_Proofs Server_Proofs Decide_Proofs RequestSpec Request_Proofs HistorySpec.
Local Open Scope N_scope.

(** nothing queued yet *)
Definition silent (c : client) : Prop := c_code c = 0 /\ replies c = [] /\ c_out c = [] /\ c_sent c = [] /\ logs c = [].
(** one reply queued *)
Definition replied (E : env) (c : client) : Prop :=
  exists code meta m body, 10 <= code < 70 /\ c_code c = code /\ replies c = [(code, meta)] /\ with_lang meta m /\
    (length m <= 1024)%nat /\ stream c = header code m ++ body /\
    logs c = if vhost_disable_log (e_fnm E) (c_vhost c) (path_of c) then [] else [(code, meta)].

Definition J (E : env) (c : client) : Prop :=
  (silent c \/ replied E c) /\
  (c_hs c = false -> silent c) /\
  (c_type c = UNDECIDED -> c_cgibev c = None -> silent c) /\
  (c_type c = RFILE \/ c_type c = RDIR -> replied E c) /\
  (c_type c = RPROXY -> c_up c = None -> silent c) /\
  (forall v, c_vhost c = Some v -> In v (c_hosts (e_conf E))).

Lemma silent_code c : silent c -> c_code c = 0. Proof. intros (H & _); exact H. Qed.
Lemma replied_code {E} c : replied E c -> c_code c <> 0. Proof. intros (code & meta & m & b & H & -> & _). lia. Qed.

(** [silent] and [replied] only look at these fields *)
Definition eqv (c c' : client) : Prop := c_code c' = c_code c /\ c_acts c' = c_acts c /\ c_out c' = c_out c /\ c_sent c' = c_sent c /\
  c_vhost c' = c_vhost c /\ c_iri c' = c_iri c.
Definition eqs (c c' : client) : Prop := c_code c' = c_code c /\ c_acts c' = c_acts c /\ c_out c' = c_out c /\ c_sent c' = c_sent c.
Lemma silent_eqs c c' : eqs c c' -> silent c -> silent c'.
Proof. intros (H1 & H2 & H3 & H4) (S1 & S2 & S3 & S4 & S5). unfold silent, replies, logs. rewrite H1, H2, H3, H4. auto. Qed.
Lemma silent_eqv c c' : eqv c c' -> silent c -> silent c'.
Proof. intros (H1 & H2 & H3 & H4 & _). apply silent_eqs. repeat split; assumption. Qed.
Lemma replied_eqv {E} c c' : eqv c c' -> replied E c -> replied E c'.
Proof. intros (H1 & H2 & H3 & H4 & H5 & H6) S. unfold replied, replies, logs, stream, path_of in *. rewrite H1, H2, H3, H4, H5, H6. exact S. Qed.

Lemma replies_app c l new : c_acts c = l ++ new -> replies c =
  flat_map (fun a => match a with AReply code meta => [(code, meta)] | _ => [] end) l ++
  flat_map (fun a => match a with AReply code meta => [(code, meta)] | _ => [] end) new.
Proof. intros H. unfold replies. rewrite H, flat_map_app. reflexivity. Qed.
Lemma logs_app c l new : c_acts c = l ++ new -> logs c =
  flat_map (fun a => match a with ALog code meta => [(code, meta)] | _ => [] end) l ++
  flat_map (fun a => match a with ALog code meta => [(code, meta)] | _ => [] end) new.
Proof. intros H. unfold logs. rewrite H, flat_map_app. reflexivity. Qed.

Lemma full_meta_lang E c meta : with_lang meta (full_meta E c meta).
Proof.
  unfold full_meta. destruct (negb (is_relayed (c_type c)) && leqb meta (s2b "text/gemini")) eqn:B; [|left; apply app_nil_r].
  apply andb_true_iff in B as [_ B]. apply leqb_eq in B.
  destruct (vhost_lang (e_fnm E) (c_vhost c) (path_of c)) as [l|]; [right; split; [exact B|exists l; reflexivity]|left; apply app_nil_r].
Qed.

Lemma logged_replies E c code meta :
  flat_map (fun a => match a with AReply code meta => [(code, meta)] | _ => [] end) (logged E c code meta) = [].
Proof. unfold logged. destruct (vhost_disable_log _ _ _); reflexivity. Qed.

Lemma logged_logs E c code meta :
  flat_map (fun a => match a with ALog code meta => [(code, meta)] | _ => [] end) (logged E c code meta) =
  if vhost_disable_log (e_fnm E) (c_vhost c) (path_of c) then [] else [(code, meta)].
Proof. unfold logged. destruct (vhost_disable_log _ _ _); reflexivity. Qed.

(** a first reply *)
Lemma start_reply_replied E code meta c : 10 <= code < 70 -> silent c -> replied E (fst (start_reply E code meta c)).
Proof.
  intros HC (S1 & S2 & S3 & S4 & S5). pose proof (start_reply_spec E code meta c ltac:(lia) ltac:(lia)) as H.
  destruct (start_reply E code meta c) as [c' ok]. cbn [fst]. destruct H as (Hok & Sm & W & H).
  destruct Sm as (_ & _ & _ & Ss & Si & _ & Sv & _). unfold replied, stream, path_of. rewrite Ss, S4, Si, Sv. cbn [app].
  destruct ok.
  - destruct H as (O & C & T & A). exists code, meta, (full_meta E c meta), [].
    split; [exact HC|]. split; [exact C|]. split.
    { rewrite (replies_app _ _ _ A). fold (replies c). rewrite S2. cbn [app flat_map]. rewrite logged_replies. reflexivity. }
    split; [apply full_meta_lang|]. split; [apply Nat.leb_le; unfold fits in Hok; auto|].
    split; [rewrite O, S3, app_nil_r; reflexivity|].
    rewrite (logs_app _ _ _ A). fold (logs c). rewrite S5. cbn [app flat_map]. rewrite logged_logs. reflexivity.
  - destruct H as (O & C & T & A). exists 40, (s2b "internal error"), (s2b "internal error"), [].
    split; [lia|]. split; [exact C|]. split.
    { rewrite (replies_app _ _ _ A). fold (replies c). rewrite S2. cbn [app flat_map]. rewrite logged_replies. reflexivity. }
    split; [left; reflexivity|]. split; [cbn; lia|]. split; [rewrite O, app_nil_r; reflexivity|].
    rewrite (logs_app _ _ _ A). fold (logs c). rewrite S5. cbn [app flat_map]. rewrite logged_logs. reflexivity.
Qed.
Lemma reply_replied E code meta c : 10 <= code < 70 -> silent c -> replied E (reply E code meta c).
Proof. exact (start_reply_replied E code meta c). Qed.

Lemma add_out_replied {E} s c : replied E c -> replied E (add_out s c).
Proof.
  intros (code & meta & m & body & H1 & H2 & H3 & H4 & H5 & H6 & H7).
  exists code, meta, m, (body ++ s). destruct (add_out_same s c) as (_ & _ & _ & Ss & Si & _ & Sv & _).
  rewrite add_out_code. split; [exact H1|]. split; [exact H2|]. split; [unfold replies; rewrite add_out_acts; exact H3|].
  split; [exact H4|]. split; [exact H5|]. unfold stream, logs, path_of in *. rewrite Si, Sv, add_out_acts. split; [|exact H7].
  rewrite Ss, add_out_out, app_assoc, H6, app_assoc. reflexivity.
Qed.

Lemma act_silent a c : (match a with AReply _ _ => False | ALog _ _ => False | _ => True end) -> silent c -> silent (act a c).
Proof.
  intros H (S1 & S2 & S3 & S4 & S5). unfold silent, replies, logs, act. cbn [c_acts c_code c_out c_sent]. rewrite !flat_map_app.
  fold (replies c) (logs c). rewrite S2, S5. destruct a; try destruct H; repeat split; assumption.
Qed.
Lemma act_replied {E} a c : (match a with AReply _ _ => False | ALog _ _ => False | _ => True end) -> replied E c -> replied E (act a c).
Proof.
  intros H (code & meta & m & body & H1 & H2 & H3 & H4 & H5 & H6 & H7). exists code, meta, m, body.
  unfold replies, logs, act, stream, path_of in *. cbn [c_acts c_code c_out c_sent c_vhost c_iri]. rewrite !flat_map_app, H3, H7.
  destruct a; try destruct H; rewrite ?app_nil_r; repeat split; try assumption; try apply H1.

Qed.

(** what a first reply does to the rest *)
Lemma reply_J E code meta c : 10 <= code < 70 -> silent c -> code <> 20 -> c_hs c = true ->
  (forall v, c_vhost c = Some v -> In v (c_hosts (e_conf E))) ->
  J E (reply E code meta c) /\ c_type (reply E code meta c) = DONE /\ c_closed (reply E code meta c) = c_closed c.
Proof.
  intros HC S N HS HV. pose proof (reply_replied E code meta c HC S) as R.
  pose proof (reply_spec E code meta c ltac:(lia) ltac:(lia)) as H. cbv zeta in H. destruct H as (Sm & W & H).
  assert (T : c_type (reply E code meta c) = DONE).
  { destruct (N.eqb_spec code 20); [contradiction|]. destruct (fits E c meta); destruct H as (_ & _ & T & _); exact T. }
  destruct Sm as (Sh & Sc & _ & _ & _ & _ & Sv & _).
  split; [|split; [exact T|exact Sc]]. unfold J. rewrite T, Sh, HS, Sv.
  split; [right; exact R|]. split; [discriminate|]. split; [discriminate|]. split; [intros [X|X]; discriminate|]. split; [discriminate|exact HV].
Qed.

Lemma start_reply_20 E c meta : silent c -> c_type c <> UNDECIDED -> c_type c <> RPROXY ->
  c_hs c = true -> (forall v, c_vhost c = Some v -> In v (c_hosts (e_conf E))) -> J E (reply E 20 meta c).
Proof.
  intros S N1 N2 HS HV. pose proof (reply_replied E 20 meta c ltac:(lia) S) as R.
  pose proof (reply_spec E 20 meta c ltac:(lia) ltac:(lia)) as H. cbv zeta in H. destruct H as (Sm & W & H).
  assert (T : c_type (reply E 20 meta c) = c_type c \/ c_type (reply E 20 meta c) = DONE).
  { destruct (fits E c meta); destruct H as (_ & _ & T & _); auto. }
  destruct Sm as (Sh & Sc & _ & _ & _ & _ & Sv & _). unfold J. rewrite Sh, HS, Sv.
  split; [right; exact R|]. split; [discriminate|]. split; [intros X; destruct T as [T|T]; congruence|].
  split; [intros _; exact R|]. split; [intros X; destruct T as [T|T]; congruence|exact HV].
Qed.

(** ** the request *)
Definition J0 (E : env) (c : client) : Prop := silent c /\ c_hs c = true /\ (forall v, c_vhost c = Some v -> In v (c_hosts (e_conf E))).

Lemma J0_reply E c code meta : J0 E c -> 10 <= code < 70 -> code <> 20 -> J E (reply E code meta c).
Proof. intros (S & H & V) HC N. apply reply_J; auto. Qed.

Lemma J0_eqv E c c' : eqs c c' -> c_hs c' = c_hs c -> c_vhost c' = c_vhost c -> J0 E c -> J0 E c'.
Proof. intros Q H1 H2 (S & H & V). split; [eapply silent_eqs; eauto|]. rewrite H1, H2. auto. Qed.
Ltac eqv_refl := repeat split; reflexivity.

Lemma J0_act E a c : (match a with AReply _ _ => False | ALog _ _ => False | _ => True end) -> J0 E c -> J0 E (act a c).
Proof. intros H (S & Hs & V). split; [apply act_silent; auto|]. auto. Qed.

Lemma listing_J E v path entries c : J0 E c -> J E (server_dir_listing E v path entries c).
Proof.
  intros H. unfold server_dir_listing. cbv zeta.
  destruct (negb (vhost_auto_index (e_fnm E) v path)); [apply J0_reply; auto; lia|].
  destruct entries as [es|]; [|apply J0_reply; auto; lia].
  set (c1 := set_type RDIR (set_dir _ c)).
  assert (S1 : silent c1) by (eapply silent_eqv; [|exact (proj1 H)]; eqv_refl).
  destruct H as (S & Hs & V).
  pose proof (reply_replied E 20 (s2b "text/gemini") c1 ltac:(lia) S1) as R.
  pose proof (reply_spec E 20 (s2b "text/gemini") c1 ltac:(lia) ltac:(lia)) as Q. cbv zeta in Q. destruct Q as (Sm & W & Q).
  assert (T : c_type (reply E 20 (s2b "text/gemini") c1) = RDIR \/ c_type (reply E 20 (s2b "text/gemini") c1) = DONE).
  { destruct (fits E c1 (s2b "text/gemini")); destruct Q as (_ & _ & T & _); auto. }
  set (s := s2b "# Index of /" ++ path ++ [10; 10]) in *. clearbody s.
  set (c2 := reply E 20 (s2b "text/gemini") c1) in *.
  pose proof (add_out_same s c2) as Sm2. pose proof (same_trans _ _ _ Sm Sm2) as Sm3.
  destruct Sm3 as (Sh & _ & _ & _ & _ & _ & Sv & _).
  pose proof (add_out_replied s c2 R) as R2. unfold J. rewrite add_out_type, Sh, Sv.
  change (c_hs c1) with (c_hs c). rewrite Hs.
  split; [right; exact R2|]. split; [discriminate|]. split; [intros X; destruct T as [T|T]; rewrite T in X; discriminate|].
  split; [intros _; exact R2|]. split; [intros X; destruct T as [T|T]; rewrite T in X; discriminate|exact V].
Qed.

Lemma file_J E fs v i c c' : J0 E c -> serve_file E fs v i c = OK c' -> J E c'.
Proof.
  intros H. unfold serve_file. cbv zeta.
  destruct (vhost_dirfd _ _ _) as [fd|]; [|intros Q; apply OK_inj in Q; subst; apply J0_reply; auto; lia].
  set (p := match skip_slashes _ with [] => _ | _ => _ end).
  pose proof (J0_act E (AOpen fd p) c I H) as H1.
  destruct (fs fd p) as [| |reg content|look entries].
  - intros Q; apply OK_inj in Q; subst; apply J0_reply; auto; lia.
  - intros Q; apply OK_inj in Q; subst; apply J0_reply; auto; lia.
  - intros Q. apply bind_ok in Q as (ty & _ & Q). apply OK_inj in Q; subst.
    destruct H1 as (S & Hs & V). apply start_reply_20; try discriminate; try exact Hs; try exact V. eapply silent_eqv; [|exact S]. eqv_refl.
  - assert (H2 : J0 E (set_pfd PDir (act (AOpen fd p) c))) by (eapply J0_eqv; [..|exact H1]; eqv_refl).
    unfold open_dir. destruct (negb _ && negb _).
    + intros Q; apply OK_inj in Q; subst. unfold redirect_canonical_dir. destruct (_ <=? _)%nat; apply J0_reply; auto; lia.
    + cbv zeta. destruct (look _) as [| |[] content|].
      * intros Q; apply OK_inj in Q; subst. apply listing_J; exact H2.
      * intros Q; apply OK_inj in Q; subst; apply J0_reply; auto; lia.
      * intros Q. apply bind_ok in Q as (ty & _ & Q). apply OK_inj in Q; subst.
        destruct H2 as (S & Hs & V). apply start_reply_20; try discriminate; try exact Hs; try exact V. eapply silent_eqv; [|exact S]. eqv_refl.
      * intros Q; apply OK_inj in Q; subst. apply listing_J; exact H2.
      * intros Q; apply OK_inj in Q; subst. apply listing_J; exact H2.
Qed.

Lemma cert_J E ca c : J0 E c ->
  match (match ca with Some a => check_matching_certificate E a c | None => inr c end) with
  | inl c' => J E c'
  | inr c' => J0 E c'
  end.
Proof.
  intros H. destruct ca as [a|]; [|exact H]. unfold check_matching_certificate. destruct (e_cert E).
  - cbv zeta. pose proof (J0_act E (AVerify a) c I H) as H1. destruct (e_valid E a); [exact H1|apply J0_reply; auto; lia].
  - apply J0_reply; auto; lia.
Qed.

Lemma J0_J E c : J0 E c -> c_type c <> RFILE -> c_type c <> RDIR -> J E c.
Proof.
  intros (S & Hs & V) N1 N2. unfold J. split; [left; exact S|]. split; [intros _; exact S|]. split; [intros _ _; exact S|].
  split; [intros [X|X]; contradiction|]. split; [intros _ _; exact S|exact V].
Qed.

Lemma dispatch_J E fs v i asked c c' : codes_ok v -> J0 E c -> c_type c = UNDECIDED ->
  dispatch E fs v i asked c = OK c' -> J E c'.
Proof.
  intros HC H HT. unfold dispatch. intros Q. apply bind_ok in Q as (r & AR & Q).
  unfold apply_reverse_proxy in AR. destruct (matched_proxy _ _ _ _ _) as [p|].
  - cbv zeta in AR. set (c1 := set_up (Some p) (c_up c) c) in *.
    assert (H1 : J0 E c1) by (eapply J0_eqv; [..|exact H]; eqv_refl).
    pose proof (cert_J E (p_reqca p) c1 H1) as K.
    destruct (match p_reqca p with Some ca => _ | None => _ end) as [c2|c2].
    + apply OK_inj in AR. subst r. apply OK_inj in Q. subst c'. exact K.
    + destruct (negb (e_upstream E p)).
      { apply OK_inj in AR. subst r. apply OK_inj in Q. subst c'. apply J0_reply; auto; lia. }
      assert (K2 : J0 E (set_pfd PUp c2)) by (eapply J0_eqv; [..|exact K]; eqv_refl).
      destruct (p_notls p).
      * apply bind_ok in AR as (c3 & PE & AR). apply OK_inj in AR. subst r. apply OK_inj in Q. subst c'.
        unfold proxy_enqueue_req in PE. apply bind_ok in PE as (line & _ & PE). apply OK_inj in PE. subst c3.
        apply J0_J; try discriminate. eapply J0_eqv; [| | |apply (J0_act E (AUp p line)); [exact I|]].
        4:{ eapply J0_eqv; [..|exact K2]. 2: instantiate (1 := set_up (Some p) (Some []) (set_pfd PUp c2)). all: eqv_refl. }
        all: eqv_refl.
      * destruct (e_uptls E p); apply OK_inj in AR; subst r; apply OK_inj in Q; subst c'.
        -- apply J0_J; try discriminate. eapply J0_eqv; [..|exact K2]; eqv_refl.
        -- apply J0_reply; auto; lia.
  - apply OK_inj in AR. subst r.
    destruct (negb _ || negb _); [apply OK_inj in Q; subst; apply J0_reply; auto; lia|].
    pose proof (cert_J E (vhost_require_ca (e_fnm E) v (c_path i)) c H) as K.
    pose proof (cert_performs E) as _.
    assert (KT : forall c1, (match vhost_require_ca (e_fnm E) v (c_path i) with Some a => check_matching_certificate E a c | None => inr c end) = inr c1 -> c_type c1 = UNDECIDED).
    { intros c1. destruct (vhost_require_ca _ _ _); [|intros X; injection X as <-; exact HT].
      unfold check_matching_certificate. destruct (e_cert E); [|discriminate]. cbv zeta. destruct (e_valid E n); [|discriminate].
      intros X; injection X as <-. exact HT. }
    destruct (match vhost_require_ca (e_fnm E) v (c_path i) with Some a => _ | None => _ end) as [c1|c1].
    { apply OK_inj in Q. subst. exact K. }
    specialize (KT c1 eq_refl).
    apply bind_ok in Q as (r & AB & Q). unfold apply_block_return in AB.
    destruct (governs_exists (e_fnm E) (c_path i) (fun l => l_block_code l <> 0) (fun l => negb (l_block_code l =? 0)) v) as (lb & Gb); [intros l; lia|].
    rewrite (c13_block _ _ _ _ Gb) in AB.
    assert (CB : l_block_code lb = 0 \/ 10 <= l_block_code lb < 20 \/ 30 <= l_block_code lb < 70).
    { unfold codes_ok in HC. rewrite Forall_forall in HC. apply HC. eapply governs_in; eauto. }
    destruct (N.eqb_spec (l_block_code lb) 0).
    + apply OK_inj in AB. subst r. apply bind_ok in Q as (r & AF & Q). unfold apply_fastcgi in AF.
      destruct (vhost_fastcgi _ _ _) as [l|]; [|apply OK_inj in AF; subst r; eapply file_J; eauto].
      destruct (l_fcgi l) as [n|]; [|apply OK_inj in AF; subst r; eapply file_J; eauto].
      destruct (nth_error _ _); [|apply OK_inj in AF; subst r; eapply file_J; eauto].
      destruct (negb (e_fcgi E n)).
      * apply OK_inj in AF. subst r. apply OK_inj in Q. subst c'. apply J0_reply; try lia.
        eapply J0_eqv; [..|exact K]; eqv_refl.
      * cbv zeta in AF. apply bind_ok in AF as (b & _ & AF). apply OK_inj in AF. subst r. apply OK_inj in Q. subst c'.
        apply J0_J; try (cbn; rewrite KT; discriminate). apply J0_act; [exact I|]. eapply J0_eqv; [..|exact K]; eqv_refl.
    + cbv zeta in AB. apply bind_ok in AB as (meta & _ & AB). apply OK_inj in AB. subst r. apply OK_inj in Q. subst c'.
      apply J0_reply; auto; lia.
Qed.

Lemma client_read_J E fs c c' : conf_ok E -> J E c -> c_hs c = true -> (c_type c = UNDECIDED -> c_cgibev c = None) ->
  client_read E fs c = OK c' -> J E c'.
Proof.
  intros HO HJ Hs HP. unfold client_read.
  destruct (c_type c) eqn:T; try (intros Q; apply OK_inj in Q; subst; exact HJ).
  specialize (HP eq_refl).
  assert (H0 : J0 E c) by (destruct HJ as (_ & _ & U & _ & _ & V); split; [auto|split; assumption]).
  destruct (1026 <? length (c_in c))%nat; [intros Q; apply OK_inj in Q; subst; apply J0_reply; auto; lia|].
  destruct (readln (c_in c)) as [[line rest]|]; [|intros Q; apply OK_inj in Q; subst; exact HJ].
  cbv zeta. assert (H1 : J0 E (set_in rest c)) by (eapply J0_eqv; [..|exact H0]; eqv_refl).
  destruct (1026 <? length line)%nat; [intros Q; apply OK_inj in Q; subst; apply J0_reply; auto; lia|].
  destruct (existsb (N.eqb 0) line); [intros Q; apply OK_inj in Q; subst; apply J0_reply; auto; lia|].
  intros Q. apply bind_ok in Q as ((ok & p) & _ & Q). destruct (comps_of p) as [i|]; [|discriminate].
  assert (H2 : J0 E (set_iri (Some i) (set_in rest c))) by (eapply J0_eqv; [..|exact H0]; eqv_refl).
  destruct (negb ok); [apply OK_inj in Q; subst; apply J0_reply; auto; lia|].
  apply bind_ok in Q as (d & _ & Q). destruct d as [|[] out]; [discriminate| |apply OK_inj in Q; subst; apply J0_reply; auto; lia].
  destruct (cstr out) as [dec|]; [|discriminate]. destruct (c_vhost (set_iri (Some i) (set_in rest c))) as [v|] eqn:CV; [|discriminate].
  eapply dispatch_J; [|exact H2|exact T|exact Q].
  unfold conf_ok in HO. rewrite Forall_forall in HO. apply HO. destruct H2 as (_ & _ & V). apply V. exact CV.
Qed.

(** ** the other events *)
Lemma J_move E c c' : J E c -> c_type c' = c_type c -> c_hs c' = c_hs c -> c_vhost c' = c_vhost c ->
  (silent c -> silent c') -> (replied E c -> replied E c') ->
  (c_cgibev c' = None -> c_cgibev c = None) -> (c_up c' = None -> c_up c = None) -> J E c'.
Proof.
  intros (A & B & U & F & P & V) T H Hv S R Cg Up. unfold J. rewrite T, H, Hv.
  split; [destruct A; auto|]. split; [auto|]. split; [auto|]. split; [auto|]. split; [auto|exact V].
Qed.

Lemma J_done E c c' : silent c \/ replied E c -> (silent c -> silent c') -> (replied E c -> replied E c') ->
  c_type c' = DONE -> (c_hs c' = false -> silent c') -> (forall v, c_vhost c' = Some v -> In v (c_hosts (e_conf E))) -> J E c'.
Proof.
  intros A S R T H V. unfold J. rewrite T. split; [destruct A; auto|]. split; [exact H|].
  split; [discriminate|]. split; [intros [X|X]; discriminate|]. split; [discriminate|exact V].
Qed.

Lemma close_pfd_eqv c : eqv c (close_pfd c) /\ c_type (close_pfd c) = c_type c /\ c_hs (close_pfd c) = c_hs c /\
  c_vhost (close_pfd c) = c_vhost c /\ c_cgibev (close_pfd c) = c_cgibev c /\ c_up (close_pfd c) = c_up c /\ c_iri (close_pfd c) = c_iri c /\
  c_closed (close_pfd c) = c_closed c /\ c_pxy (close_pfd c) = c_pxy c.
Proof. unfold close_pfd. destruct (c_pfd c); repeat split; reflexivity. Qed.

(** after [client_close] only the record of what happened matters *)
Definition Jc (E : env) (c : client) : Prop := (silent c \/ replied E c) /\ (c_closed c = false -> J E c).

Lemma client_close_eqv c : eqv c (client_close c) /\ c_closed (client_close c) = true.
Proof.
  unfold client_close. destruct (c_cgibev c) as [i|].
  - destruct (close_pfd_eqv (set_cgi None (close_conn i (c_conns c)) c)) as (Q & _). split; [exact Q|reflexivity].
  - destruct (close_pfd_eqv c) as (Q & _). split; [exact Q|reflexivity].
Qed.

Lemma close_Jc E c : silent c \/ replied E c -> Jc E (client_close c).
Proof.
  intros H. destruct (client_close_eqv c) as (Q & C). split; [|congruence].
  destruct H; [left; eapply silent_eqv; eauto|right; eapply replied_eqv; eauto].
Qed.

Lemma J_Jc E c : J E c -> Jc E c.
Proof. intros H. split; [exact (proj1 H)|auto]. Qed.

Lemma client_write_J E a c c' : J E c -> client_write a c = OK c' -> Jc E c'.
Proof.
  intros H. pose proof H as (A & B & U & F & P & V). unfold client_write. destruct (c_type c) eqn:T.
  - intros Q; apply OK_inj in Q; subst; apply J_Jc; exact H.
  - assert (R : replied E c) by auto.
    assert (HS : c_hs c = true) by (destruct (c_hs c) eqn:X; [reflexivity|]; pose proof (silent_code _ (B eq_refl)); pose proof (replied_code _ R); contradiction).
    assert (CL : Jc E (client_close (set_type DONE c))) by (apply close_Jc; right; eapply replied_eqv; [|exact R]; eqv_refl).
    destruct a as [|n]; [intros Q; apply OK_inj in Q; subst; exact CL|].
    destruct (c_pfd c) as [|rest| | |]; try (intros Q; apply OK_inj in Q; subst; exact CL).
    cbv zeta. destruct (_ =? 0)%nat; [intros Q; apply OK_inj in Q; subst; apply close_Jc; right; exact R|].
    intros Q; apply OK_inj in Q. set (r := Nat.min BUFSIZ (Nat.min n (length rest))) in *. set (buf := firstn r rest) in *. clearbody buf.
    set (c1 := set_pfd (PFile (skipn r rest)) c) in *.
    assert (R1 : replied E c1) by (eapply replied_eqv; [|exact R]; eqv_refl).
    subst c'. apply J_Jc. unfold J. rewrite add_out_type.
    destruct (add_out_same buf (if (r =? BUFSIZ)%nat then c1 else set_type DONE c1)) as (Sh & _ & _ & _ & _ & _ & Sv & _).
    rewrite Sh, Sv.
    assert (R2 : replied E (add_out buf (if (r =? BUFSIZ)%nat then c1 else set_type DONE c1))).
    { apply add_out_replied. destruct (r =? BUFSIZ)%nat; [exact R1|]. eapply replied_eqv; [|exact R1]. eqv_refl. }
    split; [right; exact R2|].
    destruct (r =? BUFSIZ)%nat; cbn [set_type c_hs c_vhost c_type c1 set_pfd]; (split; [congruence|]); (split; [congruence|]); (split; [auto|]); (split; [congruence|exact V]).
  - assert (R : replied E c) by auto.
    intros Q. apply bind_ok in Q as (lines & _ & Q). cbv zeta in Q. apply OK_inj in Q. subst c'.
    set (c1 := set_type DONE (set_dir [] c)).
    assert (R1 : replied E (add_out lines c1)) by (apply add_out_replied; eapply replied_eqv; [|exact R]; eqv_refl).
    destruct (add_out_same lines c1) as (Sh & _ & _ & _ & _ & _ & Sv & _).
    apply J_Jc. eapply (J_done E c); [exact A|..].
    + intros S. pose proof (silent_code _ S). pose proof (replied_code _ R). contradiction.
    + intros _. exact R1.
    + change (c_type (add_out lines c1) = DONE). rewrite add_out_type. reflexivity.
    + intros X. exfalso. cbn [set_io c_hs] in X. rewrite Sh in X.
      pose proof (silent_code _ (B X)). pose proof (replied_code _ R). contradiction.
    + cbn [set_io c_vhost]. rewrite Sv. exact V.
  - intros Q; apply OK_inj in Q; subst; apply J_Jc; exact H.
  - intros Q; apply OK_inj in Q; subst; apply J_Jc; exact H.
  - intros Q; apply OK_inj in Q; subst. destruct (c_out c); [apply close_Jc; exact A|apply J_Jc; exact H].
Qed.

Lemma hs_true E c : J E c -> replied E c -> c_hs c = true.
Proof.
  intros (_ & B & _) R. destruct (c_hs c); [reflexivity|]. pose proof (silent_code _ (B eq_refl)). pose proof (replied_code _ R). contradiction.
Qed.

Lemma fcgi_error_J E c : J E c -> c_hs c = true -> J E (fcgi_error E c) /\ c_type (fcgi_error E c) = DONE.
Proof.
  intros H Hs. pose proof H as (A & B & U & F & P & V). unfold fcgi_error. cbv zeta.
  destruct (close_pfd_eqv c) as (Q & T & Hh & Hv & Cg & Up & _).
  pose proof Q as (Qc & _). rewrite Qc. destruct (N.eqb_spec (c_code c) 0) as [Z|Z].
  - assert (S : silent c) by (destruct A as [S|R]; [exact S|pose proof (replied_code _ R); contradiction]).
    pose proof (silent_eqv _ _ Q S) as S1.
    destruct (reply_J E 42 (s2b "CGI error") (close_pfd c)) as (X & Y & _); auto; try lia; try congruence.
    { rewrite Hv. exact V. }
  - split; [|reflexivity]. eapply (J_done E c); [exact A| | |reflexivity| |].
    + intros S. pose proof (silent_code _ S). contradiction.
    + intros R. eapply replied_eqv; [|exact R]. exact Q.
    + cbn [set_type c_hs]. rewrite Hh, Hs. discriminate.
    + cbn [set_type c_vhost]. rewrite Hv. exact V.
Qed.

Lemma status_range sp s code meta : status sp s = Some (code, meta) -> 10 <= code < 70.
Proof.
  unfold status. destruct s as [|a [|b [|x r]]]; try discriminate. destruct (is_digit a && is_digit b && sp x); [|discriminate].
  destruct ((_ <? 10) || (70 <=? _)) eqn:B; [discriminate|]. intros H. injection H as <- _. lia.
Qed.

Lemma stdout_J E s c : J E c -> c_hs c = true -> c_cgibev c <> None -> c_type c <> RPROXY ->
  J E (fcgi_handle_stdout E s c) /\ c_hs (fcgi_handle_stdout E s c) = true /\ c_cgibev (fcgi_handle_stdout E s c) <> None /\
  c_type (fcgi_handle_stdout E s c) <> RPROXY.
Proof.
  intros H Hs Cg NP. unfold fcgi_handle_stdout. pose proof H as (A & B & U & F & P & V).
  destruct (N.eqb_spec (c_code c) 0) as [Z|Z].
  2:{ assert (R : replied E c) by (destruct A as [S|R]; [pose proof (silent_code _ S); contradiction|exact R]).
      destruct (add_out_same s c) as (Sh & _ & _ & _ & _ & _ & Sv & _ & _ & _ & Scg & _ & _ & Sup).
      rewrite Sh, Scg, add_out_type. split; [|auto].
      eapply J_move; [exact H|apply add_out_type|exact Sh|exact Sv|..].
      + intros S. pose proof (silent_code _ S). contradiction.
      + apply add_out_replied.
      + congruence.
      + congruence. }
  assert (S : silent c) by (destruct A as [S|R]; [exact S|pose proof (replied_code _ R); contradiction]).
  cbv zeta. set (l := Nat.min _ _). set (c1 := set_sbuf _ c). set (rest := skipn l s). clearbody rest.
  assert (Q1 : eqv c c1) by eqv_refl. pose proof (silent_eqv _ _ Q1 S) as S1.
  assert (H1 : J E c1).
  { eapply J_move; [exact H|..]; try reflexivity; auto. }
  assert (Hs1 : c_hs c1 = true) by exact Hs. assert (Cg1 : c_cgibev c1 <> None) by exact Cg. assert (NP1 : c_type c1 <> RPROXY) by exact NP.
  assert (V1 : forall v, c_vhost c1 = Some v -> In v (c_hosts (e_conf E))) by exact V.
  clearbody c1. clear H S Z Cg NP V Hs U F P B A Q1.
  assert (FE : forall c2, J E c2 -> c_hs c2 = true -> c_cgibev c2 <> None ->
     J E (fcgi_error E c2) /\ c_hs (fcgi_error E c2) = true /\ c_cgibev (fcgi_error E c2) <> None /\ c_type (fcgi_error E c2) <> RPROXY).
  { intros c2 X Y W. destruct (fcgi_error_J E c2 X Y) as (J2 & T2). split; [exact J2|].
    assert (c_hs (fcgi_error E c2) = c_hs c2 /\ c_cgibev (fcgi_error E c2) = c_cgibev c2) as [E1 E2].
    { unfold fcgi_error. cbv zeta. destruct (close_pfd_eqv c2) as (_ & _ & Hh & _ & Hc & _).
      destruct (_ =? 0).
      - pose proof (reply_spec E 42 (s2b "CGI error") (close_pfd c2) ltac:(lia) ltac:(lia)) as R. cbv zeta in R. destruct R as (Sm & _).
        destruct Sm as (M1 & _ & _ & _ & _ & _ & _ & _ & _ & _ & M2 & _). split; congruence.
      - cbn. split; congruence. }
    rewrite E1, E2, T2. split; [exact Y|]. split; [exact W|discriminate]. }
  destruct (readln (c_sbuf c1)) as [[line t]|].
  2:{ destruct (length (c_sbuf c1) =? SBUF)%nat; [apply FE; auto|auto]. }
  destruct (status (N.eqb 32) line) as [[code meta]|] eqn:ST; [|apply FE; auto].
  apply status_range in ST. pose proof (start_reply_replied E code meta c1 ST S1) as R.
  pose proof (start_reply_spec E code meta c1 ltac:(lia) ltac:(lia)) as SP.
  destruct (start_reply E code meta c1) as [c2 ok]. cbn [fst] in R. destruct SP as (_ & Sm & _ & SP).
  destruct Sm as (M1 & _ & _ & _ & _ & _ & Mv & _ & _ & _ & M2 & _ & _ & Mu).
  assert (T2 : c_type c2 = c_type c1 \/ c_type c2 = DONE).
  { destruct ok; destruct SP as (_ & _ & T & _); [destruct (code =? 20)|]; auto. }
  assert (J2 : J E c2).
  { unfold J. rewrite M1, Mv, M2. split; [right; exact R|]. split; [congruence|]. split; [intros _ X; contradiction|].
    split; [auto|]. split; [intros X; destruct T2 as [T2|T2]; congruence|exact V1]. }
  destruct (negb ok || (c_code c2 <? 20) || (29 <? c_code c2)); [apply FE; congruence|].
  assert (AO : forall x c3, J E c3 -> replied E c3 -> c_hs c3 = true -> c_cgibev c3 <> None -> c_type c3 <> RPROXY ->
     J E (add_out x c3) /\ replied E (add_out x c3) /\ c_hs (add_out x c3) = true /\ c_cgibev (add_out x c3) <> None /\ c_type (add_out x c3) <> RPROXY).
  { intros x c3 J3 R3 H3 G3 N3. destruct (add_out_same x c3) as (Sh & _ & _ & _ & _ & _ & Sv & _ & _ & _ & Scg & _ & _ & Sup).
    rewrite Sh, Scg, add_out_type. split; [|split; [apply add_out_replied; exact R3|auto]].
    eapply J_move; [exact J3|apply add_out_type|exact Sh|exact Sv|..]; try congruence.
    + intros S. pose proof (silent_code _ S). pose proof (replied_code _ R3). contradiction.
    + apply add_out_replied. }
  destruct (AO t c2 J2 R) as (X1 & X2 & X3 & X4 & X5); try congruence.
  { destruct T2 as [T2|T2]; congruence. }
  destruct (AO rest (add_out t c2) X1 X2 X3 X4 X5) as (Y1 & _ & Y3 & Y4 & Y5). auto.
Qed.

Lemma fcgi_loop_J E : forall f s c s' c' err, J E c -> c_hs c = true -> c_cgibev c <> None -> c_type c <> RPROXY ->
  fcgi_loop E f s c = OK (s', c', err) -> J E c' /\ c_hs c' = true /\ c_cgibev c' <> None /\ c_type c' <> RPROXY.
Proof.
  induction f as [|f IH]; intros s c s' c' err H Hs Cg NP; cbn [fcgi_loop]; [discriminate|].
  assert (ST : OK (s, c, true) = OK (s', c', err) -> J E c' /\ c_hs c' = true /\ c_cgibev c' <> None /\ c_type c' <> RPROXY)
    by (intros X; apply OK_inj in X; injection X as <- <- <-; auto).
  assert (G : (match s with
      | v :: ty :: i1 :: i0 :: l1 :: l0 :: pad :: rsv :: body =>
        if negb (i0 + N.shiftl i1 8 =? 1) then OK (s, c, true) else
        let len := N.to_nat (l0 + N.shiftl l1 8) in
        if (length body <? len + N.to_nat pad)%nat then OK (s, c, false) else
        let content := firstn len body in
        let rest := skipn (len + N.to_nat pad) body in
        if ty =? FCGI_END_REQUEST then
          if negb (len =? 8)%nat then OK (body, c, true)
          else fcgi_loop E f rest (set_type DONE c)
        else if ty =? FCGI_STDERR then fcgi_loop E f rest c
        else if ty =? FCGI_STDOUT then fcgi_loop E f rest (fcgi_handle_stdout E content c)
        else OK (body, c, true)
      | _ => OK (s, c, false)
      end) = OK (s', c', err) -> J E c' /\ c_hs c' = true /\ c_cgibev c' <> None /\ c_type c' <> RPROXY).
  { destruct s as [|? [|ty [|i1 [|i0 [|l1 [|l0 [|pad [|? body]]]]]]]]; try (intros X; apply OK_inj in X; injection X as <- <- <-; auto; fail).
    cbv zeta. destruct (negb _); [intros X; apply OK_inj in X; injection X as <- <- <-; auto|].
    destruct (_ <? _)%nat; [intros X; apply OK_inj in X; injection X as <- <- <-; auto|].
    destruct (ty =? FCGI_END_REQUEST).
    - destruct (negb _); [intros X; apply OK_inj in X; injection X as <- <- <-; auto|].
      apply IH; try exact Hs; try exact Cg; try discriminate.
      eapply (J_done E c); [exact (proj1 H)| | |reflexivity| |].
      + intros S; eapply silent_eqv; [|exact S]; eqv_refl.
      + intros R; eapply replied_eqv; [|exact R]; eqv_refl.
      + cbn [set_type c_hs]. rewrite Hs. discriminate.
      + destruct H as (_ & _ & _ & _ & _ & V). exact V.
    - destruct (ty =? FCGI_STDERR); [apply IH; auto|].
      destruct (ty =? FCGI_STDOUT); [|intros X; apply OK_inj in X; injection X as <- <- <-; auto].
      destruct (stdout_J E (firstn (N.to_nat (l0 + N.shiftl l1 8)) body) c H Hs Cg NP) as (A & B & C & D).
      apply IH; auto. }
  destruct (c_type c); auto.
Qed.

Lemma set_conn_J E i s c : J E c -> J E (set_conn i s c) /\ c_hs (set_conn i s c) = c_hs c /\ c_cgibev (set_conn i s c) = c_cgibev c /\ c_type (set_conn i s c) = c_type c.
Proof.
  intros H. unfold set_conn. destruct (nth_error (c_conns c) i); [|auto]. split; [|auto].
  eapply J_move; [exact H|..]; try reflexivity; auto.
Qed.

Lemma proxy_error_J E c c' : J E c -> c_hs c = true -> proxy_error E c = OK c' -> Jc E c'.
Proof.
  intros H Hs. unfold proxy_error. cbv zeta. set (c1 := set_pfd PNone (set_up (c_pxy c) None c)).
  pose proof H as (A & B & U & F & P & V). change (c_code c1) with (c_code c).
  destruct (N.eqb_spec (c_code c) 0) as [Z|Z].
  - assert (S : silent c) by (destruct A as [S|R]; [exact S|pose proof (replied_code _ R); contradiction]).
    intros Q. apply OK_inj in Q. subst c'. apply J_Jc.
    destruct (reply_J E 43 (s2b "protocol error") c1) as (X & _); auto; try lia.
  - assert (R : replied E c) by (destruct A as [S|R]; [pose proof (silent_code _ S); contradiction|exact R]).
    apply client_write_J. eapply (J_done E c); [exact A| | |reflexivity| |exact V].
    + intros S. pose proof (silent_code _ S). contradiction.
    + intros _. eapply replied_eqv; [|exact R]. eqv_refl.
    + cbn [set_type c_hs c1 set_pfd set_up]. rewrite Hs. discriminate.
Qed.

Lemma proxy_read_J E s c c' : J E c -> c_hs c = true -> c_up c <> None -> (c_type c = UNDECIDED -> c_cgibev c <> None) -> proxy_read E s c = OK c' -> Jc E c'.
Proof.
  intros H Hs Up NU. unfold proxy_read. pose proof H as (A & B & U & F & P & V).
  assert (MU : forall p x, J E (set_up p (Some x) c)).
  { intros p x. eapply J_move; [exact H|..]; try reflexivity; auto; try discriminate.
  }
  destruct (N.eqb_spec (c_code c) 0) as [Z|Z].
  2:{ intros Q. apply OK_inj in Q. subst c'. apply J_Jc.
      assert (R : replied E c) by (destruct A as [S|R]; [pose proof (silent_code _ S); contradiction|exact R]).
      set (c1 := set_up (c_pxy c) (Some []) c).
      destruct (add_out_same s c1) as (Sh & _ & _ & _ & _ & _ & Sv & _ & _ & _ & Scg & _ & _ & Sup).
      assert (R1 : replied E c1) by (eapply replied_eqv; [|exact R]; eqv_refl).
      eapply J_move; [exact (MU (c_pxy c) [])|apply add_out_type|exact Sh|exact Sv|..]; fold c1; try congruence.
      - intros S. pose proof (silent_code _ S). pose proof (replied_code _ R1). contradiction.
      - apply add_out_replied. }
  assert (S : silent c) by (destruct A as [S|R]; [exact S|pose proof (replied_code _ R); contradiction]).
  destruct (readln s) as [[line rest]|].
  2:{ destruct (1029 <? length s)%nat; [apply proxy_error_J; auto|]. intros Q. apply OK_inj in Q. subst c'. apply J_Jc. apply MU. }
  cbv zeta. set (c1 := set_up (c_pxy c) (Some rest) c).
  assert (J1 : J E c1) by apply MU.
  destruct ((length line <? 3)%nat || (1029 <? length line)%nat); [apply proxy_error_J; auto|].
  destruct (status is_space line) as [[code meta]|] eqn:ST; [|apply proxy_error_J; auto].
  apply status_range in ST. assert (S1 : silent c1) by (eapply silent_eqv; [|exact S]; eqv_refl).
  pose proof (start_reply_replied E code meta c1 ST S1) as R.
  pose proof (start_reply_spec E code meta c1 ltac:(lia) ltac:(lia)) as SP.
  destruct (start_reply E code meta c1) as [c2 ok]. cbn [fst] in R. destruct SP as (_ & Sm & _ & SP).
  destruct Sm as (M1 & _ & _ & _ & _ & _ & Mv & _ & _ & _ & M2 & _ & _ & Mu).
  assert (T2 : c_type c2 = c_type c1 \/ c_type c2 = DONE).
  { destruct ok; destruct SP as (_ & _ & T & _); [destruct (code =? 20)|]; auto. }
  assert (J2 : J E c2).
  { unfold J. rewrite M1, Mv, M2, Mu. split; [right; exact R|]. split; [cbn; rewrite Hs; discriminate|]. split.
    { intros X Y. exfalso. destruct T2 as [T2|T2]; [|congruence]. rewrite T2 in X. apply (NU X). exact Y. }
    split; [auto|]. split; [discriminate|exact V]. }
  destruct (negb ok || (c_code c2 <? 20) || (29 <? c_code c2)).
  { apply proxy_error_J; [exact J2|]. rewrite M1. exact Hs. }
  intros Q. apply OK_inj in Q. subst c'. apply J_Jc.
  set (c3 := set_up (c_pxy c2) (Some []) c2).
  assert (R3 : replied E c3) by (eapply replied_eqv; [|exact R]; eqv_refl).
  destruct (add_out_same rest c3) as (Sh & _ & _ & _ & _ & _ & Sv & _ & _ & _ & Scg & _ & _ & Sup).
  unfold J. rewrite add_out_type, Sh, Sv, Scg, Sup. pose proof (add_out_replied rest c3 R3) as R4.
  split; [right; exact R4|]. split; [change (c_hs c3) with (c_hs c2); rewrite M1; cbn; rewrite Hs; discriminate|]. split.
  { intros X Y. exfalso. change (c_type c3) with (c_type c2) in X. change (c_cgibev c3) with (c_cgibev c2) in Y.
    destruct T2 as [T2|T2]; [|congruence]. rewrite T2 in X. rewrite M2 in Y. apply (NU X). exact Y. }
  split; [auto|]. split; [discriminate|]. change (c_vhost c3) with (c_vhost c2). rewrite Mv. exact V.
Qed.
