(** Property C28: MIME types. *)
From Verif Require Import Base BaseLemmas Conf Mime MimeSpec.
From Coq Require Import Permutation Sorted.
Local Open Scope N_scope.

Lemma strcmp_eq a : forall b, strcmp a b = Eq <-> a = b.
Proof.
  induction a as [|x a IH]; intros [|y b]; cbn; try (split; congruence).
  destruct (N.compare_spec x y) as [->|H|H].
  - rewrite IH. split; congruence.
  - split; [discriminate|intros E; inversion E; lia].
  - split; [discriminate|intros E; inversion E; lia].
Qed.
Lemma strcmp_anti a : forall b, strcmp b a = CompOpp (strcmp a b).
Proof.
  induction a as [|x a IH]; intros [|y b]; cbn; auto. rewrite N.compare_antisym. destruct (x ?= y); cbn; auto.
Qed.
Lemma strcmp_trans a : forall b c, strcmp a b = Lt -> strcmp b c <> Gt -> strcmp a c = Lt.
Proof.
  induction a as [|x a IH]; intros [|y b] [|z c]; cbn; try congruence.
  destruct (N.compare_spec x y) as [->|H|H]; intros H1; try discriminate.
  - destruct (N.compare_spec y z) as [->|H2|H2]; intros; try congruence. eapply IH; eauto.
  - intros H2. destruct (N.compare_spec y z) as [->|H3|H3]; try congruence.
    + destruct (N.compare_spec x z); try lia; reflexivity.
    + destruct (N.compare_spec x z); try lia; reflexivity.
Qed.

Lemma sorted_nth t : StronglySorted before t -> forall i j a b, (i < j)%nat ->
  nth_error t i = Some a -> nth_error t j = Some b -> before a b.
Proof.
  induction 1 as [|x t S IH F]; intros i j a b Hij Ha Hb; [destruct i; discriminate|].
  destruct j as [|j]; [lia|]. cbn in Hb. destruct i as [|i]; cbn in Ha.
  - inversion Ha; subst. rewrite Forall_forall in F. apply F. eapply nth_error_In; eauto.
  - eapply (IH i j); eauto. lia.
Qed.

Lemma bsearch_ok ext t : StronglySorted before t -> forall fuel lo hi, (hi - lo < fuel)%nat -> (hi <= length t)%nat ->
  (forall i e, nth_error t i = Some e -> snd e = ext -> (lo <= i < hi)%nat) ->
  (exists e, bsearch fuel ext t lo hi = OK (Some e) /\ In e t /\ snd e = ext) \/
  (bsearch fuel ext t lo hi = OK None /\ forall e, In e t -> snd e <> ext).
Proof.
  intros HS. induction fuel as [|f IH]; intros lo hi Hf Hh Hin; [lia|]. cbn [bsearch].
  destruct (Nat.leb_spec hi lo).
  { right. split; [reflexivity|]. intros e He Hx. apply In_nth_error in He. destruct He as [i Hi]. specialize (Hin i e Hi Hx). lia. }
  cbv zeta. pose proof (Nat.div_mod (lo + hi) 2 ltac:(lia)) as DM. pose proof (Nat.mod_upper_bound (lo + hi) 2 ltac:(lia)) as DB.
  set (mid := ((lo + hi) / 2)%nat) in *. clearbody mid.
  destruct (nth_error t mid) as [e|] eqn:E; [|apply nth_error_None in E; lia].
  destruct (strcmp ext (snd e)) eqn:C.
  - apply strcmp_eq in C. left. exists e. split; [reflexivity|]. split; [eapply nth_error_In; eauto|auto].
  - apply IH; [lia|lia|]. intros i x Hi Hx. pose proof (Hin i x Hi Hx). split; [lia|].
    destruct (Nat.lt_ge_cases i mid) as [|G]; [assumption|]. exfalso.
    destruct (Nat.eq_dec i mid) as [->|Hne].
    + rewrite Hi in E. inversion E; subst. assert (strcmp (snd e) (snd e) = Eq) by (apply strcmp_eq; reflexivity). congruence.
    + pose proof (sorted_nth t HS mid i e x ltac:(lia) E Hi) as B. unfold before in B.
      pose proof (strcmp_trans _ _ _ C B) as Q. rewrite Hx in Q. assert (strcmp ext ext = Eq) by (apply strcmp_eq; reflexivity). congruence.
  - apply IH; [lia|lia|]. intros i x Hi Hx. pose proof (Hin i x Hi Hx). split; [|lia].
    destruct (Nat.lt_ge_cases mid i) as [|G]; [assumption|]. exfalso.
    destruct (Nat.eq_dec i mid) as [->|Hne].
    + rewrite Hi in E. inversion E; subst. assert (strcmp (snd e) (snd e) = Eq) by (apply strcmp_eq; reflexivity). congruence.
    + pose proof (sorted_nth t HS i mid x e ltac:(lia) Hi E) as B. unfold before in B. rewrite Hx in B. congruence.
Qed.

Lemma path_ext_loop_ok : forall e fuel path, (e < fuel)%nat -> (e < length path)%nat ->
  ~ In 46 (skipn (S e) path) -> ~ In 47 (skipn (S e) path) ->
  (exists ext, path_ext_loop fuel path e = OK (Some ext) /\ has_ext path ext) \/
  (path_ext_loop fuel path e = OK None /\ forall ext, ~ has_ext path ext).
Proof.
  induction e as [|e IH]; intros fuel path Hf He H1 H2; (destruct fuel as [|fuel]; [lia|]); cbn [path_ext_loop Nat.eqb].
  - right. split; [reflexivity|]. intros ext (stem & Hs & -> & _). destruct stem as [|c stem]; [congruence|].
    apply H1. cbn. apply in_or_app. right. left. reflexivity.
  - unfold rd. destruct (nth_error path (S e)) as [c|] eqn:E; [|apply nth_error_None in E; lia]. cbn [bind].
    assert (SK : skipn (S e) path = c :: skipn (S (S e)) path).
    { clear - E. revert E. generalize (S e). intros n. revert path. induction n; intros [|x path] E; cbn in *; try discriminate; [congruence|]. apply IHn. exact E. }
    assert (PQ : path = firstn (S e) path ++ c :: skipn (S (S e)) path) by (rewrite <- SK; symmetry; apply firstn_skipn).
    destruct (N.eqb_spec c 46) as [->|D1]; [|destruct (N.eqb_spec c 47) as [->|D2]].
    + left. eexists. split; [reflexivity|]. exists (firstn (S e) path). split; [|split; [exact PQ|split; assumption]].
      intros Q. apply (f_equal (@length N)) in Q. rewrite firstn_length in Q. cbn [length] in Q. lia.
    + right. split; [reflexivity|]. intros ext (stem & Hs & P & N1 & N2).
      set (a := firstn (S e) path) in *. set (b := skipn (S (S e)) path) in *. clearbody a b. rewrite P in PQ. clear - PQ N2 H1.
      revert stem PQ. induction a as [|x a IH]; intros [|y stem] PQ; cbn in PQ; inversion PQ; subst.
      * apply H1. apply in_or_app. right. left. reflexivity.
      * apply N2. apply in_or_app. right. left. reflexivity.
      * eapply IH; eauto.
    + rewrite Nat.sub_succ, Nat.sub_0_r. apply IH; [lia|lia| |]; rewrite SK; intros [Q|Q]; congruence || tauto.
Qed.

Lemma has_ext_unique path e1 e2 : has_ext path e1 -> has_ext path e2 -> e1 = e2.
Proof.
  intros (s1 & _ & P1 & N1 & _) (s2 & _ & P2 & N2 & _). rewrite P1 in P2. clear P1. revert s2 P2.
  induction s1 as [|x s1 IH]; intros [|y s2] P; cbn in P; inversion P; subst; auto.
  - exfalso. apply N1. apply in_or_app. right. left. reflexivity.
  - exfalso. apply N2. apply in_or_app. right. left. reflexivity.
  - eapply IH; eauto.
Qed.

Lemma path_ext_ok path : path <> [] ->
  (exists ext, path_ext path = OK (Some ext) /\ has_ext path ext) \/
  (path_ext path = OK None /\ forall ext, ~ has_ext path ext).
Proof.
  intros H. unfold path_ext. destruct path as [|c p]; [congruence|].
  apply path_ext_loop_ok; cbn [length]; try lia; rewrite skipn_all2 by (cbn [length]; lia); auto.
Qed.

Section P.
Variable fnm : list N -> list N -> bool.

Lemma mime_cases t t' host path : sort_mime t t' -> path <> [] ->
  (exists ext ty, has_ext path ext /\ In (ty, ext) t /\ mime fnm t' host path = OK ty) \/
  (exists ext, has_ext path ext /\ (forall ty, ~ In (ty, ext) t) /\
    mime fnm t' host path = OK (if leqb ext (s2b "gmi") || leqb ext (s2b "gemini") then s2b "text/gemini"
                                else vhost_default_mime fnm host (Some path))) \/
  ((forall ext, ~ has_ext path ext) /\ mime fnm t' host path = OK (vhost_default_mime fnm host (Some path))).
Proof.
  intros [HP HS] Hne. unfold mime. destruct (path_ext_ok path Hne) as [(ext & E & HE)|(E & HE)]; rewrite E; cbn [bind].
  - destruct (bsearch_ok ext t' HS (S (length t')) 0 (length t')) as [(e & B & I & X)|(B & X)]; try lia.
    { intros i e Hi _. split; [lia|]. apply nth_error_Some. congruence. }
    + left. rewrite B. cbn [bind]. destruct e as [ty ex]. cbn in X. subst ex. exists ext, ty. repeat split; auto.
      eapply Permutation_in; [apply Permutation_sym; exact HP|exact I].
    + right; left. rewrite B. cbn [bind]. exists ext. split; auto. split.
      * intros ty I. eapply (X (ty, ext)); [eapply Permutation_in; eauto|reflexivity].
      * destruct (leqb ext (s2b "gmi") || leqb ext (s2b "gemini")); reflexivity.
  - right; right. auto.
Qed.
End P.

(** The look-up never faults, for any sorted table and any file name. *)
Theorem c28_total fnm t t' host path : sort_mime t t' -> path <> [] -> exists ty, mime fnm t' host path = OK ty.
Proof. intros H1 H2. destruct (mime_cases fnm t t' host path H1 H2) as [(? & ? & _ & _ & E)|[(? & _ & _ & E)|(_ & E)]]; eauto. Qed.

(** A mapped extension gets a type it is mapped to, and when the mapping is a
    function, the type. *)
Theorem c28_mapped fnm t t' host path ext ty : sort_mime t t' -> has_ext path ext -> In (ty, ext) t ->
  (forall ty', In (ty', ext) t -> ty' = ty) -> mime fnm t' host path = OK ty.
Proof.
  intros H1 H2 H3 H4. assert (Hne : path <> []) by (destruct H2 as (s & Hs & -> & _); destruct s; discriminate).
  destruct (mime_cases fnm t t' host path H1 Hne) as [(e & y & E1 & E2 & E)|[(e & E1 & E2 & E)|(E1 & E)]].
  - rewrite (has_ext_unique _ _ _ E1 H2) in *. rewrite E. f_equal. auto.
  - rewrite (has_ext_unique _ _ _ E1 H2) in *. exfalso. eapply E2; eauto.
  - exfalso. eapply E1; eauto.
Qed.
Theorem c28_mapped_ambiguous fnm t t' host path ext ty : sort_mime t t' -> has_ext path ext -> In (ty, ext) t ->
  exists ty', In (ty', ext) t /\ mime fnm t' host path = OK ty'.
Proof.
  intros H1 H2 H3. assert (Hne : path <> []) by (destruct H2 as (s & Hs & -> & _); destruct s; discriminate).
  destruct (mime_cases fnm t t' host path H1 Hne) as [(e & y & E1 & E2 & E)|[(e & E1 & E2 & E)|(E1 & E)]].
  - rewrite (has_ext_unique _ _ _ E1 H2) in *. eauto.
  - rewrite (has_ext_unique _ _ _ E1 H2) in *. exfalso. eapply E2; eauto.
  - exfalso. eapply E1; eauto.
Qed.

(** No mapping: the built-in gemini extensions, otherwise the default type. *)
Theorem c28_unmapped fnm t t' host path : sort_mime t t' -> path <> [] ->
  (forall ty ext, has_ext path ext -> ~ In (ty, ext) t) ->
  ((has_ext path (s2b "gmi") \/ has_ext path (s2b "gemini")) -> mime fnm t' host path = OK (s2b "text/gemini")) /\
  (~ (has_ext path (s2b "gmi") \/ has_ext path (s2b "gemini")) ->
     mime fnm t' host path = OK (vhost_default_mime fnm host (Some path))).
Proof.
  intros H1 Hne HN. destruct (mime_cases fnm t t' host path H1 Hne) as [(e & y & E1 & E2 & E)|[(e & E1 & E2 & E)|(E1 & E)]].
  - exfalso. eapply HN; eauto.
  - rewrite E. split.
    + intros [Q|Q]; rewrite (has_ext_unique _ _ _ E1 Q); rewrite leqb_refl; rewrite ?orb_true_r; reflexivity.
    + intros Q. destruct (leqb e (s2b "gmi")) eqn:L1; [exfalso; apply Q; left; apply leqb_eq in L1; subst; auto|].
      destruct (leqb e (s2b "gemini")) eqn:L2; [exfalso; apply Q; right; apply leqb_eq in L2; subst; auto|]. reflexivity.
  - rewrite E. split; [|reflexivity]. intros [Q|Q]; exfalso; eapply E1; eauto.
Qed.

(** Building the table: entries that fit are kept in order, the array is never
    overrun, and the defaults are loaded only when nothing was configured. *)
Definition fits_mime (e : etm) : Prop := (length (fst e) < 128)%nat /\ (length (snd e) < 128)%nat.
Lemma add_mimes_ok : forall l m, (16 <= m_cap m)%nat -> (length (m_t m) <= m_cap m)%nat -> Forall fits_mime l ->
  exists m', add_mimes m l = OK (true, m') /\ m_t m' = m_t m ++ l /\ (16 <= m_cap m')%nat /\ (length (m_t m') <= m_cap m')%nat.
Proof.
  induction l as [|[mt ext] l IH]; intros m H1 H2 HF; cbn [add_mimes].
  { exists m. rewrite app_nil_r. auto. }
  inversion HF as [|? ? [F1 F2] F3]; subst. cbn in F1, F2. unfold add_mime.
  set (m1 := if (length (m_t m) =? m_cap m)%nat then mkMime (m_t m) (m_cap m * 3 / 2) else m).
  assert (A : m_t m1 = m_t m /\ (16 <= m_cap m1)%nat /\ (length (m_t m) < m_cap m1)%nat).
  { unfold m1. pose proof (Nat.div_mod (m_cap m * 3) 2 ltac:(lia)). pose proof (Nat.mod_upper_bound (m_cap m * 3) 2 ltac:(lia)).
    destruct (Nat.eqb_spec (length (m_t m)) (m_cap m)); cbn [m_t m_cap]; repeat split; lia. }
  clearbody m1. destruct A as (A1 & A2 & A3). cbv zeta. rewrite A1.
  destruct (Nat.leb_spec (m_cap m1) (length (m_t m))); [lia|].
  unfold MEDIATYPE_TYPEMAX, MEDIATYPE_NAMEMAX.
  destruct (Nat.leb_spec 128 (length mt)); [lia|]. destruct (Nat.leb_spec 128 (length ext)); [lia|]. cbn [bind].
  destruct (IH (mkMime (m_t m ++ [(mt, ext)]) (m_cap m1))) as (m' & E & T & C1 & C2); cbn [m_t m_cap]; auto.
  { rewrite app_length. cbn. lia. }
  exists m'. rewrite E. cbn [m_t] in T. rewrite <- app_assoc in T. auto.
Qed.
Theorem c28_table l : Forall fits_mime l -> exists m, add_mimes init_mime l = OK (true, m) /\ m_t m = l.
Proof.
  intros H. destruct (add_mimes_ok l init_mime) as (m & E & T & _); auto; cbn; try lia. exists m. auto.
Qed.
(** an over-long type or extension is refused, leaving the table as it was *)
Theorem c28_table_refuses l mt ext : Forall fits_mime l -> ~ fits_mime (mt, ext) ->
  exists m, add_mimes init_mime (l ++ [(mt, ext)]) = OK (false, m) /\ m_t m = l.
Proof.
  intros H HB. destruct (add_mimes_ok l init_mime) as (m & E & T & C1 & C2); auto; cbn [m_t m_cap init_mime length]; try lia.
  assert (G : forall l m0 m1, add_mimes m0 l = OK (true, m1) -> add_mimes m0 (l ++ [(mt, ext)]) = add_mimes m1 [(mt, ext)]).
  { clear. induction l as [|[a b] l IH]; intros m0 m1 E; cbn [add_mimes app] in *; [inversion E; reflexivity|].
    destruct (add_mime m0 a b) as [[ok m2]| |]; cbn [bind] in *; try discriminate. destruct ok; [|discriminate]. apply IH. exact E. }
  rewrite (G _ _ _ E). cbn [add_mimes]. unfold add_mime.
  set (m1 := if (length (m_t m) =? m_cap m)%nat then mkMime (m_t m) (m_cap m * 3 / 2) else m).
  assert (A : m_t m1 = m_t m /\ (length (m_t m) < m_cap m1)%nat).
  { unfold m1. pose proof (Nat.div_mod (m_cap m * 3) 2 ltac:(lia)). pose proof (Nat.mod_upper_bound (m_cap m * 3) 2 ltac:(lia)).
    destruct (Nat.eqb_spec (length (m_t m)) (m_cap m)); cbn [m_t m_cap]; repeat split; lia. }
  clearbody m1. destruct A as (A1 & A3). cbv zeta. rewrite A1.
  destruct (Nat.leb_spec (m_cap m1) (length (m_t m))); [lia|]. unfold MEDIATYPE_TYPEMAX, MEDIATYPE_NAMEMAX. cbn in T.
  destruct (Nat.leb_spec 128 (length mt)); [exists m1; cbn [bind]; split; [reflexivity|congruence]|].
  destruct (Nat.leb_spec 128 (length ext)); [exists m1; cbn [bind]; split; [reflexivity|congruence]|].
  exfalso. apply HB. split; cbn; lia.
Qed.
Theorem c28_defaults m : 
  (m_t m = [] -> (16 <= m_cap m)%nat -> exists m', load_default_mime m = OK (true, m') /\ m_t m' = default_mime) /\
  (m_t m <> [] -> load_default_mime m = OK (true, m)).
Proof.
  unfold load_default_mime. split.
  - intros E C. rewrite E. destruct (add_mimes_ok default_mime m C) as (m' & A & T & _).
    + rewrite E. cbn. lia.
    + apply Forall_forall. intros e He. assert (Q : forallb (fun e => (length (fst e) <? 128)%nat && (length (snd e) <? 128)%nat) default_mime = true) by (vm_compute; reflexivity).
      rewrite forallb_forall in Q. specialize (Q e He). unfold fits_mime. lia.
    + exists m'. rewrite E in T. auto.
  - destruct (m_t m); [congruence|reflexivity].
Qed.

(** non-vacuity: a sorted table exists for any table; concrete look-ups *)
Example c28_case :
  let t := [(s2b "text/x-foo", s2b "foo"); (s2b "image/png", s2b "png"); (s2b "a/b", s2b "c")] in
  let t' := [(s2b "a/b", s2b "c"); (s2b "text/x-foo", s2b "foo"); (s2b "image/png", s2b "png")] in
  sort_mime t t' /\ has_ext (s2b "dir.x/a.b.png") (s2b "png") /\
  mime (fun _ _ => false) t' None (s2b "dir.x/a.b.png") = OK (s2b "image/png") /\
  mime (fun _ _ => false) t' None (s2b "dir.x/README") = OK (s2b "application/octet-stream") /\
  mime (fun _ _ => false) t' None (s2b "x/a.gmi") = OK (s2b "text/gemini") /\
  mime (fun _ _ => false) t' None (s2b ".foo") = OK (s2b "application/octet-stream").
Proof.
  cbv zeta. split; [|split; [|vm_compute; auto]].
  - split.
    + eapply perm_trans; [apply perm_skip, perm_swap|]. apply perm_swap.
    + repeat constructor; vm_compute; discriminate.
  - exists (s2b "dir.x/a.b"). split; [discriminate|]. split; [reflexivity|].
    split; intros [Q|[Q|[Q|[]]]]; discriminate.
Qed.

Print Assumptions c28_total.
Print Assumptions c28_mapped.
Print Assumptions c28_mapped_ambiguous.
Print Assumptions c28_unmapped.
Print Assumptions c28_table.
Print Assumptions c28_table_refuses.
Print Assumptions c28_defaults.
