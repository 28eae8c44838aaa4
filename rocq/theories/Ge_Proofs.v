(** Lemmas for C75. *)
From Coq Require Import Permutation Sorting.Sorted.
From Verif Require Import Base BaseLemmas Compat Compat_Proofs Iri IriSpec IriObs IriSafeSpec Prop_Iri Puny Conf ConfSpec Mime MimeSpec Prop_Mime Prop_Conf Fmt FmtSpec Fcgi
  Iri_Len_Proofs Server ServerSpec Server_Proofs Decide_Proofs RequestSpec Request_Proofs Prop_Server Config Tls Ge GeSpec.
Local Open Scope N_scope.

(** ** the request path on the configuration of gemexp *)

Definition ge_vhost (dir : list N) (root : N) : vhost := mkVhost [42] [] (set_dirfd root (ge_loc dir)) [] [].

Lemma governs_one fnm path P v l : v_locs v = [] -> governs fnm path P v l -> l = v_loc0 v.
Proof. intros E [(b & a & X & _)|(X & _)]; [rewrite E in X; destruct b; discriminate|exact X]. Qed.

Lemma option_one {A} E v i (f : location -> A) set x : v_locs v = [] -> option_is E v i f set x -> x = f (v_loc0 v).
Proof. intros HE (l & G & <-). rewrite (governs_one _ _ _ _ _ HE G). reflexivity. Qed.

Lemma cstr_len m s : cstr m = Some s -> (length s < length m)%nat.
Proof.
  revert s. induction m as [|c m IH]; intros s; cbn; [discriminate|]. destruct (c =? 0); [intros H; injection H as <-; cbn; lia|].
  destruct (cstr m) as [l|]; [|discriminate]. intros H. injection H as <-. specialize (IH l eq_refl). cbn. lia.
Qed.
Lemma accepts_path_len ip6 line i : accepts ip6 line i -> (length (c_path i) <= length line)%nat.
Proof.
  intros (p & H & C). apply parse_iri_len in H. rewrite app_length in H. cbn in H. unfold comps_of in C.
  repeat match type of C with context [match ?x with _ => _ end] => destruct x eqn:?; try discriminate end.
  injection C as <-. cbn.
  match goal with H : cstr_at _ (i_path _) = Some ?s |- (length ?s <= _)%nat => unfold cstr_at in H; apply cstr_len in H; rewrite skipn_length in H; lia end.
Qed.

Lemma mime_typed fnm t v path ty : sort_mime default_mime t -> path <> [] -> v_locs v = [] -> l_default_mime (v_loc0 v) = [] ->
  mime fnm t (Some v) path = OK ty -> typed path ty.
Proof.
  intros S NE VL DM M. assert (DF : vhost_default_mime fnm (Some v) (Some path) = s2b "application/octet-stream").
  { unfold vhost_default_mime. rewrite VL. cbn [scan_locs]. rewrite DM. reflexivity. }
  destruct (mime_cases fnm default_mime t (Some v) path S NE) as [(e & y & E1 & E2 & E)|[(e & E1 & E2 & E)|(E1 & E)]]; rewrite E in M; apply Iri_Last_Proofs.OK_inj in M; subst ty.
  - left. eauto.
  - destruct (leqb e (s2b "gmi") || leqb e (s2b "gemini")) eqn:G.
    + exfalso. apply orb_true_iff in G as [G|G]; apply leqb_eq in G; subst e; eapply E2; unfold default_mime; cbn [In]; [do 7 right|do 6 right]; left; reflexivity.
    + right. split; [|exact DF]. intros t0 ext H I. rewrite (has_ext_unique _ _ _ H E1) in I. exact (E2 _ I).
  - right. split; [|exact DF]. intros t0 ext H. exfalso. exact (E1 _ H).
Qed.

Lemma index_ext p : has_ext (p ++ s2b "index.gmi") (s2b "gmi").
Proof.
  exists (p ++ s2b "index"). split; [destruct p; discriminate|]. split; [rewrite <- app_assoc; reflexivity|].
  split; intros H; cbn in H; repeat (destruct H as [H|H]; [discriminate|]); exact H.
Qed.

Lemma at_top_eq i : leqb (c_path i) [47] || isnil (c_path i) = at_top i.
Proof.
  unfold at_top. destruct (c_path i) as [|a [|b r]]; cbn [leqb isnil]; [reflexivity| |].
  - destruct (N.eqb_spec a 47) as [->|H]; [reflexivity|]. cbn. destruct a as [|p]; [reflexivity|]. repeat (destruct p as [p|p|]; try reflexivity). congruence.
  - rewrite andb_false_r. cbn. destruct a as [|p]; [reflexivity|]. repeat (destruct p as [p|p|]; try reflexivity).
Qed.

Lemma below0 i : below i 0 = place i.
Proof. reflexivity. Qed.

Lemma place_ne i : place i <> [].
Proof. unfold place. destruct (unslash (c_path i)); discriminate. Qed.

Lemma ge_option {A} E dir root i (f : location -> A) set x : option_is E (ge_vhost dir root) i f set x -> x = f (v_loc0 (ge_vhost dir root)).
Proof. apply option_one. reflexivity. Qed.

(** what the decision table comes to *)
Lemma ge_found E dir root i p n w : (length (c_path i) <= 1024)%nat -> sort_mime default_mime (c_mime (e_conf E)) -> p = place i ->
  found E (ge_vhost dir root) i p n w -> gets i n w.
Proof.
  intros LEN SM -> F. inversion F as [| |b content ty M|look es w' D]; subst.
  - constructor.
  - constructor.
  - constructor. exact (mime_typed _ _ (ge_vhost dir root) _ _ SM (place_ne i) eq_refl eq_refl M).
  - inversion D as [ND|ND L|x idx content ty DS OI IX LK M|x idx DS OI IX LK|x idx w' DS OI IX LK LS]; subst.
    + apply gt_slash. exact ND.
    + lia.
    + apply ge_option in OI. cbn in OI. subst x. cbv beta iota in *. rewrite firstn_all2 in M.
      2:{ rewrite app_length. cbn [length s2b]. lia. }
      assert (NE : c_path i ++ s2b "index.gmi" <> []) by (destruct (c_path i); discriminate).
      destruct (mime_typed _ _ (ge_vhost dir root) _ _ SM NE eq_refl eq_refl M) as [(ext & H & I)|(H & _)].
      * rewrite (has_ext_unique _ _ _ H (index_ext _)) in I. cbn in I. repeat (destruct I as [I|I]; [try discriminate I; injection I as <-; apply gt_index; assumption|]). destruct I.
      * exfalso. eapply H; [apply index_ext|]. unfold default_mime. cbn [In]. do 7 right. left. reflexivity.
    + apply ge_option in OI. cbn in OI. subst x. cbv beta iota in *. apply gt_index_bad; assumption.
    + apply ge_option in OI. cbn in OI. subst x. cbv beta iota in *.
      assert (N1 : forall c, look (s2b "index.gmi") <> NFile true c) by (intros c X; destruct LK as [K|[(y & K)|(y & z & K)]]; rewrite K in X; discriminate).
      assert (N2 : look (s2b "index.gmi") <> NBad) by (intros X; destruct LK as [K|[(y & K)|(y & z & K)]]; rewrite K in X; discriminate).
      inversion LS as [a OA NA|OA EN|es' l OA EN SH]; subst.
      * apply ge_option in OA. cbn in OA. congruence.
      * apply gt_list_bad; assumption.
      * rewrite at_top_eq in SH. apply gt_list; assumption.
Qed.

Lemma ge_decides E fs dir root i name asked d : (length (c_path i) <= 1024)%nat -> sort_mime default_mime (c_mime (e_conf E)) ->
  decides E fs (ge_vhost dir root) i name asked d ->
  (ours i name asked /\ exists w, d = mkD [(root, place i)] w /\ gets i (fs root (place i)) w) \/
  (~ ours i name asked /\ d = mkD [] (WReply 53 (s2b "won't proxy request"))).
Proof.
  intros LEN SM D. inversion D as [p w PX _|PX NO|ca w PX OU CA RF|ca d' PX OU CA AD AT]; subst.
  - destruct PX as (b & a & X & _). destruct b; discriminate X.
  - right. auto.
  - apply ge_option in CA. cbn in CA. subst ca. inversion RF.
  - left. split; [exact OU|]. inversion AT as [l n meta G B _ _|k l BL AP _|k l BL AP _|BL AP OD|fd n w BL AP OD OS FD]; subst.
    + apply governs_one in G; [|reflexivity]. subst l. cbn in B. congruence.
    + destruct AP as (l' & G & -> & F & _). apply governs_one in G; [|reflexivity]. subst l'. discriminate F.
    + destruct AP as (l' & G & -> & F & _). apply governs_one in G; [|reflexivity]. subst l'. discriminate F.
    + apply ge_option in OD. discriminate OD.
    + apply ge_option in OD. cbn in OD. injection OD as ->. apply ge_option in OS. cbn in OS. subst n.
      rewrite below0 in *. exists w. split; [reflexivity|]. eapply ge_found; eauto.
Qed.

(** ** options *)

Lemma last_of_cons_keep {A B} (says : A -> B -> Prop) d x l y : (forall w, ~ says x w) -> last_of says d l y -> last_of says d (x :: l) y.
Proof.
  intros N H. inversion H as [l' HN|a x' b y' S HN]; subst.
  - apply lo_none. intros z w [<-|I]; [apply N|eauto].
  - apply (lo_some says d (x :: a) x' b y); assumption.
Qed.
Lemma last_of_cons_set {A B} (says : A -> B -> Prop) d e x l y : says x e -> last_of says e l y -> last_of says d (x :: l) y.
Proof.
  intros N H. inversion H as [l' HN|a x' b y' S HN]; subst.
  - apply (lo_some says d [] x l y); assumption.
  - apply (lo_some says d (x :: a) x' b y); assumption.
Qed.

Lemma port_num s : (exists v, strtonum s 0 65535 = (v, NumOk) /\ is_dec s v /\ (0 <= v <= 65535)%Z) \/
  (forall v, strtonum s 0 65535 <> (v, NumOk)) /\ ~ (exists v, is_dec s v /\ (0 <= v <= 65535)%Z).
Proof.
  assert (C : forall v, strtonum s 0 65535 = (v, NumOk) <-> is_dec s v /\ (0 <= v <= 65535)%Z).
  { intros v. apply strtonum_spec; unfold LLONG_MIN, LLONG_MAX; lia. }
  destruct (strtonum s 0 65535) as [v e] eqn:E. destruct e.
  - left. exists v. split; [reflexivity|]. apply C. reflexivity.
  - right. split; [intros w; discriminate|]. intros (w & W). apply C in W. discriminate.
  - right. split; [intros w; discriminate|]. intros (w & W). apply C in W. discriminate.
  - right. split; [intros w; discriminate|]. intros (w & W). apply C in W. discriminate.
Qed.

Lemma options_ok : forall os a0 a, options os a0 = inr a ->
  (forall o code, In o os -> ~ stops o code) /\
  last_of (fun o y => exists s, o = OptD s /\ y = Some s) (a_certs a0) os (a_certs a) /\
  last_of (fun o y => o = OptH y) (a_host a0) os (a_host a) /\
  last_of (fun o y => exists s, o = OptP s /\ is_dec s y /\ (0 <= y <= 65535)%Z) (a_port a0) os (a_port a) /\
  (a_ec a = a_ec a0 && negb (existsb (fun o => match o with OptR => true | _ => false end) os)).
Proof.
  induction os as [|o os IH]; intros a0 a H; cbn [options] in H.
  - injection H as ->. split; [intros o c []|]. split; [apply lo_none; intros x y []|]. split; [apply lo_none; intros x y []|].
    split; [apply lo_none; intros x y []|]. cbn. rewrite andb_true_r. reflexivity.
  - destruct o as [s|s| |s| | | |].
    + apply IH in H as (H1 & H2 & H3 & H4 & H5). cbn in H2, H3, H4, H5.
      split; [intros o c [<-|I]; [intros []|eauto]|]. split; [eapply last_of_cons_set; [|exact H2]; eauto|].
      split; [apply last_of_cons_keep; [intros w; discriminate|exact H3]|]. split; [apply last_of_cons_keep; [intros w (x & X & _); discriminate|exact H4]|exact H5].
    + apply IH in H as (H1 & H2 & H3 & H4 & H5). cbn in H2, H3, H4, H5.
      split; [intros o c [<-|I]; [intros []|eauto]|]. split; [apply last_of_cons_keep; [intros w (x & X & _); discriminate|exact H2]|].
      split; [eapply last_of_cons_set; [|exact H3]; reflexivity|]. split; [apply last_of_cons_keep; [intros w (x & X & _); discriminate|exact H4]|exact H5].
    + discriminate.
    + destruct (port_num s) as [(v & E & D)|(E & D)]; [rewrite E in H|destruct (strtonum s 0 65535) as [v []] eqn:X; try discriminate; exfalso; eapply E; eauto].
      apply IH in H as (H1 & H2 & H3 & H4 & H5). cbn in H2, H3, H4, H5.
      split; [intros o c [<-|I]; [intros (_ & N); apply N; eauto|eauto]|]. split; [apply last_of_cons_keep; [intros w (x & X & _); discriminate|exact H2]|].
      split; [apply last_of_cons_keep; [intros w; discriminate|exact H3]|]. split; [eapply last_of_cons_set; [|exact H4]; eauto|exact H5].
    + apply IH in H as (H1 & H2 & H3 & H4 & H5). cbn in H2, H3, H4, H5.
      split; [intros o c [<-|I]; [intros []|eauto]|]. split; [apply last_of_cons_keep; [intros w (x & X & _); discriminate|exact H2]|].
      split; [apply last_of_cons_keep; [intros w; discriminate|exact H3]|]. split; [apply last_of_cons_keep; [intros w (x & X & _); discriminate|exact H4]|].
      rewrite H5. cbn [existsb orb negb]. rewrite andb_false_r. reflexivity.
    + discriminate.
    + apply IH in H as (H1 & H2 & H3 & H4 & H5). cbn in H2, H3, H4, H5.
      split; [intros o c [<-|I]; [intros []|eauto]|]. split; [apply last_of_cons_keep; [intros w (x & X & _); discriminate|exact H2]|].
      split; [apply last_of_cons_keep; [intros w; discriminate|exact H3]|]. split; [apply last_of_cons_keep; [intros w (x & X & _); discriminate|exact H4]|exact H5].
    + discriminate.
Qed.

Lemma options_stop : forall os a0 code, options os a0 = inl code ->
  exists b o r, os = b ++ o :: r /\ stops o code /\ forall x c, In x b -> ~ stops x c.
Proof.
  induction os as [|o os IH]; intros a0 code H; cbn [options] in H; [discriminate|].
  assert (GO : forall a1, options os a1 = inl code -> (forall c, ~ stops o c) -> exists b x r, o :: os = b ++ x :: r /\ stops x code /\ forall y c, In y b -> ~ stops y c).
  { intros a1 G N. destruct (IH _ _ G) as (b & x & r & -> & S & F). exists (o :: b), x, r. split; [reflexivity|]. split; [exact S|].
    intros y c [<-|I]; [apply N|eauto]. }
  destruct o as [s|s| |s| | | |]; try (eapply GO; [exact H|intros c []]).
  - injection H as <-. exists [], OptHelp, os. split; [reflexivity|]. split; [reflexivity|intros x c []].
  - destruct (port_num s) as [(v & E & D)|(E & D)].
    + rewrite E in H. eapply GO; [exact H|]. intros c (_ & N). apply N. eauto.
    + exists [], (OptP s), os. split; [reflexivity|]. split; [|intros x c []].
      destruct (strtonum s 0 65535) as [v []] eqn:X; [exfalso; eapply E; reflexivity|..]; injection H as <-; split; auto.
  - injection H as <-. exists [], OptV, os. split; [reflexivity|]. split; [reflexivity|intros x c []].
  - injection H as <-. exists [], OptOther, os. split; [reflexivity|]. split; [reflexivity|intros x c []].
Qed.

(** ** sockets *)

Inductive chain (next : nat -> option nat) : option nat -> list nat -> Prop :=
| ch_nil : chain next None []
| ch_cons a r : chain next (next a) r -> chain next (Some a) (a :: r).
Lemma chain_walk next : forall l p fuel, chain next p l -> (length l <= fuel)%nat -> walk fuel next p = OK l.
Proof.
  induction l as [|a l IH]; intros p fuel H L; inversion H; subst; [destruct fuel; reflexivity|].
  destruct fuel; [cbn in L; lia|]. cbn [walk]. rewrite IH; [reflexivity|assumption|cbn in L; lia].
Qed.
Lemma chain_link next a to : forall l p, ~ In a l -> chain next p l -> chain (link a to next) p l.
Proof.
  induction l as [|b l IH]; intros p N H; inversion H; subst; constructor. unfold link at 2.
  destruct (Nat.eqb_spec b a) as [->|D]; [exfalso; apply N; left; reflexivity|]. apply IH; [intros I; apply N; right; exact I|assumption].
Qed.

Definition up (a : ai) : bool := ai_socket a && ai_bind a.
Fixpoint ups (n : nat) (l : list ai) : list nat := match l with [] => [] | a :: r => if up a then n :: ups (S n) r else ups (S n) r end.

Lemma listen_all_ok : forall l n q any ids q' any', listen_all n l q any = Some (q', any') ->
  q_conf q = q_host q -> chain (q_next q) (q_conf q) ids -> (forall x, In x ids -> (x < n)%nat) -> any = negb (isnil (map N.of_nat ids)) ->
  q_conf q' = q_host q' /\ chain (q_next q') (q_conf q') (rev (ups n l) ++ ids) /\ any' = negb (isnil (map N.of_nat (rev (ups n l) ++ ids))) /\
  Forall (fun a => up a = true -> ai_listen a = true) l.
Proof.
  induction l as [|a l IH]; intros n q any ids q' any' H EQ CH LT AN; cbn [listen_all ups] in *.
  - injection H as <- <-. cbn. auto.
  - unfold up at 1 2. destruct (ai_socket a) eqn:S; cbn [negb andb] in *.
    2:{ destruct (IH _ _ _ ids _ _ H EQ CH) as (A & B & C & D); [intros x I; specialize (LT x I); lia|exact AN|]. split; [exact A|]. split; [exact B|]. split; [exact C|].
        constructor; [unfold up; rewrite S; discriminate|exact D]. }
    destruct (ai_bind a) eqn:BB; cbn [negb] in *.
    2:{ destruct (IH _ _ _ ids _ _ H EQ CH) as (A & B & C & D); [intros x I; specialize (LT x I); lia|exact AN|]. split; [exact A|]. split; [exact B|]. split; [exact C|].
        constructor; [unfold up; rewrite S, BB; discriminate|exact D]. }
    destruct (ai_listen a) eqn:LI; cbn [negb] in H; [|discriminate].
    assert (NI : ~ In n ids) by (intros I; specialize (LT n I); lia).
    destruct (IH _ _ _ (n :: ids) _ _ H) as (A & B & C & D).
    + reflexivity.
    + cbn. constructor. replace (link n (q_host q) (link n (q_conf q) (q_next q)) n) with (q_conf q) by (unfold link; rewrite Nat.eqb_refl; exact EQ). apply chain_link; [exact NI|]. apply chain_link; [exact NI|exact CH].
    + intros x [<-|I]; [lia|specialize (LT x I); lia].
    + reflexivity.
    + cbn [rev]. rewrite <- app_assoc. cbn [app]. split; [exact A|]. split; [exact B|]. split; [exact C|]. constructor; [auto|exact D].
Qed.

Lemma ups_len : forall l n, (length (ups n l) <= length l)%nat.
Proof. induction l as [|a l IH]; intros n; cbn; [lia|]. specialize (IH (S n)). destruct (up a); cbn; lia. Qed.
Lemma ups_addr l0 : forall l pre n, l0 = pre ++ l -> n = length pre ->
  map (ge_addr l0) (ups n l) = map (fun a => Config.mkAddr (ai_addr a) 0 false []) (filter up l).
Proof.
  induction l as [|a l IH]; intros pre n E L; cbn [ups filter]; [reflexivity|].
  assert (G : map (ge_addr l0) (ups (S n) l) = map (fun a => Config.mkAddr (ai_addr a) 0 false []) (filter up l)).
  { apply (IH (pre ++ [a])); [rewrite <- app_assoc; exact E|rewrite app_length; cbn; lia]. }
  destruct (up a); [|exact G]. cbn [map]. rewrite G. f_equal. unfold ge_addr. rewrite E, L, nth_error_app2, Nat.sub_diag by lia. reflexivity.
Qed.
