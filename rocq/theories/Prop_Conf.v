(** Properties C12 and C13: server and location selection. *)
From Verif Require Import Base BaseLemmas Conf ConfSpec.
Local Open Scope N_scope.

Section P.
Variable fnm : list N -> list N -> bool.

Lemma names_iff name v : match_host fnm v name = true <-> names fnm name v.
Proof.
  unfold match_host, names, matches. rewrite orb_true_iff, existsb_exists. split.
  - intros [H|(a & H1 & H2)]; [left; exact H|right; apply Exists_exists; eauto].
  - intros H. inversion H; subst; [left; assumption|right]. apply Exists_exists in H1. destruct H1 as (a & H1 & H2). eauto.
Qed.

Lemma scan_spec sets path ls :
  match scan_locs fnm sets path ls with
  | Some l => exists before after, ls = before ++ l :: after /\ (sets l = true /\ fnm (l_match l) (unrooted path) = true) /\
                Forall (fun l' => ~ (sets l' = true /\ fnm (l_match l') (unrooted path) = true)) before
  | None => Forall (fun l' => ~ (sets l' = true /\ fnm (l_match l') (unrooted path) = true)) ls
  end.
Proof.
  induction ls as [|l ls IH]; cbn [scan_locs]; [constructor|].
  destruct (sets l) eqn:S; [destruct (matches fnm (l_match l) path) eqn:M|]; unfold matches in M || idtac.
  - exists [], ls. repeat split; auto.
  - fold (unrooted path) in M. destruct (scan_locs fnm sets path ls).
    + destruct IH as (b & a & -> & H1 & H2). exists (l :: b), a. repeat split; try tauto. constructor; [|auto]. intros [_ H]. congruence.
    + constructor; [intros [_ H]; congruence|auto].
  - destruct (scan_locs fnm sets path ls).
    + destruct IH as (b & a & -> & H1 & H2). exists (l :: b), a. repeat split; try tauto. constructor; [|auto]. intros [H _]. congruence.
    + constructor; [intros [H _]; congruence|auto].
Qed.

Lemma first_unique {A} (P : A -> Prop) b1 l1 a1 b2 l2 a2 : b1 ++ l1 :: a1 = b2 ++ l2 :: a2 -> P l1 -> P l2 ->
  Forall (fun x => ~ P x) b1 -> Forall (fun x => ~ P x) b2 -> l1 = l2.
Proof.
  revert b2. induction b1 as [|x b1 IH]; intros [|y b2] E P1 P2 F1 F2; cbn in E; inversion E; subst; auto.
  - inversion F2; contradiction.
  - inversion F1; contradiction.
  - inversion F1; inversion F2; subst. eapply IH; eauto.
Qed.
Lemma first_none {A} (P : A -> Prop) b l a : P l -> Forall (fun x => ~ P x) (b ++ l :: a) -> False.
Proof. intros H F. apply Forall_app in F. destruct F as [_ F]. inversion F; contradiction. Qed.

Lemma scan_governs (sets : location -> bool) (S : location -> Prop) path v l :
  (forall l, sets l = true <-> S l) -> governs fnm path S v l ->
  match scan_locs fnm sets path (v_locs v) with
  | Some l' => l' = l /\ sets l = true
  | None => l = v_loc0 v
  end.
Proof.
  intros HS G. pose proof (scan_spec sets path (v_locs v)) as H.
  set (P := fun l' => sets l' = true /\ fnm (l_match l') (unrooted path) = true) in *.
  assert (EQ : forall l, P l <-> (S l /\ fnm (l_match l) (unrooted path) = true)) by (intros; unfold P; rewrite HS; tauto).
  assert (FN : forall ls, Forall (fun l' => ~ (S l' /\ fnm (l_match l') (unrooted path) = true)) ls -> Forall (fun l' => ~ P l') ls).
  { intros ls F. eapply Forall_impl; [|exact F]. intros a Ha Hp. apply Ha, EQ, Hp. }
  destruct (scan_locs fnm sets path (v_locs v)) as [l'|].
  - destruct H as (b & a & E & HP & HF). destruct G as [(b2 & a2 & E2 & H2 & F2)|[-> F2]].
    + rewrite E2 in E. assert (l = l').
      { eapply (first_unique P); [exact E|apply EQ; exact H2|exact HP|apply FN; exact F2|exact HF]. }
      subst. split; [reflexivity|apply HP].
    + exfalso. rewrite E in F2. eapply (first_none P); [exact HP|apply FN; exact F2].
  - destruct G as [(b2 & a2 & E2 & H2 & F2)|[-> F2]]; [|reflexivity].
    exfalso. rewrite E2 in H. eapply (first_none P); [apply EQ; exact H2|exact H].
Qed.
End P.

(** ** C13 *)
(** exactly one location governs each option *)
Theorem c13_governed (fnm : list N -> list N -> bool) path (sets : location -> bool) v :
  exists l, governs fnm path (fun l => sets l = true) v l /\
            forall l', governs fnm path (fun l => sets l = true) v l' -> l' = l.
Proof.
  pose proof (scan_spec fnm sets path (v_locs v)) as H.
  destruct (scan_locs fnm sets path (v_locs v)) as [l|] eqn:E.
  - exists l. destruct H as (b & a & H1 & H2 & H3). split; [left; eauto|].
    intros l' G. pose proof (scan_governs fnm sets _ path v l' (fun l => iff_refl _) G) as Q. rewrite E in Q. destruct Q; auto.
  - exists (v_loc0 v). split; [right; auto|].
    intros l' G. pose proof (scan_governs fnm sets _ path v l' (fun l => iff_refl _) G) as Q. rewrite E in Q. auto.
Qed.

Theorem c13_lang fnm v path l : governs fnm path (fun l => l_lang l <> []) v l ->
  vhost_lang fnm (Some v) (Some path) = match l_lang l with [] => None | x => Some x end.
Proof.
  intros G. unfold vhost_lang.
  pose proof (scan_governs fnm (fun l => negb (isnil (l_lang l))) (fun l => l_lang l <> []) path v l) as Q. cbv beta in Q.
  specialize (Q (fun l => ltac:(destruct (l_lang l); cbn; split; congruence)) G).
  destruct (scan_locs _ _ _ _); [destruct Q as [-> Q]|subst l; rename G into Q]; destruct (l_lang _); cbn in *; congruence || reflexivity.
Qed.

Theorem c13_default_type fnm v path l : governs fnm path (fun l => l_default_mime l <> []) v l ->
  vhost_default_mime fnm (Some v) (Some path) = match l_default_mime l with [] => s2b "application/octet-stream" | x => x end.
Proof.
  intros G. unfold vhost_default_mime.
  pose proof (scan_governs fnm (fun l => negb (isnil (l_default_mime l))) (fun l => l_default_mime l <> []) path v l) as Q. cbv beta in Q.
  specialize (Q (fun l => ltac:(destruct (l_default_mime l); cbn; split; congruence)) G).
  destruct (scan_locs _ _ _ _); [destruct Q as [-> Q]|subst l; rename G into Q]; destruct (l_default_mime _); cbn in *; congruence || reflexivity.
Qed.

Theorem c13_index fnm v path l : governs fnm path (fun l => l_index l <> []) v l ->
  vhost_index fnm v path = match l_index l with [] => s2b "index.gmi" | x => x end.
Proof.
  intros G. unfold vhost_index.
  pose proof (scan_governs fnm (fun l => negb (isnil (l_index l))) (fun l => l_index l <> []) path v l) as Q. cbv beta in Q.
  specialize (Q (fun l => ltac:(destruct (l_index l); cbn; split; congruence)) G).
  destruct (scan_locs _ _ _ _); [destruct Q as [-> Q]|subst l; rename G into Q]; destruct (l_index _); cbn in *; congruence || reflexivity.
Qed.

(** [auto index]: 0 not set, 1 on, -1 off *)
Theorem c13_auto_index fnm v path l : governs fnm path (fun l => l_auto_index l <> 0%Z) v l ->
  vhost_auto_index fnm v path = true <-> l_auto_index l = 1%Z.
Proof.
  intros G. unfold vhost_auto_index.
  pose proof (scan_governs fnm (fun l => negb (l_auto_index l =? 0)%Z) (fun l => l_auto_index l <> 0%Z) path v l) as Q. cbv beta in Q.
  specialize (Q (fun l => ltac:(destruct (Z.eqb_spec (l_auto_index l) 0); cbn; split; congruence)) G).
  destruct (scan_locs _ _ _ _); [destruct Q as [-> Q]|subst l]; apply Z.eqb_eq.
Qed.

Theorem c13_block fnm v path l : governs fnm path (fun l => l_block_code l <> 0) v l ->
  vhost_block_return fnm v path = if l_block_code l =? 0 then None else Some (l_block_code l, l_block_fmt l).
Proof.
  intros G. unfold vhost_block_return.
  pose proof (scan_governs fnm (fun l => negb (l_block_code l =? 0)) (fun l => l_block_code l <> 0) path v l) as Q. cbv beta in Q.
  specialize (Q (fun l => ltac:(destruct (N.eqb_spec (l_block_code l) 0); cbn; split; congruence)) G).
  destruct (scan_locs _ _ _ _); [destruct Q as [-> Q]; destruct (l_block_code l =? 0); [discriminate|reflexivity]|subst l; reflexivity].
Qed.

Theorem c13_root fnm v path l : governs fnm path (fun l => l_dirfd l <> None) v l ->
  vhost_dirfd fnm v path = l_dirfd l.
Proof.
  intros G. unfold vhost_dirfd.
  pose proof (scan_governs fnm (fun l => match l_dirfd l with Some _ => true | None => false end) (fun l => l_dirfd l <> None) path v l) as Q. cbv beta in Q.
  specialize (Q (fun l => ltac:(destruct (l_dirfd l); cbn; split; congruence)) G).
  destruct (scan_locs _ _ _ _); [destruct Q as [-> Q]|subst l]; reflexivity.
Qed.

Theorem c13_strip fnm v path l : governs fnm path (fun l => l_strip l <> 0%nat) v l ->
  vhost_strip fnm v path = l_strip l.
Proof.
  intros G. unfold vhost_strip.
  pose proof (scan_governs fnm (fun l => negb (l_strip l =? 0)%nat) (fun l => l_strip l <> 0%nat) path v l) as Q. cbv beta in Q.
  specialize (Q (fun l => ltac:(destruct (Nat.eqb_spec (l_strip l) 0); cbn; split; congruence)) G).
  destruct (scan_locs _ _ _ _); [destruct Q as [-> Q]|subst l]; reflexivity.
Qed.

Theorem c13_client_ca fnm v path l : governs fnm path (fun l => l_reqca l <> None) v l ->
  vhost_require_ca fnm v path = l_reqca l.
Proof.
  intros G. unfold vhost_require_ca.
  pose proof (scan_governs fnm (fun l => match l_reqca l with Some _ => true | None => false end) (fun l => l_reqca l <> None) path v l) as Q. cbv beta in Q.
  specialize (Q (fun l => ltac:(destruct (l_reqca l); cbn; split; congruence)) G).
  destruct (scan_locs _ _ _ _); [destruct Q as [-> Q]|subst l]; reflexivity.
Qed.

(** [fastcgi off] ([nofcgi]) sets the option as well *)
Theorem c13_fastcgi fnm v path l : governs fnm path (fun l => l_fcgi l <> None \/ l_nofcgi l = true) v l ->
  vhost_fastcgi fnm v path = match l_fcgi l with Some _ => Some l | None => None end.
Proof.
  intros G. unfold vhost_fastcgi.
  set (sets := fun l => match l_fcgi l with Some _ => true | None => l_nofcgi l end).
  pose proof (scan_governs fnm sets (fun l => l_fcgi l <> None \/ l_nofcgi l = true) path v l) as Q. cbv beta in Q.
  assert (HS : forall l, sets l = true <-> (l_fcgi l <> None \/ l_nofcgi l = true)).
  { intros l0. unfold sets. destruct (l_fcgi l0) as [n|]; split; [intros _; left; discriminate|reflexivity|tauto|intros [H|H]; congruence]. }
  specialize (Q HS G).
  assert (E : scan_fastcgi fnm path (v_locs v) =
    match scan_locs fnm sets path (v_locs v) with Some l' => Some (match l_fcgi l' with Some _ => Some l' | None => None end) | None => None end).
  { clear. induction (v_locs v) as [|x ls IH]; [reflexivity|]. cbn [scan_fastcgi scan_locs]. unfold sets at 1.
    destruct (l_fcgi x) eqn:F.
    - destruct (matches fnm (l_match x) path) eqn:M; [rewrite F; reflexivity|]. rewrite andb_false_r. exact IH.
    - destruct (l_nofcgi x); cbn [andb]; [|exact IH]. destruct (matches fnm (l_match x) path); [rewrite F; reflexivity|exact IH]. }
  rewrite E. destruct (scan_locs _ _ _ _); [destruct Q as [-> Q]; reflexivity|subst l; reflexivity].
Qed.

(** Logging: [disable_log] only ever records that logging was switched off *)
Theorem c13_log_off fnm v path l : governs fnm path (fun l => l_disable_log l = true) v l ->
  vhost_disable_log fnm (Some v) (Some path) = l_disable_log l.
Proof.
  intros G. unfold vhost_disable_log.
  pose proof (scan_governs fnm l_disable_log _ path v l (fun l => iff_refl _) G) as Q.
  destruct (scan_locs _ _ _ _); [destruct Q as [-> Q]; auto|subst l; reflexivity].
Qed.

(** [log on|off] is stored by parse.y as [disable_log = !$2], so [log on] in a
    location cannot be told from no [log] at all, and the claim is false for it *)
Definition log_field (o : option bool) : bool := match o with Some b => negb b | None => false end.
Definition loc0 : location :=
  mkLoc (s2b "*") [] [] [] 0 0 [] 0 None false None false 0 [] [] None.
Definition with_log (b : bool) (l : location) : location :=
  mkLoc (l_match l) [] [] [] 0 0 [] 0 None b None false 0 [] [] None.

Theorem c13_log_refuted :
  ~ (forall fnm v path (log : location -> option bool), (forall l, In l (v_loc0 v :: v_locs v) -> l_disable_log l = log_field (log l)) ->
       forall l, governs fnm path (fun l => log l <> None) v l ->
       vhost_disable_log fnm (Some v) (Some path) = log_field (log l)).
Proof.
  intros H.
  set (l1 := with_log (log_field (Some true)) loc0). set (l0 := with_log (log_field (Some false)) loc0).
  specialize (H (fun _ _ => true) (mkVhost (s2b "h") [] l0 [l1] []) (s2b "a")
                (fun l => if l_disable_log l then Some false else Some true)).
  assert (Q := H ltac:(cbn; intros l [<-|[<-|[]]]; reflexivity) l1).
  enough (true = false) by discriminate. apply Q. left. exists [], []. repeat split; auto. discriminate.
Qed.

Example c13_case :
  let l := mkLoc (s2b "foo/*") (s2b "it") [] [] 0 0 [] 1 (Some 7) false None false 0 [] [] None in
  let v := mkVhost (s2b "example.com") [] loc0 [l] [] in
  let fnm := fun p s => leqb p (s2b "*") || leqb s (s2b "foo/x") in
  governs fnm (s2b "/foo/x") (fun l => l_lang l <> []) v l /\
  vhost_lang fnm (Some v) (Some (s2b "/foo/x")) = Some (s2b "it") /\
  vhost_require_ca fnm v (s2b "/foo/x") = Some 7 /\ vhost_require_ca fnm v (s2b "/bar") = None.
Proof.
  cbv zeta. split; [|repeat split]. left. exists [], []. repeat split; auto. discriminate.
Qed.

(** ** C12 *)
(** The server chosen for a name is the first that has a matching pattern. *)
Theorem c12_first_match fnm hs name : selects fnm hs name (find_host fnm hs name).
Proof.
  induction hs as [|h hs IH]; cbn [find_host]; [constructor|].
  destruct (match_host fnm h name) eqn:E.
  - exists [], hs. repeat split; auto. apply names_iff. exact E.
  - assert (NE : ~ names fnm name h) by (rewrite <- names_iff; congruence).
    destruct (find_host fnm hs name) as [v|]; cbn [selects] in *.
    + destruct IH as (b & a & -> & H1 & H2). exists (h :: b), a. repeat split; auto.
    + constructor; auto.
Qed.

Theorem c12_selects_unique fnm hs name h : selects fnm hs name h -> h = find_host fnm hs name.
Proof.
  pose proof (c12_first_match fnm hs name) as H. intros G.
  destruct h as [v|], (find_host fnm hs name) as [w|]; cbn [selects] in *; auto.
  - destruct G as (b & a & E & G1 & G2), H as (b2 & a2 & E2 & H1 & H2). rewrite E in E2.
    f_equal. eapply (first_unique (names fnm name)); eauto.
  - exfalso. destruct G as (b & a & -> & G1 & G2). eapply (first_none (names fnm name)); eauto.
  - exfalso. destruct H as (b & a & -> & G1 & G2). eapply (first_none (names fnm name)); eauto.
Qed.

(** likewise for the proxy blocks of a server *)
Theorem c12_proxy_first_match fnm ps schema domain port :
  proxies_to fnm ps schema domain port (matched_proxy fnm ps schema domain port).
Proof.
  induction ps as [|p ps IH]; cbn [matched_proxy]; [constructor|]. cbv zeta.
  assert (HI : (matches fnm (if isnil (p_match_proto p) then s2b "gemini" else p_match_proto p) schema &&
          matches fnm (if isnil (p_match_host p) then s2b "*" else p_match_host p) domain &&
          matches fnm (if isnil (p_match_port p) then s2b "*" else p_match_port p) port) = true <-> proxy_hit fnm schema domain port p).
  { unfold proxy_hit, matches. rewrite !andb_true_iff. fold (unrooted schema) (unrooted domain) (unrooted port).
    destruct (p_match_proto p), (p_match_host p), (p_match_port p); cbn [isnil]; tauto. }
  destruct (_ && _ && _).
  - exists [], ps. repeat split; auto; apply HI; reflexivity.
  - assert (NE : ~ proxy_hit fnm schema domain port p) by (rewrite <- HI; congruence).
    destruct (matched_proxy fnm ps schema domain port) as [v|]; cbn [proxies_to] in *.
    + destruct IH as (b & a & -> & H1 & H2). exists (p :: b), a. repeat split; auto; apply H1.
    + constructor; auto.
Qed.

Example c12_case :
  let v1 := mkVhost (s2b "a.org") [] loc0 [] [] in
  let v2 := mkVhost (s2b "b.org") [s2b "www.b.org"] loc0 [] [] in
  find_host (fun p s => leqb p s) [v1; v2] (s2b "www.b.org") = Some v2 /\
  find_host (fun p s => leqb p s) [v1; v2] (s2b "c.org") = None.
Proof. split; vm_compute; reflexivity. Qed.

Print Assumptions c13_governed.
Print Assumptions c13_lang.
Print Assumptions c13_default_type.
Print Assumptions c13_index.
Print Assumptions c13_auto_index.
Print Assumptions c13_block.
Print Assumptions c13_root.
Print Assumptions c13_strip.
Print Assumptions c13_client_ca.
Print Assumptions c13_fastcgi.
Print Assumptions c13_log_off.
Print Assumptions c13_log_refuted.
Print Assumptions c12_first_match.
Print Assumptions c12_selects_unique.
Print Assumptions c12_proxy_first_match.
