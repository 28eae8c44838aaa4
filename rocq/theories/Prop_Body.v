(** C21 (file bodies) and C22 (directory listings), over every schedule of
    the connection. *)
From Coq Require Import Permutation Sorting.Sorted.
From Verif Require Import Base BaseLemmas Canon_Proofs Iri_Final_Proofs Iri_Grammar_Proofs Compat Iri IriSpec IriObs IriSafeSpec IriOut IriOutSpec IriOut_Proofs Prop_IriOut Puny Conf ConfSpec Mime Prop_Conf Fmt Fcgi Server ServerSpec Iri_Last_Proofs Server_Proofs Decide_Proofs RequestSpec Request_Proofs HistorySpec Run_Proofs Wiring_Proofs Hist_Proofs Prop_Server Prop_History SafeSpec Safe_Proofs LegitSpec Legit_Proofs Prop_Safe BodySpec Body_Proofs.
Local Open Scope N_scope.

Lemma meta_sent_unique E v i meta m m' : meta_sent E v i meta m -> meta_sent E v i meta m' -> m = m'.
Proof.
  intros [[N ->]|[-> (lg & O & ->)]] [[N' ->]|[X (lg' & O' & ->)]]; try congruence.
  rewrite (option_is_unique _ _ _ _ _ _ _ O O'). reflexivity.
Qed.
Lemma header_not_40 m : header 20 m <> header 40 (s2b "internal error").
Proof. intros H. apply (f_equal (hd 0)) in H. cbn in H. discriminate. Qed.

Lemma run_opening E fs sni chunks es c2 : run E (opening fs sni chunks ++ es) fresh = Some (OK c2) ->
  exists c1, run E (opening fs sni chunks) fresh = Some (OK c1) /\ run E es c1 = Some (OK c2).
Proof.
  rewrite run_app. destruct (run E (opening fs sni chunks) fresh) as [[c1| |]|]; try discriminate. intros R. exists c1. auto.
Qed.

(** the state once a body is to be sent *)
Lemma body_B c1 whole rest : plain c1 -> wok c1 -> c_out c1 <> [] ->
  stream c1 ++ rest = whole ->
  (c_type c1 = RFILE /\ c_pfd c1 = PFile rest) \/ (c_type c1 = RDIR /\ dir_lines (c_dir c1) = OK rest) -> B whole c1.
Proof.
  intros ((A1 & A2 & A3 & A4) & Hs & _) W O S T.
  split; [exact Hs|]. split; [exact A1|]. split; [exact A3|]. split; [exact A4|]. split; [destruct W as [W|[W|W]]; congruence|].
  exists rest. split; [exact S|]. destruct T as [T|T]; auto.
Qed.

(** What is promised of a body [whole] (header included): at any moment what
    was sent is the start of it; when the server closes the connection by itself
    all of it was sent; until then the server has something to write, and it
    will have called write only so many times. *)
Definition delivered (whole : list N) (es : list event) (c : client) : Prop :=
  is_prefix (c_sent c) whole /\
  (c_closed c = true -> c_sent c = whole \/ aborted es) /\
  (c_closed c = false -> c_wev c = true) /\
  (writes es <= 2 * length whole + 2)%nat.

Lemma B_delivered E whole rest es c1 c2 : B whole c1 -> full_reads es -> run E es c1 = Some (OK c2) ->
  c_sent c1 = [] -> whole = c_out c1 ++ rest -> (Body_Proofs.left c1 <= S (2 * length rest))%nat -> delivered whole es c2.
Proof.
  intros HB F R S0 WH LF. destruct (B_run E whole es c1 c2 HB F R) as [X W].
  assert (PW : forall c, is_prefix (stream c) whole -> is_prefix (c_sent c) whole).
  { intros c (r & H). exists (c_out c ++ r). rewrite H. unfold stream. rewrite app_assoc. reflexivity. }
  split; [destruct X as [X|[_ [[X _]|[_ X]]]]; [apply PW, (B_prefix _ _ X)|rewrite X; apply prefix_refl|apply PW, X]|].
  split; [|split].
  - intros CL. destruct X as [X|[_ [[X _]|[X _]]]]; [|auto|auto]. destruct X as (_ & _ & _ & X & _). congruence.
  - intros CL. destruct X as [X|[(X & _) _]]; [|congruence]. destruct X as (_ & _ & _ & _ & X & _). exact X.
  - revert W. unfold measure. rewrite WH, app_length. lia.
Qed.

(** ** C21 *)
Theorem c21_file_partial E fs sni v line i asked chunks c0 os ty content m es c2 :
  conf_ok E -> sort_ok E -> request E fs sni v line i asked chunks c0 ->
  decides E fs v i (c_domain c0) asked (mkD os (WBody ty content)) ->
  meta_sent E v i ty m -> (length m <= 1024)%nat ->
  run E (opening fs sni chunks ++ es) fresh = Some (OK c2) -> full_reads es ->
  delivered (header 20 m ++ content) es c2.
Proof.
  intros HO HS RQ D MS ML R F. apply run_opening in R as (c1 & R1 & R2).
  destruct (opening_done E fs sni v line i asked chunks c0 c1 HO HS RQ R1) as (d & D' & P & HK & L & W & K0 & S0 & T0 & H & PL).
  destruct (c15_exactly_one _ _ _ _ _ _ _ _ D D') as [OS SW]. cbn [d_open d_what] in OS, SW.
  destruct SW as [SW|(p & l & l' & X & _)]; [|discriminate].
  destruct P as (new & _ & SE & _ & _ & P). cbv zeta in P. rewrite <- SW in P. destruct P as (h & (m' & MS' & HH) & OU & P).
  rewrite <- (meta_sent_unique _ _ _ _ _ _ MS MS') in HH. rewrite (proj2 (Nat.leb_le _ _) ML) in HH.
  destruct P as [(_ & TY & PF)|P]; [|subst h; exfalso; exact (header_not_40 m P)].
  rewrite S0 in SE. rewrite HH in OU.
  refine (B_delivered E _ content es c1 c2 _ F R2 SE _ _).
  - apply (body_B c1 _ content); [apply PL; auto|exact W|rewrite OU; discriminate| |auto].
    unfold stream. rewrite SE, OU. reflexivity.
  - rewrite OU. reflexivity.
  - unfold Body_Proofs.left. rewrite TY, PF. lia.
Qed.
Print Assumptions c21_file_partial.

(** A file that is served, and delivered. *)
Definition ex_chunks : list (list N) := [s2b "gemini:/"; s2b "/h/f.gmi" ++ [13]; [10]].
Definition ex_iri : comps := mkC (s2b "gemini") (s2b "h") [] 1965 (s2b "f.gmi") [] [].
Definition ex_E : env := ex_env (ex_vhost plain_loc [] []) None.
Definition ex_c0 : client := ok_state (connected ex_E).

Lemma governs_loc0 fnm path P v : v_locs v = [] -> governs fnm path P v (v_loc0 v).
Proof. intros H. right. split; [reflexivity|]. rewrite H. constructor. Qed.
Ltac opt := eexists; split; [apply governs_loc0; reflexivity|reflexivity].

Example c21_hypotheses : conf_ok ex_E /\ sort_ok ex_E /\
  request ex_E ex_fs (Some (s2b "h")) (ex_vhost plain_loc [] []) (s2b "gemini://h/f.gmi") ex_iri (s2b "h") ex_chunks ex_c0 /\
  decides ex_E ex_fs (ex_vhost plain_loc [] []) ex_iri (c_domain ex_c0) (s2b "h") (mkD [(3, s2b "f.gmi")] (WBody (s2b "text/gemini") (s2b "hello"))) /\
  meta_sent ex_E (ex_vhost plain_loc [] []) ex_iri (s2b "text/gemini") (s2b "text/gemini") /\
  exists c2, run ex_E (opening ex_fs (Some (s2b "h")) ex_chunks ++
      [EvWrite 3 (RdMax BUFSIZ); EvWrite 20 (RdMax BUFSIZ); EvWrite 2 (RdMax BUFSIZ); EvWrite 9 (RdMax BUFSIZ)]) fresh = Some (OK c2) /\
    c_closed c2 = true /\ c_sent c2 = s2b "20 text/gemini" ++ [13; 10] ++ s2b "hello".
Proof.
  split; [repeat constructor|]. split; [exact isort_ok|].
  split.
  { constructor.
    - vm_compute. reflexivity.
    - vm_compute. reflexivity.
    - vm_compute. repeat constructor.
    - apply readln_none. vm_compute. reflexivity.
    - split; [repeat constructor; discriminate|]. split; [repeat constructor|]. split; [eexists; split; vm_compute; reflexivity|].
      eexists. split; [vm_compute; reflexivity|]. vm_compute. reflexivity.
    - split; [vm_compute; reflexivity|]. repeat constructor; discriminate. }
  split.
  { apply d_admitted with (ca := None); [constructor|split; [reflexivity|vm_compute; reflexivity]|opt|discriminate|].
    refine (a_file ex_E ex_fs _ ex_iri _ 3 0%nat _ _ _ _ _ _); [opt| |opt|opt|].
    - eexists. split; [apply governs_loc0; reflexivity|]. discriminate.
    - change (ex_fs 3 (below ex_iri 0)) with (NFile true (s2b "hello")). constructor. vm_compute. reflexivity. }
  split.
  { right. split; [reflexivity|]. exists []. split; [opt|reflexivity]. }
  eexists. split; [vm_compute; reflexivity|]. split; vm_compute; reflexivity.
Qed.

(** Were [read] to return less than what is left of the file before its end (as
    it may on a network file system, a FIFO or after a signal), the body would
    be cut there: server.c:1085 takes any short read for the last. *)
Definition ex_short : list event := [EvWrite 16 (RdMax 2); EvWrite 9 (RdMax 2)].
Theorem c21_short_read_refuted :
  ~ (forall E fs sni v line i asked chunks c0 os ty content m es c2,
     conf_ok E -> sort_ok E -> request E fs sni v line i asked chunks c0 ->
     decides E fs v i (c_domain c0) asked (mkD os (WBody ty content)) ->
     meta_sent E v i ty m -> (length m <= 1024)%nat ->
     run E (opening fs sni chunks ++ es) fresh = Some (OK c2) ->
     c_closed c2 = true -> ~ aborted es -> c_sent c2 = header 20 m ++ content).
Proof.
  intros H. destruct c21_hypotheses as (H1 & H2 & H3 & H4 & H5 & _).
  specialize (H _ _ _ _ _ _ _ _ _ _ _ _ _ ex_short (ok_state (run ex_E (opening ex_fs (Some (s2b "h")) ex_chunks ++ ex_short) fresh)) H1 H2 H3 H4 H5).
  assert (Z : leqb (c_sent (ok_state (run ex_E (opening ex_fs (Some (s2b "h")) ex_chunks ++ ex_short) fresh))) (header 20 (s2b "text/gemini") ++ s2b "hello") = true).
  { rewrite H; [vm_compute; reflexivity| | | |].
    - apply Nat.leb_le. vm_compute. reflexivity.
    - vm_compute. reflexivity.
    - vm_compute. reflexivity.
    - intros [X|X]; repeat (destruct X as [X|X]; [discriminate|]); contradiction. }
  vm_compute in Z. discriminate.
Qed.
Print Assumptions c21_short_read_refuted.

(** ** C22 *)
Lemma encode_len p : (length (pct_encode p) <= 3 * length p)%nat.
Proof. unfold pct_encode. induction p as [|c p IH]; [cbn; lia|]. cbn [flat_map]. rewrite app_length. destruct (g_path c); cbn [length] in *; lia. Qed.

Lemma dir_line_ok d : entry_name (fst d) -> dir_line d = OK (link_line d).
Proof.
  intros (H1 & H2 & H3). unfold dir_line, link_line.
  destruct (c08_encode_path (fst d) PATH_MAX H1 H2 ltac:(unfold PATH_MAX; lia)) as (r & buf & -> & _ & A & _).
  pose proof (encode_len (fst d)) as L.
  destruct A as [_ A].
  { apply Nat.le_lt_trans with (3 * 255)%nat; [lia|]. unfold PATH_MAX. lia. }
  cbn [bind]. rewrite A. reflexivity.
Qed.
Lemma dir_lines_ok l : Forall (fun d => entry_name (fst d)) l -> dir_lines l = OK (concat (map link_line l)).
Proof.
  induction 1 as [|d l H _ IH]; [reflexivity|]. cbn [dir_lines map concat]. rewrite (dir_line_ok d H). cbn [bind]. rewrite IH. reflexivity.
Qed.

Definition index_text (path : list N) (l : list (list N * bool)) : list N :=
  s2b "# Index of /" ++ path ++ [10; 10] ++ concat (map link_line l).

Theorem c22_listing E fs sni v line i asked chunks c0 os path l0 m es c2 :
  conf_ok E -> sort_ok E -> request E fs sni v line i asked chunks c0 ->
  decides E fs v i (c_domain c0) asked (mkD os (WList path l0)) -> Forall (fun d => entry_name (fst d)) l0 ->
  meta_sent E v i (s2b "text/gemini") m -> (length m <= 1024)%nat ->
  run E (opening fs sni chunks ++ es) fresh = Some (OK c2) -> full_reads es ->
  exists l, decides E fs v i (c_domain c0) asked (mkD os (WList path l)) /\ Permutation l l0 /\
    delivered (header 20 m ++ index_text path l) es c2.
Proof.
  intros HO HS RQ D EN MS ML R F. apply run_opening in R as (c1 & R1 & R2).
  destruct (opening_done E fs sni v line i asked chunks c0 c1 HO HS RQ R1) as (d & D' & P & HK & L & W & K0 & S0 & T0 & H & PL).
  destruct (c15_exactly_one _ _ _ _ _ _ _ _ D D') as [OS SW]. cbn [d_open d_what] in OS, SW.
  assert (exists l, d_what d = WList path l /\ Permutation l l0) as (l & DW & PM).
  { destruct SW as [SW|(p & l & l' & X1 & X2 & X3)]; [exists l0; split; [symmetry; exact SW|apply Permutation_refl]|].
    injection X1 as <- <-. exists l'. split; [exact X2|apply Permutation_sym; exact X3]. }
  exists l. split; [destruct d as [os' w]; cbn [d_open d_what] in OS, DW; subst os' w; exact D'|]. split; [exact PM|].
  destruct P as (new & _ & SE & _ & _ & P). cbv zeta in P. rewrite DW in P. destruct P as (h & (m' & MS' & HH) & OU & P).
  rewrite <- (meta_sent_unique _ _ _ _ _ _ MS MS') in HH. rewrite (proj2 (Nat.leb_le _ _) ML) in HH.
  destruct P as [(_ & TY & PF)|P]; [|subst h; exfalso; exact (header_not_40 m P)].
  rewrite S0 in SE. rewrite HH in OU.
  assert (DL : dir_lines (c_dir c1) = OK (concat (map link_line l))).
  { rewrite PF. apply dir_lines_ok. rewrite Forall_forall in EN |- *. intros x Hx. apply EN. eapply Permutation_in; eauto. }
  assert (WH : header 20 m ++ index_text path l = c_out c1 ++ concat (map link_line l)).
  { rewrite OU. unfold index_text. rewrite <- !app_assoc. reflexivity. }
  refine (B_delivered E _ _ es c1 c2 _ F R2 SE WH _).
  - apply (body_B c1 _ (concat (map link_line l))); [apply PL; auto|exact W|rewrite OU; discriminate| |right; auto].
    unfold stream. rewrite SE, WH. reflexivity.
  - unfold Body_Proofs.left. rewrite TY, DL. lia.
Qed.
Print Assumptions c22_listing.

(** what is listed: the directory that was asked for, complete and sorted *)
Theorem c22_complete E fs v i sni asked os path l : decides E fs v i sni asked (mkD os (WList path l)) ->
  exists fd p look entries root, os = [(fd, p)] /\ fs fd p = NDir look (Some entries) /\ path = c_path i /\
    (root = true <-> path = [] \/ path = [47]) /\ shown root entries l.
Proof.
  intros D. inversion D as [p w _ RL| |ca w _ _ _ RF|ca d _ _ _ _ AD]; subst; try (inversion RL; subst; inversion H; fail); try (inversion RF; fail).
  inversion AD as [| | | |fd n w O1 O2 O3 O4 FD]; subst.
  inversion FD as [| | |look entries w DR EQ]; subst.
  assert (LS : lists E v i entries (WList path l)) by (inversion DR; subst; assumption).
  inversion LS as [| |es' l' _ ES SH]; subst. exists fd, (below i n), look, es', (leqb (c_path i) [47] || isnil (c_path i)).
  split; [reflexivity|]. split; [symmetry; exact EQ|]. split; [reflexivity|]. split; [|exact SH].
  rewrite orb_true_iff, leqb_eq. destruct (c_path i); cbn [isnil]; split; intros [X|X]; auto; discriminate.
Qed.
Print Assumptions c22_complete.

(** following a link: "./name" below the directory that was asked for is that
    directory's path with the name appended *)
Lemma split_app a b : split_slash (a ++ 47 :: b) = split_slash a ++ split_slash b.
Proof.
  induction a as [|c a IH]; [reflexivity|]. cbn [app split_slash]. rewrite IH. destruct (c =? 47); [reflexivity|].
  destruct (split_slash a) eqn:Q; [destruct a; cbn in Q; [discriminate|destruct (n =? 47); [discriminate|destruct (split_slash a); discriminate]]|reflexivity].
Qed.
Lemma split_plain n : ~ In 47 n -> split_slash n = [n].
Proof.
  induction n as [|c n IH]; intros H; [reflexivity|]. cbn [split_slash]. destruct (N.eqb_spec c 47); [exfalso; apply H; left; auto|].
  rewrite IH; [reflexivity|]. intros X. apply H. right. exact X.
Qed.
Lemma join_snoc ws n : ws <> [] -> join_slash (ws ++ [n]) = join_slash ws ++ 47 :: n.
Proof.
  induction ws as [|w ws IH]; [congruence|]. intros _. destruct ws as [|w2 ws]; [reflexivity|].
  change (join_slash ((w :: w2 :: ws) ++ [n])) with (w ++ 47 :: join_slash ((w2 :: ws) ++ [n])). rewrite IH by discriminate.
  cbn [join_slash]. rewrite <- app_assoc. reflexivity.
Qed.
Definition segment (n : list N) : Prop := n <> [] /\ n <> [46] /\ n <> [46; 46] /\ ~ In 47 n.
Lemma kept_push d n : segment n -> IriSpec.kept (d ++ 47 :: n) = IriSpec.kept d ++ [n] /\ IriSpec.kept n = [n].
Proof.
  intros (H1 & H2 & H3 & H4). unfold IriSpec.kept. rewrite split_app, (split_plain n H4), fold_left_app. cbn [fold_left].
  assert (S : forall st, seg_step st n = n :: st).
  { intros st. unfold seg_step. destruct (leqb n []) eqn:A; [apply leqb_eq in A; contradiction|]. destruct (leqb n [46]) eqn:A2; [apply leqb_eq in A2; contradiction|].
    destruct (leqb n [46; 46]) eqn:A3; [apply leqb_eq in A3; contradiction|reflexivity]. }
  rewrite !S. split; reflexivity.
Qed.
Lemma ends_seg d n : segment n -> IriSpec.ends_slash (d ++ n) = false.
Proof.
  intros (H1 & _ & _ & H4). unfold IriSpec.ends_slash. rewrite rev_app_distr. destruct (rev n) as [|x r] eqn:Q.
  - exfalso. apply H1. apply (f_equal (@rev N)) in Q. rewrite rev_involutive in Q. exact Q.
  - cbn [app]. apply N.eqb_neq. intros ->. apply H4. apply in_rev. rewrite Q. left. reflexivity.
Qed.
Lemma canon_child d n : canon d = d -> (d = [] \/ last d 0 = 47) -> segment n -> canon (d ++ n) = d ++ n.
Proof.
  intros C E S. destruct (list_eq_dec N.eq_dec d []) as [->|ND].
  - cbn [app]. unfold canon. rewrite (proj2 (kept_push [] n S)). rewrite (ends_seg [] n S : IriSpec.ends_slash n = false). cbn. apply app_nil_r.
  - destruct E as [E|E]; [contradiction|]. destruct (exists_last ND) as (d' & x & ->). rewrite last_last in E. subst x.
    rewrite <- app_assoc. cbn [app]. unfold canon. rewrite (proj1 (kept_push d' n S)).
    assert (HE : IriSpec.ends_slash (d' ++ 47 :: n) = false) by (change (47 :: n) with ([47] ++ n); rewrite app_assoc; apply ends_seg; exact S).
    rewrite HE. cbn [andb]. rewrite app_nil_r.
    assert (KD : IriSpec.kept (d' ++ [47]) = IriSpec.kept d').
    { unfold IriSpec.kept. rewrite split_app. rewrite fold_left_app. reflexivity. }
    unfold canon in C. rewrite KD in C. unfold IriSpec.ends_slash in C. rewrite rev_app_distr in C. cbn [rev app] in C. rewrite N.eqb_refl in C. cbn [andb] in C.
    destruct (IriSpec.kept d') as [|w ws] eqn:Q; [cbn in C; destruct d'; discriminate|]. cbn [negb] in C. apply app_inj_tail in C as [C _].
    rewrite join_snoc by discriminate. rewrite C. reflexivity.
Qed.

Lemma hexval_lt a : hexval a < 16.
Proof. unfold hexval, is_digit. repeat match goal with |- context [if ?b then _ else _] => destruct b eqn:? end; lia. Qed.
Lemma items_bytes ok s s' : (forall c, ok c = true -> c < 256) -> items ok true s s' -> bytes s'.
Proof.
  intros Hok. induction 1 as [|a a' s s' I _ IH]; [constructor|]. apply bytes_app. split; [|exact IH].
  destruct I as [c Hc|a b Ha Hb|cp Hs Hc]; [repeat constructor; auto| |apply utf8_bytes_lo; exact Hs].
  repeat constructor. pose proof (hexval_lt a). pose proof (hexval_lt b). lia.
Qed.
Lemma accepted_path ip6 line i : g_iri ip6 line i -> nonul (c_path i) /\ bytes (c_path i).
Proof.
  intros H. destruct H as [c sch hs host ps port no rest path query frag _ _ _ _ HR]. cbn [c_path].
  assert (G : forall p p', items g_path true p p' -> nonul (canon p') /\ bytes (canon p')).
  { intros p p' I. split; [apply canon_nonul; eapply items_nonul; [exact g_path_good|exact I]|].
    assert (Bp : bytes p') by (eapply items_bytes; [|exact I]; intros x X; apply vis_path in X; lia).
    unfold bytes in *. rewrite Forall_forall in *. intros x X. destruct (canon_sub _ _ X) as [Y| ->]; [apply Bp; exact Y|lia]. }
  destruct HR; eauto. split; constructor.
Qed.

Theorem c22_link ip6 ip6' line i n : nonul line -> bytes line -> accepts ip6 line i -> c_path i = [] \/ last (c_path i) 0 = 47 ->
  nonul n -> bytes n -> segment n ->
  accepts ip6' (s2b "gemini://h/" ++ pct_encode (c_path i) ++ pct_encode n) (mkC (s2b "gemini") (s2b "h") [] 1965 (c_path i ++ n) [] []) /\
  ~ In 10 (pct_encode n).
Proof.
  intros N1 B1 A E N2 B2 S. apply accepts_iff in A; [|assumption|assumption].
  assert (CP : canon (c_path i) = c_path i) by (destruct (g_iri_path _ _ _ A) as (q & ->); apply canon_idem).
  destruct (accepted_path _ _ _ A) as (N3 & B3).
  split.
  - rewrite <- (canon_child _ _ CP E S). assert (PA : pct_encode (c_path i) ++ pct_encode n = pct_encode (c_path i ++ n)) by (unfold pct_encode; symmetry; apply flat_map_app). rewrite PA. apply c08_encode_roundtrip; [apply nonul_app; auto|apply bytes_app; auto].
  - intros X. unfold pct_encode in X. apply in_flat_map in X as (x & _ & X). destruct (g_path x) eqn:G; [destruct X as [X|[]]; subst x; vm_compute in G; discriminate|].
    assert (HX : forall k, nth k HEX 0 <> 10).
    { intros k. do 16 (destruct k as [|k]; [discriminate|]). destruct k; discriminate. }
    destruct X as [X|[X|[X|[]]]]; [discriminate|exact (HX _ X)|exact (HX _ X)].
Qed.
Print Assumptions c22_link.

(** A directory with an odd name in it, listed. *)
Definition ls_loc : location := mkLoc (s2b "*") (s2b "en") [] [] 1 0 [] 0 None false None false 0 [] [] (Some 3).
Definition ls_fs (fd : N) (p : list N) : node :=
  if leqb p (s2b "d/") then NDir (fun _ => NMissing) (Some [(s2b "..", true); (s2b "x", false); (s2b ".", true); (s2b "a b", true)]) else NMissing.
Definition ls_E : env := ex_env (ex_vhost ls_loc [] []) None.
Definition ls_c0 : client := ok_state (connected ls_E).
Definition ls_iri : comps := mkC (s2b "gemini") (s2b "h") [] 1965 (s2b "d/") [] [].
Definition ls_list : list (list N * bool) := [(s2b "..", true); (s2b "a b", true); (s2b "x", false)].
Example c22_hypotheses : conf_ok ls_E /\ sort_ok ls_E /\
  request ls_E ls_fs (Some (s2b "h")) (ex_vhost ls_loc [] []) (s2b "gemini://h/d/") ls_iri (s2b "h") [s2b "gemini://h/d/" ++ [13; 10]] ls_c0 /\
  decides ls_E ls_fs (ex_vhost ls_loc [] []) ls_iri (c_domain ls_c0) (s2b "h") (mkD [(3, s2b "d/")] (WList (s2b "d/") ls_list)) /\
  meta_sent ls_E (ex_vhost ls_loc [] []) ls_iri (s2b "text/gemini") (s2b "text/gemini;lang=en") /\
  Forall (fun d => entry_name (fst d)) ls_list /\
  exists c2, run ls_E (opening ls_fs (Some (s2b "h")) [s2b "gemini://h/d/" ++ [13; 10]] ++
      [EvWrite 30 (RdMax BUFSIZ); EvWrite 99 (RdMax BUFSIZ); EvWrite 99 (RdMax BUFSIZ)]) fresh = Some (OK c2) /\
    c_closed c2 = true /\ c_sent c2 = s2b "20 text/gemini;lang=en" ++ [13; 10] ++ s2b "# Index of /d/" ++ [10; 10] ++ s2b "=> ./../" ++ [10] ++ s2b "=> ./a%20b/" ++ [10] ++ s2b "=> ./x" ++ [10].
Proof.
  split; [repeat constructor|]. split; [exact isort_ok|].
  split.
  { constructor.
    - vm_compute. reflexivity.
    - vm_compute. reflexivity.
    - vm_compute. repeat constructor.
    - apply readln_none. vm_compute. reflexivity.
    - split; [repeat constructor; discriminate|]. split; [repeat constructor|]. split; [eexists; split; vm_compute; reflexivity|].
      eexists. split; [vm_compute; reflexivity|]. vm_compute. reflexivity.
    - split; [vm_compute; reflexivity|]. repeat constructor; discriminate. }
  split.
  { apply d_admitted with (ca := None); [constructor|split; [reflexivity|vm_compute; reflexivity]|opt|discriminate|].
    refine (a_file ls_E ls_fs _ ls_iri _ 3 0%nat _ _ _ _ _ _); [opt| |opt|opt|].
    - eexists. split; [apply governs_loc0; reflexivity|]. discriminate.
    - change (ls_fs 3 (below ls_iri 0)) with (NDir (fun _ => NMissing) (Some [(s2b "..", true); (s2b "x", false); (s2b ".", true); (s2b "a b", true)])).
      constructor. refine (dr_list _ _ _ _ _ [] (s2b "index.gmi") _ _ _ _ _ _); [right; reflexivity|opt|reflexivity|left; reflexivity|].
      refine (ls_ok _ _ _ _ _ _ _ eq_refl _); [opt|]. exact (isort_ok (filter (fun d => negb (hidden false (fst d))) [(s2b "..", true); (s2b "x", false); (s2b ".", true); (s2b "a b", true)])). }
  split.
  { right. split; [reflexivity|]. exists (s2b "en"). split; [opt|reflexivity]. }
  split.
  { repeat constructor; try discriminate; apply Nat.leb_le; vm_compute; reflexivity. }
  eexists. split; [vm_compute; reflexivity|]. split; vm_compute; reflexivity.
Qed.
