From Verif Require Import Base BaseLemmas Utf8 Utf8Spec Utf8_Proofs Iri IriSpec IriObs IriSafeSpec PathClean_Proofs Canon_Proofs Iri_Proofs Iri_Proofs2 Iri_Proofs3 Iri_Grammar_Proofs Iri_Len_Proofs.
Local Open Scope N_scope.

Lemma parse_total ip6 s junk : nonul s -> bytes s ->
  exists b p, parse_iri ip6 (s ++ 0 :: junk) = OK (b, p) /\ length (mem p) = length (s ++ 0 :: junk) /\
    (b = true -> exists c, comps_of p = Some c).
Proof.
  intros Hn Hb. destruct (parse_iri_refines ip6 s junk Hn Hb) as (b & p & E & H).
  exists b, p. split; [exact E|]. split; [eapply parse_iri_len; exact E|].
  intros ->. destruct (f_iri ip6 s); [|discriminate]. destruct H; eauto.
Qed.

Lemma accepts_iff ip6 s c : nonul s -> bytes s -> (accepts ip6 s c <-> g_iri ip6 s c).
Proof.
  intros Hn Hb. rewrite <- f_iri_iff by auto.
  destruct (parse_iri_refines ip6 s [] Hn Hb) as (b & p & E & H). unfold accepts. split.
  - intros (p' & E' & C). rewrite E in E'. inversion E'; subst.
    destruct (f_iri ip6 s); [|discriminate]. destruct H as [_ H]. congruence.
  - intros F. rewrite F in H. destruct H as [-> H]. eauto.
Qed.

Lemma refuses_iff ip6 s : nonul s -> bytes s -> (refuses ip6 s <-> ~ exists c, g_iri ip6 s c).
Proof.
  intros Hn Hb.
  destruct (parse_iri_refines ip6 s [] Hn Hb) as (b & p & E & H). unfold refuses. split.
  - intros (p' & E') (c & G). apply f_iri_iff in G; auto. rewrite G in H. destruct H as [-> _]. congruence.
  - intros G. destruct (f_iri ip6 s) as [c|] eqn:F.
    + exfalso. apply G. exists c. apply f_iri_iff; auto.
    + subst b. eauto.
Qed.

Lemma g_iri_path ip6 s c : g_iri ip6 s c -> exists p, c_path c = canon p.
Proof.
  intros I. destruct I as [? ? ? ? ? ? ? ? ? ? ? ? ? ? ? R]. cbn. destruct R; eauto. exists []. reflexivity.
Qed.

Lemma canon_safe s : safe_path (canon s).
Proof.
  destruct (canon_segments s) as [H|[(ws & A & B & C)|(ws & A & B & C)]].
  - left. exact H.
  - right. exists ws. auto.
  - right. exists ws. auto.
Qed.

Lemma walk_proper ws : Forall proper_segment ws -> forall d, walk d ws = Some (d + length ws)%nat.
Proof.
  induction 1 as [|w ws (H1 & H2 & H3 & H4) Hws IH]; intros d; cbn [walk length].
  - rewrite Nat.add_0_r. reflexivity.
  - apply leqb_neq in H1, H3, H4. rewrite H1, H3, H4. cbn [orb]. rewrite IH. f_equal. lia.
Qed.

Lemma walk_app ws : forall us d, walk d (ws ++ us) = match walk d ws with Some d' => walk d' us | None => None end.
Proof.
  induction ws as [|w ws IH]; intros us d; cbn [walk app]; [reflexivity|].
  destruct (_ || _); [apply IH|]. destruct (leqb _ _); [destruct d; auto|]. apply IH.
Qed.

Lemma safe_walk p : safe_path p -> forall d, exists k, walk d (split_slash p) = Some (d + k)%nat.
Proof.
  intros [->|(ws & _ & H & [E|E])] d.
  - exists 0%nat. cbn. f_equal. lia.
  - exists (length ws). rewrite E. apply walk_proper; auto.
  - exists (length ws). rewrite E, walk_app, walk_proper by auto. reflexivity.
Qed.

Lemma accepted_path_safe ip6 s c : nonul s -> bytes s -> accepts ip6 s c ->
  hd 0 (c_path c) <> 47 /\ safe_path (c_path c) /\
  (forall pre suf, split_slash (c_path c) = pre ++ suf -> walk 0 pre <> None).
Proof.
  intros Hn Hb A. apply accepts_iff in A; auto. destruct (g_iri_path _ _ _ A) as (p & ->).
  split; [apply canon_relative|]. split; [apply canon_safe|].
  intros pre suf E W. destruct (safe_walk _ (canon_safe p) 0) as (k & K).
  rewrite E, walk_app, W in K. discriminate.
Qed.

(** ** %00 *)
Definition anyc (c : N) : bool := (c <? 128) && negb (c =? 37).

Lemma items_app ok dec a a' b b' : items ok dec a a' -> items ok dec b b' -> items ok dec (a ++ b) (a' ++ b').
Proof. intros I J. induction I; cbn; auto. rewrite <- !app_assoc. constructor; auto. Qed.

Lemma items_plain ok dec s : forallb ok s = true -> items ok dec s s.
Proof.
  induction s as [|c s IH]; cbn; intros H; [constructor|]. apply andb_true_iff in H.
  apply (its_cons _ _ [c] [c]); [constructor|]; tauto.
Qed.

Lemma items_weaken ok ok' dec s s' : (forall c, ok c = true -> ok' c = true) -> items ok dec s s' -> items ok' false s s.
Proof.
  intros H I. induction I as [|a a' s s' Ha I IH]; constructor; auto.
  destruct Ha; [constructor; auto| |constructor; auto].
  exact (it_pct ok' false a b H0 H1 H2).
Qed.

Definition clean (s : list N) : Prop := items anyc false s s.

Lemma clean_app a b : clean a -> clean b -> clean (a ++ b).
Proof. apply items_app. Qed.

Lemma utf8_bytes_hi cp : 128 <= cp -> forall x, In x (utf8_encode cp) -> 128 <= x.
Proof.
  intros H x. unfold utf8_encode. destruct (N.ltb_spec cp 128); [lia|].
  destruct (cp <? 2048); [|destruct (cp <? 65536)]; cbn; intuition lia.
Qed.

Lemma clean_no00 s s' : items anyc false s s' -> forall a b r, s ++ r = a ++ 37 :: 48 :: 48 :: b -> (length s <= length a)%nat.
Proof.
  intros I. induction I as [|x x' s s' Hx I IH]; intros a b r E. { cbn. lia. }
  rewrite <- app_assoc in E.
  assert (K : forall y z, x = y ++ 37 :: z -> y = [] /\ exists u v, z = [u; v] /\ (u, v) <> (48, 48)).
  { intros y z Ex. destruct Hx as [c Hc|u v A B C|cp A B].
    - destruct y as [|? [|? ?]]; cbn in Ex; inversion Ex; subst; discriminate.
    - destruct y as [|y0 y]; cbn in Ex; inversion Ex; subst. { split; eauto. }
      exfalso. destruct y as [|y1 [|y2 y]]; cbn in *; inversion H1; subst; try discriminate.
      destruct y; discriminate.
    - exfalso. assert (In 37 (utf8_encode cp)) by (rewrite Ex; apply in_or_app; cbn; auto).
      apply utf8_bytes_hi in H; lia. }
  (* is the 37 inside x ? *)
  destruct (Nat.le_gt_cases (length x) (length a)) as [L|L].
  - assert (exists a2, a = x ++ a2) as (a2 & ->).
    { exists (skipn (length x) a). rewrite <- (firstn_skipn (length x) a) at 1. f_equal.
      transitivity (firstn (length x) (x ++ s ++ r)).
      - rewrite E. rewrite firstn_app. replace (length x - length a)%nat with 0%nat by lia.
        cbn [firstn]. rewrite app_nil_r. reflexivity.
      - apply firstn_pre. reflexivity. }
    rewrite <- app_assoc in E. apply app_inv_head in E. apply IH in E. rewrite !app_length. lia.
  - exfalso.
    assert (exists z, x = a ++ 37 :: z) as (z & Ez).
    { exists (skipn (S (length a)) x).
      assert (F : firstn (S (length a)) x = a ++ [37]).
      { transitivity (firstn (S (length a)) (x ++ s ++ r)).
        - rewrite firstn_app. replace (S (length a) - length x)%nat with 0%nat by lia. cbn [firstn]. rewrite app_nil_r. reflexivity.
        - rewrite E. replace (a ++ 37 :: 48 :: 48 :: b) with ((a ++ [37]) ++ 48 :: 48 :: b) by (rewrite <- app_assoc; reflexivity).
          apply firstn_pre. rewrite app_length. cbn. lia. }
      rewrite <- (firstn_skipn (S (length a)) x) at 1. rewrite F, <- app_assoc. reflexivity. }
    destruct (K _ _ Ez) as (-> & u & v & -> & Hne). subst x. cbn in E. inversion E; subst. apply Hne. reflexivity.
Qed.

Lemma anyc_sub (f : N -> bool) : (forall c, f c = true -> c <> 0 /\ c <> 37 /\ c < 128) ->
  forall c, f c = true -> anyc c = true.
Proof. intros G c H. apply G in H. unfold anyc. destruct (N.eqb_spec c 37); [tauto|]. destruct (N.ltb_spec c 128); [reflexivity|lia]. Qed.

Lemma goodcls_ext f g : (forall c, f c = g c) -> goodcls f -> goodcls g.
Proof. intros H G c Hc. apply G. rewrite H. exact Hc. Qed.
Lemma g_host_good : goodcls g_host. Proof. exact (goodcls_ext _ _ host_char_eq goodcls_host). Qed.
Lemma g_path_good : goodcls g_path. Proof. exact (goodcls_ext _ _ path_char_eq goodcls_path). Qed.
Lemma g_query_good : goodcls g_query. Proof. exact (goodcls_ext _ _ query_char_eq goodcls_query). Qed.
Lemma alpha_any c : is_alpha c = true -> anyc c = true.
Proof. unfold is_alpha, is_upper, is_lower, anyc. intros. destruct (N.eqb_spec c 37); lia. Qed.
Lemma scheme_any c : g_scheme c = true -> anyc c = true.
Proof.
  rewrite <- scheme_char_eq. unfold scheme_char, is_alnum, is_alpha, is_digit, is_upper, is_lower, anyc.
  intros. destruct (N.eqb_spec c 37); lia.
Qed.
Lemma digit_any c : is_digit c = true -> anyc c = true.
Proof. unfold is_digit, anyc. intros. destruct (N.eqb_spec c 37); lia. Qed.

Lemma forallb_imp {A} (f g : A -> bool) l : (forall x, f x = true -> g x = true) -> forallb f l = true -> forallb g l = true.
Proof. intros H. rewrite !forallb_forall. auto. Qed.

Lemma port_clean p a b : g_portpart p a b -> clean p.
Proof.
  intros I. destruct I as [|ds H]; [constructor|].
  apply items_plain. cbn. eapply forallb_imp; [|exact H]. apply digit_any.
Qed.

Lemma rest_clean r a q f : g_rest r a q f -> clean r \/ exists x, clean x /\ r = x ++ 35 :: f.
Proof.
  assert (P : forall p p', items g_path true p p' -> clean (47 :: p)).
  { intros p p' I. apply (clean_app [47]). { apply items_plain. reflexivity. }
    eapply items_weaken; [|exact I]. exact (anyc_sub _ g_path_good). }
  assert (Q : forall q, items g_query false q q -> clean (63 :: q)).
  { intros q' I. apply (clean_app [63]). { apply items_plain. reflexivity. }
    eapply items_weaken; [|exact I]. exact (anyc_sub _ g_query_good). }
  intros I. destruct I.
  - left. constructor.
  - left. eauto.
  - right. exists (47 :: p). split; [eauto|reflexivity].
  - left. apply (clean_app (47 :: p)); eauto.
  - right. exists ((47 :: p) ++ (63 :: q)). split; [apply clean_app; eauto|]. cbn. rewrite <- app_assoc. reflexivity.
Qed.

Lemma suffix_in (x y a b : list N) d : x ++ d :: y = a ++ b -> (length x < length a)%nat -> In d a.
Proof.
  revert a. induction x as [|c x IH]; intros a E L; destruct a as [|e a]; cbn in *; try lia; inversion E; subst; auto.
  right. apply IH; auto. lia.
Qed.

Lemma pct00_rejected ip6 a b c : nonul (a ++ [37; 48; 48] ++ b) -> bytes (a ++ [37; 48; 48] ++ b) ->
  accepts ip6 (a ++ [37; 48; 48] ++ b) c -> In 35 a \/ In 91 a.
Proof.
  intros Hn Hb A. apply accepts_iff in A; auto. clear Hn Hb. cbn [app] in *.
  remember (a ++ 37 :: 48 :: 48 :: b) as w eqn:E1.
  destruct A as [c0 sch hs h ps po no rest pa q f Ha Hs Hh Hp Hr].
  assert (C1 : clean ((c0 :: sch) ++ s2b "://")).
  { apply clean_app; [|apply items_plain; reflexivity]. apply items_plain. cbn [forallb].
    rewrite (alpha_any _ Ha). cbn. eapply forallb_imp; [|exact Hs]. apply scheme_any. }
  destruct Hh as [src out I|h Hni H6].
  - assert (C2 : clean (((c0 :: sch) ++ s2b "://") ++ src ++ ps)).
    { apply clean_app; auto. apply clean_app; [|eapply port_clean; eauto].
      eapply items_weaken; [|exact I]. exact (anyc_sub _ g_host_good). }
    destruct (rest_clean _ _ _ _ Hr) as [C3|(x & C3 & ->)].
    + exfalso. pose proof (clean_no00 _ _ (clean_app _ _ C2 C3) a b []) as K.
      rewrite app_nil_r in K. rewrite <- !app_assoc in K. specialize (K E1).
      apply (f_equal (@length N)) in E1. rewrite !app_length in *. cbn [length] in *. lia.
    + left. pose proof (clean_no00 _ _ (clean_app _ _ C2 C3) a b (35 :: f)) as K.
      rewrite <- !app_assoc in K. specialize (K E1).
      rewrite !app_assoc in E1. rewrite <- !app_assoc in E1.
      assert (E2 : ((c0 :: sch) ++ s2b "://" ++ src ++ ps ++ x) ++ 35 :: f = a ++ 37 :: 48 :: 48 :: b).
      { rewrite <- !app_assoc. exact E1. }
      destruct (Nat.eq_dec (length ((c0 :: sch) ++ s2b "://" ++ src ++ ps ++ x)) (length a)) as [L|L].
      * exfalso. apply (f_equal (skipn (length a))) in E2. rewrite skipn_pre in E2 by auto. rewrite skipn_pre in E2 by auto.
        inversion E2.
      * eapply suffix_in; [exact E2|]. lia.
  - right. set (x := (c0 :: sch) ++ s2b "://") in *.
    assert (E2 : x ++ 91 :: (h ++ [93]) ++ ps ++ rest = a ++ 37 :: 48 :: 48 :: b).
    { rewrite <- E1. unfold x. rewrite <- (app_assoc (c0 :: sch)). reflexivity. }
    clearbody x. clear E1.
    pose proof (clean_no00 _ _ C1 a b _ E2) as K.
    destruct (Nat.eq_dec (length x) (length a)) as [L|L].
    * exfalso. apply (f_equal (skipn (length a))) in E2.
      rewrite !skipn_pre in E2 by auto. inversion E2.
    * eapply suffix_in; [exact E2|]. lia.
Qed.

(** decoded components contain no NUL, so reading them as C strings loses nothing *)
Lemma items_nonul ok src out : goodcls ok -> items ok true src out -> nonul out.
Proof.
  intros G I. induction I as [|a a' s s' Ha I IH]; [constructor|]. apply nonul_app. split; auto.
  destruct Ha as [c Hc|x y H1 H2 H3|cp H1 H2].
  - apply G in Hc. constructor; [tauto|constructor].
  - destruct (xdigit_val x y H1 H2) as [_ H].
    { destruct (N.eqb_spec x 48); destruct (N.eqb_spec y 48); cbn; auto. subst. exfalso. apply H3. reflexivity. }
    constructor; [exact H|constructor].
  - apply Forall_forall. intros z Hz. apply utf8_bytes_hi in Hz; lia.
Qed.

(** ** ports *)
Lemma port_exact ip6 s c : nonul s -> bytes s -> accepts ip6 s c ->
  (exists pre post, s = pre ++ post /\ (post = [] \/ hd 0 post = 47) /\ c_port c = [] /\ c_port_no c = 1965) \/
  (exists pre post, s = pre ++ 58 :: c_port c ++ post /\ (post = [] \/ hd 0 post = 47) /\
     forallb is_digit (c_port c) = true /\ c_port_no c = decimal (c_port c) /\ c_port_no c <= 65535).
Proof.
  intros Hn Hb A. apply accepts_iff in A; auto.
  destruct A as [c0 sch hs h ps po no rest pa q f Ha Hs Hh Hp Hr]. cbn [c_port c_port_no].
  assert (R : rest = [] \/ hd 0 rest = 47) by (destruct Hr; cbn; auto).
  destruct Hp as [|ds H1 H2].
  - left. exists ((c0 :: sch) ++ s2b "://" ++ hs), rest. rewrite <- !app_assoc. cbn [app]. auto.
  - right. exists ((c0 :: sch) ++ s2b "://" ++ hs), rest. rewrite <- !app_assoc. cbn [app]. repeat split; auto.
Qed.

Lemma bad_port_refused ip6 c0 sch hs out port rest :
  nonul ((c0 :: sch) ++ s2b "://" ++ hs ++ 58 :: port ++ rest) ->
  bytes ((c0 :: sch) ++ s2b "://" ++ hs ++ 58 :: port ++ rest) ->
  is_alpha c0 = true -> forallb g_scheme sch = true -> items g_host true hs out ->
  ~ In 47 port -> (rest = [] \/ hd 0 rest = 47) ->
  (forallb is_digit port = false \/ 65535 < decimal port) ->
  refuses ip6 ((c0 :: sch) ++ s2b "://" ++ hs ++ 58 :: port ++ rest).
Proof.
  intros Hn Hb Ha Hs Hh Hp Hr Hbad.
  destruct (parse_iri_refines ip6 _ [] Hn Hb) as (b & p & E & H). exists p. rewrite E.
  enough (F : f_iri ip6 ((c0 :: sch) ++ s2b "://" ++ hs ++ 58 :: port ++ rest) = None) by (rewrite F in H; subst; reflexivity).
  unfold f_iri. rewrite (proj2 (f_scheme_iff _ (map to_lower (c0 :: sch)) (hs ++ 58 :: port ++ rest))) by (exists c0, sch; auto).
  assert (Hb2 : bytes (hs ++ 58 :: port ++ rest)).
  { apply bytes_app in Hb. destruct Hb as [_ Hb]. apply bytes_app in Hb. tauto. }
  unfold f_auth.
  rewrite (proj2 (f_host_iff ip6 _ (map to_lower out) (58 :: port ++ rest) Hb2 (or_introl (ex_intro _ 58 (ex_intro _ _ (conj eq_refl (or_introl eq_refl))))))).
  2:{ exists hs. split; auto. constructor; auto. }
  change (58 =? 58) with true. cbn iota.
  destruct (f_port (port ++ rest)) as [[[ds v] r]|] eqn:Ep; [|reflexivity]. exfalso.
  apply f_port_iff in Ep. destruct Ep as (A & B & -> & C).
  assert (ds = port).
  { assert (D : ~ In 47 ds). { intros Hin. eapply forallb_forall in A; eauto. discriminate. }
    assert (K : forall x y x' y', x ++ y = x' ++ y' -> ~ In 47 x -> ~ In 47 x' -> (y = [] \/ hd 0 y = 47) -> (y' = [] \/ hd 0 y' = 47) -> x = x').
    { induction x as [|e x IH]; intros y [|e' x'] y' Q N1 N2 Y1 Y2; cbn in *; auto.
      - subst y. destruct Y1 as [Y1|Y1]; [discriminate|]. cbn in Y1. subst. exfalso. apply N2. auto.
      - subst y'. destruct Y2 as [Y2|Y2]; [discriminate|]. cbn in Y2. subst. exfalso. apply N1. auto.
      - inversion Q; subst. f_equal. eapply IH; eauto. }
    destruct C as [[C ->]|C].
    - apply (K ds [] port rest); auto. rewrite app_nil_r. auto.
    - apply (K ds (47 :: r) port rest); auto. }
  subst ds. destruct Hbad; [congruence|lia].
Qed.

(** ** UTF-8 *)
Lemma utf8_scan_iff pre s junk pos' : nonul s -> bytes s ->
  (exists e, valid_multibyte_utf8 (pre ++ s ++ 0 :: junk) (length pre) = OK (pos', true, e)) <->
  (exists cp r, scalar cp /\ 128 <= cp /\ s = utf8_encode cp ++ r /\
                pos' = (length pre + length (utf8_encode cp) - 1)%nat).
Proof.
  intros Hn Hb. destruct (valid_multibyte_list pre s junk _ Hn Hb eq_refl) as (p & b & e & E & H).
  split.
  - intros (e' & E'). rewrite E in E'. inversion E'; subst. destruct s as [|a t]; [inversion H|].
    destruct (a <? 128); [inversion H|]. destruct (mb_len (a :: t)) as [n|] eqn:Em; [|destruct H; discriminate].
    destruct (mb_len_encode _ _ Hb Em) as (A & B & C & D & _).
    exists (mb_cp (a :: t) n), (skipn n (a :: t)). split; [auto|]. split; [auto|]. rewrite C.
    split; [symmetry; apply firstn_skipn|]. rewrite firstn_length.
    replace (Nat.min n (length (a :: t))) with n by lia. inversion H. reflexivity.
  - intros (cp & r & A & B & -> & ->). destruct (encode_mb_len cp r A B) as [M _].
    destruct (utf8_hi cp B) as (c & t & Ec & Hc & _). rewrite Ec in *. cbn [app] in H.
    destruct (N.ltb_spec c 128); [lia|]. cbn [app] in M. rewrite M in H.
    cbn [app] in *. exists e. rewrite E. congruence.
Qed.

(** the code point computed by the scanner is the one encoded *)
Lemma utf8_loop_cp pre cp r junk : scalar cp -> 128 <= cp -> nonul r -> bytes r ->
  utf8_loop (S (length (pre ++ (utf8_encode cp ++ r) ++ 0 :: junk))) (pre ++ (utf8_encode cp ++ r) ++ 0 :: junk) (length pre) 0 0
  = OK ((length pre + length (utf8_encode cp) - 1)%nat, 0, cp).
Proof.
  intros A B Hn Hb.
  assert (Hb2 : bytes (utf8_encode cp ++ r)).
  { apply bytes_app. split; auto. unfold utf8_encode, scalar in *. 
    destruct (N.ltb_spec cp 128); [lia|].
    destruct (N.ltb_spec cp 2048). { repeat constructor. - apply N.lt_le_trans with (192 + 32). 2:lia. apply N.add_lt_mono_l. apply N.div_lt_upper_bound; lia. - pose proof (N.mod_lt cp 64). lia. }
    destruct (N.ltb_spec cp 65536).
    { repeat constructor. - apply N.lt_le_trans with (224 + 16). 2:lia. apply N.add_lt_mono_l. apply N.div_lt_upper_bound; lia. - pose proof (N.mod_lt (cp/64) 64). lia. - pose proof (N.mod_lt cp 64). lia. }
    repeat constructor. - apply N.lt_le_trans with (240 + 5). 2:lia. apply N.add_lt_mono_l. apply N.div_lt_upper_bound; lia. - pose proof (N.mod_lt (cp/4096) 64). lia. - pose proof (N.mod_lt (cp/64) 64). lia. - pose proof (N.mod_lt cp 64). lia. }
  assert (Hn2 : nonul (utf8_encode cp ++ r)).
  { apply nonul_app. split; auto. apply Forall_forall. intros z Hz. apply utf8_bytes_hi in Hz; lia. }
  rewrite utf8_loop_dfa; auto; [|rewrite !app_length; simpl; lia|lia].
  pose proof (dfa_first _ Hb2) as H. destruct (encode_mb_len cp r A B) as [M M2].
  destruct (utf8_hi cp B) as (c & t & Ec & Hc & Ht). rewrite Ec in *. cbn [app] in H, M, M2.
  destruct (N.ltb_spec c 128); [lia|]. rewrite M in H. cbn [app]. rewrite H, M2. f_equal. f_equal. f_equal.
  cbn [length]. lia.
Qed.
