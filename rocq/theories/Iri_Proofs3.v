From Verif Require Import Base BaseLemmas Utf8 Utf8Spec Utf8_Proofs Iri IriSpec IriObs PathClean_Proofs Canon_Proofs Iri_Proofs Iri_Proofs2.
Local Open Scope N_scope.

Definition f_query (s : list N) : option (list N * list N) :=
  match s with
  | [] => Some ([], [])
  | _ =>
    match fscan query_char false (S (length s)) s with
    | Some (o, []) => Some (o, [])
    | Some (o, c :: f) => if c =? 35 then Some (o, f) else None
    | None => None
    end
  end.

Lemma fscan_false_src ok n : forall s o r, fscan ok false n s = Some (o, r) -> s = o ++ r.
Proof.
  induction n as [|n IH]; intros s o r H. { inversion H; reflexivity. }
  rewrite fscan_S in H. unfold gstep in H. destruct s as [|c t]. { inversion H; reflexivity. }
  destruct (ok c).
  { destruct (fscan ok false n t) as [[o' r']|] eqn:E; [|discriminate]. inversion H; subst.
    cbn. f_equal. apply IH; auto. }
  destruct (N.eqb_spec c 37).
  { destruct t as [|a [|b t]]; try discriminate. destruct (okpct a b); [|discriminate].
    destruct (fscan ok false n t) as [[o' r']|] eqn:E; [|discriminate]. inversion H; subst.
    cbn. do 3 f_equal. apply IH; auto. }
  destruct (c <? 128). { inversion H; reflexivity. }
  destruct (mb_len (c :: t)) as [k|] eqn:Em; [|discriminate].
  destruct (fscan ok false n (skipn k (c :: t))) as [[o' r']|] eqn:E; [|discriminate].
  inversion H; subst. rewrite <- app_assoc, <- (IH _ _ _ E). symmetry. apply firstn_skipn.
Qed.

Lemma parse_query_spec p pre s E J :
  shape (mem p) pre s E J -> pos p = length pre -> perr p = false ->
  exists b p', parse_query p = OK (b, p') /\
  match f_query s with
  | Some (q, f) => b = true /\ perr p' = false /\
    parsed p' = (let i := parsed p in mkIri (i_schema i) (i_host i) (i_port i) (i_port_no i) (i_path i) (length pre) (i_fragment i)) /\
    exists pre', (exists x, pre' = pre ++ x) /\ shape (mem p') pre' f E J /\ pos p' = length pre' /\
       cstr_at (mem p') (length pre) = Some q /\ nonul q
  | None => b = false
  end.
Proof.
  intros Hsh Hpos Herr. unfold parse_query. cbn [mem pos set_parsed parsed perr].
  rewrite Hpos, (shape_rd _ _ _ _ _ Hsh). cbn [bind]. unfold f_query.
  destruct s as [|c t]; cbn [hd].
  { change (0 =? 0) with true. cbn iota. eexists _, _. split; [reflexivity|].
    split; [reflexivity|]. split; [exact Herr|]. split; [reflexivity|].
    exists pre. split; [exists []; rewrite app_nil_r; reflexivity|]. split; [exact Hsh|]. split; [exact Hpos|].
    split; [eapply shape_suffix; exact Hsh|constructor]. }
  assert (Hc0 : c <> 0). { destruct Hsh as (_ & _ & _ & Q & _). apply nonul_cons in Q. tauto. }
  rewrite nz_eqb by auto.
  match goal with |- context[scan_loop _ _ _ ?q] => set (p0 := q) end.
  destruct (scan_loop_spec query_char false (length (c :: t)) (c :: t) (S (length (mem p))) pre p0 E J)
    as (p1 & F1 & F2 & F3); auto; try exact goodcls_query.
  { apply shape_len in Hsh. lia. }
  change (pct_of false) with valid_pct_encoded in F1. rewrite F1. cbn [bind].
  destruct (fscan query_char false (S (length (c :: t))) (c :: t)) as [[o r]|] eqn:Ef.
  2:{ rewrite F3. eexists _, _. split; reflexivity. }
  destruct F3 as (G1 & G2 & G3). rewrite G1.
  assert (Hno : nonul o).
  { pose proof (fscan_false_src _ _ _ _ _ Ef) as Hs. destruct Hsh as (_ & _ & _ & Q & _).
    rewrite Hs in Q. apply nonul_app in Q. tauto. }
  rewrite <- app_length in G3. rewrite G3, (shape_rd _ _ _ _ _ G2). cbn [bind].
  destruct r as [|d f]; cbn [hd].
  - change (0 =? 0) with true. cbn [negb andb]. eexists _, _. split; [reflexivity|].
    split; [reflexivity|]. split; [exact G1|]. split; [rewrite F2; cbn; reflexivity|].
    exists (pre ++ o). split; [eauto|]. split; [exact G2|]. split; [exact G3|].
    split; [|exact Hno]. destruct G2 as ((junk & ->) & _). rewrite <- app_assoc. cbn [app].
    apply cstr_at_app; auto.
  - assert (Hd0 : d <> 0). { destruct G2 as (_ & _ & _ & Q & _). apply nonul_cons in Q. tauto. }
    rewrite (nz_eqb d) by auto. cbn [negb andb].
    destruct (d =? 35); cbn [negb].
    2:{ eexists _, _. split; reflexivity. }
    destruct (shape_cut _ _ _ _ _ _ G2) as (m' & W & Hs').
    unfold put. rewrite G3, W. cbn [bind].
    eexists _, _. split; [reflexivity|]. split; [reflexivity|]. split; [exact G1|].
    split; [cbn; rewrite F2; cbn; reflexivity|].
    exists ((pre ++ o) ++ [0]). split; [exists (o ++ [0]); rewrite app_assoc; reflexivity|].
    split; [exact Hs'|]. split; [cbn; rewrite G3, !app_length; cbn; lia|].
    split; [|exact Hno]. eapply shape_pre; [|exact Hno|exact Hs']. rewrite <- app_assoc. reflexivity.
Qed.

Definition f_path (s : list N) : option (list N * list N * list N) :=
  match snd (span (fun c => c =? 47) s) with
  | [] => Some ([], [], [])
  | s' =>
    match fscan path_char true (S (length s')) s' with
    | None => None
    | Some (o, []) => Some (canon o, [], [])
    | Some (o, c :: t) =>
      if c =? 35 then Some (canon o, [], t)
      else if c =? 63 then
        match f_query t with Some (q, f) => Some (canon o, q, f) | None => None end
      else None
    end
  end.

Lemma trim_spec : forall s fuel pre p E J,
  (length s < fuel)%nat -> shape (mem p) pre s E J -> pos p = length pre ->
  trim_slashes fuel p = OK (set_pos p (length (pre ++ fst (span (fun c => c =? 47) s)))) .
Proof.
  induction s as [|c s IH]; intros fuel pre p E J Hf Hsh Hpos;
    (destruct fuel as [|fuel]; [cbn in Hf; lia|]); cbn [trim_slashes];
    rewrite Hpos, (shape_rd _ _ _ _ _ Hsh); cbn [hd bind span].
  - change (0 =? 47) with false. cbn. rewrite app_nil_r, <- Hpos. destruct p; reflexivity.
  - destruct (c =? 47) eqn:Ec.
    + rewrite (IH fuel (pre ++ [c]) (set_pos p (S (length pre))) E J).
      * destruct (span _ s) as [a b]. cbn. rewrite <- app_assoc. reflexivity.
      * cbn in Hf. lia.
      * cbn. apply shape_shift. exact Hsh.
      * cbn. rewrite app_length. cbn. lia.
    + cbn. rewrite app_nil_r, <- Hpos. destruct p; reflexivity.
Qed.

Lemma skipn_skipn {A} : forall n k (l : list A), skipn k (skipn n l) = skipn (k + n) l.
Proof.
  induction n as [|n IH]; intros k l. { rewrite Nat.add_0_r. reflexivity. }
  rewrite Nat.add_succ_r. destruct l; [rewrite !skipn_nil; reflexivity|]. cbn [skipn]. apply IH.
Qed.

Lemma cstr_skipn m m' k off : skipn k m' = skipn k m -> (k <= off)%nat -> cstr_at m' off = cstr_at m off.
Proof.
  intros H Hk. unfold cstr_at. replace off with ((off - k) + k)%nat by lia.
  rewrite <- !(skipn_skipn k). rewrite H. reflexivity.
Qed.

Lemma skipn_mono {A} (m m' : list A) k off : skipn k m' = skipn k m -> (k <= off)%nat -> skipn off m' = skipn off m.
Proof.
  intros H Hk. replace off with ((off - k) + k)%nat by lia.
  rewrite <- !(skipn_skipn k). rewrite H. reflexivity.
Qed.

(** finishing step shared by the three forms *)
Lemma path_clean_mem m pre o E J X :
  (exists junk, m = pre ++ o ++ 0 :: junk) -> nonul o -> (length pre + length o <= E)%nat ->
  skipn E m = 0 :: J -> X = length pre ->
  exists m', path_clean m X = OK (true, m') /\ cstr_at m' (length pre) = Some (canon o) /\
    (exists t, m' = pre ++ t) /\ skipn E m' = 0 :: J /\
    (forall off, (length pre + length o <= off)%nat -> cstr_at m' off = cstr_at m off).
Proof.
  intros (junk & Hm) Hno HE Hsk ->.
  destruct (path_clean_spec pre o junk Hno) as (g & E1 & E2 & E3).
  rewrite Hm. eexists. split; [exact E1|].
  split. { apply cstr_at_app; auto. apply canon_nonul; auto. }
  split; [eauto|].
  assert (Hsk2 : skipn (length pre + length o) (pre ++ canon o ++ 0 :: g)
               = skipn (length pre + length o) m).
  { rewrite E3, Hm. rewrite app_assoc, skipn_pre; auto. rewrite app_length; auto. }
  split.
  - rewrite <- Hsk. eapply skipn_mono; eauto.
  - intros off Hoff. rewrite <- Hm. eapply cstr_skipn; eauto.
Qed.

Definition pathres (p p' : pst) (pre : list N) (E : nat) (s path q f : list N) : Prop :=
  cstr_at (mem p') (i_path (parsed p')) = Some path /\
  cstr_at (mem p') (i_query (parsed p')) = Some q /\
  cstr_at (mem p') (i_fragment (parsed p')) = Some f /\
  (exists t, mem p' = pre ++ t) /\ cstr_at (mem p') E = Some [] /\ (s = [] -> mem p' = mem p) /\
  i_schema (parsed p') = i_schema (parsed p) /\ i_host (parsed p') = i_host (parsed p) /\
  i_port (parsed p') = i_port (parsed p) /\ i_port_no (parsed p') = i_port_no (parsed p).

Lemma parse_path_spec p pre s E J :
  shape (mem p) pre s E J -> pos p = length pre -> perr p = false ->
  i_query (parsed p) = E -> i_fragment (parsed p) = E ->
  exists b p', parse_path p = OK (b, p') /\
  match f_path s with
  | Some (path, q, f) => b = true /\ pathres p p' pre E s path q f
  | None => b = false
  end.
Proof.
  intros Hsh Hpos Herr Hq Hfr. unfold parse_path.
  rewrite (trim_spec s _ pre p E J); auto.
  2:{ apply shape_len in Hsh. lia. }
  cbn [bind mem pos set_pos parsed set_parsed perr].
  unfold f_path. destruct (span (fun c => c =? 47) s) as [sl s'] eqn:Es.
  destruct (span_app _ _ _ _ Es) as (Et & _ & _). cbn [fst snd].
  assert (Hs1 : shape (mem p) (pre ++ sl) s' E J) by (apply shape_shift; rewrite <- Et; exact Hsh).
  rewrite (shape_rd _ _ _ _ _ Hs1). cbn [bind].
  destruct s' as [|c t]; cbn [hd].
  { change (0 =? 0) with true. cbn iota. eexists _, _. split; [reflexivity|]. split; [reflexivity|].
    unfold pathres. cbn. pose proof (shape_suffix _ _ _ _ _ Hs1) as Hx.
    repeat split; auto.
    - destruct Hsh as ((junk & ->) & _). eauto.
    - eapply shape_end; eauto. }
  assert (Hs0 : s <> []) by (rewrite Et; destruct sl; discriminate).
  assert (Hc0 : c <> 0). { destruct Hs1 as (_ & _ & _ & Q & _). apply nonul_cons in Q. tauto. }
  rewrite nz_eqb by auto.
  match goal with |- context[scan_loop _ _ _ ?q] => set (p0 := q) end.
  destruct (scan_loop_spec path_char true (length (c :: t)) (c :: t) (S (length (mem p))) (pre ++ sl) p0 E J)
    as (p1 & F1 & F2 & F3); auto; try exact goodcls_path.
  { apply shape_len in Hs1. lia. }
  change (pct_of true) with parse_pct_encoded in F1. rewrite F1. cbn [bind].
  destruct (fscan path_char true (S (length (c :: t))) (c :: t)) as [[o r]|] eqn:Ef.
  2:{ rewrite F3. eexists _, _. split; reflexivity. }
  destruct F3 as (G1 & G2 & G3). rewrite G1.
  destruct (fscan_nonul _ _ _ _ _ goodcls_path (proj1 (proj2 (proj2 (proj2 Hs1))))
             (proj2 (proj2 (proj2 (proj2 Hs1)))) Ef) as [Q1 Q2].
  rewrite <- app_length in G3. rewrite G3, (shape_rd _ _ _ _ _ G2). cbn [bind].
  destruct r as [|d f]; cbn [hd].
  - (* nothing after the path *)
    change (0 =? 0) with true. cbn [negb andb bind]. 
    destruct G2 as ((junk & Hm) & HE & Hsk & _). cbn [app length] in *.
    rewrite F2. cbn [i_path parsed].
    destruct (path_clean_mem (mem p1) (pre ++ sl) o E J (length (pre ++ sl))) as (m' & C1 & C2 & C3 & C4 & C5); auto.
    { exists junk. rewrite Hm, <- !app_assoc. reflexivity. }
    { rewrite !app_length in *. lia. }
    cbn [p0 set_parsed parsed i_path] in *. rewrite C1. cbn [bind].
    eexists _, _. split; [reflexivity|]. split; [reflexivity|].
    assert (CE : cstr_at m' E = Some []) by (unfold cstr_at; rewrite C4; reflexivity).
    unfold pathres. cbn. rewrite F2. cbn. rewrite Hq, Hfr.
    repeat split; auto.
    + destruct C3 as (t0 & ->). rewrite <- app_assoc. eauto.
    + intros; contradiction.
  - assert (Hd0 : d <> 0). { destruct G2 as (_ & _ & _ & Q & _). apply nonul_cons in Q. tauto. }
    rewrite (nz_eqb d) by auto. cbn [negb andb].
    destruct (N.eqb_spec d 35) as [Hd35|Hd35].
    + (* fragment *)
      subst d. change (35 =? 63) with false. cbn [negb andb].
      destruct (shape_cut _ _ _ _ _ _ G2) as (m' & W & Hs').
      unfold put. rewrite G3, W. cbn [bind parse_fragment set_pos set_mem mem pos parsed perr set_parsed].
      cbn [negb].
      destruct Hs' as ((junk & Hm) & HE & Hsk & Hnf & _).
      rewrite F2. cbn [p0 set_parsed parsed i_path].
      destruct (path_clean_mem m' (pre ++ sl) o E J (length (pre ++ sl))) as (m2 & C1 & C2 & C3 & C4 & C5); auto.
      { exists (f ++ 0 :: junk). rewrite Hm, <- !app_assoc. reflexivity. }
      { rewrite !app_length in *. cbn in *. lia. }
      rewrite C1. cbn [bind].
      eexists _, _. split; [reflexivity|]. split; [reflexivity|].
      assert (CE : cstr_at m2 E = Some []) by (unfold cstr_at; rewrite C4; reflexivity).
      assert (CF : cstr_at m2 (S (pos p1)) = Some f).
      { rewrite C5, Hm.
        - replace (S (pos p1)) with (length (((pre ++ sl) ++ o) ++ [0])) by (rewrite app_length, G3; cbn; lia).
          apply cstr_at_app; auto.
        - rewrite G3, !app_length. lia. }
      unfold pathres. cbn. rewrite F2. cbn. rewrite Hq.
      repeat split; auto.
      * destruct C3 as (t0 & ->). rewrite <- app_assoc. eauto.
      * intros; contradiction.
    + rewrite andb_true_r. destruct (N.eqb_spec d 63) as [Hd63|Hd63]; cbn [negb].
      2:{ eexists _, _. split; reflexivity. }
      subst d. destruct (shape_cut _ _ _ _ _ _ G2) as (m' & W & Hs').
      unfold put. rewrite G3, W. cbn [bind set_pos set_mem mem pos parsed perr].
      match goal with |- context[parse_query ?q] => set (p2 := q) end.
      destruct (parse_query_spec p2 (((pre ++ sl) ++ o) ++ [0]) f E J) as (b & p3 & H1 & H2).
      { exact Hs'. } { cbn. rewrite G3, (app_length _ [0]). cbn. lia. } { exact G1. }
      rewrite H1. cbn [bind].
      destruct (f_query f) as [[q fr]|].
      2:{ subst b. cbn [bind negb]. eexists _, _. split; reflexivity. }
      destruct H2 as (-> & I1 & I2 & pre3 & (x3 & Hx3) & I3 & I4 & I5 & I6).
      cbn [bind parse_fragment set_pos set_mem mem pos parsed perr set_parsed negb].
      rewrite I2. cbn [p2 set_parsed parsed i_path set_pos set_mem]. rewrite F2. cbn [p0 set_parsed parsed i_path].
      assert (Hsuf := shape_suffix _ _ _ _ _ I3).
      destruct I3 as ((junk & Hm) & HE & Hsk & Hnf & _).
      destruct (path_clean_mem (mem p3) (pre ++ sl) o E J (length (pre ++ sl))) as (m2 & C1 & C2 & C3 & C4 & C5); auto.
      { exists (x3 ++ fr ++ 0 :: junk). rewrite Hm, Hx3, <- !app_assoc. reflexivity. }
      { rewrite Hx3, !app_length in *. cbn in *. lia. }
      rewrite C1. cbn [bind].
      eexists _, _. split; [reflexivity|]. split; [reflexivity|].
      assert (CE : cstr_at m2 E = Some []) by (unfold cstr_at; rewrite C4; reflexivity).
      unfold pathres. cbn [mem parsed set_mem i_path i_query i_fragment i_schema i_host i_port i_port_no set_parsed parse_fragment].
      cbv zeta in I2. rewrite I2. cbn [p2 set_pos set_mem parsed i_path i_query i_fragment i_schema i_host i_port i_port_no]. rewrite F2. cbn [p0 set_parsed parsed i_path i_query i_fragment i_schema i_host i_port i_port_no set_pos].
      repeat split; auto.
      * rewrite C5; auto. rewrite !app_length. cbn. lia.
      * rewrite C5; [|rewrite I4, Hx3, !app_length; cbn; lia].
        rewrite I4. exact Hsuf.
      * destruct C3 as (t0 & ->). rewrite <- app_assoc. eauto.
      * intros; contradiction.
Qed.

(** ** The whole parser *)
Definition f_iri (ip6 : list N -> bool) (s : list N) : option comps :=
  match f_scheme s with
  | None => None
  | Some (sch, r) =>
    match f_auth ip6 r with
    | None => None
    | Some (h, po, no, r2) =>
      match f_path r2 with
      | None => None
      | Some (path, q, f) => Some (mkC sch h po no path q f)
      end
    end
  end.

Lemma cstr_in_prefix m m' pre off v t t' :
  m = pre ++ t -> m' = pre ++ t' -> cstr_at m off = Some v ->
  (off + length v + 1 <= length pre)%nat -> cstr_at m' off = Some v.
Proof.
  intros -> -> H L. unfold cstr_at in *. rewrite skipn_app in *.
  replace (off - length pre)%nat with 0%nat in * by lia. rewrite skipn_O in *.
  destruct (cstr_inv _ _ H) as (Hn & j & Ej).
  assert (P : exists z, skipn off pre = v ++ 0 :: z).
  { assert (Ll : (length v + 1 <= length (skipn off pre))%nat) by (rewrite skipn_length; lia).
    exists (skipn (length v + 1) (skipn off pre)).
    rewrite <- (firstn_skipn (length v + 1) (skipn off pre)) at 1.
    assert (firstn (length v + 1) (skipn off pre) = v ++ [0]) as ->.
    { replace (firstn (length v + 1) (skipn off pre))
        with (firstn (length v + 1) (skipn off pre ++ t)).
      - rewrite Ej. replace (v ++ 0 :: j) with ((v ++ [0]) ++ j) by (rewrite <- app_assoc; reflexivity).
        apply firstn_pre. rewrite app_length. reflexivity.
      - rewrite firstn_app. replace (length v + 1 - length (skipn off pre))%nat with 0%nat by lia.
        cbn [firstn]. apply app_nil_r. }
    rewrite <- app_assoc. reflexivity. }
  destruct P as (z & Hz). rewrite Hz, <- app_assoc. cbn [app]. apply cstr_nul; auto.
Qed.

Theorem parse_iri_refines ip6 s junk : nonul s -> bytes s ->
  exists b p', parse_iri ip6 (s ++ 0 :: junk) = OK (b, p') /\
  match f_iri ip6 s with
  | Some c => b = true /\ comps_of p' = Some c
  | None => b = false
  end.
Proof.
  intros Hn Hb. unfold parse_iri, f_iri.
  assert (SL : strlen (s ++ 0 :: junk) 0 = OK (length s)).
  { apply (strlen_app [] s junk 0); auto. }
  rewrite SL. cbn [bind]. set (E := length s).
  assert (Hsh : shape (s ++ 0 :: junk) [] s E junk).
  { split; [exists junk; reflexivity|]. split; [unfold E; cbn [length]; lia|].
    split; [apply skipn_pre; reflexivity|]. split; auto. }
  match goal with |- context[parse_scheme ?q] => set (p0 := q) end.
  destruct (parse_scheme_spec p0 s E junk Hsh eq_refl eq_refl) as (b & p1 & E1 & H1).
  rewrite E1. cbn [bind]. destruct (f_scheme s) as [[sch r]|].
  2:{ subst b. cbn [negb]. eexists _, _. split; reflexivity. }
  destruct H1 as (-> & Herr1 & Hs1 & Hpos1 & Hnsch & Hpar1). cbn [negb].
  destruct (parse_authority_spec ip6 p1 _ r E junk Hs1 Hpos1 Herr1) as (b & p2 & E2 & H2).
  { rewrite Hpar1. reflexivity. }
  rewrite E2. cbn [bind]. destruct (f_auth ip6 r) as [[[[h po] no] r2]|].
  2:{ subst b. cbn [negb]. eexists _, _. split; reflexivity. }
  destruct H2 as (-> & Herr2 & pre2 & hp & pp & (x2 & Hx2) & Hs2 & Hpos2 & Hpar2 & Fh & Fp). cbn [negb].
  destruct (parse_path_spec p2 pre2 r2 E junk Hs2 Hpos2 Herr2) as (b & p3 & E3 & H3).
  { rewrite Hpar2, Hpar1. reflexivity. } { rewrite Hpar2, Hpar1. reflexivity. }
  rewrite E3. eexists _, _. split; [reflexivity|].
  destruct (f_path r2) as [[[path q] f]|]; [|exact H3].
  destruct H3 as (-> & R1 & R2 & R3 & (t3 & R4) & R5 & R6 & R7 & R8 & R9 & R10).
  split; [reflexivity|].
  assert (Hm2 : exists t2, mem p2 = pre2 ++ t2) by (destruct Hs2 as ((j & ->) & _); eauto).
  destruct Hm2 as (t2 & Hm2).
  assert (keep : forall off v, fieldok (mem p2) pre2 r2 E off v -> cstr_at (mem p3) off = Some v).
  { intros off v (C & [L|[L|[L1 L2]]]).
    - eapply cstr_in_prefix; eauto.
    - rewrite R6; auto.
    - subst. auto. }
  unfold comps_of. rewrite R1, R2, R3, R7, R8, R9, R10, Hpar2. cbn [i_schema i_host i_port i_port_no].
  rewrite (keep _ _ Fh), (keep _ _ Fp).
  assert (Hsc : cstr_at (mem p3) (i_schema (parsed p1)) = Some sch).
  { rewrite Hpar1. cbn [i_schema]. rewrite R4, Hx2, <- !app_assoc. cbn [app].
    apply (cstr_at_app [] sch (47 :: 47 :: x2 ++ t3) 0); auto. }
  rewrite Hsc. reflexivity.
Qed.
