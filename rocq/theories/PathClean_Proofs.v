From Verif Require Import Base BaseLemmas Utf8 Iri IriSpec.
Local Open Scope N_scope.

(** ** List-level view of path_clean *)
Definition isnil {A} (l : list A) : bool := match l with [] => true | _ => false end.
Definition sl_end (t : list N) : bool := match t with [] => true | x :: _ => x =? 47 end.
Definition dotdot (s : list N) : bool :=
  match s with a :: b :: t => (a =? 46) && ((b =? 46) && sl_end t) | _ => false end.
Definition dot (s : list N) : bool :=
  match s with a :: t => (a =? 46) && sl_end t | _ => false end.
Definition hd47 (s : list N) : bool := match s with a :: _ => a =? 47 | _ => false end.

Fixpoint pop (r : list N) : list N :=
  match r with [] => [] | c :: r' => if c =? 47 then r' else pop r' end.

Fixpoint cl (rout s : list N) {struct s} : list N :=
  match s with
  | [] => rout
  | c :: t =>
    if isnil rout && (c =? 47) then cl rout t
    else if isnil rout && dotdot s then
      match t with _ :: t2 => match t2 with _ :: r => cl rout r | [] => rout end | [] => rout end
    else if isnil rout && dot s then
      match t with _ :: r => cl rout r | [] => rout end
    else if (c =? 47) && hd47 t then cl rout t
    else if (c =? 47) && dotdot t then
      match t with
      | _ :: t2 => match t2 with
        | _ :: u => match pop rout with
                    | [] => match u with _ :: r => cl [] r | [] => [] end
                    | x :: y => cl (x :: y) u
                    end
        | [] => [] end
      | [] => [] end
    else if (c =? 47) && dot t then
      match t with _ :: u => cl rout u | [] => [] end
    else cl (c :: rout) t
  end.

(** ** Memory refinement *)
Lemma rd_off P L k p : p = length P -> rd (P ++ L) (p + k) = rd L k.
Proof.
  intros ->. unfold rd. rewrite nth_error_app2 by lia.
  replace (length P + k - length P)%nat with k by lia. reflexivity.
Qed.
Lemma rd_off0 P L p : p = length P -> rd (P ++ L) p = rd L 0.
Proof. intros H. rewrite <- (rd_off P L 0 p H). f_equal. lia. Qed.

Lemma is_at_off P L k p c : p = length P -> is_at (P ++ L) (p + k) c = is_at L k c.
Proof. intros. unfold is_at. rewrite rd_off; auto. Qed.
Lemma is_at_off0 P L p c : p = length P -> is_at (P ++ L) p c = is_at L 0 c.
Proof. intros. unfold is_at. rewrite rd_off0; auto. Qed.

Lemma is_at_hd a L c : is_at (a :: L) 0 c = OK (a =? c). Proof. reflexivity. Qed.
Lemma is_at_tl a L c k : is_at (a :: L) (S k) c = is_at L k c. Proof. reflexivity. Qed.

Lemma nz_eqb (c : N) : c <> 0 -> (c =? 0) = false.
Proof. intros. apply N.eqb_neq. auto. Qed.

Lemma soe_list s j : nonul s -> slash_or_end (s ++ 0 :: j) 0 = OK (sl_end s).
Proof.
  intros Hn. unfold slash_or_end. destruct s as [|a s]; cbn [app sl_end].
  - reflexivity.
  - apply nonul_cons in Hn. destruct Hn as [Ha _]. rewrite !is_at_hd. cbn.
    destruct (a =? 47); [reflexivity|]. cbn. rewrite nz_eqb by auto. reflexivity.
Qed.

Lemma soe_tl a L k : slash_or_end (a :: L) (S k) = slash_or_end L k. Proof. reflexivity. Qed.

Lemma dot_list s j : nonul s ->
  andr (is_at (s ++ 0 :: j) 0 46) (slash_or_end (s ++ 0 :: j) 1) = OK (dot s).
Proof.
  intros Hn. destruct s as [|a s]; [reflexivity|]. apply nonul_cons in Hn. destruct Hn as [_ Hn].
  cbn [app]. rewrite is_at_hd, soe_tl, soe_list by auto. cbn. destruct (a =? 46); reflexivity.
Qed.

Lemma dotdot_list s j : nonul s ->
  andr (is_at (s ++ 0 :: j) 0 46) (andr (is_at (s ++ 0 :: j) 1 46) (slash_or_end (s ++ 0 :: j) 2))
  = OK (dotdot s).
Proof.
  intros Hn. destruct s as [|a s]; [reflexivity|]. apply nonul_cons in Hn. destruct Hn as [_ Hn].
  cbn [app]. rewrite is_at_hd, is_at_tl, soe_tl.
  rewrite dot_list by auto. cbn. destruct (a =? 46); cbn [andb].
  - destruct s as [|b s]; reflexivity.
  - destruct s; reflexivity.
Qed.

Lemma hd47_list s j : nonul s -> is_at (s ++ 0 :: j) 0 47 = OK (hd47 s).
Proof. intros. destruct s; reflexivity. Qed.

Lemma soe_off P L k p : p = length P -> slash_or_end (P ++ L) (p + k) = slash_or_end L k.
Proof. intros. unfold slash_or_end. rewrite !is_at_off; auto. Qed.

Lemma popq_spec fuel pre rout R :
  (length rout < fuel)%nat ->
  popq fuel (pre ++ rev rout ++ R) (length pre) (length pre + length rout)
  = OK (length pre + length (pop rout))%nat.
Proof.
  revert rout R. induction fuel as [|fuel IH]; intros rout R Hf; [lia|].
  cbn [popq]. destruct rout as [|c rout].
  - cbn [length pop]. rewrite Nat.add_0_r, Nat.ltb_irrefl. reflexivity.
  - cbn [length] in *. destruct (Nat.ltb_spec (length pre) (length pre + S (length rout))); [|lia].
    replace (length pre + S (length rout) - 1)%nat with (length pre + length rout)%nat by lia.
    replace (pre ++ rev (c :: rout) ++ R) with ((pre ++ rev rout) ++ c :: R)
      by (cbn [rev]; rewrite <- !app_assoc; reflexivity).
    rewrite rd_app2 by (rewrite app_length, rev_length; lia). cbn [bind pop].
    destruct (c =? 47); [reflexivity|].
    rewrite <- app_assoc. rewrite IH by lia. reflexivity.
Qed.

Lemma app_cons_assoc {A} (a : list A) x b : a ++ x :: b = (a ++ [x]) ++ b.
Proof. rewrite <- app_assoc. reflexivity. Qed.

Lemma pop_split r : exists k, r = k ++ pop r.
Proof.
  induction r as [|c r [k IH]]; cbn [pop]; [exists []; reflexivity|].
  destruct (c =? 47); [exists [c]; reflexivity|].
  exists (c :: k). cbn. congruence.
Qed.

Lemma clean_loop_spec n : forall s fuel pre rout gap junk path p q m,
  (length s <= n)%nat -> (length s < fuel)%nat -> nonul s ->
  m = pre ++ rev rout ++ gap ++ s ++ 0 :: junk ->
  path = length pre -> q = (path + length rout)%nat -> p = (q + length gap)%nat ->
  exists gap',
    clean_loop fuel m path p q =
      OK (pre ++ rev (cl rout s) ++ gap' ++ 0 :: junk,
          (path + length (cl rout s) + length gap')%nat,
          (path + length (cl rout s))%nat)
    /\ (length (cl rout s) + length gap' = length rout + length gap + length s)%nat.
Proof.
  induction n as [|n IH]; intros s fuel pre rout gap junk path p q m Hn Hf Hs Hm Hpath Hq Hp.
  { destruct s as [|? ?]; [|cbn in Hn; lia]. destruct fuel; [cbn in Hf; lia|].
    exists gap. cbn [clean_loop cl length]. subst m p q path.
    replace (pre ++ rev rout ++ gap ++ [] ++ 0 :: junk) with ((pre ++ rev rout ++ gap) ++ 0 :: junk)
      by (rewrite <- !app_assoc; reflexivity).
    rewrite rd_app2 by (rewrite !app_length, rev_length; lia). cbn.
    rewrite <- !app_assoc. split; [reflexivity|lia]. }
  destruct s as [|c t].
  { destruct fuel; [cbn in Hf; lia|].
    exists gap. cbn [clean_loop cl length]. subst m p q path.
    replace (pre ++ rev rout ++ gap ++ [] ++ 0 :: junk) with ((pre ++ rev rout ++ gap) ++ 0 :: junk)
      by (rewrite <- !app_assoc; reflexivity).
    rewrite rd_app2 by (rewrite !app_length, rev_length; lia). cbn.
    rewrite <- !app_assoc. split; [reflexivity|lia]. }
  destruct fuel as [|fuel]; [cbn in Hf; lia|].
  assert (Hs' := Hs). apply nonul_cons in Hs'. destruct Hs' as [Hc Ht].
  assert (Hpre : exists P, P = pre ++ rev rout ++ gap /\ m = P ++ (c :: t) ++ 0 :: junk /\ p = length P).
  { eexists. split; [reflexivity|]. split.
    - rewrite Hm, <- !app_assoc. reflexivity.
    - rewrite !app_length, rev_length. lia. }
  destruct Hpre as (P & HP & HmP & HpP).
  (* moving k bytes from s to the gap *)
  assert (move : forall s1 s2, c :: t = s1 ++ s2 ->
     m = pre ++ rev rout ++ (gap ++ s1) ++ s2 ++ 0 :: junk).
  { intros s1 s2 E. rewrite Hm, E, <- !app_assoc. reflexivity. }
  cbn [clean_loop]. rewrite HmP.
  cbn [app]. rewrite rd_app2 by auto. cbn [bind]. rewrite nz_eqb by auto.
  change (P ++ c :: t ++ 0 :: junk) with (P ++ (c :: t) ++ 0 :: junk).
  replace (p + 1)%nat with (p + 1)%nat by lia.
  rewrite !(is_at_off0 P _ p) by auto.
  rewrite !(is_at_off P _ _ p), !(soe_off P _ _ p) by auto.
  rewrite (dotdot_list (c :: t)), (dot_list (c :: t)) by auto.
  change (is_at ((c :: t) ++ 0 :: junk) 0 47) with (OK (c =? 47)).
  change (is_at ((c :: t) ++ 0 :: junk) 1 47) with (is_at (t ++ 0 :: junk) 0 47).
  change (is_at ((c :: t) ++ 0 :: junk) 1 46) with (is_at (t ++ 0 :: junk) 0 46).
  change (is_at ((c :: t) ++ 0 :: junk) 2 46) with (is_at (t ++ 0 :: junk) 1 46).
  change (is_at ((c :: t) ++ 0 :: junk) 2 47) with (is_at (t ++ 0 :: junk) 1 47).
  change (is_at ((c :: t) ++ 0 :: junk) 3 47) with (is_at (t ++ 0 :: junk) 2 47).
  change (slash_or_end ((c :: t) ++ 0 :: junk) 3) with (slash_or_end (t ++ 0 :: junk) 2).
  change (slash_or_end ((c :: t) ++ 0 :: junk) 2) with (slash_or_end (t ++ 0 :: junk) 1).
  rewrite (dotdot_list t), (dot_list t), (hd47_list t) by auto.
  assert (Est : (q =? path)%nat = isnil rout).
  { subst q path. destruct rout; cbn [length isnil].
    - rewrite Nat.add_0_r. apply Nat.eqb_refl.
    - apply Nat.eqb_neq. lia. }
  rewrite Est. cbn [cl]. cbn [andr bind] in *.
  assert (Hn' : (length t <= n)%nat) by (cbn in Hn; lia).
  assert (Hf' : (length t < fuel)%nat) by (cbn in Hf; lia).
  (* 1 *)
  destruct (isnil rout && (c =? 47)) eqn:B1.
  { destruct (isnil rout); [|discriminate]. cbn [andb] in B1. rewrite B1. cbn [bind].
    rewrite <- HmP.
    edestruct (IH t fuel pre rout (gap ++ [c]) junk path (p + 1)%nat q m) as (g & E & L); auto.
    { rewrite app_length; cbn; lia. }
    exists g. split; [exact E|]. rewrite app_length in L. cbn in *. lia. }
  replace (if isnil rout then OK (c =? 47) else OK false) with (OK (isnil rout && (c =? 47)))
    by (destruct (isnil rout); reflexivity).
  rewrite B1. cbn [bind].
  (* 2 *)
  replace (if isnil rout then OK (dotdot (c :: t)) else OK false)
    with (OK (isnil rout && dotdot (c :: t))) by (destruct (isnil rout); reflexivity).
  cbn [bind].
  destruct (isnil rout && dotdot (c :: t)) eqn:B2.
  { destruct t as [|b u]; [destruct (isnil rout); discriminate|].
    apply nonul_cons in Ht. destruct Ht as [Hb Hu].
    change (is_at ((b :: u) ++ 0 :: junk) 1 47) with (is_at (u ++ 0 :: junk) 0 47).
    rewrite (hd47_list u) by auto. cbn [bind]. rewrite <- HmP.
    destruct u as [|x r]; cbn [hd47].
    - edestruct (IH [] fuel pre rout (gap ++ [c; b]) junk path (p + 2)%nat q m) as (g & E & L); auto.
      { cbn; lia. } { cbn in *; lia. } { rewrite app_length; cbn; lia. }
      cbn [cl] in *. exists g. split; [exact E|]. rewrite app_length in L. cbn in *. lia.
    - destruct (isnil rout); [|discriminate]. cbn in B2.
      destruct (x =? 47) eqn:Ex.
      2:{ rewrite andb_false_r, andb_false_r in B2. discriminate. }
      apply nonul_cons in Hu. destruct Hu as [Hx Hr].
      edestruct (IH r fuel pre rout (gap ++ [c; b; x]) junk path (p + 3)%nat q m) as (g & E & L); auto.
      { cbn in *; lia. } { cbn in *; lia. } { rewrite app_length; cbn; lia. }
      exists g. split; [exact E|]. rewrite app_length in L. cbn in *. lia. }
  (* 3 *)
  replace (if isnil rout then OK (dot (c :: t)) else OK false)
    with (OK (isnil rout && dot (c :: t))) by (destruct (isnil rout); reflexivity).
  cbn [bind].
  destruct (isnil rout && dot (c :: t)) eqn:B3.
  { rewrite <- HmP. destruct t as [|x r]; cbn [hd47].
    - edestruct (IH [] fuel pre rout (gap ++ [c]) junk path (p + 1)%nat q m) as (g & E & L); auto.
      { rewrite app_length; cbn; lia. }
      cbn [cl] in *. exists g. split; [exact E|]. rewrite app_length in L. cbn in *. lia.
    - destruct (isnil rout); [|discriminate]. cbn in B3.
      destruct (x =? 47) eqn:Ex.
      2:{ rewrite andb_false_r in B3. discriminate. }
      apply nonul_cons in Ht. destruct Ht as [Hx Hr].
      edestruct (IH r fuel pre rout (gap ++ [c; x]) junk path (p + 2)%nat q m) as (g & E & L); auto.
      { cbn in *; lia. } { cbn in *; lia. } { rewrite app_length; cbn; lia. }
      exists g. split; [exact E|]. rewrite app_length in L. cbn in *. lia. }
  (* 4 *)
  replace (if c =? 47 then OK (hd47 t) else OK false) with (OK ((c =? 47) && hd47 t))
    by (destruct (c =? 47); reflexivity).
  cbn [bind].
  destruct ((c =? 47) && hd47 t) eqn:B4.
  { rewrite <- HmP.
    edestruct (IH t fuel pre rout (gap ++ [c]) junk path (p + 1)%nat q m) as (g & E & L); auto.
    { rewrite app_length; cbn; lia. }
    exists g. split; [exact E|]. rewrite app_length in L. cbn in *. lia. }
  (* 5 *)
  replace (if c =? 47 then OK (dotdot t) else OK false) with (OK ((c =? 47) && dotdot t))
    by (destruct (c =? 47); reflexivity).
  cbn [bind].
  destruct ((c =? 47) && dotdot t) eqn:B5.
  { destruct (c =? 47) eqn:Ec; [|discriminate].
    destruct t as [|b [|d u]]; try discriminate.
    apply nonul_cons in Ht. destruct Ht as [Hb Ht]. apply nonul_cons in Ht. destruct Ht as [Hd Hu].
    rewrite <- HmP.
    assert (Hm2 : m = pre ++ rev rout ++ (gap ++ (c :: b :: d :: u) ++ 0 :: junk)).
    { rewrite Hm. reflexivity. }
    assert (Hpq : popq (S (length m)) m path q = OK (path + length (pop rout))%nat).
    { rewrite Hm2 at 2. subst path q. rewrite popq_spec; auto.
      rewrite Hm, !app_length, rev_length. lia. }
    rewrite Hpq. cbn [bind].
    assert (Est2 : (path + length (pop rout) =? path)%nat = isnil (pop rout)).
    { destruct (pop rout); cbn [length isnil].
      - rewrite Nat.add_0_r. apply Nat.eqb_refl.
      - apply Nat.eqb_neq. lia. }
    rewrite Est2.
    change (is_at ((b :: d :: u) ++ 0 :: junk) 2 47) with (is_at (u ++ 0 :: junk) 0 47).
    rewrite (hd47_list u) by auto.
    replace (if isnil (pop rout) then OK (hd47 u) else OK false)
      with (OK (isnil (pop rout) && hd47 u)) by (destruct (isnil (pop rout)); reflexivity).
    cbn [bind].
    destruct (pop_split rout) as [kk Hkk].
    assert (Hmp : forall s1 s2, [c; b; d] ++ u = s1 ++ s2 ->
       m = pre ++ rev (pop rout) ++ (rev kk ++ gap ++ s1) ++ s2 ++ 0 :: junk).
    { intros s1 s2 Es. rewrite Hm. replace (rev rout) with (rev (pop rout) ++ rev kk).
      2:{ rewrite <- rev_app_distr, <- Hkk. reflexivity. }
      change (c :: b :: d :: u) with ([c; b; d] ++ u). rewrite Es, <- !app_assoc. reflexivity. }
    assert (Lkk : length rout = (length kk + length (pop rout))%nat).
    { rewrite Hkk at 1. apply app_length. }
    assert (Hn3 : (length u <= n)%nat) by (cbn in Hn; lia).
    assert (Hf3 : (length u < fuel)%nat) by (cbn in Hf; lia).
    destruct (pop rout) as [|x0 y0] eqn:Epop; cbn [isnil andb].
    - destruct u as [|x r]; cbn [hd47].
      + edestruct (IH [] fuel pre [] (rev kk ++ gap ++ [c; b; d]) junk path (p + 3)%nat path m)
          as (g & E & L); auto;
          try (rewrite ?app_length, ?rev_length; cbn in *; lia).
        cbn [cl length] in E |- *. rewrite Nat.add_0_r in E |- *. exists g. split; [exact E|].
        rewrite !app_length, rev_length in L. cbn in *. lia.
      + destruct (x =? 47) eqn:Ex.
        2:{ cbn in B5. rewrite Ex, !andb_false_r in B5. discriminate. }
        apply nonul_cons in Hu. destruct Hu as [Hx Hr].
        edestruct (IH r fuel pre [] (rev kk ++ gap ++ [c; b; d; x]) junk path (p + 4)%nat path m)
          as (g & E & L); auto;
          try (rewrite ?app_length, ?rev_length; cbn in *; lia).
        replace (path + length (@nil N))%nat with path by (cbn; lia). exists g. split; [exact E|].
        rewrite !app_length, rev_length in L. cbn in *. lia.
    - edestruct (IH u fuel pre (x0 :: y0) (rev kk ++ gap ++ [c; b; d]) junk path (p + 3)%nat
                 (path + length (x0 :: y0))%nat m) as (g & E & L); auto;
          try (rewrite ?app_length, ?rev_length; cbn in *; lia).
      exists g. split; [exact E|].
      rewrite !app_length, rev_length in L. cbn in *. lia. }
  (* 6 *)
  replace (if c =? 47 then OK (dot t) else OK false) with (OK ((c =? 47) && dot t))
    by (destruct (c =? 47); reflexivity).
  cbn [bind].
  destruct ((c =? 47) && dot t) eqn:B6.
  { rewrite <- HmP. destruct t as [|b u]; [rewrite andb_false_r in B6; discriminate|].
    apply nonul_cons in Ht. destruct Ht as [Hb Hu].
    edestruct (IH u fuel pre rout (gap ++ [c; b]) junk path (p + 2)%nat q m) as (g & E & L); auto.
    { cbn in *; lia. } { cbn in *; lia. } { rewrite app_length; cbn; lia. }
    exists g. split; [exact E|]. rewrite app_length in L. cbn in *. lia. }
  (* copy *)
  assert (Hw : exists gap2, length gap2 = length gap /\
     wr m q c = OK (pre ++ rev (c :: rout) ++ gap2 ++ t ++ 0 :: junk)).
  { rewrite Hm. destruct gap as [|g0 gap].
    - exists []. split; auto. cbn [app].
      replace (pre ++ rev rout ++ c :: t ++ 0 :: junk) with ((pre ++ rev rout) ++ c :: t ++ 0 :: junk)
        by (rewrite <- app_assoc; reflexivity).
      rewrite wr_app2 by (rewrite app_length, rev_length; lia).
      cbn [rev]. rewrite <- !app_assoc. reflexivity.
    - exists (gap ++ [c]). split; [rewrite app_length; cbn; lia|].
      replace (pre ++ rev rout ++ (g0 :: gap) ++ (c :: t) ++ 0 :: junk)
        with ((pre ++ rev rout) ++ g0 :: (gap ++ (c :: t) ++ 0 :: junk))
        by (rewrite <- app_assoc; reflexivity).
      rewrite wr_app2 by (rewrite app_length, rev_length; lia).
      cbn [rev]. rewrite <- !app_assoc. reflexivity. }
  destruct Hw as (gap2 & Lg & Ew). rewrite <- HmP, Ew. cbn [bind].
  edestruct (IH t fuel pre (c :: rout) gap2 junk path (p + 1)%nat (q + 1)%nat) as (g & E & L); auto.
  { cbn. lia. } { lia. }
  exists g. split; [exact E|]. cbn in *. lia.
Qed.
