From Verif Require Import Base BaseLemmas Compat.
Local Open Scope N_scope.

Ltac peq := repeat match goal with |- OK _ = OK _ => f_equal | |- (_, _) = (_, _) => f_equal end; try reflexivity; try lia.

Lemma skip_nul_spec : forall s pre j fuel, (length s < fuel)%nat -> nonul s ->
  skip_nul fuel (pre ++ s ++ 0 :: j) (length pre) = OK (length pre + length s + 1)%nat.
Proof.
  induction s as [|c s IH]; intros pre j fuel Hf Hn; (destruct fuel as [|fuel]; [cbn in Hf; lia|]); cbn [skip_nul].
  - cbn [app]. rewrite rd_app2 by auto. cbn [bind]. change (0 =? 0) with true. cbn [length]. f_equal. lia.
  - apply nonul_cons in Hn. cbn [app]. rewrite rd_app2 by auto. cbn [bind].
    destruct (N.eqb_spec c 0); [tauto|].
    replace (pre ++ c :: s ++ 0 :: j) with ((pre ++ [c]) ++ s ++ 0 :: j) by (rewrite <- app_assoc; reflexivity).
    replace (S (length pre)) with (length (pre ++ [c])) by (rewrite app_length; cbn; lia).
    rewrite IH; [|cbn in Hf; lia|tauto]. rewrite app_length. cbn [length]. f_equal. lia.
Qed.

Lemma firstn_snoc {A} (a : list A) x r : firstn (S (length a)) (a ++ x :: r) = a ++ [x].
Proof.
  replace (a ++ x :: r) with ((a ++ [x]) ++ r) by (rewrite <- app_assoc; reflexivity).
  apply firstn_pre. rewrite app_length. cbn. lia.
Qed.

Lemma cons_snoc {A} (a : list A) x r : a ++ x :: r = (a ++ [x]) ++ r.
Proof. rewrite <- app_assoc. reflexivity. Qed.

Lemma strlcpy_loop_SS n dst d src s : strlcpy_loop (S (S n)) dst d src s =
  (let* c := rd src s in let* dst' := wr dst d c in
   if c =? 0 then OK (S n, dst', S d, S s) else strlcpy_loop (S n) dst' (S d) src (S s)).
Proof. reflexivity. Qed.

Lemma strlcpy_loop_spec : forall s nleft cp tail spre js,
  (0 < nleft)%nat -> (nleft <= length tail)%nat -> nonul s ->
  let k := Nat.min (length s) (nleft - 1) in
  strlcpy_loop nleft (cp ++ tail) (length cp) (spre ++ s ++ 0 :: js) (length spre) =
  if (length s <? nleft - 1)%nat
  then OK ((nleft - 1 - length s)%nat, cp ++ s ++ 0 :: skipn (S (length s)) tail,
           (length cp + length s + 1)%nat, (length spre + length s + 1)%nat)
  else OK (0%nat, cp ++ firstn (nleft - 1) s ++ skipn (nleft - 1) tail, (length cp + (nleft - 1))%nat, (length spre + (nleft - 1))%nat).
Proof.
  induction s as [|c s IH]; intros nleft cp tail spre js Hp Hl Hn k.
  - destruct nleft as [|[|n]]; [lia| |].
    + cbn. rewrite !Nat.add_0_r. reflexivity.
    + rewrite strlcpy_loop_SS. cbn [app length]. rewrite rd_app2 by auto. cbn [bind].
      destruct tail as [|t0 tail]; [cbn in Hl; lia|].
      rewrite wr_app2 by auto. cbn [bind]. change (0 =? 0) with true. cbn iota.
      replace (S (S n) - 1)%nat with (S n) by lia. destruct (Nat.ltb_spec 0 (S n)); [|lia].
      cbn [skipn]. rewrite Nat.sub_0_r, !Nat.add_0_r. peq.
  - apply nonul_cons in Hn. destruct nleft as [|[|n]]; [lia| |].
    + cbn. rewrite !Nat.add_0_r. reflexivity.
    + rewrite strlcpy_loop_SS. cbn [app length]. rewrite rd_app2 by auto. cbn [bind].
      destruct tail as [|t0 tail]; [cbn in Hl; lia|].
      rewrite wr_app2 by auto. cbn [bind]. destruct (N.eqb_spec c 0); [tauto|].
      rewrite (cons_snoc cp), (cons_snoc spre c).
      replace (S (length cp)) with (length (cp ++ [c])) by (rewrite app_length; cbn; lia).
      replace (S (length spre)) with (length (spre ++ [c])) by (rewrite app_length; cbn; lia).
      rewrite IH; [|lia|cbn in Hl; lia|tauto].
      replace (S (S n) - 1)%nat with (S n) by lia. replace (S n - 1)%nat with n by lia.
      destruct (Nat.ltb_spec (length s) n); destruct (Nat.ltb_spec (S (length s)) (S n)); try lia.
      * rewrite <- !app_assoc. cbn [app skipn]. rewrite !app_length. cbn [length].
        peq.
      * rewrite <- !app_assoc. cbn [app skipn firstn]. rewrite !app_length. cbn [length].
        peq.
Qed.

Theorem strlcpy_spec s js dst dsize : nonul s -> (dsize <= length dst)%nat ->
  strlcpy dst (s ++ 0 :: js) dsize =
  OK (length s, match dsize with
                | O => dst
                | S n => firstn n s ++ 0 :: skipn (S (Nat.min (length s) n)) dst
                end).
Proof.
  intros Hn Hd. unfold strlcpy. destruct dsize as [|n].
  - cbn [bind]. rewrite (skip_nul_spec s [] js); auto. 2:{ rewrite app_length. cbn; lia. }
    cbn [bind length]. f_equal. f_equal. lia.
  - pose proof (strlcpy_loop_spec s (S n) [] dst [] js) as H. cbn [app length] in H.
    rewrite H by (auto; lia). clear H.
    replace (S n - 1)%nat with n by lia.
    destruct (Nat.ltb_spec (length s) n) as [L|L]; cbn [bind].
    + destruct (n - length s)%nat eqn:E; [lia|].
      rewrite firstn_all2 by lia. replace (Nat.min (length s) n) with (length s) by lia. f_equal. f_equal. lia.
    + cbn [Nat.add].
      assert (Ln : length (firstn n s) = n) by (rewrite firstn_length; lia).
      assert (exists t0 r, skipn n dst = t0 :: r) as (t0 & r & Er).
      { destruct (skipn n dst) eqn:E; [|eauto]. apply (f_equal (@length N)) in E. rewrite skipn_length in E. cbn in E. lia. }
      rewrite Er. rewrite wr_app2 by auto. cbn [bind].
      pose proof (skip_nul_spec (skipn n s) (firstn n s) js (S (length (s ++ 0 :: js)))) as K.
      rewrite Ln in K. rewrite app_assoc, firstn_skipn in K. rewrite K.
      2:{ rewrite skipn_length, app_length. lia. }
      2:{ rewrite <- (firstn_skipn n s) in Hn. apply nonul_app in Hn. tauto. }
      cbn [bind]. rewrite skipn_length. f_equal. f_equal; [lia|].
      replace (Nat.min (length s) n) with n by lia. do 2 f_equal.
      replace (S n) with (1 + n)%nat by lia.
      assert (Q : forall (l : list N) a b, skipn a (skipn b l) = skipn (a + b) l).
      { clear. intros l a b; revert l a. induction b; intros l a. - rewrite Nat.add_0_r. reflexivity.
        - rewrite Nat.add_succ_r. destruct l; cbn [skipn]; [apply skipn_nil|apply IHb]. }
      rewrite <- Q, Er. reflexivity.
Qed.

Lemma find_end_spec : forall d0 n pre jd, nonul d0 ->
  find_end n (pre ++ d0 ++ 0 :: jd) (length pre) = OK (length pre + Nat.min n (length d0))%nat.
Proof.
  induction d0 as [|c d0 IH]; intros n pre jd Hn; destruct n as [|n]; cbn [find_end].
  - f_equal. cbn. lia.
  - cbn [app]. rewrite rd_app2 by auto. cbn [bind]. change (0 =? 0) with true. cbn iota. f_equal. cbn. lia.
  - f_equal. cbn. lia.
  - apply nonul_cons in Hn. cbn [app]. rewrite rd_app2 by auto. cbn [bind]. destruct (N.eqb_spec c 0); [tauto|].
    rewrite (cons_snoc pre). replace (S (length pre)) with (length (pre ++ [c])) by (rewrite app_length; cbn; lia).
    rewrite IH by tauto. rewrite app_length. cbn [length]. f_equal. lia.
Qed.

Lemma find_end_full : forall d0 pre r, nonul d0 ->
  find_end (length d0) (pre ++ d0 ++ r) (length pre) = OK (length pre + length d0)%nat.
Proof.
  induction d0 as [|c d0 IH]; intros pre r Hn; cbn [find_end length].
  - f_equal. lia.
  - apply nonul_cons in Hn. cbn [app]. rewrite rd_app2 by auto. cbn [bind]. destruct (N.eqb_spec c 0); [tauto|].
    rewrite (cons_snoc pre). replace (S (length pre)) with (length (pre ++ [c])) by (rewrite app_length; cbn; lia).
    rewrite IH by tauto. rewrite app_length. cbn [length]. f_equal. lia.
Qed.

Lemma strlcat_loop_spec : forall s n cp tail spre js fuel,
  (length s < fuel)%nat -> (n < length tail)%nat -> nonul s ->
  strlcat_loop fuel n (cp ++ tail) (length cp) (spre ++ s ++ 0 :: js) (length spre) =
  OK (cp ++ firstn n s ++ skipn (Nat.min n (length s)) tail, (length cp + Nat.min n (length s))%nat, (length spre + length s)%nat).
Proof.
  induction s as [|c s IH]; intros n cp tail spre js fuel Hf Hl Hn;
    (destruct fuel as [|fuel]; [cbn in Hf; lia|]); cbn [strlcat_loop].
  - cbn [app]. rewrite rd_app2 by auto. cbn [bind]. change (0 =? 0) with true. cbn iota.
    rewrite firstn_nil. cbn [length app]. rewrite Nat.min_0_r. cbn [skipn]. rewrite !Nat.add_0_r. reflexivity.
  - apply nonul_cons in Hn. cbn [app]. rewrite rd_app2 by auto. cbn [bind]. destruct (N.eqb_spec c 0); [tauto|].
    rewrite (cons_snoc spre c).
    replace (S (length spre)) with (length (spre ++ [c])) by (rewrite app_length; cbn; lia).
    destruct n as [|n].
    + pose proof (IH 0%nat cp tail (spre ++ [c]) js fuel) as E. rewrite E; [|cbn in Hf; lia|lia|tauto].
      cbn [firstn Nat.min skipn app]. rewrite !app_length. cbn [length]. f_equal. f_equal. lia.
    + destruct tail as [|t0 tail]; [cbn in Hl; lia|]. rewrite wr_app2 by auto. cbn [bind].
      rewrite (cons_snoc cp). replace (S (length cp)) with (length (cp ++ [c])) by (rewrite app_length; cbn; lia).
      rewrite IH; [|cbn in Hf; lia|cbn in Hl; lia|tauto].
      cbn [firstn length Nat.min skipn]. rewrite <- !app_assoc. cbn [app]. rewrite !app_length. cbn [length].
      peq.
Qed.

Theorem strlcat_spec d0 jd s js dsize : nonul d0 -> nonul s ->
  (length d0 < dsize)%nat -> (dsize <= length (d0 ++ 0%N :: jd))%nat ->
  strlcat (d0 ++ 0 :: jd) (s ++ 0 :: js) dsize =
  OK ((length d0 + length s)%nat,
      d0 ++ firstn (dsize - length d0 - 1) s ++ 0 :: skipn (Nat.min (dsize - length d0 - 1) (length s)) jd).
Proof.
  intros Hd Hs H1 H2. unfold strlcat. pose proof (find_end_spec d0 dsize [] jd Hd) as F.
  cbn [app length Nat.add] in F. rewrite F. cbn [bind].
  replace (Nat.min dsize (length d0)) with (length d0) by lia.
  destruct (dsize - length d0)%nat as [|n] eqn:E; [lia|].
  replace (S n - 1)%nat with n by lia.
  pose proof (strlcat_loop_spec s n d0 (0 :: jd) [] js (S (length (s ++ 0 :: js)))) as L.
  cbn [app length Nat.add] in L. rewrite L; auto.
  2:{ rewrite app_length. lia. } 2:{ rewrite app_length in H2. cbn in H2. lia. }
  cbn [bind].
  assert (Ln : length (firstn n s) = Nat.min n (length s)) by (rewrite firstn_length; lia).
  assert (exists t0, skipn (Nat.min n (length s)) (0 :: jd) = t0 :: skipn (Nat.min n (length s)) jd) as (t0 & Et).
  { rewrite app_length in H2. cbn [length] in H2.
    assert (K : forall (l : list N) k x, (k <= length l)%nat -> exists t, skipn k (x :: l) = t :: skipn k l).
    { clear. induction l as [|y l IH]; intros k x Hk. - cbn in Hk. replace k with 0%nat by lia. exists x. reflexivity.
      - destruct k; [exists x; reflexivity|]. cbn [skipn]. apply IH. cbn in Hk; lia. }
    apply K. lia. }
  rewrite Et. rewrite (app_assoc d0). rewrite wr_app2 by (rewrite app_length, Ln; reflexivity).
  cbn [bind]. rewrite <- app_assoc. reflexivity.
Qed.

Theorem strlcat_full_spec dst s js dsize : nonul (firstn dsize dst) -> nonul s -> (dsize <= length dst)%nat ->
  strlcat dst (s ++ 0 :: js) dsize = OK ((dsize + length s)%nat, dst).
Proof.
  intros Hd Hs Hl. unfold strlcat.
  assert (F : find_end dsize dst 0 = OK dsize).
  { pose proof (find_end_full (firstn dsize dst) [] (skipn dsize dst) Hd) as F.
    cbn [app] in F. rewrite firstn_skipn in F. rewrite firstn_length in F.
    replace (Nat.min dsize (length dst)) with dsize in F by lia. exact F. }
  rewrite F. cbn [bind]. rewrite Nat.sub_diag. pose proof (strlen_app [] s js 0 eq_refl Hs) as SL. cbn [app] in SL. rewrite SL. reflexivity.
Qed.

(** ** strtonum *)
Definition is_dec (s : list N) (v : Z) : Prop :=
  exists ws sg ds, s = ws ++ sg ++ ds /\ forallb is_space ws = true /\
    ds <> [] /\ forallb is_digit ds = true /\
    ((sg = [] \/ sg = [43]) /\ v = fold_left (fun a d => a * 10 + Z.of_N (d - 48))%Z ds 0%Z
     \/ sg = [45] /\ v = (- fold_left (fun a d => a * 10 + Z.of_N (d - 48))%Z ds 0)%Z).

Lemma drop_space_spec s : exists ws, s = ws ++ drop_space s /\ forallb is_space ws = true /\
  match drop_space s with c :: _ => is_space c = false | [] => True end.
Proof.
  induction s as [|c s (ws & E & H1 & H2)]; cbn. { exists []. auto. }
  destruct (is_space c) eqn:Ec. 
  - exists (c :: ws). cbn. rewrite Ec, <- E. auto.
  - exists []. cbn. rewrite Ec. auto.
Qed.

Lemma drop_space_app ws s : forallb is_space ws = true ->
  match s with c :: _ => is_space c = false | [] => True end -> drop_space (ws ++ s) = s.
Proof.
  induction ws as [|c ws IH]; cbn; intros H1 H2.
  - destruct s as [|c s]; cbn; [reflexivity|]. rewrite H2. reflexivity.
  - apply andb_true_iff in H1. destruct H1 as [-> H1]. auto.
Qed.

Lemma digits_val_spec s : forall acc, exists ds, s = ds ++ snd (digits_val s acc) /\ forallb is_digit ds = true /\
  fst (digits_val s acc) = fold_left (fun a d => a * 10 + Z.of_N (d - 48))%Z ds acc /\
  match snd (digits_val s acc) with c :: _ => is_digit c = false | [] => True end.
Proof.
  induction s as [|c s IH]; intros acc; cbn. { exists []. auto. }
  destruct (is_digit c) eqn:E.
  - destruct (IH (acc * 10 + Z.of_N (c - 48))%Z) as (ds & H1 & H2 & H3 & H4).
    exists (c :: ds). cbn. rewrite E, <- H1. auto.
  - exists []. cbn. rewrite E. auto.
Qed.

Lemma digits_val_all ds : forall acc, forallb is_digit ds = true ->
  digits_val ds acc = (fold_left (fun a d => a * 10 + Z.of_N (d - 48))%Z ds acc, []).
Proof. induction ds as [|c ds IH]; intros acc H; cbn in *; [reflexivity|]. apply andb_true_iff in H. destruct H as [-> H]. auto. Qed.

Lemma digit_not_space c : is_digit c = true -> is_space c = false.
Proof. unfold is_digit, is_space. lia. Qed.

Definition clampv (v : Z) : Z * bool :=
  if (v <? LLONG_MIN)%Z then (LLONG_MIN, true) else if (LLONG_MAX <? v)%Z then (LLONG_MAX, true) else (v, false).

Lemma strtoll_full s v : is_dec s v -> strtoll s = Some (fst (clampv v), snd (clampv v), []).
Proof.
  intros (ws & sg & ds & -> & Hw & Hne & Hd & Hv). unfold strtoll.
  destruct ds as [|c ds]; [congruence|]. cbn in Hd.
  assert (Hd' := Hd). apply andb_true_iff in Hd. destruct Hd as [Hc Hd].
  assert (Hc45 : c =? 45 = false) by (unfold is_digit in Hc; lia).
  assert (Hc43 : c =? 43 = false) by (unfold is_digit in Hc; lia).
  destruct Hv as [[[-> | ->] Hv]|[-> Hv]].
  - cbn [app]. rewrite (drop_space_app ws (c :: ds)); auto. 2:{ apply digit_not_space; auto. }
    rewrite Hc45, Hc43. rewrite Hc. rewrite digits_val_all by exact Hd'. rewrite <- Hv.
    cbv zeta. cbn iota. unfold clampv. repeat match goal with |- context[if ?b then _ else _] => destruct b end; reflexivity.
  - rewrite (drop_space_app ws ([43] ++ c :: ds) Hw eq_refl). cbn [app]. cbn [N.eqb Pos.eqb]. rewrite Hc.
    rewrite digits_val_all by exact Hd'. rewrite <- Hv.
    cbv zeta. cbn iota. unfold clampv. repeat match goal with |- context[if ?b then _ else _] => destruct b end; reflexivity.
  - rewrite (drop_space_app ws ([45] ++ c :: ds) Hw eq_refl). cbn [app]. cbn [N.eqb Pos.eqb]. rewrite Hc.
    rewrite digits_val_all by exact Hd'. cbn iota. rewrite <- Hv.
    cbv zeta. cbn iota. unfold clampv. repeat match goal with |- context[if ?b then _ else _] => destruct b end; reflexivity.
Qed.

Lemma strtoll_inv s v e : strtoll s = Some (v, e, []) -> exists w, is_dec s w /\ clampv w = (v, e).
Proof.
  unfold strtoll. destruct (drop_space_spec s) as (ws & Es & Hw & Hn).
  destruct (drop_space s) as [|c r] eqn:Ed.
  { cbn. discriminate. }
  assert (K : forall sg (t : list N) (neg : bool), c :: r = sg ++ t ->
    ((sg = [] \/ sg = [43]) /\ neg = false \/ sg = [45] /\ neg = true) ->
    match t with
    | c0 :: _ => if is_digit c0 then let '(v0, rest) := digits_val t 0 in
       let v0 := if neg then (- v0)%Z else v0 in
       if (v0 <? LLONG_MIN)%Z then Some (LLONG_MIN, true, rest) else if (LLONG_MAX <? v0)%Z then Some (LLONG_MAX, true, rest) else Some (v0, false, rest)
       else None
    | [] => None end = Some (v, e, []) -> exists w, is_dec s w /\ clampv w = (v, e)).
  { intros sg t neg Et Hsg H. destruct t as [|c0 t]; [discriminate|].
    destruct (is_digit c0) eqn:Ec0; [|discriminate].
    destruct (digits_val_spec (c0 :: t) 0) as (ds & D1 & D2 & D3 & D4).
    destruct (digits_val (c0 :: t) 0) as [v0 rest]. cbn [fst snd] in *.
    set (w := if neg then (- v0)%Z else v0) in *.
    assert (Hr : rest = [] /\ clampv w = (v, e)).
    { cbv zeta in H. unfold clampv. destruct (w <? LLONG_MIN)%Z; [inversion H; auto|]. destruct (LLONG_MAX <? w)%Z; inversion H; auto. }
    destruct Hr as [-> Hr]. exists w. split; [|exact Hr].
    rewrite app_nil_r in D1. subst ds. exists ws, sg, (c0 :: t). split; [rewrite <- Et; exact Es|]. split; [exact Hw|].
    split; [discriminate|]. split; [exact D2|].
    unfold w. rewrite D3. destruct Hsg as [[Hsg ->]|[-> ->]]; auto. }
  destruct (N.eqb_spec c 45) as [->|]. { apply (K [45] r true); auto. }
  destruct (N.eqb_spec c 43) as [->|]. { apply (K [43] r false); auto. }
  apply (K [] (c :: r) false); auto.
Qed.

Theorem strtonum_spec s lo hi v : (LLONG_MIN <= lo)%Z -> (hi <= LLONG_MAX)%Z ->
  (strtonum s lo hi = (v, NumOk) <-> is_dec s v /\ (lo <= v <= hi)%Z).
Proof.
  intros Hlo Hhi. unfold strtonum. split.
  - destruct (Z.ltb_spec hi lo); [intros Q; inversion Q|].
    destruct (strtoll s) as [[[ll er] rest]|] eqn:E; [|intros Q; inversion Q].
    destruct rest; [|intros Q; inversion Q].
    destruct ((ll =? LLONG_MIN)%Z && er || (ll <? lo)%Z) eqn:E1; [intros Q; inversion Q|].
    destruct ((ll =? LLONG_MAX)%Z && er || (hi <? ll)%Z) eqn:E2; [intros Q; inversion Q|].
    intros Q. inversion Q; subst. destruct (strtoll_inv _ _ _ E) as (w & D & C).
    unfold clampv in C. destruct (Z.ltb_spec w LLONG_MIN).
    { inversion C; subst. rewrite Z.eqb_refl in E1. discriminate. }
    destruct (Z.ltb_spec LLONG_MAX w).
    { inversion C; subst. rewrite Z.eqb_refl in E2. discriminate. }
    inversion C; subst. split; [exact D|]. rewrite andb_false_r in *. cbn in *. lia.
  - intros [D B]. destruct (Z.ltb_spec hi lo); [lia|]. rewrite (strtoll_full s v D).
    assert (C : clampv v = (v, false)).
    { unfold clampv. destruct (Z.ltb_spec v LLONG_MIN); [lia|]. destruct (Z.ltb_spec LLONG_MAX v); [lia|]. reflexivity. }
    rewrite C. cbn [fst snd]. rewrite !andb_false_r. cbn [orb].
    destruct (Z.ltb_spec v lo); [lia|]. destruct (Z.ltb_spec hi v); [lia|]. reflexivity.
Qed.
