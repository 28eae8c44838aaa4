(** Properties C37, C38, C40, C41, C43: string helpers (compat/*.c, utils.c). *)
From Verif Require Import Base BaseLemmas Compat Compat_Proofs Memmem_Proofs IriSpec.
Local Open Scope N_scope.

(** C37.  [strlcpy(dst, s, dsize)], [dst] an object of at least [dsize] bytes:
    returns [strlen s]; the first [dsize-1] bytes of [s], a NUL, and nothing
    else is written (in particular nothing when [dsize] is 0). *)
Theorem c37_strlcpy : forall s js dst dsize, nonul s -> (dsize <= length dst)%nat ->
  exists dst', strlcpy dst (s ++ 0 :: js) dsize = OK (length s, dst') /\
    length dst' = length dst /\
    skipn dsize dst' = skipn dsize dst /\
    (0 < dsize -> cstr dst' = Some (firstn (dsize - 1) s))%nat.
Proof.
  intros s js dst dsize Hs Hd. eexists. split; [apply strlcpy_spec; assumption|].
  destruct dsize as [|n]. { repeat split; intros; lia. }
  assert (L : length (firstn n s) = Nat.min n (length s)) by apply firstn_length.
  split; [|split].
  - rewrite app_length. cbn [length]. rewrite L, skipn_length. lia.
  - rewrite skipn_app, L. rewrite (skipn_all2 (firstn n s)) by lia. cbn [app].
    destruct (S n - Nat.min n (length s))%nat as [|k] eqn:E; [lia|]. cbn [skipn].
    clear -E Hd L. revert dst Hd.
    assert (K : forall a b (l : list N), skipn a (skipn b l) = skipn (a + b) l).
    { intros a b. induction b as [|b IH]; intros l. { rewrite Nat.add_0_r. reflexivity. }
      destruct l; [rewrite !skipn_nil; reflexivity|]. rewrite Nat.add_succ_r. cbn [skipn]. apply IH. }
    intros dst Hd. change (skipn k (skipn (S (Nat.min (length s) n)) dst) = skipn (S n) dst).
    rewrite K. f_equal. lia.
  - intros _. replace (S n - 1)%nat with n by lia. apply cstr_nul.
    rewrite <- (firstn_skipn n s) in Hs. apply nonul_app in Hs. tauto.
Qed.
Print Assumptions c37_strlcpy.

(** [strlcat] on a destination holding the C string [d0] that ends inside
    [dsize]: appends what fits, terminates, touches nothing past [dsize], and
    returns the length it tried to create. *)
Theorem c37_strlcat : forall d0 jd s js dsize, nonul d0 -> nonul s ->
  (length d0 < dsize <= length (d0 ++ 0%N :: jd))%nat ->
  exists dst', strlcat (d0 ++ 0 :: jd) (s ++ 0 :: js) dsize = OK ((length d0 + length s)%nat, dst') /\
    length dst' = length (d0 ++ 0 :: jd) /\
    skipn dsize dst' = skipn dsize (d0 ++ 0 :: jd) /\
    cstr dst' = Some (d0 ++ firstn (dsize - 1 - length d0) s).
Proof.
  intros d0 jd s js dsize Hd Hs [H1 H2]. eexists. split; [apply strlcat_spec; assumption|].
  rewrite app_length in H2. cbn [length] in H2.
  replace (dsize - length d0 - 1)%nat with (dsize - 1 - length d0)%nat by lia.
  set (n := (dsize - 1 - length d0)%nat).
  assert (L : length (firstn n s) = Nat.min n (length s)) by apply firstn_length.
  assert (K : forall a b (l : list N), skipn a (skipn b l) = skipn (a + b) l).
  { intros a b. induction b as [|b IH]; intros l. { rewrite Nat.add_0_r. reflexivity. }
    destruct l; [rewrite !skipn_nil; reflexivity|]. rewrite Nat.add_succ_r. cbn [skipn]. apply IH. }
  split; [|split].
  - rewrite !app_length. cbn [length]. rewrite L, skipn_length. lia.
  - rewrite !skipn_app. rewrite (skipn_all2 d0) by lia. cbn [app]. rewrite (skipn_all2 (firstn n s)) by lia. cbn [app].
    rewrite L.
    destruct (dsize - length d0 - Nat.min n (length s))%nat as [|k] eqn:E; [lia|]. cbn [skipn].
    destruct (dsize - length d0)%nat as [|k'] eqn:E'; [lia|]. cbn [skipn].
    rewrite K. f_equal. lia.
  - rewrite app_assoc. apply cstr_nul. apply nonul_app. split; [exact Hd|].
    rewrite <- (firstn_skipn n s) in Hs. apply nonul_app in Hs. tauto.
Qed.
Print Assumptions c37_strlcat.

(** when the destination is not terminated within [dsize] nothing is written *)
Theorem c37_strlcat_full : forall dst s js dsize,
  nonul (firstn dsize dst) -> nonul s -> (dsize <= length dst)%nat ->
  strlcat dst (s ++ 0 :: js) dsize = OK ((dsize + length s)%nat, dst).
Proof. exact strlcat_full_spec. Qed.
Print Assumptions c37_strlcat_full.

Example c37_example :
  strlcpy [7;7;7;7;7] (s2b "abcdef" ++ [0]) 4 = OK (6%nat, s2b "abc" ++ [0;7]) /\
  strlcat (s2b "ab" ++ [0;7;7;7]) (s2b "xyz" ++ [0]) 5 = OK (5%nat, s2b "abxy" ++ [0;7]).
Proof. split; vm_compute; reflexivity. Qed.

(** C38.  [strtonum] accepts exactly: optional white space, an optional sign,
    one or more digits and nothing else, denoting a value in [lo, hi]; the
    result is that value, and 0 with an error otherwise. *)
Theorem c38_strtonum : forall s lo hi v, (LLONG_MIN <= lo)%Z -> (hi <= LLONG_MAX)%Z ->
  (strtonum s lo hi = (v, NumOk) <-> is_dec s v /\ (lo <= v <= hi)%Z).
Proof. exact strtonum_spec. Qed.
Print Assumptions c38_strtonum.

Theorem c38_strtonum_error_is_zero : forall s lo hi v e,
  strtonum s lo hi = (v, e) -> e <> NumOk -> v = 0%Z.
Proof.
  intros s lo hi v e H He. unfold strtonum in H.
  match goal with H : (let '(_, _) := ?x in _) = _ |- _ => destruct x as [ll []] end; inversion H; subst; congruence.
Qed.
Print Assumptions c38_strtonum_error_is_zero.

Example c38_example :
  strtonum (s2b "1965") 1 65535 = (1965%Z, NumOk) /\ strtonum (s2b "65536") 1 65535 = (0%Z, NumTooLarge) /\
  strtonum (s2b "99999999999999999999") 1 65535 = (0%Z, NumTooLarge) /\
  strtonum (s2b "12x") 1 65535 = (0%Z, NumInvalid) /\ is_dec (s2b "  +1965") 1965.
Proof.
  repeat split; try (vm_compute; reflexivity).
  exists (s2b "  "), [43], (s2b "1965"). repeat split; try (vm_compute; reflexivity).
  - discriminate.
  - left. split; [right|]; reflexivity.
Qed.

(** C40, for all needles: the short ones are found by the rolling comparisons,
    those of five bytes and more by the two-way search. *)
Theorem c40_memmem_first : forall m k n, bytes m -> bytes n -> (k <= length m)%nat ->
  exists r, memmem m k n = OK r /\
    match r with
    | Some i => (exists a b, firstn k m = a ++ n ++ b /\ length a = i) /\
                (forall a b, firstn k m = a ++ n ++ b -> (i <= length a)%nat)
    | None => forall a b, firstn k m <> a ++ n ++ b
    end.
Proof.
  intros m k n Hm Hn Hk. destruct n as [|n0 nr] eqn:En.
  { exists (Some 0%nat). split; [reflexivity|]. split; [|intros; lia]. exists [], (firstn k m). auto. }
  rewrite <- En in *. assert (Hne : n <> []) by (rewrite En; discriminate). clear En.
  destruct (memmem_any m k n Hm Hn Hk Hne) as (r & R & F).
  exists r. split; [exact R|].
  assert (O1 : forall j, occurs m k n j -> exists a b, firstn k m = a ++ n ++ b /\ length a = j).
  { intros j [A B]. exists (firstn j (firstn k m)), (skipn (j + length n) (firstn k m)). split.
    - rewrite <- (firstn_skipn j (firstn k m)) at 1. f_equal.
      rewrite <- (firstn_skipn (length n) (skipn j (firstn k m))) at 1. f_equal.
      + rewrite skipn_firstn_comm, firstn_firstn. replace (Nat.min (length n) (k - j)) with (length n) by lia. exact B.
      + clear. revert j. generalize (firstn k m). intros l j. revert l. induction j; intros l; [reflexivity|].
        destruct l; [rewrite !skipn_nil; reflexivity|]. cbn [skipn Nat.add]. apply IHj.
    - rewrite !firstn_length. lia. }
  assert (O2 : forall a b, firstn k m = a ++ n ++ b -> occurs m k n (length a)).
  { intros a b E. split.
    - apply (f_equal (@length N)) in E. rewrite firstn_length, !app_length in E. lia.
    - rewrite <- (firstn_skipn k m), E. rewrite <- !app_assoc, skipn_pre by reflexivity. apply firstn_pre. reflexivity. }
  destruct r as [i|]; cbn in F.
  - destruct F as (_ & F2 & F3). split; [apply O1; exact F2|]. intros a b E. apply O2 in E.
    destruct (Nat.lt_ge_cases (length a) i) as [L|L]; [|exact L]. exfalso. apply (F3 (length a)); [lia|exact E].
  - intros a b E. apply (F (length a)); [lia|]. eapply O2. exact E.
Qed.
Print Assumptions c40_memmem_first.

Example c40_example : memmem (s2b "ab" ++ [13;13;10] ++ s2b "c" ++ [13;10]) 8 [13;10] = OK (Some 3%nat).
Proof. vm_compute. reflexivity. Qed.
(** a needle with a period and one without, longer than four bytes *)
Example c40_example_long :
  memmem (s2b "xabcabcabxabcabcabcabcabdz") 26 (s2b "abcabcabcabd") = OK (Some 13%nat) /\
  memmem (s2b "xabcabcabxabcabcabcabcabdz") 24 (s2b "abcabcabcabd") = OK None /\
  memmem (s2b "the needle in nneedless") 23 (s2b "needless") = OK (Some 15%nat) /\
  memmem (s2b "ababababaaba") 12 (s2b "ababaaba") = OK (Some 4%nat).
Proof. repeat split; vm_compute; reflexivity. Qed.

(** C41.  What "strip n" should mean: drop the first [n] components; the
    result keeps the slash in front of what remains. *)
Definition stripped (n : nat) (p : list N) : list N :=
  match n, skipn n (split_slash p) with
  | O, _ => p
  | _, [] => []
  | _, ws => 47 :: join_slash ws
  end.

Lemma from_slash_split p :
  match from_slash p with
  | None => skipn 1 (split_slash p) = []
  | Some t => exists r, t = 47 :: r /\ skipn 1 (split_slash p) = split_slash r
  end.
Proof.
  induction p as [|c p IH]; [reflexivity|]. cbn [from_slash split_slash].
  destruct (N.eqb_spec c 47) as [->|H]. { exists p. split; reflexivity. }
  destruct (split_slash p) as [|w ws] eqn:E.
  { exfalso. destruct p as [|x p']; [discriminate|]. cbn [split_slash] in E. destruct (x =? 47); [discriminate|].
    destruct (split_slash p'); discriminate. }
  exact IH.
Qed.

Lemma join_split p : join_slash (split_slash p) = p.
Proof.
  induction p as [|c p IH]; [reflexivity|]. cbn [split_slash].
  assert (NE : split_slash p <> []).
  { destruct p as [|x p']; [discriminate|]. cbn [split_slash]. destruct (x =? 47); [discriminate|].
    destruct (split_slash p'); discriminate. }
  destruct (N.eqb_spec c 47) as [->|H].
  - destruct (split_slash p) as [|w ws] eqn:E; [congruence|].
    change (47 :: join_slash (w :: ws) = 47 :: p). rewrite IH. reflexivity.
  - destruct (split_slash p) as [|w ws]; [congruence|]. destruct ws as [|w' ws].
    + cbn in *. congruence.
    + change ((c :: w) ++ 47 :: join_slash (w' :: ws) = c :: p).
      change (w ++ 47 :: join_slash (w' :: ws) = p) in IH. cbn [app]. congruence.
Qed.

(** for [n <= 1] the code does what is meant; ... *)
Theorem c41_strip_partial : forall p n, (n <= 1)%nat -> strip_path p n = stripped n p.
Proof.
  intros p n Hn. destruct n as [|[|n]]; [reflexivity| |lia]. cbn [strip_path]. unfold stripped.
  pose proof (from_slash_split p) as F. destruct (from_slash p) as [t|].
  - destruct F as (r & -> & F). rewrite F.
    destruct (split_slash r) as [|w ws] eqn:E.
    { exfalso. destruct r as [|x r']; [discriminate|]. cbn [split_slash] in E. destruct (x =? 47); [discriminate|].
      destruct (split_slash r'); discriminate. }
    rewrite <- E, join_split. reflexivity.
  - rewrite F. reflexivity.
Qed.
Print Assumptions c41_strip_partial.

(** ... and any larger [n] behaves like 1, because the search restarts AT the
    slash it has just found: *)
Theorem c41_strip_more_is_strip_one : forall p n, strip_path p (S n) = strip_path p 1.
Proof.
  intros p n. cbn [strip_path]. destruct (from_slash p) as [t|] eqn:E; [|reflexivity].
  pose proof (from_slash_split p) as F. rewrite E in F. destruct F as (r & -> & _).
  clear E. induction n as [|n IH]; [reflexivity|]. cbn [strip_path from_slash]. exact IH.
Qed.
Print Assumptions c41_strip_more_is_strip_one.

(** so the property as stated is false of the code. *)
Theorem c41_strip_refuted : exists p n, strip_path p n <> stripped n p.
Proof. exists (s2b "a/b/c"), 2%nat. vm_compute. discriminate. Qed.
Print Assumptions c41_strip_refuted.

Example c41_example : strip_path (s2b "a/b/c") 1 = s2b "/b/c" /\ strip_path (s2b "a/b/c") 2 = s2b "/b/c"
  /\ stripped 2 (s2b "a/b/c") = s2b "/c" /\ strip_path (s2b "abc") 1 = [].
Proof. repeat split; vm_compute; reflexivity. Qed.

(** C43.  [ends_with] is exactly the suffix test. *)
Lemma ends_loop_eq : forall a b, length a = length b -> ends_loop a b = true <-> a = b.
Proof.
  induction a as [|c a IH]; intros b L; destruct b as [|d b]; cbn in L; try discriminate; cbn [ends_loop]; [tauto|].
  destruct (N.eqb_spec c d) as [->|H].
  - rewrite IH by lia. split; [intros ->; reflexivity|congruence].
  - split; [discriminate|congruence].
Qed.

Theorem c43_ends_with : forall s t, ends_with s t = true <-> exists p, s = p ++ t.
Proof.
  intros s t. unfold ends_with. destruct (Nat.ltb_spec (length s) (length t)) as [L|L].
  - split; [discriminate|]. intros [p ->]. rewrite app_length in L. lia.
  - rewrite ends_loop_eq by (rewrite skipn_length; lia). split.
    + intros <-. exists (firstn (length s - length t) s). symmetry. apply firstn_skipn.
    + intros [p ->]. rewrite app_length. replace (length p + length t - length t)%nat with (length p) by lia.
      apply skipn_pre. reflexivity.
Qed.
Print Assumptions c43_ends_with.

Example c43_example : ends_with (s2b "a/b.gmi") (s2b ".gmi") = true /\ ends_with (s2b "gmi") (s2b ".gmi") = false.
Proof. split; vm_compute; reflexivity. Qed.
