From Verif Require Import Base BaseLemmas TwoWay TwoWay_Proofs Compat.
Local Open Scope N_scope.

(** needle occurs at offset [j] of the first [k] bytes of [m] *)
Definition occurs (m : list N) (k : nat) (n : list N) (j : nat) : Prop :=
  (j + length n <= k)%nat /\ firstn (length n) (skipn j m) = n.

Definition first_from (m : list N) (k : nat) (n : list N) (from : nat) (r : option nat) : Prop :=
  match r with
  | Some i => (from <= i)%nat /\ occurs m k n i /\ forall j, (from <= j < i)%nat -> ~ occurs m k n j
  | None => forall j, (from <= j)%nat -> ~ occurs m k n j
  end.

Fixpoint gloop (l : nat) (U : N -> N -> N) (k : nat) (m : list N) (h : nat) (hw nw : N) : res (option nat) :=
  match k with
  | O => OK (if hw =? nw then Some (h - l)%nat else None)
  | S k' => if hw =? nw then OK (Some (h - l)%nat) else let* c := rd m h in gloop l U k' m (S h) (U hw c) nw
  end.

Lemma skipn_S {A} n : forall (m : list A) x r, skipn n m = x :: r -> skipn (S n) m = r.
Proof.
  induction n; intros m x r H. { destruct m; cbn in *; [discriminate|]. inversion H. reflexivity. }
  destruct m; cbn [skipn] in *; [discriminate|]. eapply IHn; eauto.
Qed.

Lemma nth_skipn {A} n : forall (m : list A) k, nth_error (skipn n m) k = nth_error m (n + k).
Proof. induction n; intros m k; cbn; [reflexivity|]. destruct m; [destruct k; reflexivity|]. cbn. apply IHn. Qed.

Lemma firstn_last {A} (l : list A) n c : nth_error l n = Some c -> firstn (S n) l = firstn n l ++ [c].
Proof.
  revert l. induction n; intros l H; destruct l; cbn in *; try discriminate.
  - inversion H. reflexivity.
  - f_equal. apply IHn. exact H.
Qed.

Lemma bytes_skipn m n : bytes m -> bytes (skipn n m).
Proof. intros H. rewrite <- (firstn_skipn n m) in H. apply bytes_app in H. tauto. Qed.
Lemma bytes_firstn m n : bytes m -> bytes (firstn n m).
Proof. intros H. rewrite <- (firstn_skipn n m) in H. apply bytes_app in H. tauto. Qed.

Section Gen.
  Context (l : nat) (P : list N -> N) (U : N -> N -> N).
  Context (Hl : (0 < l)%nat).
  Context (Pinj : forall a b, length a = l -> length b = l -> bytes a -> bytes b -> P a = P b -> a = b).
  Context (PU : forall x w c, length (x :: w) = l -> bytes (x :: w) -> c < 256 -> U (P (x :: w)) c = P (w ++ [c])).

  Lemma gloop_spec m n : bytes m -> length n = l -> bytes n -> forall k from,
    (from + l + k <= length m)%nat ->
    exists r, gloop l U k m (from + l) (P (firstn l (skipn from m))) (P n) = OK r /\
              first_from m (from + l + k) n from r.
  Proof.
    intros Hm Hn Hbn. induction k as [|k IH]; intros from Hk; cbn [gloop].
    - assert (W : length (firstn l (skipn from m)) = l) by (rewrite firstn_length, skipn_length; lia).
      eexists. split; [reflexivity|]. destruct (N.eqb_spec (P (firstn l (skipn from m))) (P n)) as [E|E].
      + apply Pinj in E; auto using bytes_firstn, bytes_skipn. cbn. replace (from + l - l)%nat with from by lia.
        split; [lia|]. split; [split; [lia|rewrite Hn; exact E]|]. intros; lia.
      + cbn. intros j Hj [H1 H2]. rewrite Hn in *. assert (j = from) by lia. subst. apply E. f_equal. exact H2.
    - assert (W : length (firstn l (skipn from m)) = l) by (rewrite firstn_length, skipn_length; lia).
      destruct (N.eqb_spec (P (firstn l (skipn from m))) (P n)) as [E|E].
      + apply Pinj in E; auto using bytes_firstn, bytes_skipn. eexists. split; [reflexivity|].
        cbn. replace (from + l - l)%nat with from by lia.
        split; [lia|]. split; [split; [lia|rewrite Hn; exact E]|]. intros; lia.
      + destruct (nth_error m (from + l)) as [c|] eqn:Ec.
        2:{ apply nth_error_None in Ec. lia. }
        unfold rd. rewrite Ec. cbn [bind].
        assert (Hc : c < 256). { apply nth_error_In in Ec. eapply Forall_forall in Hm; eauto. }
        destruct (firstn l (skipn from m)) as [|x w] eqn:Ew. { cbn in W. lia. }
        assert (Hbw : bytes (x :: w)) by (rewrite <- Ew; auto using bytes_firstn, bytes_skipn).
        rewrite PU by auto.
        assert (Ew2 : w ++ [c] = firstn l (skipn (S from) m)).
        { destruct (skipn from m) as [|y sk] eqn:Es. { rewrite firstn_nil in Ew. discriminate. }
          rewrite (skipn_S _ _ _ _ Es). destruct l as [|l']; [lia|]. cbn [firstn] in Ew. inversion Ew; subst.
          symmetry. apply firstn_last. rewrite <- Ec, <- nth_skipn, Es. cbn. reflexivity. }
        rewrite Ew2. destruct (IH (S from)) as (r & R1 & R2). { lia. }
        exists r. split; [exact R1|]. replace (from + l + S k)%nat with (S from + l + k)%nat by lia.
        assert (NO : ~ occurs m (S from + l + k) n from).
        { intros [_ H2]. rewrite Hn, Ew in H2. apply E. f_equal. exact H2. }
        destruct r as [i|]; cbn in *.
        * destruct R2 as (A & B & C). split; [lia|]. split; [exact B|].
          intros j Hj. destruct (Nat.eq_dec j from) as [->|]; [exact NO|]. apply C. lia.
        * intros j Hj. destruct (Nat.eq_dec j from) as [->|]; [exact NO|]. apply R2. lia.
  Qed.
End Gen.

Lemma lor_low a b k : b < 2 ^ k -> N.lor (N.shiftl a k) b = a * 2 ^ k + b.
Proof.
  intros H.
  assert (Z : N.land (N.shiftl a k) b = 0).
  { apply N.bits_inj. intros i. rewrite N.land_spec, N.bits_0.
    destruct (N.ltb_spec i k). { rewrite N.shiftl_spec_low by auto. reflexivity. }
    rewrite (N.testbit_eqb b). rewrite N.div_small. { rewrite andb_false_r. reflexivity. }
    eapply N.lt_le_trans; [exact H|]. apply N.pow_le_mono_r; lia. }
  rewrite <- (N.lxor_lor _ _ Z), <- (N.add_nocarry_lxor _ _ Z), N.shiftl_mul_pow2. reflexivity.
Qed.

Lemma mod_drop x q y : y < q -> (x * q + y) mod q = y.
Proof. intros H. rewrite N.add_comm, N.mod_add by lia. apply N.mod_small. exact H. Qed.

Definition P2 (w : list N) : N := match w with [a; b] => a * 256 + b | _ => 0 end.
Definition P3 (w : list N) : N := match w with [a; b; c] => (a * 65536 + b * 256 + c) * 256 | _ => 0 end.
Definition P4 (w : list N) : N := match w with [a; b; c; d] => a * 16777216 + b * 65536 + c * 256 + d | _ => 0 end.

Ltac lens := repeat match goal with
  | H : length ?w = _ |- _ => destruct w as [|? ?]; cbn [length] in H; try discriminate H; try (apply eq_add_S in H); try lia
  end.
Ltac byts := repeat match goal with
  | H : bytes (_ :: _) |- _ => apply bytes_cons in H; destruct H
  | H : bytes [] |- _ => clear H
  end.

Lemma len2 (w : list N) : length w = 2%nat -> exists a b, w = [a; b].
Proof. destruct w as [|a [|b [|c w]]]; cbn; intros; try discriminate. eauto. Qed.
Lemma len3 (w : list N) : length w = 3%nat -> exists a b c, w = [a; b; c].
Proof. destruct w as [|a [|b [|c [|d w]]]]; cbn; intros; try discriminate. eauto. Qed.
Lemma len4 (w : list N) : length w = 4%nat -> exists a b c d, w = [a; b; c; d].
Proof. destruct w as [|a [|b [|c [|d [|e w]]]]]; cbn; intros; try discriminate. eauto 6. Qed.

Lemma P2inj a b : length a = 2%nat -> length b = 2%nat -> bytes a -> bytes b -> P2 a = P2 b -> a = b.
Proof.
  intros H1 H2 B1 B2 E. apply len2 in H1, H2. destruct H1 as (a0 & a1 & ->). destruct H2 as (b0 & b1 & ->).
  byts. cbn [P2] in E. repeat f_equal; lia.
Qed.
Lemma P3inj a b : length a = 3%nat -> length b = 3%nat -> bytes a -> bytes b -> P3 a = P3 b -> a = b.
Proof.
  intros H1 H2 B1 B2 E. apply len3 in H1, H2. destruct H1 as (a0 & a1 & a2 & ->). destruct H2 as (b0 & b1 & b2 & ->).
  byts. cbn [P3] in E. repeat f_equal; lia.
Qed.
Lemma P4inj a b : length a = 4%nat -> length b = 4%nat -> bytes a -> bytes b -> P4 a = P4 b -> a = b.
Proof.
  intros H1 H2 B1 B2 E. apply len4 in H1, H2. destruct H1 as (a0 & a1 & a2 & a3 & ->). destruct H2 as (b0 & b1 & b2 & b3 & ->).
  byts. cbn [P4] in E. repeat f_equal; lia.
Qed.

Lemma PU2 x w c : length (x :: w) = 2%nat -> bytes (x :: w) -> c < 256 ->
  N.lor (N.shiftl (P2 (x :: w)) 8) c mod 2^16 = P2 (w ++ [c]).
Proof.
  intros H B Hc. apply len2 in H. destruct H as (a & b & E). inversion E; subst. byts. cbn [P2 app].
  rewrite lor_low by (change (2^8) with 256; auto). change (2^8) with 256. change (2^16) with 65536.
  replace ((a * 256 + b) * 256 + c) with (a * 65536 + (b * 256 + c)) by lia. apply mod_drop. lia.
Qed.
Lemma PU3 x w c : length (x :: w) = 3%nat -> bytes (x :: w) -> c < 256 ->
  N.shiftl (N.lor (P3 (x :: w)) c) 8 mod 2^32 = P3 (w ++ [c]).
Proof.
  intros H B Hc. apply len3 in H. destruct H as (a & b & d & E). inversion E; subst. byts. cbn [P3 app].
  replace ((a * 65536 + b * 256 + d) * 256) with (N.shiftl (a * 65536 + b * 256 + d) 8) by (rewrite N.shiftl_mul_pow2; reflexivity).
  rewrite lor_low by (change (2^8) with 256; auto). rewrite N.shiftl_mul_pow2. change (2^8) with 256. change (2^32) with 4294967296.
  replace (((a * 65536 + b * 256 + d) * 256 + c) * 256) with (a * 4294967296 + (b * 65536 + d * 256 + c) * 256) by lia.
  apply mod_drop. lia.
Qed.
Lemma PU4 x w c : length (x :: w) = 4%nat -> bytes (x :: w) -> c < 256 ->
  N.lor (N.shiftl (P4 (x :: w)) 8 mod 2^32) c = P4 (w ++ [c]).
Proof.
  intros H B Hc. apply len4 in H. destruct H as (a & b & d & e & E). inversion E; subst. byts. cbn [P4 app].
  rewrite N.shiftl_mul_pow2. change (2^8) with 256. change (2^32) with 4294967296.
  replace ((a * 16777216 + b * 65536 + d * 256 + e) * 256) with (a * 4294967296 + (b * 65536 + d * 256 + e) * 256) by lia.
  rewrite mod_drop by lia.
  replace ((b * 65536 + d * 256 + e) * 256) with (N.shiftl (b * 65536 + d * 256 + e) 8) by (rewrite N.shiftl_mul_pow2; reflexivity).
  rewrite lor_low by (change (2^8) with 256; auto). change (2^8) with 256. lia.
Qed.

Lemma twobyte_g k : forall m h hw nw, twobyte_loop k m h hw nw = gloop 2 (fun hw c => N.lor (N.shiftl hw 8) c mod 2^16) k m h hw nw.
Proof. induction k; intros; cbn [twobyte_loop gloop]; [reflexivity|]. destruct (hw =? nw); [reflexivity|]. destruct (rd m h); cbn [bind]; auto. Qed.
Lemma threebyte_g k : forall m h hw nw, threebyte_loop k m h hw nw = gloop 3 (fun hw c => N.shiftl (N.lor hw c) 8 mod 2^32) k m h hw nw.
Proof. induction k; intros; cbn [threebyte_loop gloop]; [reflexivity|]. destruct (hw =? nw); [reflexivity|]. destruct (rd m h); cbn [bind]; auto. Qed.
Lemma fourbyte_g k : forall m h hw nw, fourbyte_loop k m h hw nw = gloop 4 (fun hw c => N.lor (N.shiftl hw 8 mod 2^32) c) k m h hw nw.
Proof. induction k; intros; cbn [fourbyte_loop gloop]; [reflexivity|]. destruct (hw =? nw); [reflexivity|]. destruct (rd m h); cbn [bind]; auto. Qed.

Lemma pack2 a b : b < 256 -> N.lor (N.shiftl a 8) b = P2 [a; b].
Proof. intros. rewrite lor_low by (change (2^8) with 256; auto). reflexivity. Qed.
Lemma pack3 a b c : b < 256 -> c < 256 -> N.lor (N.lor (N.shiftl a 24) (N.shiftl b 16)) (N.shiftl c 8) = P3 [a; b; c].
Proof.
  intros Hb Hc. rewrite (N.shiftl_mul_pow2 c).
  assert (E1 : N.lor (N.shiftl a 24) (N.shiftl b 16) = N.shiftl (a * 256 + b) 16).
  { rewrite lor_low; rewrite !N.shiftl_mul_pow2; change (2^24) with 16777216; change (2^16) with 65536; lia. }
  rewrite E1. rewrite lor_low by (change (2^16) with 65536; change (2^8) with 256; lia).
  cbn [P3]. change (2^16) with 65536; change (2^8) with 256; lia.
Qed.
Lemma pack4 a b c d : b < 256 -> c < 256 -> d < 256 ->
  N.lor (N.lor (N.lor (N.shiftl a 24) (N.shiftl b 16)) (N.shiftl c 8)) d = P4 [a; b; c; d].
Proof.
  intros Hb Hc Hd. rewrite pack3 by auto. cbn [P3 P4].
  replace ((a * 65536 + b * 256 + c) * 256) with (N.shiftl (a * 65536 + b * 256 + c) 8) by (rewrite N.shiftl_mul_pow2; reflexivity).
  rewrite lor_low by (change (2^8) with 256; lia). change (2^8) with 256. lia.
Qed.

Lemma memchr_spec m c : forall k h, (h + k <= length m)%nat ->
  exists r, memchr m h k c = OK r /\ match r with
  | Some i => (h <= i < h + k)%nat /\ nth_error m i = Some c /\ forall j, (h <= j < i)%nat -> nth_error m j <> Some c
  | None => forall j, (h <= j < h + k)%nat -> nth_error m j <> Some c
  end.
Proof.
  induction k as [|k IH]; intros h Hk; cbn [memchr].
  - eexists. split; [reflexivity|]. cbn. intros; lia.
  - destruct (nth_error m h) as [x|] eqn:E. 2:{ apply nth_error_None in E. lia. }
    unfold rd. rewrite E. cbn [bind]. destruct (N.eqb_spec x c) as [->|Hne].
    + eexists. split; [reflexivity|]. cbn. split; [lia|]. split; [exact E|]. intros; lia.
    + destruct (IH (S h)) as (r & R1 & R2); [lia|]. exists r. split; [exact R1|].
      assert (N0 : nth_error m h <> Some c) by (rewrite E; congruence).
      destruct r as [i|].
      * destruct R2 as (A & B & C). split; [lia|]. split; [exact B|].
        intros j Hj. destruct (Nat.eq_dec j h) as [->|]; auto. apply C; lia.
      * intros j Hj. destruct (Nat.eq_dec j h) as [->|]; auto. apply R2; lia.
Qed.

Lemma occurs_head m k n0 nr j : occurs m k (n0 :: nr) j -> nth_error m j = Some n0.
Proof.
  intros [_ H]. cbn [length] in H. rewrite <- (Nat.add_0_r j), <- nth_skipn.
  destruct (skipn j m); cbn in *; [discriminate|]. inversion H. reflexivity.
Qed.

Lemma firstn_rd l m h : (h + l <= length m)%nat -> forall i, (i < l)%nat ->
  rd m (h + i) = OK (nth i (firstn l (skipn h m)) 0).
Proof.
  intros H i Hi. unfold rd.
  assert (E : nth_error (firstn l (skipn h m)) i = nth_error m (h + i)).
  { rewrite <- nth_skipn. rewrite <- (firstn_skipn l (skipn h m)) at 2. rewrite nth_error_app1; [reflexivity|].
    rewrite firstn_length, skipn_length. lia. }
  rewrite <- E. rewrite (nth_error_nth' _ 0); [reflexivity|]. rewrite firstn_length, skipn_length. lia.
Qed.

Lemma found_occurs m n k j : (k <= length m)%nat -> found m n k j <-> occurs m k n j.
Proof.
  intros Hk. unfold found, occurs, at_. split; intros [A B]; split; auto.
  - apply (nth_ext _ _ 0 0). { rewrite firstn_length, skipn_length. lia. }
    intros i Hi. rewrite firstn_length, skipn_length in Hi. rewrite nth_firstn' by lia. rewrite <- B by lia.
    pose proof (at_skipn m j i) as E. unfold at_ in E. exact E.
  - intros i Hi. rewrite <- B. rewrite nth_firstn' by lia.
    pose proof (at_skipn m j i) as E. unfold at_ in E. symmetry. exact E.
Qed.

Theorem memmem_any m k n : bytes m -> bytes n -> (k <= length m)%nat -> n <> [] ->
  exists r, memmem m k n = OK r /\ first_from m k n 0 r.
Proof.
  intros Hm Hn Hk Hne. destruct n as [|n0 nr]; [congruence|]. cbv delta [memmem] beta iota.
  destruct (Nat.ltb_spec k (length (n0 :: nr))) as [L|L].
  { eexists. split; [reflexivity|]. cbn. intros j _ [H _]. cbn in *. lia. }
  destruct (memchr_spec m n0 k 0 Hk) as (r & R1 & R2). rewrite R1. cbn [bind].
  destruct r as [h|].
  2:{ eexists. split; [reflexivity|]. cbn. intros j _ H. pose proof (occurs_head _ _ _ _ _ H). destruct H as [H _].
      cbn in H. eapply R2; [|eassumption]. lia. }
  destruct R2 as (A & B & C).
  assert (Before : forall j, (j < h)%nat -> ~ occurs m k (n0 :: nr) j).
  { intros j Hj H. apply occurs_head in H. eapply C; [|exact H]. lia. }
  assert (Lift : forall r, first_from m k (n0 :: nr) h r -> first_from m k (n0 :: nr) 0 r).
  { intros r F. destruct r as [i|]; cbn in *.
    - destruct F as (F1 & F2 & F3). split; [lia|]. split; [exact F2|]. intros j Hj.
      destruct (Nat.lt_ge_cases j h); [apply Before; auto|]. apply F3; lia.
    - intros j _. destruct (Nat.lt_ge_cases j h); [apply Before; auto|]. apply F; auto. }
  destruct nr as [|n1 nr].
  { eexists. split; [reflexivity|]. apply Lift. cbn. split; [lia|]. split; [|intros; lia].
    split; [cbn; lia|]. cbn [length]. rewrite <- (Nat.add_0_r h), <- nth_skipn in B. 
    destruct (skipn h m); cbn in *; inversion B. reflexivity. }
  destruct (Nat.ltb_spec (k - h) (length (n0 :: n1 :: nr))) as [L2|L2].
  { eexists. split; [reflexivity|]. apply Lift. cbn. intros j Hj [H _]. cbn in *. lia. }
  destruct nr as [|n2 [|n3 [|n4 nr]]]; cbn [length] in *.
  - unfold twobyte_memmem.
    assert (W : length (firstn 2 (skipn h m)) = 2%nat) by (rewrite firstn_length, skipn_length; lia).
    pose proof (firstn_rd 2 m h ltac:(lia)) as R.
    pose proof (bytes_firstn _ 2 (bytes_skipn _ h Hm)) as BW.
    destruct (len2 _ W) as (a & b & E). rewrite E in R, BW.
    assert (R0 := R 0%nat ltac:(lia)). rewrite Nat.add_0_r in R0. rewrite R0, (R 1%nat) by lia. cbn [bind nth].
    byts. rewrite twobyte_g. rewrite !pack2 by auto. rewrite <- E.
    destruct (gloop_spec 2 P2 (fun hw c => N.lor (N.shiftl hw 8) c mod 2^16) ltac:(lia) P2inj PU2 m [n0; n1] Hm eq_refl ltac:(repeat constructor; auto) (k - h - 2) h ltac:(lia)) as (r & G1 & G2).
    exists r. split; [exact G1|]. apply Lift. replace (h + 2 + (k - h - 2))%nat with k in G2 by lia. exact G2.
  - unfold threebyte_memmem.
    assert (W : length (firstn 3 (skipn h m)) = 3%nat) by (rewrite firstn_length, skipn_length; lia).
    pose proof (firstn_rd 3 m h ltac:(lia)) as R.
    pose proof (bytes_firstn _ 3 (bytes_skipn _ h Hm)) as BW.
    destruct (len3 _ W) as (a & b & c & E). rewrite E in R, BW.
    assert (R0 := R 0%nat ltac:(lia)). rewrite Nat.add_0_r in R0. rewrite R0, (R 1%nat), (R 2%nat) by lia. cbn [bind nth].
    byts. rewrite threebyte_g. rewrite !pack3 by auto. rewrite <- E.
    destruct (gloop_spec 3 P3 (fun hw c => N.shiftl (N.lor hw c) 8 mod 2^32) ltac:(lia) P3inj PU3 m [n0; n1; n2] Hm eq_refl ltac:(repeat constructor; auto) (k - h - 3) h ltac:(lia)) as (r & G1 & G2).
    exists r. split; [exact G1|]. apply Lift. replace (h + 3 + (k - h - 3))%nat with k in G2 by lia. exact G2.
  - unfold fourbyte_memmem.
    assert (W : length (firstn 4 (skipn h m)) = 4%nat) by (rewrite firstn_length, skipn_length; lia).
    pose proof (firstn_rd 4 m h ltac:(lia)) as R.
    pose proof (bytes_firstn _ 4 (bytes_skipn _ h Hm)) as BW.
    destruct (len4 _ W) as (a & b & c & d & E). rewrite E in R, BW.
    assert (R0 := R 0%nat ltac:(lia)). rewrite Nat.add_0_r in R0. rewrite R0, (R 1%nat), (R 2%nat), (R 3%nat) by lia. cbn [bind nth].
    byts. rewrite fourbyte_g. rewrite !pack4 by auto. rewrite <- E.
    destruct (gloop_spec 4 P4 (fun hw c => N.lor (N.shiftl hw 8 mod 2^32) c) ltac:(lia) P4inj PU4 m [n0; n1; n2; n3] Hm eq_refl ltac:(repeat constructor; auto) (k - h - 4) h ltac:(lia)) as (r & G1 & G2).
    exists r. split; [exact G1|]. apply Lift. replace (h + 4 + (k - h - 4))%nat with k in G2 by lia. exact G2.
  - set (n := n0 :: n1 :: n2 :: n3 :: n4 :: nr). replace (h + (k - h))%nat with k by lia.
    destruct (twoway_spec m n h k Hk ltac:(lia) ltac:(discriminate)) as (r & T1 & T2). exists r. split; [exact T1|]. apply Lift.
    destruct r as [i|]; cbn [first_from].
    + destruct T2 as (T2 & T3 & T4). split; [exact T2|]. split; [apply found_occurs; auto|].
      intros j Hj O. apply (T4 j Hj). apply found_occurs; auto.
    + intros j Hj O. apply (T2 j Hj). apply found_occurs; auto.
Qed.
