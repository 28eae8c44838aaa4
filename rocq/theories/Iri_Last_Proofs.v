(** Whatever parse_iri returns, the fields of the [struct iri] are strings: the
    last byte of the buffer stays NUL and no field points past it. *)
From Verif Require Import Base BaseLemmas Utf8 Iri IriSpec IriObs.
Local Open Scope N_scope.

Definition lastnul (m : list N) : Prop := nth_error m (length m - 1) = Some 0.
Definition inside (L : nat) (i : iri) : Prop :=
  (i_schema i < L /\ i_host i < L /\ i_port i < L /\ i_path i < L /\ i_query i < L /\ i_fragment i < L)%nat.
Definition Inv (L : nat) (p : pst) : Prop := length (mem p) = L /\ lastnul (mem p) /\ inside L (parsed p).

Lemma cstr_exists m k : nth_error m k = Some 0 -> exists s, cstr m = Some s.
Proof.
  revert k. induction m as [|x m IH]; intros [|k] H; try discriminate; cbn [cstr].
  - cbn in H. inversion H; subst. cbn. eauto.
  - destruct (x =? 0); [eauto|]. destruct (IH k H) as (s & ->). eauto.
Qed.

Lemma nth_error_skipn {A} (l : list A) n k : nth_error (skipn n l) k = nth_error l (n + k).
Proof. revert n. induction l as [|x l IH]; intros [|n]; cbn; auto. destruct k; reflexivity. Qed.

Lemma cstr_at_exists m k : lastnul m -> (k < length m)%nat -> exists s, cstr_at m k = Some s.
Proof.
  intros H K. unfold cstr_at. apply (cstr_exists _ (length m - 1 - k)).
  rewrite nth_error_skipn. replace (k + (length m - 1 - k))%nat with (length m - 1)%nat by lia. exact H.
Qed.

Lemma inv_comps L p : Inv L p -> exists c, comps_of p = Some c.
Proof.
  intros (E & M & I). unfold inside in I. unfold comps_of.
  repeat match goal with |- context[cstr_at (mem p) ?f] =>
    let s := fresh "s" in let H := fresh "H" in
    destruct (cstr_at_exists (mem p) f M ltac:(rewrite E; tauto)) as (s & H); rewrite H; clear H end.
  eauto.
Qed.

(** primitive steps *)
Lemma OK_inj {A} (a b : A) : OK a = OK b -> a = b.
Proof. congruence. Qed.

Lemma bind_ok {A B} (x : res A) (f : A -> res B) b : (let* a := x in f a) = OK b -> exists a, x = OK a /\ f a = OK b.
Proof. destruct x; cbn; [eauto|discriminate|discriminate]. Qed.

Lemma rd_lt m k c : rd m k = OK c -> (k < length m)%nat.
Proof. unfold rd. destruct (nth_error m k) eqn:E; [|discriminate]. intros _. apply nth_error_Some. congruence. Qed.

Lemma wr_last m k v m' c : wr m k v = OK m' -> rd m k = OK c -> (c = 0 -> v = 0) -> lastnul m -> length m' = length m /\ lastnul m'.
Proof.
  unfold wr. destruct (Nat.ltb_spec k (length m)) as [H|H]; [|discriminate]. intros E R Z M. apply OK_inj in E; subst m'.
  assert (L : length (firstn k m ++ v :: skipn (S k) m) = length m) by (rewrite app_length; cbn [length]; rewrite firstn_length, skipn_length; lia).
  split; [exact L|]. unfold lastnul in *. rewrite L.
  destruct (Nat.eq_dec k (length m - 1)) as [->|N].
  - rewrite nth_error_app2 by (rewrite firstn_length; lia). rewrite firstn_length, Nat.min_l by lia. rewrite Nat.sub_diag. cbn.
    f_equal. apply Z. unfold rd in R. rewrite M in R. congruence.
  - rewrite nth_error_app2 by (rewrite firstn_length; lia). rewrite firstn_length, Nat.min_l by lia.
    destruct (length m - 1 - k)%nat as [|j] eqn:J; [lia|]. cbn [nth_error]. rewrite nth_error_skipn.
    replace (S k + j)%nat with (length m - 1)%nat by lia. exact M.
Qed.

Lemma wr_zero m k m' : wr m k 0 = OK m' -> lastnul m -> length m' = length m /\ lastnul m'.
Proof.
  intros H M. destruct (nth_error m k) as [c|] eqn:E.
  - apply (wr_last m k 0 m' c H); auto. unfold rd. rewrite E. reflexivity.
  - unfold wr in H. apply nth_error_None in E. destruct (Nat.ltb_spec k (length m)); [lia|discriminate].
Qed.

Lemma memmove_last m d s n m' : memmove m d s n = OK m' -> (d + n < length m)%nat -> lastnul m -> length m' = length m /\ lastnul m'.
Proof.
  unfold memmove. destruct (Nat.leb_spec (d + n) (length m)); [|discriminate].
  destruct (Nat.leb_spec (s + n) (length m)); [|discriminate]. cbn [andb]. intros E D M. apply OK_inj in E; subst m'.
  assert (L : length (firstn d m ++ firstn n (skipn s m) ++ skipn (d + n) m) = length m).
  { rewrite !app_length, !firstn_length, !skipn_length. lia. }
  split; [exact L|]. unfold lastnul in *. rewrite L, app_assoc.
  assert (L2 : length (firstn d m ++ firstn n (skipn s m)) = (d + n)%nat) by (rewrite app_length, !firstn_length, skipn_length; lia).
  rewrite nth_error_app2 by lia. rewrite L2, nth_error_skipn.
  replace (d + n + (length m - 1 - (d + n)))%nat with (length m - 1)%nat by lia. exact M.
Qed.

Lemma strlen_lt m k n : strlen m k = OK n -> (k + n < length m)%nat.
Proof.
  unfold strlen, cstr_at. destruct (cstr (skipn k m)) as [l|] eqn:E; [|discriminate]. intros H. inversion H; subst n. clear H.
  assert (G : forall m l, cstr m = Some l -> (length l < length m)%nat).
  { clear. induction m as [|x m IH]; intros l; cbn [cstr]; [discriminate|].
    destruct (x =? 0); [intros H; inversion H; cbn; lia|]. destruct (cstr m) as [l'|] eqn:E; [|discriminate].
    intros H. inversion H; subst. cbn. specialize (IH l' eq_refl). lia. }
  apply G in E. rewrite skipn_length in E. lia.
Qed.

Lemma pct_decode_last m s m' : pct_decode m s = OK m' -> lastnul m -> length m' = length m /\ lastnul m'.
Proof.
  unfold pct_decode. intros H M.
  apply bind_ok in H as (c1 & R1 & H). apply bind_ok in H as (c2 & R2 & H).
  apply bind_ok in H as (m1 & W & H). apply bind_ok in H as (n & SL & H).
  apply rd_lt in R2.
  assert (K : length m1 = length m /\ lastnul m1).
  { destruct (nth_error m s) as [c|] eqn:E.
    - destruct (N.eq_dec c 0) as [->|NZ].
      + (* the NUL at s is not the last byte *)
        unfold wr in W. destruct (Nat.ltb_spec s (length m)); [|lia]. apply OK_inj in W; subst m1.
        assert (L : length (firstn s m ++ (16 * hexval c1 + hexval c2) :: skipn (S s) m) = length m)
          by (rewrite app_length; cbn [length]; rewrite firstn_length, skipn_length; lia).
        split; [exact L|]. unfold lastnul in *. rewrite L.
        rewrite nth_error_app2 by (rewrite firstn_length; lia). rewrite firstn_length, Nat.min_l by lia.
        destruct (length m - 1 - s)%nat as [|j] eqn:J; [lia|]. cbn [nth_error]. rewrite nth_error_skipn.
        replace (S s + j)%nat with (length m - 1)%nat by lia. exact M.
      + apply (wr_last m s (16 * hexval c1 + hexval c2) m1 c W); auto; [|congruence]. unfold rd. rewrite E. reflexivity.
    - apply nth_error_None in E. lia. }
  destruct K as [L1 M1]. apply strlen_lt in SL. rewrite L1 in SL.
  destruct (memmove_last _ _ _ _ _ H) as [L2 M2]; [lia|exact M1|]. split; [lia|exact M2].
Qed.

Lemma lower0 c : c = 0 -> to_lower c = 0. Proof. intros ->. reflexivity. Qed.

Lemma put_inv L p c v p' : Inv L p -> rd (mem p) (pos p) = OK c -> (c = 0 -> v = 0) -> put p v = OK p' ->
  Inv L p' /\ pos p' = pos p /\ parsed p' = parsed p.
Proof.
  intros (E & M & I) R Z H. unfold put in H. apply bind_ok in H as (m & W & H). inversion H; subst p'. clear H.
  destruct (wr_last _ _ _ _ _ W R Z M) as [L1 M1]. unfold Inv. cbn. split; [split; [lia|split; assumption]|split; reflexivity].
Qed.
Lemma put0_inv L p p' : Inv L p -> put p 0 = OK p' -> Inv L p' /\ pos p' = pos p /\ parsed p' = parsed p.
Proof.
  intros (E & M & I) H. unfold put in H. apply bind_ok in H as (m & W & H). inversion H; subst p'. clear H.
  destruct (wr_zero _ _ _ W M) as [L1 M1]. unfold Inv. cbn. split; [split; [lia|split; assumption]|split; reflexivity].
Qed.

Lemma inv_pos L p n : Inv L p -> Inv L (set_pos p n). Proof. exact (fun H => H). Qed.
Lemma inv_err L p : Inv L p -> Inv L (set_err p). Proof. exact (fun H => H). Qed.

Lemma pct_inv L p b p' : Inv L p -> parse_pct_encoded p = OK (b, p') -> Inv L p'.
Proof.
  intros I. unfold parse_pct_encoded. intros H. apply bind_ok in H as (c & R & H).
  destruct (negb (c =? 37)); [inversion H; subst; exact I|].
  apply bind_ok in H as (v & V & H). destruct (negb v); [inversion H; subst; exact I|].
  apply bind_ok in H as (m & D & H). destruct I as (E & M & I).
  destruct (pct_decode_last _ _ _ D M) as [L1 M1].
  assert (J : Inv L (set_mem p m)) by (unfold Inv; cbn; split; [lia|split; assumption]).
  cbv zeta in H. apply bind_ok in H as (d & _ & H). destruct (d =? 0); inversion H; subst; exact J.
Qed.
Lemma vpct_inv L p b p' : Inv L p -> valid_pct_encoded p = OK (b, p') -> Inv L p'.
Proof.
  intros I. unfold valid_pct_encoded. intros H. apply bind_ok in H as (c & R & H).
  destruct (negb (c =? 37)); [inversion H; subst; exact I|].
  apply bind_ok in H as (v & V & H). destruct (negb v); inversion H; subst; exact I.
Qed.
Lemma multi_inv L p b p' : Inv L p -> p_multibyte p = OK (b, p') -> Inv L p'.
Proof.
  intros I. unfold p_multibyte. intros H. apply bind_ok in H as (((n & b') & e) & _ & H).
  inversion H; subst. destruct e; exact I.
Qed.
Lemma cond_inv L allowed pct p b p' : (forall q b q', Inv L q -> pct q = OK (b, q') -> Inv L q') ->
  Inv L p -> scan_cond allowed pct p = OK (b, p') -> Inv L p'.
Proof.
  intros HP I. unfold scan_cond. intros H. apply bind_ok in H as (c & R & H).
  destruct (allowed c); [inversion H; subst; exact I|].
  apply bind_ok in H as ((b1 & p1) & P & H). pose proof (HP _ _ _ I P) as I1.
  destruct b1; [inversion H; subst; exact I1|]. eapply multi_inv; eauto.
Qed.

Lemma scan_inv L allowed pct : (forall q b q', Inv L q -> pct q = OK (b, q') -> Inv L q') ->
  forall f p p', Inv L p -> scan_loop f allowed pct p = OK p' -> Inv L p'.
Proof.
  intros HP. induction f as [|f IH]; intros p p' I; cbn [scan_loop]; [discriminate|].
  intros H. apply bind_ok in H as ((b & p1) & C & H). pose proof (cond_inv _ _ _ _ _ _ HP I C) as I1.
  destruct b; [|inversion H; subst; exact I1]. eapply IH; [|exact H]. exact I1.
Qed.

Lemma host_inv L : forall f p p', Inv L p -> host_loop f p = OK p' -> Inv L p'.
Proof.
  induction f as [|f IH]; intros p p' I; cbn [host_loop]; [discriminate|].
  intros H. apply bind_ok in H as ((b & p1) & C & H).
  pose proof (cond_inv _ _ _ _ _ _ (pct_inv L) I C) as I1.
  destruct b; [|inversion H; subst; exact I1]. apply bind_ok in H as (c & R & H). apply bind_ok in H as (p2 & W & H).
  eapply IH; [|exact H]. apply inv_pos. destruct ((c <? 127) || (127 <? c)); [|inversion W; subst; exact I1].
  apply (put_inv L p1 c (to_lower c) p2 I1 R (lower0 c) W).
Qed.

Lemma scheme_inv L : forall f p p', Inv L p -> scheme_loop f p = OK p' -> Inv L p'.
Proof.
  induction f as [|f IH]; intros p p' I; cbn [scheme_loop]; [discriminate|].
  intros H. apply bind_ok in H as (c & R & H). apply bind_ok in H as (p1 & W & H).
  destruct (put_inv L p c (to_lower c) p1 I R (lower0 c) W) as (I1 & _).
  cbv zeta in H. apply bind_ok in H as (c' & R' & H). destruct (scheme_char c').
  - eapply IH; [|exact H]. exact I1.
  - inversion H; subst. exact I1.
Qed.

Lemma parse_scheme_inv L p b p' : Inv L p -> parse_scheme p = OK (b, p') -> Inv L p'.
Proof.
  intros I. unfold parse_scheme. cbv zeta. intros H. apply bind_ok in H as (c & R & H).
  set (p0 := set_parsed p _) in *.
  assert (I0 : Inv L p0).
  { destruct I as (E & M & I). apply rd_lt in R. split; [exact E|]. split; [exact M|]. unfold inside in *. cbn in *. lia. }
  clearbody p0. destruct (negb (is_alpha c)); [inversion H; subst; exact I0|].
  apply bind_ok in H as (p1 & S1 & H). pose proof (scheme_inv L _ _ _ I0 S1) as I1.
  apply bind_ok in H as (c1 & R1 & H). destruct (negb (c1 =? 58)); [inversion H; subst; exact I1|].
  apply bind_ok in H as (p2 & W & H). destruct (put0_inv L p1 p2 I1 W) as (I2 & _).
  apply bind_ok in H as (s1 & _ & H). destruct (negb (s1 =? 47)); [inversion H; subst; exact I2|].
  apply bind_ok in H as (s2 & _ & H). destruct (negb (s2 =? 47)); inversion H; subst; exact I2.
Qed.

Lemma port_inv L : forall f p i n p', Inv L p -> port_loop f p i = OK (n, p') -> Inv L p'.
Proof.
  induction f as [|f IH]; intros p i n p' I; cbn [port_loop]; [discriminate|].
  intros H. apply bind_ok in H as (c & R & H). destruct (is_digit c); [|inversion H; subst; exact I].
  destruct (65535 <? (i * 10 + c - 48) mod 2 ^ 32); [inversion H; subst; exact I|]. eapply IH; [|exact H]. exact I.
Qed.

Lemma parse_port_inv L p b p' : (pos p < L)%nat -> Inv L p -> parse_port p = OK (b, p') -> Inv L p'.
Proof.
  intros HP I. unfold parse_port. cbv zeta. intros H. apply bind_ok in H as ((n & p1) & PL & H).
  set (p0 := set_parsed p _) in *.
  assert (I0 : Inv L p0) by (destruct I as (E & M & I); split; [exact E|]; split; [exact M|]; unfold inside in *; cbn in *; lia).
  pose proof (port_inv L _ _ _ _ _ I0 PL) as I1. destruct n as [v|]; [|inversion H; subst; exact I1].
  apply bind_ok in H as (c & R & H). destruct (negb (c =? 47) && negb (c =? 0)); [inversion H; subst; exact I1|].
  set (p2 := set_parsed p1 _) in *. assert (I2 : Inv L p2) by exact I1.
  destruct (negb (c =? 0)); [|inversion H; subst; exact I2].
  apply bind_ok in H as (p3 & W & H). destruct (put0_inv L p2 p3 I2 W) as (I3 & _). inversion H; subst. exact I3.
Qed.

Lemma strchr_lt : forall f m p c e, strchr_loop f m p c = OK e -> (p < length m)%nat.
Proof.
  intros [|f] m p c e; cbn [strchr_loop]; [discriminate|]. intros H. apply bind_ok in H as (x & R & _). eapply rd_lt; eauto.
Qed.

Lemma put_lt p v p' : put p v = OK p' -> (pos p < length (mem p))%nat.
Proof.
  unfold put, wr. destruct (Nat.ltb_spec (pos p) (length (mem p))); [auto|discriminate].
Qed.

(** the ':' of a port is not the last byte *)
Lemma not_last m k c : lastnul m -> rd m k = OK c -> c <> 0 -> (S k < length m)%nat.
Proof.
  intros M R Z. pose proof (rd_lt _ _ _ R) as H. destruct (Nat.eq_dec (S k) (length m)) as [E|]; [|lia].
  unfold lastnul in M. unfold rd in R. replace (length m - 1)%nat with k in M by lia. rewrite M in R. congruence.
Qed.

Lemma host_len f : forall L p p', Inv L p -> host_loop f p = OK p' -> (pos p < L)%nat.
Proof.
  intros L p p' (E & _ & _). destruct f as [|f]; cbn [host_loop]; [discriminate|].
  intros H. apply bind_ok in H as (x & C & _). unfold scan_cond in C. apply bind_ok in C as (c & R & _).
  apply rd_lt in R. lia.
Qed.

Lemma parse_authority_inv L ip6 p b p' : Inv L p -> parse_authority ip6 p = OK (b, p') -> Inv L p'.
Proof.
  intros I. unfold parse_authority. cbv zeta. intros H.
  apply bind_ok in H as (c & R & H). apply bind_ok in H as ((ok & p1) & A & H).
  assert (I1 : Inv L p1).
  { destruct (c =? 91) eqn:EB.
    - apply N.eqb_eq in EB. subst c. set (p0 := set_parsed (set_pos p _) _) in *.
      assert (HP : (S (pos p) < length (mem p))%nat) by (apply (not_last _ _ _ (proj1 (proj2 I)) R); discriminate).
      assert (I0 : Inv L p0) by (destruct I as (E & M & I); split; [exact E|]; split; [exact M|]; unfold inside in *; cbn in *; lia).
      apply bind_ok in A as (e & SC & A). destruct e as [e|]; [|inversion A; subst; exact I0].
      apply bind_ok in A as (m & W & A). destruct I0 as (E0 & M0 & I0).
      destruct (wr_zero _ _ _ W M0) as [L1 M1].
      assert (I1 : Inv L (set_pos (set_mem p0 m) (S e))) by (split; [cbn; lia|split; [exact M1|exact I0]]).
      destruct (cstr_at _ _); [|discriminate]. destruct (ip6 l); inversion A; subst; exact I1.
    - set (p0 := set_parsed p _) in *. apply bind_ok in A as (p2 & HL & A).
      pose proof (rd_lt _ _ _ R) as HP.
      assert (I0 : Inv L p0) by (destruct I as (E & M & I); split; [exact E|]; split; [exact M|]; unfold inside in *; cbn in *; lia).
      pose proof (host_inv L _ _ _ I0 HL) as I1. inversion A; subst. exact I1. }
  destruct (negb ok); [inversion H; subst; exact I1|].
  apply bind_ok in H as (c1 & R1 & H). destruct (c1 =? 58) eqn:EC.
  - apply N.eqb_eq in EC. subst c1. apply bind_ok in H as (p2 & W & H).
    assert (HP : (S (pos p1) < length (mem p1))%nat) by (apply (not_last _ _ _ (proj1 (proj2 I1)) R1); discriminate).
    destruct (put0_inv L p1 p2 I1 W) as (I2 & P2 & _).
    apply (parse_port_inv L (set_pos p2 (S (pos p2))) b p'); [|exact I2|exact H]. cbn [set_pos pos]. rewrite P2. destruct I1 as (E1 & _). lia.
  - set (p2 := set_parsed p1 _) in *. assert (I2 : Inv L p2) by exact I1.
    destruct (c1 =? 47).
    + apply bind_ok in H as (p3 & W & H). destruct (put0_inv L p2 p3 I2 W) as (I3 & _). inversion H; subst. exact I3.
    + destruct (c1 =? 0); inversion H; subst; exact I2.
Qed.

Lemma clean_end : forall f m path p q m1 p1 q1, clean_loop f m path p q = OK (m1, p1, q1) -> rd m1 p1 = OK 0.
Proof.
  induction f as [|f IH]; intros m path p q m1 p1 q1; cbn [clean_loop]; [discriminate|].
  intros H. apply bind_ok in H as (c & R & H). destruct (N.eqb_spec c 0) as [->|NZ]; [inversion H; subst; exact R|].
  cbv zeta in H.
  repeat (apply bind_ok in H as (? & _ & H); match type of H with (if ?b then _ else _) = _ => destruct b; [try (eapply IH; exact H)|] end);
    try (apply bind_ok in H as (? & _ & H); try (eapply IH; exact H)).
  apply bind_ok in H as (? & _ & H). eapply IH; exact H.
Qed.

Lemma path_clean_true m path b m' : path_clean m path = OK (b, m') -> b = true.
Proof.
  unfold path_clean. intros H. apply bind_ok in H as (((m1 & p1) & q1) & C & H). apply clean_end in C.
  rewrite C in H. cbn [bind N.eqb negb] in H. apply bind_ok in H as (m2 & _ & H). inversion H. reflexivity.
Qed.

Lemma trim_inv L : forall f p p', Inv L p -> trim_slashes f p = OK p' -> Inv L p'.
Proof.
  induction f as [|f IH]; intros p p' I; cbn [trim_slashes]; [discriminate|].
  intros H. apply bind_ok in H as (c & R & H). destruct (c =? 47); [|inversion H; subst; exact I].
  eapply IH; [|exact H]. exact I.
Qed.

Lemma parse_query_inv L p b p' : Inv L p -> parse_query p = OK (b, p') -> Inv L p'.
Proof.
  intros I. unfold parse_query. cbv zeta. intros H. apply bind_ok in H as (c & R & H).
  set (p0 := set_parsed p _) in *. apply rd_lt in R.
  assert (I0 : Inv L p0) by (destruct I as (E & M & I); split; [exact E|]; split; [exact M|]; unfold inside in *; cbn in *; lia).
  destruct (c =? 0); [inversion H; subst; exact I0|].
  apply bind_ok in H as (p1 & SL & H). pose proof (scan_inv L _ _ (vpct_inv L) _ _ _ I0 SL) as I1.
  destruct (perr p1); [inversion H; subst; exact I1|]. apply bind_ok in H as (c1 & R1 & H).
  destruct (negb (c1 =? 0) && negb (c1 =? 35)); [inversion H; subst; exact I1|].
  destruct (negb (c1 =? 0)); [|inversion H; subst; exact I1].
  apply bind_ok in H as (p2 & W & H). destruct (put0_inv L p1 p2 I1 W) as (I2 & _). inversion H; subst. exact I2.
Qed.

Lemma parse_path_inv L p p' : Inv L p -> parse_path p = OK (false, p') -> Inv L p'.
Proof.
  intros I. unfold parse_path. intros H. apply bind_ok in H as (pt & T & H). pose proof (trim_inv L _ _ _ I T) as It.
  cbv zeta in H. apply bind_ok in H as (c & R & H). set (p0 := set_parsed pt _) in *. apply rd_lt in R.
  assert (I0 : Inv L p0) by (destruct It as (E & M & It); split; [exact E|]; split; [exact M|]; unfold inside in *; cbn in *; lia).
  destruct (c =? 0); [discriminate|].
  apply bind_ok in H as (p1 & SL & H). pose proof (scan_inv L _ _ (pct_inv L) _ _ _ I0 SL) as I1.
  destruct (perr p1); [inversion H; subst; exact I1|]. apply bind_ok in H as (c1 & R1 & H).
  destruct (negb (c1 =? 0) && negb (c1 =? 63) && negb (c1 =? 35)); [inversion H; subst; exact I1|].
  apply bind_ok in H as ((ok & p2) & A & H).
  destruct ok.
  - cbn [negb] in H. apply bind_ok in H as ((b & m) & PC & H). apply path_clean_true in PC. subst b. discriminate.
  - inversion H; subst p2. clear H. destruct (negb (c1 =? 0)); [|discriminate].
    apply bind_ok in A as (p2 & W & A). destruct (put0_inv L p1 p2 I1 W) as (I2 & _).
    destruct (c1 =? 35); [discriminate|]. apply bind_ok in A as ((b & p3) & Q & A).
    pose proof (parse_query_inv L _ _ _ (inv_pos L p2 _ I2) Q) as I3. destruct b; inversion A; subst. exact I3.
Qed.

Theorem refused_comps ip6 s p : parse_iri ip6 (s ++ [0]) = OK (false, p) -> exists c, comps_of p = Some c.
Proof.
  unfold parse_iri. intros H. apply bind_ok in H as (n & SL & H). cbv zeta in H.
  apply strlen_lt in SL. set (L := length (s ++ [0])) in *. cbn [Nat.add] in SL.
  assert (M : lastnul (s ++ [0])).
  { unfold lastnul. rewrite app_length. cbn [length]. rewrite nth_error_app2 by lia.
    replace (length s + 1 - 1 - length s)%nat with 0%nat by lia. reflexivity. }
  set (p0 := mkP _ _ _ _) in *.
  assert (I0 : Inv L p0) by (split; [reflexivity|]; split; [exact M|]; unfold inside; cbn; lia).
  clearbody p0. clear M SL. apply bind_ok in H as ((b1 & p1) & A & H). pose proof (parse_scheme_inv L _ _ _ I0 A) as I1.
  destruct b1; cbn [negb] in H; [|inversion H; subst; eapply inv_comps; eauto].
  apply bind_ok in H as ((b2 & p2) & B & H). pose proof (parse_authority_inv L _ _ _ _ I1 B) as I2.
  destruct b2; cbn [negb] in H; [|inversion H; subst; eapply inv_comps; eauto].
  eapply inv_comps, parse_path_inv; eauto.
Qed.
