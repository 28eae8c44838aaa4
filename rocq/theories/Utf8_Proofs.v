From Verif Require Import Base BaseLemmas Utf8 Utf8Spec.
Local Open Scope N_scope.
Ltac Zify.zify_post_hook ::= Z.div_mod_to_equations.

(** what the table does, by ranges *)
Definition nexts (st b : N) : N :=
  match st with
  | 0 => if b <? 128 then 0 else if inr 194 223 b then 2
         else if b =? 224 then 4 else if b =? 237 then 5
         else if inr 225 239 b then 3
         else if b =? 240 then 6 else if inr 241 243 b then 7
         else if b =? 244 then 8 else 1
  | 2 => if cont b then 0 else 1
  | 3 => if cont b then 2 else 1
  | 4 => if inr 160 191 b then 2 else 1
  | 5 => if inr 128 159 b then 2 else 1
  | 6 => if inr 144 191 b then 3 else 1
  | 7 => if cont b then 3 else 1
  | 8 => if inr 128 143 b then 3 else 1
  | _ => 1
  end.

Definition cp0 (b : N) : N :=
  if b <? 128 then b else if inr 194 223 b then b - 192
  else if inr 225 239 b then b - 224
  else if b =? 224 then 0 else if inr 240 247 b then b - 240 else 0.

Definition dec_st (st b : N) : res N :=
  let* ty := rd utf8d (N.to_nat b) in rd utf8d (N.to_nat (256 + st * 16 + ty)).

Definition okeq (x : res N) (v : N) : bool := match x with OK y => y =? v | _ => false end.

Lemma sweep_states :
  forallb (fun st => forallb (fun b => okeq (dec_st st b) (nexts st b)) all_bytes)
          [0;1;2;3;4;5;6;7;8] = true.
Proof. vm_compute. reflexivity. Qed.

Lemma dec_st_ok st b : st <= 8 -> b < 256 -> dec_st st b = OK (nexts st b).
Proof.
  intros Hs Hb. pose proof sweep_states as H. rewrite forallb_forall in H.
  assert (Hin : In st [0;1;2;3;4;5;6;7;8]).
  { assert (E : st = 0 \/ st = 1 \/ st = 2 \/ st = 3 \/ st = 4 \/ st = 5 \/ st = 6
               \/ st = 7 \/ st = 8) by lia. simpl. intuition. }
  specialize (H st Hin). pose proof (byte_sweep _ H b Hb) as H1. simpl in H1.
  unfold okeq in H1. destruct (dec_st st b); try discriminate.
  apply N.eqb_eq in H1. congruence.
Qed.

Lemma nexts_le st b : nexts st b <= 8.
Proof.
  unfold nexts. destruct st as [|p]; [|destruct p as [[[?|?|]|[?|?|]|]|[[?|?|]|[?|?|]|]|]];
  repeat match goal with |- context[if ?x then _ else _] => destruct x end; try lia;
  repeat match goal with |- context[match ?x with _ => _ end] => destruct x end; lia.
Qed.

Definition utf8_cp (st cp b : N) : N :=
  if negb (st =? 0) then N.lor (N.land b 63) (N.shiftl cp 6 mod 2^32)
  else match rd utf8d (N.to_nat b) with OK ty => N.land (N.shiftr 255 ty) b | _ => 0 end.

Lemma utf8_decode_ok st cp b : st <= 8 -> b < 256 ->
  utf8_decode st cp b = OK (nexts st b, utf8_cp st cp b).
Proof.
  intros Hs Hb. pose proof (dec_st_ok st b Hs Hb) as H.
  unfold dec_st, utf8_decode, utf8_cp in *. destruct (rd utf8d (N.to_nat b)) as [ty| |];
    simpl in *; try discriminate.
  rewrite H. simpl. destruct (st =? 0); reflexivity.
Qed.

Lemma sweep_cp0' : forallb (fun b => (nexts 0 b =? 1) || (utf8_cp 0 0 b =? cp0 b))
    all_bytes = true.
Proof. vm_compute. reflexivity. Qed.

Lemma utf8_cp0 b : b < 256 -> nexts 0 b <> 1 -> forall cp, utf8_cp 0 cp b = cp0 b.
Proof.
  intros Hb Hn cp. pose proof (byte_sweep _ sweep_cp0' b Hb) as H. simpl in H.
  unfold utf8_cp in *. simpl in *. lia.
Qed.

Lemma sweep_low6 : forallb (fun b => negb (cont b) || (N.land b 63 =? b - 128)) all_bytes = true.
Proof. vm_compute. reflexivity. Qed.

Lemma lor_low6 a c : a < 64 -> N.lor a (c * 64) = a + c * 64.
Proof.
  intros Ha. change 64 with (2^6) in *. rewrite <- N.shiftl_mul_pow2.
  rewrite <- N.lxor_lor, <- N.add_nocarry_lxor; auto;
  apply N.bits_inj_0; intros n; rewrite N.land_spec;
  destruct (N.lt_ge_cases n 6) as [H|H].
  - rewrite (N.shiftl_spec_low c 6 n) by lia. apply andb_false_r.
  - assert (a / 2^n = 0) as E.
    { apply N.div_small. eapply N.lt_le_trans; [exact Ha|]. apply N.pow_le_mono_r; lia. }
    rewrite <- N.shiftr_div_pow2 in E. rewrite <- (N.add_0_l n), <- N.shiftr_spec, E by lia.
    reflexivity.
  - rewrite (N.shiftl_spec_low c 6 n) by lia. apply andb_false_r.
  - assert (a / 2^n = 0) as E.
    { apply N.div_small. eapply N.lt_le_trans; [exact Ha|]. apply N.pow_le_mono_r; lia. }
    rewrite <- N.shiftr_div_pow2 in E. rewrite <- (N.add_0_l n), <- N.shiftr_spec, E by lia.
    reflexivity.
Qed.

Lemma utf8_cpn st cp b : st <> 0 -> cp < 2^20 -> cont b = true ->
  utf8_cp st cp b = cp * 64 + (b - 128).
Proof.
  intros Hs Hc Hb. unfold utf8_cp.
  destruct (N.eqb_spec st 0); [contradiction|]. cbn [negb].
  assert (Hb' : b < 256) by (unfold cont, inr in Hb; lia).
  pose proof (byte_sweep _ sweep_low6 b Hb') as H. cbv beta in H. rewrite Hb in H.
  apply N.eqb_eq in H. rewrite H, N.shiftl_mul_pow2. change (2^6) with 64.
  rewrite N.mod_small.
  - rewrite lor_low6; unfold cont, inr in Hb; lia.
  - change (2^32) with 4294967296. change (2^20) with 1048576 in Hc. lia.
Qed.

(** The loop on a string: list-level view. *)
Fixpoint dfa (s : list N) (st cp : N) : nat * N * N :=
  match s with
  | [] => (0%nat, st, cp)
  | c :: r =>
    let st' := nexts st c in let cp' := utf8_cp st cp c in
    if st' =? 0 then (0%nat, st', cp')
    else let '(n, a, b) := dfa r st' cp' in (S n, a, b)
  end.

Lemma utf8_loop_dfa s : forall fuel pre junk st cp pos,
  (length s < fuel)%nat -> st <= 8 -> nonul s -> bytes s -> pos = length pre ->
  utf8_loop fuel (pre ++ s ++ 0 :: junk) pos st cp =
  let '(n, a, b) := dfa s st cp in OK ((pos + n)%nat, a, b).
Proof.
  induction s as [|c s IH]; intros fuel pre junk st cp pos Hf Hst Hn Hb Hpos;
    (destruct fuel as [|fuel]; [simpl in Hf; lia|]); cbn [utf8_loop dfa app].
  - rewrite rd_app2 by auto. cbn. rewrite Nat.add_0_r. reflexivity.
  - apply nonul_cons in Hn. apply bytes_cons in Hb.
    destruct Hn as [Hc Hn], Hb as [Hcb Hb].
    rewrite rd_app2 by auto. cbn [bind].
    destruct (N.eqb_spec c 0); [contradiction|].
    rewrite utf8_decode_ok by auto. cbn [bind].
    destruct (nexts st c =? 0).
    + rewrite Nat.add_0_r. reflexivity.
    + replace (pre ++ c :: s ++ 0 :: junk) with ((pre ++ [c]) ++ s ++ 0 :: junk)
        by (rewrite <- app_assoc; reflexivity).
      rewrite IH; auto.
      * destruct (dfa s (nexts st c) (utf8_cp st cp c)) as [[n' a] b]. f_equal. f_equal. f_equal. lia.
      * simpl in Hf. lia.
      * apply nexts_le.
      * rewrite app_length. simpl. lia.
Qed.

Lemma dfa_reject s cp : exists b, dfa s 1 cp = (length s, 1, b).
Proof.
  revert cp. induction s as [|c s IH]; intros cp; cbn [dfa].
  - exists cp. reflexivity.
  - change (nexts 1 c) with 1. change (1 =? 0) with false. cbn iota.
    destruct (IH (utf8_cp 1 cp c)) as [b ->]. exists b. reflexivity.
Qed.

(** result of a full run, in terms of the spec's [mb_len] *)
Definition mb_cp (s : list N) (n : nat) : N :=
  match n, s with
  | 2%nat, a :: b :: _ => (a - 192) * 64 + (b - 128)
  | 3%nat, a :: b :: c :: _ => ((a - 224) * 64 + (b - 128)) * 64 + (c - 128)
  | 4%nat, a :: b :: c :: d :: _ =>
      (((a - 240) * 64 + (b - 128)) * 64 + (c - 128)) * 64 + (d - 128)
  | _, _ => 0
  end.

Definition rejected (x : nat * N * N) : Prop := let '(_, st, _) := x in st <> 0.

Lemma rejected_shift x : rejected x -> rejected (let '(n, a, b) := x in (S n, a, b)).
Proof. destruct x as [[n a] b]. exact (fun H => H). Qed.

Lemma dfa_to_reject c t st cp : nexts st c = 1 -> rejected (dfa (c :: t) st cp).
Proof.
  intros H. cbn [dfa]. rewrite H. change (1 =? 0) with false. cbn iota.
  destruct (dfa_reject t (utf8_cp st cp c)) as [b ->]. simpl. lia.
Qed.

Lemma dfa_step c t st cp st' :
  nexts st c = st' -> st' <> 0 ->
  dfa (c :: t) st cp = let '(n, a, b) := dfa t st' (utf8_cp st cp c) in (S n, a, b).
Proof.
  intros H H0. cbn [dfa]. rewrite H. destruct (N.eqb_spec st' 0); [contradiction|]. reflexivity.
Qed.

Lemma dfa2 t cp : cp < 2^20 ->
  match t with
  | b :: _ => if cont b then dfa t 2 cp = (0%nat, 0, cp * 64 + (b - 128)) else rejected (dfa t 2 cp)
  | [] => rejected (dfa t 2 cp)
  end.
Proof.
  intros Hc. destruct t as [|b t]; [simpl; lia|].
  destruct (cont b) eqn:E.
  - cbn [dfa]. unfold nexts. rewrite E. cbn -[utf8_cp]. f_equal. apply utf8_cpn; auto. lia.
  - apply dfa_to_reject. unfold nexts. rewrite E. reflexivity.
Qed.

(** one continuation byte in range [p], then two or three bytes *)
Lemma dfa_mid st (p : N -> bool) st' t cp :
  st <> 0 -> st' <> 0 -> cp < 2^20 ->
  (forall b, p b = true -> cont b = true) ->
  (forall b, nexts st b = if p b then st' else 1) ->
  match t with
  | b :: r => if p b then dfa t st cp = let '(n, x, y) := dfa r st' (cp * 64 + (b - 128)) in (S n, x, y)
              else rejected (dfa t st cp)
  | [] => rejected (dfa t st cp)
  end.
Proof.
  intros H0 H1 Hc Hp Hn. destruct t as [|b t]; [simpl; auto|].
  destruct (p b) eqn:E.
  - rewrite (dfa_step b t st cp st'); auto.
    + rewrite utf8_cpn; auto.
    + rewrite Hn, E. reflexivity.
  - apply dfa_to_reject. rewrite Hn, E. reflexivity.
Qed.

Lemma shift_rej x y : rejected x -> y = (let '(n, a, b) := x in (S n, a, b)) -> rejected y.
Proof. intros H ->. apply rejected_shift; auto. Qed.

Lemma dfa_tail2 (p : N -> bool) st t cp : st <> 0 -> cp < 2^10 ->
  (forall b, p b = true -> cont b = true) ->
  (forall b, nexts st b = if p b then 2 else 1) ->
  match t with
  | b :: c :: _ => if p b && cont c
                   then dfa t st cp = (1%nat, 0, (cp * 64 + (b - 128)) * 64 + (c - 128))
                   else rejected (dfa t st cp)
  | _ => rejected (dfa t st cp)
  end.
Proof.
  intros H0 Hcp Hp Hn.
  assert (Hcp' : cp < 2^20) by (change (2^10) with 1024 in *; change (2^20) with 1048576; lia).
  pose proof (dfa_mid st p 2 t cp H0 ltac:(lia) Hcp' Hp Hn) as H.
  destruct t as [|b t]; auto.
  destruct (p b) eqn:E; [|destruct t as [|c t]; auto].
  assert (Hb : cp * 64 + (b - 128) < 2^20).
  { apply Hp in E. unfold cont, inr in E. change (2^10) with 1024 in *. change (2^20) with 1048576. lia. }
  pose proof (dfa2 t _ Hb) as H2.
  destruct t as [|c t].
  - eapply shift_rej; [exact H2|exact H].
  - cbn [andb]. destruct (cont c).
    + rewrite H, H2. reflexivity.
    + eapply shift_rej; [exact H2|exact H].
Qed.

Lemma dfa_tail3 (p : N -> bool) st t cp : st <> 0 -> cp < 2^4 ->
  (forall b, p b = true -> cont b = true) ->
  (forall b, nexts st b = if p b then 3 else 1) ->
  match t with
  | b :: c :: d :: _ => if p b && cont c && cont d
       then dfa t st cp = (2%nat, 0, ((cp * 64 + (b - 128)) * 64 + (c - 128)) * 64 + (d - 128))
       else rejected (dfa t st cp)
  | _ => rejected (dfa t st cp)
  end.
Proof.
  intros H0 Hcp Hp Hn.
  assert (Hcp' : cp < 2^20) by (change (2^4) with 16 in *; change (2^20) with 1048576; lia).
  pose proof (dfa_mid st p 3 t cp H0 ltac:(lia) Hcp' Hp Hn) as H.
  destruct t as [|b t]; auto.
  destruct (p b) eqn:E; [|destruct t as [|c [|d t]]; auto].
  assert (Hb : cp * 64 + (b - 128) < 2^10).
  { apply Hp in E. unfold cont, inr in E. change (2^4) with 16 in *. change (2^10) with 1024. lia. }
  assert (H2 := dfa_tail2 cont 3 t (cp * 64 + (b - 128)) ltac:(lia) Hb (fun _ h => h)
     ltac:(intros b'; unfold nexts; destruct (cont b'); reflexivity)).
  destruct t as [|c [|d t]].
  - eapply shift_rej; [exact H2|exact H].
  - eapply shift_rej; [exact H2|exact H].
  - cbn [andb]. destruct (cont c && cont d).
    + rewrite H, H2. reflexivity.
    + eapply shift_rej; [exact H2|exact H].
Qed.

Ltac rng := unfold wf2, wf3, wf4, cont, inr in *; try lia.

Lemma inr_true lo hi c : inr lo hi c = true <-> lo <= c <= hi.
Proof. unfold inr. lia. Qed.

Lemma dfa_first s : bytes s ->
  match s with
  | [] => dfa s 0 0 = (0%nat, 0, 0)
  | a :: _ =>
    if a <? 128 then dfa s 0 0 = (0%nat, 0, a)
    else match mb_len s with
         | Some n => dfa s 0 0 = ((n - 1)%nat, 0, mb_cp s n)
         | None => rejected (dfa s 0 0)
         end
  end.
Proof.
  intros Hb. destruct s as [|a t]; [reflexivity|].
  apply bytes_cons in Hb. destruct Hb as [Ha Hb].
  destruct (N.ltb_spec a 128) as [Hlt|Hge].
  { cbn [dfa]. unfold nexts. destruct (N.ltb_spec a 128); [|lia]. cbn [N.eqb]. cbn iota.
    change (0 =? 0) with true. cbn iota.
    f_equal. rewrite utf8_cp0; auto.
    - unfold cp0. destruct (N.ltb_spec a 128); [|lia]. reflexivity.
    - unfold nexts. destruct (N.ltb_spec a 128); lia. }
  assert (E : nexts 0 a = 1 \/ nexts 0 a <> 1) by lia.
  destruct E as [E|E].
  { assert (mb_len (a :: t) = None).
    { assert (~ (194 <= a <= 244)).
      { intros Hr. unfold nexts in E.
        destruct (a <? 128) eqn:?; [lia|]. rewrite ?inr_true in *.
        destruct (inr 194 223 a) eqn:?; [lia|]. destruct (a =? 224) eqn:?; [lia|].
        destruct (a =? 237) eqn:?; [lia|]. destruct (inr 225 239 a) eqn:?; [lia|].
        destruct (a =? 240) eqn:?; [lia|]. destruct (inr 241 243 a) eqn:?; [lia|].
        destruct (a =? 244) eqn:?; [lia|]. rng. }
      unfold mb_len. destruct t as [|b [|c [|d t]]]; auto;
      repeat match goal with |- context[if ?x then _ else _] => destruct x eqn:? end; auto;
      exfalso; rng. }
    rewrite H. apply dfa_to_reject; auto. }
  assert (C0 := utf8_cp0 a Ha E 0).
  assert (Hcl : 194 <= a <= 223 \/ a = 224 \/ (225 <= a <= 236 \/ 238 <= a <= 239) \/ a = 237
          \/ a = 240 \/ 241 <= a <= 243 \/ a = 244).
  { unfold nexts in E.
        destruct (a <? 128) eqn:?; [lia|]. 
        destruct (inr 194 223 a) eqn:?; [rng|]. destruct (a =? 224) eqn:?; [lia|].
        destruct (a =? 237) eqn:?; [lia|]. destruct (inr 225 239 a) eqn:?; [rng|].
        destruct (a =? 240) eqn:?; [lia|]. destruct (inr 241 243 a) eqn:?; [rng|].
        destruct (a =? 244) eqn:?; [lia|]. lia. }
  unfold cp0 in C0. 
  destruct (N.ltb_spec a 128) as [?|_]; [lia|].
  destruct Hcl as [C|[C|[C|[C|[C|[C|C]]]]]].
  - (* two bytes *)
    assert (N2 : nexts 0 a = 2).
    { unfold nexts. destruct (N.ltb_spec a 128); [lia|].
      assert (Z : inr 194 223 a = true) by rng. rewrite Z. reflexivity. }
    assert (Z : inr 194 223 a = true) by rng. rewrite Z in C0.
    rewrite (dfa_step a t 0 0 2 N2 ltac:(lia)), C0.
    assert (Hcp : a - 192 < 2^20) by (change (2^20) with 1048576; lia).
    pose proof (dfa2 t (a - 192) Hcp) as H2.
    destruct t as [|b t]; [cbn [mb_len]; apply rejected_shift, H2|].
    unfold mb_len, wf2. rewrite Z. cbn [andb]. destruct (cont b) eqn:Eb.
    + rewrite H2. reflexivity.
    + assert (W3 : forall c, wf3 a b c = false) by (intros; rng).
      assert (W4 : forall c d, wf4 a b c d = false) by (intros; rng).
      destruct t as [|c [|d t]]; rewrite ?W3, ?W4; apply rejected_shift, H2.
  - (* E0 *) subst a. change (nexts 0 224) with 4 in *.
    rewrite (dfa_step 224 t 0 0 4 eq_refl ltac:(lia)), C0.
    match type of C0 with _ = ?v => change v with 0 in * end.
    assert (H2 := dfa_tail2 (inr 160 191) 4 t 0 ltac:(lia) ltac:(change (2^10) with 1024; lia)
       ltac:(intros; rng) ltac:(intros; reflexivity)).
    assert (W2 : forall b, wf2 224 b = false) by (intros; rng).
    assert (W3 : forall b c, wf3 224 b c = inr 160 191 b && cont c) by (intros; rng).
    assert (W4 : forall b c d, wf4 224 b c d = false) by (intros; rng).
    destruct t as [|b [|c t]]; try (cbn [mb_len]; rewrite ?W2; apply rejected_shift, H2).
    unfold mb_len. rewrite W2, W3. destruct (inr 160 191 b && cont c).
    + rewrite H2. reflexivity.
    + destruct t; rewrite ?W4; apply rejected_shift, H2.
  - (* E1..EC, EE, EF *)
    assert (N2 : nexts 0 a = 3).
    { unfold nexts. destruct (N.ltb_spec a 128); [lia|].
      assert (Z1 : inr 194 223 a = false) by rng. assert (Z : inr 225 239 a = true) by rng.
      rewrite Z1, Z. destruct (N.eqb_spec a 224); [lia|]. destruct (N.eqb_spec a 237); [lia|].
      reflexivity. }
    assert (Z1 : inr 194 223 a = false) by rng. assert (Z : inr 225 239 a = true) by rng.
    rewrite Z1, Z in C0.
    rewrite (dfa_step a t 0 0 3 N2 ltac:(lia)), C0.
    assert (H2 := dfa_tail2 cont 3 t (a - 224) ltac:(lia)
       ltac:(change (2^10) with 1024; lia) (fun _ h => h)
       ltac:(intros b'; unfold nexts; destruct (cont b'); reflexivity)).
    assert (W2 : forall b, wf2 a b = false) by (intros; rng).
    assert (W3 : forall b c, wf3 a b c = cont b && cont c) by (intros; rng).
    assert (W4 : forall b c d, wf4 a b c d = false) by (intros; rng).
    destruct t as [|b [|c t]]; try (cbn [mb_len]; rewrite ?W2; apply rejected_shift, H2).
    unfold mb_len. rewrite W2, W3. destruct (cont b && cont c).
    + rewrite H2. reflexivity.
    + destruct t; rewrite ?W4; apply rejected_shift, H2.
  - (* ED *) subst a. change (nexts 0 237) with 5 in *.
    rewrite (dfa_step 237 t 0 0 5 eq_refl ltac:(lia)), C0.
    match type of C0 with _ = ?v => change v with 13 in * end.
    assert (H2 := dfa_tail2 (inr 128 159) 5 t 13 ltac:(lia) ltac:(change (2^10) with 1024; lia)
       ltac:(intros; rng) ltac:(intros; reflexivity)).
    assert (W2 : forall b, wf2 237 b = false) by (intros; rng).
    assert (W3 : forall b c, wf3 237 b c = inr 128 159 b && cont c) by (intros; rng).
    assert (W4 : forall b c d, wf4 237 b c d = false) by (intros; rng).
    destruct t as [|b [|c t]]; try (cbn [mb_len]; rewrite ?W2; apply rejected_shift, H2).
    unfold mb_len. rewrite W2, W3. destruct (inr 128 159 b && cont c).
    + rewrite H2. reflexivity.
    + destruct t; rewrite ?W4; apply rejected_shift, H2.
  - (* F0 *) subst a. change (nexts 0 240) with 6 in *.
    rewrite (dfa_step 240 t 0 0 6 eq_refl ltac:(lia)), C0.
    match type of C0 with _ = ?v => change v with 0 in * end.
    assert (H2 := dfa_tail3 (inr 144 191) 6 t 0 ltac:(lia) ltac:(change (2^4) with 16; lia)
       ltac:(intros; rng) ltac:(intros; reflexivity)).
    assert (W2 : forall b, wf2 240 b = false) by (intros; rng).
    assert (W3 : forall b c, wf3 240 b c = false) by (intros; rng).
    assert (W4 : forall b c d, wf4 240 b c d = inr 144 191 b && cont c && cont d) by (intros; rng).
    destruct t as [|b [|c [|d t]]]; try (cbn [mb_len]; rewrite ?W2, ?W3; apply rejected_shift, H2).
    unfold mb_len. rewrite W2, W3, W4. destruct (inr 144 191 b && cont c && cont d).
    + rewrite H2. reflexivity.
    + apply rejected_shift, H2.
  - (* F1..F3 *)
    assert (N2 : nexts 0 a = 7).
    { unfold nexts. destruct (N.ltb_spec a 128); [lia|].
      assert (Z1 : inr 194 223 a = false) by rng. assert (Z : inr 225 239 a = false) by rng.
      assert (Z2 : inr 241 243 a = true) by rng.
      rewrite Z1, Z, Z2. destruct (N.eqb_spec a 224); [lia|]. destruct (N.eqb_spec a 237); [lia|].
      destruct (N.eqb_spec a 240); [lia|]. reflexivity. }
    assert (Z1 : inr 194 223 a = false) by rng. assert (Z : inr 225 239 a = false) by rng.
    assert (Z2 : inr 240 247 a = true) by rng.
    rewrite Z1, Z, Z2 in C0. destruct (N.eqb_spec a 224); [lia|].
    rewrite (dfa_step a t 0 0 7 N2 ltac:(lia)), C0.
    assert (H2 := dfa_tail3 cont 7 t (a - 240) ltac:(lia)
       ltac:(change (2^4) with 16; lia) (fun _ h => h)
       ltac:(intros b'; unfold nexts; destruct (cont b'); reflexivity)).
    assert (W2 : forall b, wf2 a b = false) by (intros; rng).
    assert (W3 : forall b c, wf3 a b c = false) by (intros; rng).
    assert (W4 : forall b c d, wf4 a b c d = cont b && cont c && cont d) by (intros; rng).
    destruct t as [|b [|c [|d t]]]; try (cbn [mb_len]; rewrite ?W2, ?W3; apply rejected_shift, H2).
    unfold mb_len. rewrite W2, W3, W4. destruct (cont b && cont c && cont d).
    + rewrite H2. reflexivity.
    + apply rejected_shift, H2.
  - (* F4 *) subst a. change (nexts 0 244) with 8 in *.
    rewrite (dfa_step 244 t 0 0 8 eq_refl ltac:(lia)), C0.
    match type of C0 with _ = ?v => change v with 4 in * end.
    assert (H2 := dfa_tail3 (inr 128 143) 8 t 4 ltac:(lia) ltac:(change (2^4) with 16; lia)
       ltac:(intros; rng) ltac:(intros; reflexivity)).
    assert (W2 : forall b, wf2 244 b = false) by (intros; rng).
    assert (W3 : forall b c, wf3 244 b c = false) by (intros; rng).
    assert (W4 : forall b c d, wf4 244 b c d = inr 128 143 b && cont c && cont d) by (intros; rng).
    destruct t as [|b [|c [|d t]]]; try (cbn [mb_len]; rewrite ?W2, ?W3; apply rejected_shift, H2).
    unfold mb_len. rewrite W2, W3, W4. destruct (inr 128 143 b && cont c && cont d).
    + rewrite H2. reflexivity.
    + apply rejected_shift, H2.
Qed.

(** The well-formed sequences are exactly the encodings of scalar values. *)
Lemma mb_len_encode s n : bytes s -> mb_len s = Some n ->
  scalar (mb_cp s n) /\ 128 <= mb_cp s n /\ utf8_encode (mb_cp s n) = firstn n s
  /\ (n <= length s)%nat /\ (2 <= n)%nat.
Proof.
  intros Hb H. unfold mb_len in H.
  destruct s as [|a [|b t]]; try discriminate.
  destruct (wf2 a b) eqn:E2.
  { inversion H; subst n; clear H. cbn [mb_cp firstn length].
    unfold wf2, cont, inr in E2. unfold scalar, utf8_encode.
    set (v := (a - 192) * 64 + (b - 128)).
    assert (v / 64 = a - 192 /\ v mod 64 = b - 128) as [V1 V2] by (subst v; lia).
    assert (128 <= v < 2048) by (subst v; lia).
    destruct (N.ltb_spec v 128); [lia|]. destruct (N.ltb_spec v 2048); [|lia].
    rewrite V1, V2. repeat split; try lia; try (simpl; lia).
    f_equal; [|f_equal]; lia. }
  destruct t as [|c t]; try discriminate.
  destruct (wf3 a b c) eqn:E3.
  { inversion H; subst n; clear H. cbn [mb_cp firstn length].
    unfold wf3, cont, inr in E3. unfold scalar, utf8_encode.
    set (v := ((a - 224) * 64 + (b - 128)) * 64 + (c - 128)).
    assert (v / 4096 = a - 224) as V1 by (subst v; clear Hb; lia).
    assert ((v / 64) mod 64 = b - 128) as V2 by (subst v; clear Hb; lia).
    assert (v mod 64 = c - 128) as V3 by (subst v; clear Hb; lia).
    assert (2048 <= v < 55296 \/ 57344 <= v < 65536) by (subst v; lia).
    destruct (N.ltb_spec v 128); [lia|]. destruct (N.ltb_spec v 2048); [lia|].
    destruct (N.ltb_spec v 65536); [|lia].
    rewrite V1, V2, V3. clearbody v. repeat split; try lia; try (simpl; lia).
    f_equal; [|f_equal; [|f_equal]]; lia. }
  destruct t as [|d t]; try discriminate.
  destruct (wf4 a b c d) eqn:E4; [|discriminate].
  inversion H; subst n; clear H. cbn [mb_cp firstn length].
  unfold wf4, cont, inr in E4. unfold scalar, utf8_encode.
  set (v := (((a - 240) * 64 + (b - 128)) * 64 + (c - 128)) * 64 + (d - 128)).
  assert (v / 262144 = a - 240) as V1 by (subst v; clear Hb; lia).
  assert ((v / 4096) mod 64 = b - 128) as V2 by (subst v; clear Hb; lia).
  assert ((v / 64) mod 64 = c - 128) as V3 by (subst v; clear Hb; lia).
  assert (v mod 64 = d - 128) as V4 by (subst v; clear Hb; lia).
  assert (65536 <= v <= 1114111) by (subst v; lia).
  destruct (N.ltb_spec v 128); [lia|]. destruct (N.ltb_spec v 2048); [lia|].
  destruct (N.ltb_spec v 65536); [lia|].
  rewrite V1, V2, V3, V4. clearbody v. repeat split; try lia; try (simpl; lia).
  f_equal; [|f_equal; [|f_equal; [|f_equal]]]; lia.
Qed.

Lemma encode_mb_len cp r : scalar cp -> 128 <= cp ->
  mb_len (utf8_encode cp ++ r) = Some (length (utf8_encode cp)) /\
  mb_cp (utf8_encode cp ++ r) (length (utf8_encode cp)) = cp.
Proof.
  intros Hs Hge. unfold scalar in Hs. unfold utf8_encode.
  destruct (N.ltb_spec cp 128); [lia|].
  destruct (N.ltb_spec cp 2048).
  { cbn [app length mb_len].
    assert (W : wf2 (192 + cp / 64) (128 + cp mod 64) = true) by rng.
    rewrite W. split; auto. cbn [mb_cp]. lia. }
  destruct (N.ltb_spec cp 65536).
  { cbn [app length mb_len].
    set (a := cp / 4096). set (b := (cp / 64) mod 64). set (c := cp mod 64).
    assert (Ha : a < 16) by (subst a; lia). assert (Hb : b < 64) by (subst b; lia).
    assert (Hc : c < 64) by (subst c; lia).
    assert (Hv : cp = (a * 64 + b) * 64 + c) by (subst a b c; lia).
    clearbody a b c.
    assert (W2 : wf2 (224 + a) (128 + b) = false) by rng.
    assert (W : wf3 (224 + a) (128 + b) (128 + c) = true) by rng.
    rewrite W2, W. split; auto. cbn [mb_cp]. lia. }
  cbn [app length mb_len].
  set (a := cp / 262144). set (b := (cp / 4096) mod 64).
  set (c := (cp / 64) mod 64). set (d := cp mod 64).
  assert (Hb : b < 64) by (subst b; lia).
  assert (Hc : c < 64) by (subst c; lia). assert (Hd : d < 64) by (subst d; lia).
  assert (Hv : cp = ((a * 64 + b) * 64 + c) * 64 + d) by (subst a b c d; lia).
  clearbody a b c d.
  assert (W2 : wf2 (240 + a) (128 + b) = false) by rng.
  assert (W3 : wf3 (240 + a) (128 + b) (128 + c) = false) by rng.
  assert (W : wf4 (240 + a) (128 + b) (128 + c) (128 + d) = true) by rng.
  rewrite W2, W3, W. split; auto. cbn [mb_cp]. lia.
Qed.

(** Full behaviour of the scanner on a C string. *)
Lemma valid_multibyte_list pre s junk pos :
  nonul s -> bytes s -> pos = length pre ->
  exists pos' b e,
    valid_multibyte_utf8 (pre ++ s ++ 0 :: junk) pos = OK (pos', b, e) /\
    match s with
    | [] => (pos', b, e) = (pos, false, false)
    | a :: _ =>
      if a <? 128 then (pos', b, e) = (pos, false, false)
      else match mb_len s with
           | Some n => (pos', b, e) = ((pos + n - 1)%nat, true, false)
           | None => b = false /\ e = true
           end
    end.
Proof.
  intros Hn Hb Hpos. unfold valid_multibyte_utf8.
  rewrite utf8_loop_dfa; auto; [|rewrite !app_length; simpl; lia|lia].
  pose proof (dfa_first s Hb) as H. destruct s as [|a t].
  { rewrite H. cbn. rewrite Nat.add_0_r. eexists _, _, _. split; reflexivity. }
  destruct (N.ltb_spec a 128) as [Hlt|Hge].
  { rewrite H. cbn [bind]. rewrite Nat.add_0_r. cbn [N.eqb negb orb].
    change (0 =? 0) with true. cbn [negb orb].
    destruct (N.leb_spec a 127); [|lia]. eexists _, _, _. split; reflexivity. }
  destruct (mb_len (a :: t)) as [n|] eqn:E.
  - rewrite H. cbn [bind]. change (0 =? 0) with true. cbn [negb orb].
    destruct (mb_len_encode _ _ Hb E) as (_ & Hcp & _ & _ & Hn2).
    destruct (N.leb_spec (mb_cp (a :: t) n) 127); [lia|].
    eexists _, _, _. split; [reflexivity|]. f_equal. f_equal. lia.
  - destruct (dfa (a :: t) 0 0) as [[k st] b]. cbn [bind]. simpl in H.
    destruct (N.eqb_spec st 0); [contradiction|]. cbn [negb orb]. eauto 6.
Qed.
