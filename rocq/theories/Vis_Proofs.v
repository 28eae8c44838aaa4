From Verif Require Import Base BaseLemmas Compat_Proofs Vis VisSpec.
Local Open Scope N_scope.

Definition F : Z := 540. (* VIS_WHITE|VIS_DQ *)
Definition enc (b : N) : list N := vis (sx b) F 0.
Definition encs (s : list N) : list N := flat_map enc s.

Lemma byte_cases b : b < 256 -> In b (map N.of_nat (seq 0 256)).
Proof. intro H. apply in_map_iff. exists (N.to_nat b). split; [lia|]. apply in_seq. lia. Qed.

Ltac bytes_of H := apply byte_cases in H; cbn [seq map N.of_nat Pos.of_succ_nat Pos.succ In] in H;
  repeat (destruct H as [H|H]; [subst|]); [..|contradiction].

Lemma enc_good b : b < 256 -> b <> 0 -> denotes (enc b) b /\ Forall printing (enc b) /\ (1 <= length (enc b) <= 4)%nat.
Proof.
  intros H H0. bytes_of H; try congruence;
  (split; [|split; [|vm_compute; lia]];
   [match goal with |- denotes ?e ?b => let e' := eval vm_compute in e in change (denotes e' b) end
   |match goal with |- Forall _ ?e => let e' := eval vm_compute in e in change (Forall printing e') end;
     repeat constructor; unfold printing; lia]).
  all: first [ apply den_slash | apply den_quote
             | apply den_self; congruence
             | apply den_ctl; unfold ctl; lia
             | match goal with |- denotes [92; ?x; ?y; ?z] ?b =>
                 change b with ((x - 48) * 64 + (y - 48) * 8 + (z - 48)); apply den_octal; unfold is_octal; lia end
             | match goal with |- denotes [92; 77; 45; ?x] ?b => change b with (x + 128); apply den_meta end
             | match goal with |- denotes [92; 77; 94; ?x] ?b => 
                 let c := eval vm_compute in (b - 128) in change b with (c + 128); apply den_mctl; unfold ctl; lia end ].
Qed.

(** what each branch of the loop appends is [enc b] *)
Lemma step_enc b : b < 256 ->
  enc b = if isvisible (sx b) F then
            if ((sx b =? 34)%Z && has F VIS_DQ) || ((sx b =? 92)%Z && negb (has F VIS_NOSLASH))
            then [92; u8 (sx b)] else [u8 (sx b)]
          else vis (sx b) F 0.
Proof.
  intros H. unfold enc, vis at 1. destruct (isvisible (sx b) F) eqn:V; [|unfold vis; rewrite V; reflexivity].
  destruct (((sx b =? 34)%Z && has F VIS_DQ) || ((sx b =? 92)%Z && negb (has F VIS_NOSLASH))); reflexivity.
Qed.
Lemma vis_next c n : vis c F n = vis c F 0. Proof. reflexivity. Qed.
Lemma sx_zero b : b < 256 -> (sx b =? 0)%Z = (b =? 0).
Proof. intro. unfold sx. destruct (b <? 128) eqn:?; lia. Qed.

Lemma skip2 {A} n m (l : list A) : skipn n (skipn m l) = skipn (m + n) l.
Proof. revert l; induction m as [|m IH]; intro l; [reflexivity|]. destruct l; [rewrite !skipn_nil; reflexivity|]. cbn [skipn Nat.add]. apply IH. Qed.

Lemma rd_app_hd pre c r : rd (pre ++ c :: r) (length pre) = OK c.
Proof. apply rd_app2. reflexivity. Qed.

Lemma wr_at out x tail v : wr (out ++ x :: tail) (length out) v = OK (out ++ v :: tail).
Proof.
  unfold wr. replace (length out <? length (out ++ x :: tail))%nat with true
    by (symmetry; apply Nat.ltb_lt; rewrite app_length; simpl; lia).
  rewrite firstn_app, firstn_all, Nat.sub_diag. cbn [firstn]. rewrite app_nil_r.
  replace (S (length out)) with (length (out ++ [x])) by (rewrite app_length; simpl; lia).
  replace (out ++ x :: tail) with ((out ++ [x]) ++ tail) by (rewrite <- app_assoc; reflexivity).
  rewrite skipn_app, skipn_all, Nat.sub_diag. reflexivity.
Qed.

Lemma wrs_at l : forall out tail, (length l <= length tail)%nat ->
  wrs (out ++ tail) (length out) l = OK (out ++ l ++ skipn (length l) tail).
Proof.
  induction l as [|b r IH]; intros out tail L; [reflexivity|]. destruct tail as [|x tail]; [simpl in L; lia|].
  cbn [wrs]. rewrite wr_at. cbn [bind]. rewrite cons_snoc.
  replace (S (length out)) with (length (out ++ [b])) by (rewrite app_length; simpl; lia).
  rewrite IH by (simpl in L; lia). cbn [length skipn]. rewrite <- app_assoc. reflexivity.
Qed.

Lemma loop_spec : forall s pre js out tail fuel i e,
  bytes s -> nonul s -> (length s < fuel)%nat -> (length out <= e)%nat -> (e < length out + length tail)%nat ->
  exists k i', strnvis_loop fuel (out ++ tail) (length out) (pre ++ s ++ 0 :: js) (length pre) (Z.of_nat e) F i =
      OK (out ++ encs (firstn k s) ++ skipn (length (encs (firstn k s))) tail,
          (length out + length (encs (firstn k s)))%nat, (length pre + k)%nat, i') /\
    (k <= length s)%nat /\ (length out + length (encs (firstn k s)) <= e)%nat /\
    (k < length s -> e < length out + length (encs (firstn k s)) + length (enc (nth k s 0%N)) /\
       (e < length out + length (encs (firstn k s)) + i' \/ (k = 0 /\ length out = e /\ i' = i)))%nat.
Proof.
  induction s as [|b s IH]; intros pre js out tail fuel i e HB HN HF HO HT; (destruct fuel as [|fuel]; [simpl in HF; lia|]).
  - exists 0%nat, i. cbn [strnvis_loop firstn encs flat_map length skipn app]. 
    rewrite rd_app_hd. cbn [bind]. replace (sx 0 =? 0)%Z with true by reflexivity. cbn [orb].
    rewrite !Nat.add_0_r. repeat split; lia.
  - inversion HB as [|? ? Hb HB']; subst. inversion HN as [|? ? Hn HN']; subst.
    destruct (enc_good b Hb Hn) as (_ & _ & HL).
    cbn [strnvis_loop app]. rewrite rd_app_hd. cbn [bind]. rewrite (sx_zero b Hb).
    replace (b =? 0) with false by lia. cbn [orb].
    destruct (Z.of_nat (length out) <? Z.of_nat e)%Z eqn:HE; cbn [negb].
    2:{ exists 0%nat, i. cbn [firstn encs flat_map length skipn app nth]. rewrite !Nat.add_0_r.
        split; [reflexivity|]. split; [simpl; lia|]. split; [lia|]. intros _. split; [lia|]. right. lia. }
    pose proof (step_enc b Hb) as SE.
    assert (HR : rd (pre ++ b :: s ++ 0 :: js) (S (length pre)) = OK (nth 0 (s ++ 0 :: js) 0)).
    { rewrite cons_snoc. replace (S (length pre)) with (length (pre ++ [b])) by (rewrite app_length; simpl; lia).
      destruct s; cbn [app nth]; rewrite rd_app_hd; reflexivity. }
    assert (STOP : forall i', (e < length out + i')%nat -> (e < length out + length (enc b))%nat ->
      exists k i'', OK (out ++ tail, length out, length pre, i') =
      OK (out ++ encs (firstn k (b :: s)) ++ skipn (length (encs (firstn k (b :: s)))) tail,
          (length out + length (encs (firstn k (b :: s))))%nat, (length pre + k)%nat, i'') /\
      (k <= length (b :: s))%nat /\ (length out + length (encs (firstn k (b :: s))) <= e)%nat /\
      (k < length (b :: s) -> e < length out + length (encs (firstn k (b :: s))) + length (enc (nth k (b :: s) 0%N)) /\
       (e < length out + length (encs (firstn k (b :: s))) + i'' \/ (k = 0 /\ length out = e /\ i'' = i)))%nat).
    { intros i' A A2. exists 0%nat, i'. cbn [firstn encs flat_map length skipn app nth]. rewrite !Nat.add_0_r.
      split; [reflexivity|]. split; [lia|]. split; [lia|]. intros _. split; [lia|]. left. lia. }
    assert (STEP : forall i', (i' = length (enc b) \/ i' = 1)%nat -> (length out + length (enc b) <= e)%nat -> exists k i'',
      strnvis_loop fuel (out ++ enc b ++ skipn (length (enc b)) tail) (length out + length (enc b))
         (pre ++ b :: s ++ 0 :: js) (S (length pre)) (Z.of_nat e) F i' =
      OK (out ++ encs (firstn k (b :: s)) ++ skipn (length (encs (firstn k (b :: s)))) tail,
          (length out + length (encs (firstn k (b :: s))))%nat, (length pre + k)%nat, i'') /\
      (k <= length (b :: s))%nat /\ (length out + length (encs (firstn k (b :: s))) <= e)%nat /\
      (k < length (b :: s) -> e < length out + length (encs (firstn k (b :: s))) + length (enc (nth k (b :: s) 0%N)) /\
       (e < length out + length (encs (firstn k (b :: s))) + i'' \/ (k = 0 /\ length out = e /\ i'' = i)))%nat).
    { intros i' Hi' HFit.
      assert (SL : length (skipn (length (enc b)) tail) = (length tail - length (enc b))%nat) by apply skipn_length.
      destruct (IH (pre ++ [b]) js (out ++ enc b) (skipn (length (enc b)) tail) fuel i' e HB' HN') as (k & i'' & Q & K1 & K2 & K3).
      { simpl in HF; lia. } { rewrite app_length; lia. } { rewrite app_length; lia. }
      exists (S k), i''. rewrite !app_length in *. cbn [length] in *. rewrite <- !app_assoc in Q.
      replace (length pre + 1)%nat with (S (length pre)) in Q by lia. cbn [app] in Q. rewrite Q.
      cbn [firstn encs flat_map nth]. fold (encs (firstn k s)). rewrite !app_length.
      split. { rewrite <- !app_assoc. rewrite skip2. repeat (f_equal; try lia). }
      split; [lia|]. split; [lia|]. intros HK. destruct (K3 ltac:(lia)) as (K4 & K5). split; [lia|]. left.
      destruct K5 as [K5|(A & B & C)]; [lia|]. subst i'' k. cbn [firstn encs flat_map length]. lia. }
    destruct (isvisible (sx b) F) eqn:V.
    + destruct (((sx b =? 34)%Z && has F VIS_DQ) || ((sx b =? 92)%Z && negb (has F VIS_NOSLASH))) eqn:Q; rewrite SE in *; cbn [length] in *.
      * destruct (Z.of_nat (length out) + 1 >=? Z.of_nat e)%Z eqn:G; [apply STOP; lia|].
        destruct tail as [|x [|y tail]]; cbn [length] in HT; try lia.
        rewrite wr_at. cbn [bind]. rewrite cons_snoc. replace (S (length out)) with (length (out ++ [92])) by (rewrite app_length; simpl; lia).
        rewrite wr_at. cbn [bind]. rewrite app_length. cbn [length]. replace (S (length out + 1)) with (length out + 2)%nat by lia.
        rewrite <- app_assoc. cbn [app]. apply (STEP 1%nat); lia.
      * destruct tail as [|x tail]; cbn [length] in HT; try lia. rewrite wr_at. cbn [bind].
        replace (S (length out)) with (length out + 1)%nat by lia. apply (STEP 1%nat); lia.
    + rewrite HR. cbn [bind]. unfold vis_tbuf. rewrite vis_next, <- SE.
      replace (length (enc b) <? 5)%nat with true by (symmetry; apply Nat.ltb_lt; lia). cbn [bind].
      destruct (Z.of_nat (length out) + Z.of_nat (length (enc b)) <=? Z.of_nat e)%Z eqn:G; [|apply STOP; lia].
      rewrite wrs_at by lia. cbn [bind]. apply STEP; lia.
Qed.

Lemma count_spec : forall s pre js fuel n, bytes s -> nonul s -> (length s < fuel)%nat ->
  strnvis_count fuel (pre ++ s ++ 0 :: js) (length pre) F n = OK (n + length (encs s))%nat.
Proof.
  induction s as [|b s IH]; intros pre js fuel n HB HN HF; (destruct fuel as [|fuel]; [simpl in HF; lia|]).
  - cbn [strnvis_count app]. rewrite rd_app_hd. cbn [bind]. change (sx 0 =? 0)%Z with true. cbn [encs flat_map length]. cbv iota. f_equal. lia.
  - inversion HB as [|? ? Hb HB']; subst. inversion HN as [|? ? Hn HN']; subst.
    destruct (enc_good b Hb Hn) as (_ & _ & HL).
    cbn [strnvis_count app]. rewrite rd_app_hd. cbn [bind]. rewrite (sx_zero b Hb). replace (b =? 0) with false by lia.
    rewrite cons_snoc. replace (S (length pre)) with (length (pre ++ [b])) by (rewrite app_length; simpl; lia).
    assert (HR : rd ((pre ++ [b]) ++ s ++ 0 :: js) (length (pre ++ [b])) = OK (nth 0 (s ++ 0 :: js) 0)).
    { destruct s; cbn [app nth]; rewrite rd_app_hd; reflexivity. }
    rewrite HR. cbn [bind]. unfold vis_tbuf. rewrite vis_next. fold (enc b).
    replace (length (enc b) <? 5)%nat with true by (symmetry; apply Nat.ltb_lt; lia). cbn [bind].
    rewrite IH by (auto; simpl in HF; lia). change (encs (b :: s)) with (enc b ++ encs s). rewrite app_length. f_equal. lia.
Qed.

Lemma encs_app a b : encs (a ++ b) = encs a ++ encs b.
Proof. unfold encs. apply flat_map_app. Qed.

Lemma encs_good s : bytes s -> nonul s -> decodes (encs s) s /\ Forall printing (encs s) /\ (length s <= length (encs s))%nat.
Proof.
  induction s as [|b s IH]; intros HB HN; [split; [constructor|split; [constructor|reflexivity]]|].
  inversion HB as [|? ? Hb HB']; subst. inversion HN as [|? ? Hn HN']; subst.
  destruct (enc_good b Hb Hn) as (D & P & L). destruct (IH HB' HN') as (D' & P' & L').
  change (encs (b :: s)) with (enc b ++ encs s). split; [constructor; auto|]. split; [apply Forall_app; auto|]. rewrite app_length. simpl. lia.
Qed.

Lemma strnvis_spec s js dst siz : bytes s -> nonul s -> (1 <= siz <= length dst)%nat ->
  exists k, strnvis dst (s ++ 0 :: js) siz F =
    OK (if (siz =? 1)%nat then 0%nat else length (encs s),
        encs (firstn k s) ++ 0 :: skipn (S (length (encs (firstn k s)))) dst) /\
    (k <= length s)%nat /\ (length (encs (firstn k s)) < siz)%nat /\
    (k < length s -> siz <= length (encs (firstn k s)) + length (enc (nth k s 0%N)))%nat.
Proof.
  intros HB HN HS. unfold strnvis.
  destruct (loop_spec s [] js [] dst (S (length (s ++ 0 :: js))) 0 (siz - 1) HB HN) as (k & i & Q & K1 & K2 & K3).
  { rewrite app_length; simpl; lia. } { simpl; lia. } { simpl; lia. }
  exists k. cbn [app length Nat.add] in *. replace (Z.of_nat siz - 1)%Z with (Z.of_nat (siz - 1)) by lia. rewrite Q. cbn [bind].
  set (o := encs (firstn k s)) in *.
  destruct siz as [|siz]; [lia|]. cbn [Nat.sub] in *. rewrite Nat.sub_0_r in *.
  assert (SK : skipn (length o) dst = nth (length o) dst 0 :: skipn (S (length o)) dst).
  { assert (HL : (length o < length dst)%nat) by lia. clear - HL. revert dst HL. generalize (length o). intro n.
    induction n as [|n IH]; intros [|x dst] H; cbn [length] in H; try lia; [reflexivity|]. cbn [skipn nth]. apply IH. lia. }
  rewrite SK, wr_at. cbn [bind].
  assert (EN : (length (encs s) = length o + length (encs (skipn k s)))%nat).
  { rewrite <- (firstn_skipn k s) at 1. rewrite encs_app, app_length. reflexivity. }
  split; [|split; [exact K1|split; [lia|]]].
  2:{ intro H. destruct (K3 H). lia. }
  destruct (Nat.eq_dec k (length s)) as [->|NE].
  - rewrite skipn_all in EN. cbn [encs flat_map length] in EN. rewrite Nat.add_0_r in EN.
    assert (HC : forall n, strnvis_count (S (length (s ++ 0 :: js))) (s ++ 0 :: js) (length s) F n = OK n).
    { intro n. pose proof (count_spec [] s js (S (length (s ++ 0 :: js))) n) as C. cbn [app] in C.
      rewrite C; [cbn [encs flat_map length]; f_equal; lia|constructor|constructor|simpl; lia]. }
    assert (Z1 : (S siz =? 1)%nat = true -> length o = 0%nat) by (intro; lia).
    assert (RT : (if (S siz =? 1)%nat then 0%nat else length (encs s)) = length o).
    { destruct (S siz =? 1)%nat; [symmetry; auto|lia]. }
    rewrite RT. destruct (_ >? _)%Z; [rewrite HC; cbn [bind]|]; reflexivity.
  - destruct (K3 ltac:(lia)) as (K4 & K5).
    assert (HC : strnvis_count (S (length (s ++ 0 :: js))) (s ++ 0 :: js) k F (length o) = OK (length (encs s))).
    { pose proof (count_spec (skipn k s) (firstn k s) js (S (length (s ++ 0 :: js))) (length o)) as C.
      rewrite app_assoc, firstn_skipn, firstn_length_le in C by lia. rewrite C; [f_equal; lia| | |].
      - unfold bytes in *. rewrite <- (firstn_skipn k s) in HB. apply Forall_app in HB. tauto.
      - unfold nonul in *. rewrite <- (firstn_skipn k s) in HN. apply Forall_app in HN. tauto.
      - rewrite skipn_length, app_length. simpl. lia. }
    rewrite HC. cbn [bind].
    destruct K5 as [K5|(A & B & C)].
    + replace (Z.of_nat (length o) + Z.of_nat i >? Z.of_nat siz)%Z with true by lia.
      destruct (S siz =? 1)%nat eqn:E1; [|reflexivity].
      apply Nat.eqb_eq in E1. exfalso.
      assert (siz = 0)%nat by lia. subst siz. 
      (* with one byte the loop is left at once: i is 0 *)
      clear - Q K2 K5. cbn [strnvis_loop] in Q. destruct (rd _ 0) as [b| |]; cbn [bind] in Q; try discriminate.
      replace (Z.of_nat 0 <? Z.of_nat 0)%Z with false in Q by reflexivity. cbn [negb] in Q. rewrite orb_true_r in Q.
      injection Q as _ Q2 _ Q4. lia.
    + subst k i. subst siz. cbn [firstn encs flat_map] in o. subst o. cbn. reflexivity.
Qed.

(** an encoded text is decoded in one way only *)
Lemma ctl_fun x c d : ctl x c -> ctl x d -> c = d.
Proof. unfold ctl. lia. Qed.

Lemma denotes_app e1 b1 e2 b2 r1 r2 : denotes e1 b1 -> denotes e2 b2 -> e1 ++ r1 = e2 ++ r2 -> b1 = b2 /\ e1 = e2 /\ r1 = r2.
Proof.
  intros D1 D2 Q. inversion D1; subst; inversion D2; subst; cbn [app] in Q; injection Q; intros; subst;
    unfold is_octal in *; try congruence; try lia; repeat split; auto; try lia.
  - eapply ctl_fun; eauto.
  - f_equal. eapply ctl_fun; eauto.
Qed.

Lemma denotes_ne e b : denotes e b -> e <> [].
Proof. intro D; inversion D; discriminate. Qed.

Lemma decodes_fun e s1 : decodes e s1 -> forall s2, decodes e s2 -> s1 = s2.
Proof.
  induction 1 as [|e b es bs D DS IH]; intros s2 H.
  - inversion H as [|e b es bs D DS E1 E2]; [reflexivity|]. subst. apply denotes_ne in D. destruct e; [congruence|discriminate].
  - inversion H as [E1 E2|e2 b2 es2 bs2 D2 DS2 E1 E2]; subst.
    + apply denotes_ne in D. destruct e; [congruence|discriminate].
    + destruct (denotes_app _ _ _ _ _ _ D D2 (eq_sym E1)) as (A & B & C). subst. f_equal. apply IH. exact DS2.
Qed.
