From Verif Require Import Base BaseLemmas Utf8 Utf8Spec Utf8_Proofs Iri IriSpec PathClean_Proofs Canon_Proofs.
Local Open Scope N_scope.

(** ** Shape of the buffer while parsing: [pre] is done, [s] is left, the NUL
    found at offset [E] by parse_iri is still there, followed by [J]. *)
Definition shape (m pre s : list N) (E : nat) (J : list N) : Prop :=
  (exists junk, m = pre ++ s ++ 0 :: junk) /\ (length pre + length s <= E)%nat /\
  skipn E m = 0 :: J /\ nonul s /\ bytes s.

Lemma shape_rd m pre s E J : shape m pre s E J -> rd m (length pre) = OK (hd 0 s).
Proof.
  intros ((junk & ->) & _). destruct s as [|c s]; cbn [hd app]; apply rd_app2; reflexivity.
Qed.

Lemma shape_rd_k m pre s E J k : shape m pre s E J -> (k <= length s)%nat ->
  rd m (length pre + k) = OK (nth k s 0).
Proof.
  intros ((junk & ->) & _) Hk. rewrite rd_off by auto.
  destruct (Nat.eq_dec k (length s)) as [->|Hne].
  - rewrite rd_app2 by auto. rewrite nth_overflow; auto.
  - unfold rd. rewrite nth_error_app1 by lia. rewrite (nth_error_nth' s 0) by lia. reflexivity.
Qed.

Lemma shape_shift m pre a s E J : shape m pre (a ++ s) E J -> shape m (pre ++ a) s E J.
Proof.
  intros ((junk & Hm) & HE & Hsk & Hn & Hb). apply nonul_app in Hn. apply bytes_app in Hb.
  repeat split; try tauto.
  - exists junk. rewrite Hm, <- !app_assoc. reflexivity.
  - rewrite !app_length in *. lia.
Qed.

Lemma shape_len m pre s E J : shape m pre s E J -> (length pre + length s < length m)%nat.
Proof. intros ((junk & ->) & _). rewrite !app_length. cbn. lia. Qed.

Lemma skipn_wr m p v m' E : wr m p v = OK m' -> (p < E)%nat -> skipn E m' = skipn E m.
Proof.
  unfold wr. destruct (Nat.ltb_spec p (length m)); intros H1 H2; inversion H1; subst.
  rewrite skipn_app. rewrite skipn_all2 by (rewrite firstn_length; lia).
  rewrite firstn_length. replace (Nat.min p (length m)) with p by lia. cbn [app].
  rewrite <- (firstn_skipn (S p) m) at 2.
  rewrite skipn_app. rewrite (skipn_all2 (firstn (S p) m)) by (rewrite firstn_length; lia).
  rewrite firstn_length. cbn [app].
  replace (E - p)%nat with (S (E - S p)) by lia. cbn [skipn].
  replace (E - Nat.min (S p) (length m))%nat with (E - S p)%nat by lia. reflexivity.
Qed.

Lemma shape_put m pre c s E J v : shape m pre (c :: s) E J -> v <> 0 -> v < 256 ->
  exists m', wr m (length pre) v = OK m' /\ shape m' pre (v :: s) E J.
Proof.
  intros ((junk & Hm) & HE & Hsk & Hn & Hb) Hv Hv2.
  apply nonul_cons in Hn. apply bytes_cons in Hb. cbn [length] in HE.
  assert (W : wr m (length pre) v = OK (pre ++ v :: s ++ 0 :: junk)).
  { rewrite Hm. cbn [app]. apply wr_app2; auto. }
  eexists. split; [exact W|]. repeat split.
  - exists junk. reflexivity.
  - cbn. lia.
  - rewrite (skipn_wr _ _ _ _ E W) by lia. auto.
  - apply nonul_cons; tauto.
  - apply bytes_cons; tauto.
Qed.

Lemma shape_cut m pre c s E J : shape m pre (c :: s) E J ->
  exists m', wr m (length pre) 0 = OK m' /\ shape m' (pre ++ [0]) s E J.
Proof.
  intros ((junk & Hm) & HE & Hsk & Hn & Hb).
  apply nonul_cons in Hn. apply bytes_cons in Hb. cbn [length] in HE.
  assert (W : wr m (length pre) 0 = OK (pre ++ 0 :: s ++ 0 :: junk)).
  { rewrite Hm. cbn [app]. apply wr_app2; auto. }
  eexists. split; [exact W|]. repeat split; try tauto.
  - exists junk. rewrite <- app_assoc. reflexivity.
  - rewrite app_length. cbn. lia.
  - rewrite (skipn_wr _ _ _ _ E W) by lia. auto.
Qed.

Lemma xdigit_val a b : is_xdigit a = true -> is_xdigit b = true ->
  (a =? 48) && (b =? 48) = false ->
  16 * hexval a + hexval b < 256 /\ 16 * hexval a + hexval b <> 0.
Proof.
  intros Ha Hb Hz. unfold is_xdigit, hexval, is_digit in *.
  destruct ((48 <=? a) && (a <=? 57)) eqn:A1; destruct ((65 <=? a) && (a <=? 70)) eqn:A2;
  destruct ((97 <=? a) && (a <=? 102)) eqn:A3;
  destruct ((48 <=? b) && (b <=? 57)) eqn:B1; destruct ((65 <=? b) && (b <=? 70)) eqn:B2;
  destruct ((97 <=? b) && (b <=? 102)) eqn:B3; try discriminate; lia.
Qed.

Lemma shape_pct m pre a b r E J : shape m pre (37 :: a :: b :: r) E J ->
  is_xdigit a = true -> is_xdigit b = true -> (a =? 48) && (b =? 48) = false ->
  exists m', pct_decode m (length pre) = OK m' /\
             shape m' pre ((16 * hexval a + hexval b) :: r) E J.
Proof.
  intros Hsh Ha Hb Hz. destruct (xdigit_val a b Ha Hb Hz) as [V1 V2].
  set (v := 16 * hexval a + hexval b) in *.
  unfold pct_decode.
  rewrite (shape_rd_k _ _ _ _ _ 1 Hsh), (shape_rd_k _ _ _ _ _ 2 Hsh) by (cbn; lia).
  cbn [nth bind]. fold v.
  destruct (shape_put _ _ _ _ _ _ v Hsh V2 V1) as (m1 & W & Hsh1).
  rewrite W. cbn [bind]. clear W Hsh.
  destruct Hsh1 as ((junk & Hm) & HE & Hsk & Hn & Hby).
  apply nonul_cons in Hn. destruct Hn as [_ Hn]. apply nonul_cons in Hn. destruct Hn as [_ Hn].
  apply nonul_cons in Hn. destruct Hn as [_ Hn].
  apply bytes_cons in Hby. destruct Hby as [_ Hby]. apply bytes_cons in Hby. destruct Hby as [_ Hby].
  apply bytes_cons in Hby. destruct Hby as [_ Hby].
  assert (Hm3 : m1 = (pre ++ [v; a; b]) ++ r ++ 0 :: junk)
    by (rewrite Hm, <- app_assoc; reflexivity).
  assert (L3 : (length pre + 3)%nat = length (pre ++ [v; a; b])) by (rewrite app_length; reflexivity).
  assert (SL : strlen m1 (length pre + 3) = OK (length r)).
  { rewrite Hm3. apply strlen_app; auto. }
  rewrite SL. cbn [bind]. unfold memmove.
  assert (Lm : length m1 = (length pre + 4 + length r + length junk)%nat).
  { rewrite Hm3, !app_length. cbn. lia. }
  cbn [length] in HE.
  destruct (Nat.leb_spec (length pre + 1 + (length r + 1)) (length m1)); [|lia].
  destruct (Nat.leb_spec (length pre + 3 + (length r + 1)) (length m1)); [|lia].
  cbn [andb].
  assert (F1 : firstn (length pre + 1) m1 = pre ++ [v]).
  { replace m1 with ((pre ++ [v]) ++ a :: b :: r ++ 0 :: junk) by (rewrite Hm, <- app_assoc; reflexivity).
    apply firstn_pre. rewrite app_length. reflexivity. }
  assert (F2 : firstn (length r + 1) (skipn (length pre + 3) m1) = r ++ [0]).
  { rewrite Hm3 at 1. rewrite skipn_pre by auto.
    replace (r ++ 0 :: junk) with ((r ++ [0]) ++ junk) by (rewrite <- app_assoc; reflexivity).
    apply firstn_pre. rewrite app_length. reflexivity. }
  rewrite F1, F2. eexists. split; [reflexivity|]. repeat split.
  - eexists. rewrite <- !app_assoc. cbn [app]. reflexivity.
  - cbn. lia.
  - rewrite !app_assoc. rewrite skipn_app. rewrite skipn_all2.
    2:{ rewrite !app_length. cbn. lia. }
    cbn [app]. rewrite <- Hsk. rewrite !app_length. cbn [length].
    rewrite <- (firstn_skipn (length pre + 1 + (length r + 1)) m1) at 2.
    rewrite skipn_app. rewrite (skipn_all2 (firstn _ _)) by (rewrite firstn_length; lia).
    cbn [app]. rewrite firstn_length. f_equal. lia.
  - apply nonul_cons; auto.
  - apply bytes_cons; auto.
Qed.

(** ** One step of the scanning loops *)
Inductive stepres := Eat (out rest : list N) | Stop | Bad.

Definition okpct (a b : N) : bool := is_xdigit a && is_xdigit b && negb ((a =? 48) && (b =? 48)).

Definition gstep (ok : N -> bool) (dec : bool) (s : list N) : stepres :=
  match s with
  | [] => Stop
  | c :: t =>
    if ok c then Eat [c] t
    else if c =? 37 then
      match t with
      | a :: b :: r =>
        if okpct a b then Eat (if dec then [16 * hexval a + hexval b] else [37; a; b]) r else Bad
      | _ => Bad
      end
    else if c <? 128 then Stop
    else match mb_len s with
         | Some n => Eat (firstn n s) (skipn n s)
         | None => Bad
         end
  end.

Definition goodcls (ok : N -> bool) : Prop :=
  forall c, ok c = true -> c <> 0 /\ c <> 37 /\ c < 128.

Definition pct_of (dec : bool) := if dec then parse_pct_encoded else valid_pct_encoded.

Lemma valid_pct_list m pre s E J : shape m pre (37 :: s) E J ->
  valid_pct_enc_string m (length pre) =
  OK (match s with a :: b :: _ => okpct a b | _ => false end).
Proof.
  intros Hsh. unfold valid_pct_enc_string.
  rewrite (shape_rd _ _ _ _ _ Hsh). cbn [hd bind]. change (37 =? 37) with true. cbn [negb].
  rewrite (shape_rd_k _ _ _ _ _ 1 Hsh) by (cbn; lia). cbn [nth bind].
  destruct s as [|a s]; [reflexivity|].
  cbn [nth]. unfold okpct. destruct (is_xdigit a) eqn:Ea; cbn [negb andb].
  2:{ destruct s; reflexivity. }
  rewrite (shape_rd_k _ _ _ _ _ 2 Hsh) by (cbn; lia). cbn [nth bind].
  destruct s as [|b s]; [reflexivity|]. cbn [nth].
  destruct (is_xdigit b); cbn [negb andb]; [|reflexivity].
  destruct ((a =? 48) && (b =? 48)); reflexivity.
Qed.

Definition lastpos (pre out : list N) : nat := (length pre + length out - 1)%nat.

Lemma p_multibyte_spec p pre s E J : shape (mem p) pre s E J -> pos p = length pre -> 
  exists b p', p_multibyte p = OK (b, p') /\ parsed p' = parsed p /\ mem p' = mem p /\
  match s with
  | [] => b = false /\ p' = p
  | c :: _ => if c <? 128 then b = false /\ p' = p
    else match mb_len s with
         | Some n => b = true /\ perr p' = perr p /\ pos p' = (pos p + n - 1)%nat
         | None => b = false /\ perr p' = true
         end
  end.
Proof.
  intros Hsh Hpos. unfold p_multibyte.
  destruct Hsh as ((junk & Hm) & HE & Hsk & Hn & Hb).
  rewrite Hm, Hpos.
  destruct (valid_multibyte_list pre s junk (length pre) Hn Hb eq_refl) as (pos' & b & e & Ev & H).
  rewrite Ev. cbn [bind]. exists b. eexists. split; [reflexivity|].
  destruct s as [|c s].
  { inversion H; subst. destruct p; cbn in *; subst; repeat split; auto. }
  destruct (c <? 128).
  { inversion H; subst. destruct p; cbn in *; subst; repeat split; auto. }
  destruct (mb_len (c :: s)) as [n|].
  - inversion H; subst. cbn. repeat split; auto.
  - destruct H as [-> ->]. cbn. repeat split; auto.
Qed.

Lemma scan_cond_spec ok dec p pre s E J :
  goodcls ok -> shape (mem p) pre s E J -> pos p = length pre -> perr p = false ->
  exists b p', scan_cond ok (pct_of dec) p = OK (b, p') /\ parsed p' = parsed p /\
               length (mem p') = length (mem p) /\
  match gstep ok dec s with
  | Eat out rest => b = true /\ perr p' = false /\ shape (mem p') pre (out ++ rest) E J /\
                    pos p' = lastpos pre out /\ out <> [] /\ (length rest < length s)%nat
  | Stop => b = false /\ p' = p
  | Bad => b = false /\ perr p' = true
  end.
Proof.
  intros Hok Hsh Hpos Herr. unfold scan_cond. rewrite Hpos, (shape_rd _ _ _ _ _ Hsh). cbn [bind].
  assert (Hz : ok 0 = false).
  { destruct (ok 0) eqn:E0; auto. destruct (Hok 0 E0). congruence. }
  destruct s as [|c t].
  { cbn [hd gstep]. rewrite Hz.
    assert (Ep : pct_of dec p = OK (false, p)).
    { destruct dec; cbn; unfold parse_pct_encoded, valid_pct_encoded;
      rewrite Hpos, (shape_rd _ _ _ _ _ Hsh); reflexivity. }
    rewrite Ep. cbn [bind].
    destruct (p_multibyte_spec p pre [] E J Hsh Hpos) as (b & p' & E1 & E2 & E3 & E4 & E5).
    rewrite E1. exists b, p'. subst. repeat split; auto. }
  cbn [hd]. unfold gstep.
  destruct (ok c) eqn:Ec.
  { exists true, p. destruct (Hok c Ec) as (? & ? & ?). split; [reflexivity|].
    repeat split; auto; try apply Hsh; try discriminate; try (cbn; lia).
    unfold lastpos. cbn. lia. }
  destruct (N.eqb_spec c 37) as [->|Hc].
  { assert (Ep : forall bad, match t with a :: b :: _ => okpct a b | _ => false end = bad ->
       pct_of dec p = if bad then
          (if dec then
            let* m := pct_decode (mem p) (length pre) in
            let p1 := set_mem p m in
            let* d := rd (mem p1) (pos p1) in
            if d =? 0 then OK (false, set_err p1) else OK (true, p1)
           else OK (true, set_pos p (length pre + 2)))
         else OK (false, set_err p)).
    { intros bad Hbad. destruct dec; cbn [pct_of]; unfold parse_pct_encoded, valid_pct_encoded;
      rewrite !Hpos, (shape_rd _ _ _ _ _ Hsh); cbn [hd bind]; change (37 =? 37) with true;
      cbn [negb]; rewrite (valid_pct_list _ _ _ _ _ Hsh), Hbad; cbn [bind]; destruct bad; reflexivity. }
    assert (Bad_case : match t with a :: b :: _ => okpct a b | _ => false end = false ->
       exists b p', (let* (b0, p1) := pct_of dec p in if b0 then OK (true, p1) else p_multibyte p1) = OK (b, p') /\ parsed p' = parsed p /\ length (mem p') = length (mem p) /\ b = false /\ perr p' = true).
    { intros Hbad. rewrite (Ep false Hbad). cbn [bind].
      destruct (p_multibyte_spec (set_err p) pre (37 :: t) E J Hsh Hpos) as (b & p' & E1 & E2 & E3 & E4 & E5).
      rewrite E1. exists b, p'. subst. cbn. repeat split; auto. }
    destruct t as [|a [|b r]]; try (destruct (Bad_case eq_refl) as (b' & p' & ? & ? & ? & ? & ?);
       exists b', p'; repeat split; assumption).
    destruct (okpct a b) eqn:Eo.
    2:{ destruct (Bad_case eq_refl) as (b' & p' & ? & ? & ? & ? & ?).
        exists b', p'; repeat split; assumption. }
    rewrite (Ep true eq_refl). unfold okpct in Eo.
    apply andb_true_iff in Eo. destruct Eo as [Eo Ez]. apply andb_true_iff in Eo. destruct Eo as [Ea Eb].
    apply negb_true_iff in Ez.
    destruct dec.
    - destruct (shape_pct _ _ _ _ _ _ _ Hsh Ea Eb Ez) as (m' & Ed & Hsh').
      rewrite Ed. cbn [bind]. cbn [mem pos set_mem]. rewrite Hpos, (shape_rd _ _ _ _ _ Hsh'). cbn [hd bind].
      destruct (xdigit_val a b Ea Eb Ez) as [V1 V2]. rewrite nz_eqb by auto. cbn [bind].
      exists true. eexists. split; [reflexivity|]. cbn [parsed mem perr pos set_mem].
      split; [reflexivity|]. split.
      { destruct Hsh' as (_ & L1 & S1 & _). destruct Hsh as (_ & L2 & S2 & _).
        cbn [length] in L1, L2.
        apply (f_equal (@length N)) in S1. apply (f_equal (@length N)) in S2.
        rewrite skipn_length in *. cbn [length] in *. lia. }
      split; [reflexivity|]. split; [assumption|]. split; [exact Hsh'|].
      split; [unfold lastpos; cbn; lia|]. split; [discriminate|cbn; lia].
    - cbn [bind]. exists true. eexists. split; [reflexivity|]. cbn.
      repeat split; auto; try apply Hsh; try discriminate; try lia. unfold lastpos. cbn. lia. }
  assert (Ep : pct_of dec p = OK (false, p)).
  { destruct dec; cbn; unfold parse_pct_encoded, valid_pct_encoded;
    rewrite Hpos, (shape_rd _ _ _ _ _ Hsh); cbn [hd bind];
    (destruct (N.eqb_spec c 37); [contradiction|reflexivity]). }
  rewrite Ep. cbn [bind].
  destruct (p_multibyte_spec p pre (c :: t) E J Hsh Hpos) as (b & p' & E1 & E2 & E3 & H).
  rewrite E1. exists b, p'. split; [reflexivity|]. split; [assumption|]. split; [congruence|].
  destruct (c <? 128); [exact H|].
  destruct (mb_len (c :: t)) as [n|] eqn:Emb; [|exact H].
  destruct H as (-> & Hp1 & Hp2).
  destruct (mb_len_encode (c :: t) n) as (_ & _ & _ & Hle & Hge); auto. { apply Hsh. }
  split; [reflexivity|]. split; [congruence|]. split.
  { rewrite firstn_skipn, E3. exact Hsh. }
  split. { unfold lastpos. rewrite firstn_length. lia. }
  split. { destruct n; [lia|]. discriminate. }
  rewrite skipn_length. lia.
Qed.

(** ** Scanning to the first character outside the class *)
Fixpoint fscan (ok : N -> bool) (dec : bool) (fuel : nat) (s : list N) : option (list N * list N) :=
  match fuel with
  | O => Some ([], s)
  | S f =>
    match gstep ok dec s with
    | Stop => Some ([], s)
    | Bad => None
    | Eat out rest =>
      match fscan ok dec f rest with
      | Some (o, r) => Some (out ++ o, r)
      | None => None
      end
    end
  end.

Lemma fscan_S ok dec f s : fscan ok dec (S f) s =
    match gstep ok dec s with
    | Stop => Some ([], s)
    | Bad => None
    | Eat out rest =>
      match fscan ok dec f rest with
      | Some (o, r) => Some (out ++ o, r)
      | None => None
      end
    end.
Proof. reflexivity. Qed.

Lemma scan_loop_spec ok dec n : forall s fuel pre p E J,
  goodcls ok -> (length s <= n)%nat -> (n < fuel)%nat ->
  shape (mem p) pre s E J -> pos p = length pre -> perr p = false ->
  exists p', scan_loop fuel ok (pct_of dec) p = OK p' /\ parsed p' = parsed p /\
  match fscan ok dec (S n) s with
  | Some (out, rest) =>
      perr p' = false /\ shape (mem p') (pre ++ out) rest E J /\
      pos p' = (length pre + length out)%nat
  | None => perr p' = true
  end.
Proof.
  induction n as [|n IH]; intros s fuel pre p E J Hok Hn Hf Hsh Hpos Herr;
    (destruct fuel as [|fuel]; [lia|]); cbn [scan_loop]; rewrite fscan_S;
    destruct (scan_cond_spec ok dec p pre s E J Hok Hsh Hpos Herr) as (b & p1 & E1 & E2 & EL & H);
    rewrite E1; cbn [bind].
  - destruct s; [|cbn in Hn; lia]. cbn [gstep] in *. destruct H as [-> ->].
    exists p. repeat split; auto; rewrite ?app_nil_r; try apply Hsh. cbn. lia.
  - destruct (gstep ok dec s) as [out rest| |].
    + destruct H as (-> & Hp1 & Hsh1 & Hpos1 & Hne & Hlt).
      assert (Hlo : (1 <= length out)%nat) by (destruct out; [congruence|cbn; lia]).
      destruct (IH rest fuel (pre ++ out) (set_pos p1 (S (pos p1))) E J) as (p2 & F1 & F2 & F3); auto.
      * lia.
      * lia.
      * cbn. apply shape_shift. exact Hsh1.
      * cbn. rewrite Hpos1, app_length. unfold lastpos. lia.
      * exists p2. split; [exact F1|]. split; [rewrite F2; exact E2|].
        destruct (fscan ok dec (S n) rest) as [[o r]|]; [|exact F3].
        destruct F3 as (G1 & G2 & G3). split; [exact G1|]. rewrite app_assoc. split; [exact G2|].
        rewrite G3, !app_length. lia.
    + destruct H as [-> ->]. exists p. repeat split; auto; rewrite ?app_nil_r; try apply Hsh. cbn. lia.
    + destruct H as [-> Hp]. exists p1. auto.
Qed.

Lemma to_lower_ok x : x <> 0 -> x < 256 -> to_lower x <> 0 /\ to_lower x < 256.
Proof. unfold to_lower, is_upper. intros. destruct ((65 <=? x) && (x <=? 90)) eqn:E; lia. Qed.
Lemma to_lower_hi x : 91 <= x -> to_lower x = x.
Proof. unfold to_lower, is_upper. intros. destruct ((65 <=? x) && (x <=? 90)) eqn:E; [lia|reflexivity]. Qed.

Lemma mb_first_hi s n : bytes s -> mb_len s = Some n ->
  exists o x, firstn n s = o ++ [x] /\ map to_lower o = o.
Proof.
  intros Hb H. unfold mb_len in H. destruct s as [|a [|b t]]; try discriminate.
  destruct (wf2 a b) eqn:E2.
  { inversion H; subst. exists [a], b. split; [reflexivity|]. cbn.
    rewrite to_lower_hi; auto. unfold wf2, inr in E2. lia. }
  destruct t as [|c t]; try discriminate.
  destruct (wf3 a b c) eqn:E3.
  { inversion H; subst. exists [a; b], c. split; [reflexivity|]. cbn.
    rewrite !to_lower_hi; auto; unfold wf3, cont, inr in E3; lia. }
  destruct t as [|d t]; try discriminate.
  destruct (wf4 a b c d) eqn:E4; [|discriminate].
  inversion H; subst. exists [a; b; c], d. split; [reflexivity|]. cbn.
  rewrite !to_lower_hi; auto; unfold wf4, cont, inr in E4; lia.
Qed.

Lemma gstep_eat_snoc ok s out rest : bytes s -> gstep ok true s = Eat out rest ->
  exists o x, out = o ++ [x] /\ map to_lower o = o.
Proof.
  intros Hb H. unfold gstep in H. destruct s as [|c t]; [discriminate|].
  destruct (ok c). { inversion H; subst. exists [], c. auto. }
  destruct (c =? 37).
  { destruct t as [|a [|b r]]; try discriminate. destruct (okpct a b); [|discriminate].
    inversion H; subst. exists [], (16 * hexval a + hexval b). auto. }
  destruct (c <? 128); [discriminate|].
  destruct (mb_len (c :: t)) as [n|] eqn:Em; [|discriminate]. inversion H; subst.
  apply mb_first_hi; auto.
Qed.

Lemma host_loop_spec ok n : forall s fuel pre p E J,
  ok = host_char -> goodcls ok -> (length s <= n)%nat -> (n < fuel)%nat ->
  shape (mem p) pre s E J -> pos p = length pre -> perr p = false ->
  exists p', host_loop fuel p = OK p' /\ parsed p' = parsed p /\
  match fscan ok true (S n) s with
  | Some (out, rest) =>
      perr p' = false /\ shape (mem p') (pre ++ map to_lower out) rest E J /\
      pos p' = (length pre + length out)%nat
  | None => perr p' = true
  end.
Proof.
  intros s fuel pre p E J Hokd. subst ok. revert s fuel pre p E J.
  induction n as [|n IH]; intros s fuel pre p E J Hok Hn Hf Hsh Hpos Herr;
    (destruct fuel as [|fuel]; [lia|]); cbn [host_loop]; rewrite fscan_S;
    destruct (scan_cond_spec host_char true p pre s E J Hok Hsh Hpos Herr) as (b & p1 & E1 & E2 & EL & H);
    change (pct_of true) with parse_pct_encoded in E1; rewrite E1; cbn [bind].
  - destruct s; [|cbn in Hn; lia]. cbn [gstep] in *. destruct H as [-> ->].
    exists p. repeat split; auto; cbn [map]; rewrite ?app_nil_r; try apply Hsh. cbn. lia.
  - destruct (gstep host_char true s) as [out rest| |] eqn:Eg.
    + destruct H as (-> & Hp1 & Hsh1 & Hpos1 & Hne & Hlt).
      assert (Hb : bytes s) by apply Hsh.
      destruct (gstep_eat_snoc _ _ _ _ Hb Eg) as (o & x & -> & Ho).
      rewrite <- app_assoc in Hsh1. apply shape_shift in Hsh1.
      assert (Hpx : pos p1 = length (pre ++ o)).
      { rewrite Hpos1. unfold lastpos. rewrite !app_length. cbn. lia. }
      rewrite Hpx, (shape_rd _ _ _ _ _ Hsh1). cbn [hd app bind].
      assert (Hx : x <> 0 /\ x < 256).
      { destruct Hsh1 as (_ & _ & _ & Q1 & Q2). cbn [app] in *. apply nonul_cons in Q1. apply bytes_cons in Q2. tauto. }
      destruct (to_lower_ok x) as [T1 T2]; try tauto.
      assert (Hput : exists p2, (if (x <? 127) || (127 <? x) then put p1 (to_lower x) else OK p1) = OK p2
        /\ parsed p2 = parsed p1 /\ perr p2 = perr p1 /\ pos p2 = pos p1 /\
        shape (mem p2) (pre ++ o) (to_lower x :: rest) E J).
      { destruct ((x <? 127) || (127 <? x)) eqn:Ex.
        - unfold put. rewrite Hpx.
          destruct (shape_put _ _ _ _ _ _ (to_lower x) Hsh1 T1 T2) as (m' & W & Hs').
          rewrite W. cbn [bind]. eexists. split; [reflexivity|]. cbn. auto.
        - assert (x = 127) by lia. subst x. exists p1. repeat split; auto; apply Hsh1. }
      destruct Hput as (p2 & Ep2 & P1 & P2 & P3 & Hs2). rewrite Ep2. cbn [bind].
      assert (Hs3 : shape (mem p2) ((pre ++ o) ++ [to_lower x]) rest E J)
        by (apply shape_shift; exact Hs2).
      destruct (IH rest fuel ((pre ++ o) ++ [to_lower x]) (set_pos p2 (S (pos p2))) E J)
        as (p3 & F1 & F2 & F3); auto; try lia.
      * cbn. rewrite P3, Hpx. rewrite (app_length (pre ++ o)). cbn. lia.
      * cbn. congruence.
      * exists p3. split; [exact F1|]. split; [rewrite F2; cbn; congruence|].
        destruct (fscan host_char true (S n) rest) as [[o2 r]|]; [|exact F3].
        destruct F3 as (G1 & G2 & G3). split; [exact G1|]. split.
        -- rewrite !map_app, Ho. cbn [map]. rewrite <- !app_assoc. rewrite <- !app_assoc in G2. exact G2.
        -- rewrite G3, !app_length. cbn. lia.
    + destruct H as [-> ->]. exists p. repeat split; auto; cbn [map]; rewrite ?app_nil_r; try apply Hsh. cbn. lia.
    + destruct H as [-> Hp]. exists p1. auto.
Qed.

(** ** Spans *)
Fixpoint span (f : N -> bool) (s : list N) : list N * list N :=
  match s with
  | [] => ([], [])
  | c :: r => if f c then let '(a, b) := span f r in (c :: a, b) else ([], s)
  end.

Lemma span_app f s a b : span f s = (a, b) -> s = a ++ b /\ forallb f a = true /\
  match b with [] => True | c :: _ => f c = false end.
Proof.
  revert a b. induction s as [|c s IH]; cbn; intros a b H; [inversion H; auto|].
  destruct (f c) eqn:E.
  - destruct (span f s) as [a' b'] eqn:Es. inversion H; subst.
    destruct (IH a' b eq_refl) as (-> & H1 & H2). cbn. rewrite E. auto.
  - inversion H; subst. auto.
Qed.
Lemma span_iff f a b : forallb f a = true -> match b with [] => True | c :: _ => f c = false end ->
  span f (a ++ b) = (a, b).
Proof.
  induction a as [|c a IH]; cbn; intros H1 H2.
  - destruct b as [|c b]; cbn; [reflexivity|]. rewrite H2. reflexivity.
  - apply andb_true_iff in H1. destruct H1 as [-> H1]. rewrite IH by auto. reflexivity.
Qed.

Lemma scheme_loop_spec : forall t c fuel pre p E J,
  (length t < fuel)%nat -> shape (mem p) pre (c :: t) E J -> pos p = length pre ->
  exists p', scheme_loop fuel p = OK p' /\ parsed p' = parsed p /\ perr p' = perr p /\
    shape (mem p') (pre ++ map to_lower (c :: fst (span scheme_char t))) (snd (span scheme_char t)) E J /\
    pos p' = (length pre + S (length (fst (span scheme_char t))))%nat.
Proof.
  induction t as [|d t IH]; intros c fuel pre p E J Hf Hsh Hpos;
    (destruct fuel as [|fuel]; [cbn in Hf; lia|]); cbn [scheme_loop];
    rewrite Hpos, (shape_rd _ _ _ _ _ Hsh); cbn [hd bind];
    assert (Hc : c <> 0 /\ c < 256) by
      (destruct Hsh as (_ & _ & _ & Q1 & Q2); apply nonul_cons in Q1; apply bytes_cons in Q2; tauto);
    destruct (to_lower_ok c) as [T1 T2]; try tauto;
    destruct (shape_put _ _ _ _ _ _ (to_lower c) Hsh T1 T2) as (m' & W & Hs');
    unfold put; rewrite Hpos, W; cbn [bind mem pos set_mem set_pos];
    assert (Hs2 : shape m' (pre ++ [to_lower c]) _ E J) by (apply shape_shift; exact Hs');
    replace (S (pos p)) with (length (pre ++ [to_lower c])) by (rewrite app_length; cbn; lia);
    rewrite (shape_rd _ _ _ _ _ Hs2); cbn [hd bind].
  - change (scheme_char 0) with false. cbn iota. eexists. split; [reflexivity|]. cbn.
    repeat split; auto; try apply Hs2. rewrite app_length. cbn. lia.
  - cbn [span]. destruct (scheme_char d) eqn:Ed.
    + edestruct (IH d fuel (pre ++ [to_lower c])) as (p' & F1 & F2 & F3 & F4 & F5);
        [| |  |exists p'; split; [exact F1|] ].
      * cbn in Hf. lia.
      * cbn. exact Hs2.
      * cbn. reflexivity.
      * destruct (span scheme_char t) as [a b]. cbn [fst snd] in *.
        split; [rewrite F2; reflexivity|]. split; [rewrite F3; reflexivity|].
        split.
        -- rewrite <- app_assoc in F4. exact F4.
        -- rewrite F5, app_length. cbn. lia.
    + eexists. split; [reflexivity|]. cbn.
      repeat split; auto; try apply Hs2. rewrite app_length. cbn. lia.
Qed.

(** ** List-level parser *)
Definition f_scheme (s : list N) : option (list N * list N) :=
  match s with
  | c :: t =>
    if is_alpha c then
      match snd (span scheme_char t) with
      | x :: y :: z :: r =>
        if (x =? 58) && ((y =? 47) && (z =? 47))
        then Some (map to_lower (c :: fst (span scheme_char t)), r) else None
      | _ => None
      end
    else None
  | [] => None
  end.

Definition setf (i : iri) (sc ho po : nat) (no : N) (pa qu fr : nat) := mkIri sc ho po no pa qu fr.

Lemma parse_scheme_spec p s E J :
  shape (mem p) [] s E J -> pos p = 0%nat -> perr p = false ->
  exists b p', parse_scheme p = OK (b, p') /\
  match f_scheme s with
  | Some (sch, r) => b = true /\ perr p' = false /\
      shape (mem p') (sch ++ [0; 47; 47]) r E J /\ pos p' = length (sch ++ [0; 47; 47]) /\
      nonul sch /\
      parsed p' = (let i := parsed p in mkIri 0 (i_host i) (i_port i) (i_port_no i) (i_path i) (i_query i) (i_fragment i))
  | None => b = false
  end.
Proof.
  intros Hsh Hpos Herr. unfold parse_scheme. cbn [mem pos set_parsed parsed perr].
  rewrite Hpos. pose proof (shape_rd _ _ _ _ _ Hsh) as R0. cbn [length] in R0. rewrite R0. cbn [bind].
  destruct s as [|c t].
  { cbn [hd]. eexists _, _. split; reflexivity. }
  cbn [hd f_scheme]. destruct (is_alpha c) eqn:Ea; cbn [negb].
  2:{ eexists _, _. split; reflexivity. }
  match goal with |- context[scheme_loop _ ?q] => set (p0 := q) end.
  destruct (scheme_loop_spec t c (S (length (mem p))) [] p0 E J) as (p1 & F1 & F2 & F3 & F4 & F5).
  { apply shape_len in Hsh. cbn in Hsh. lia. } { exact Hsh. } { exact Hpos. }
  rewrite F1. cbn [bind]. cbn [app length] in *.
  set (w := fst (span scheme_char t)) in *. set (u := snd (span scheme_char t)) in *.
  assert (Hpos1 : pos p1 = length (map to_lower (c :: w))).
  { rewrite F5. cbn. rewrite map_length. lia. }
  rewrite Hpos1, (shape_rd _ _ _ _ _ F4). cbn [bind].
  assert (Hns : nonul (map to_lower (c :: w))).
  { destruct (span scheme_char t) as [w' u'] eqn:Es. cbn [fst snd] in w, u. subst w u.
    destruct (span_app _ _ _ _ Es) as (Et & _).
    destruct Hsh as (_ & _ & _ & Q1 & Q2). rewrite Et in *.
    change (c :: w' ++ u') with ((c :: w') ++ u') in *. apply nonul_app in Q1. apply bytes_app in Q2.
    apply Forall_map. destruct Q1 as [Q1 _], Q2 as [Q2 _].
    apply Forall_forall. intros x Hx. apply to_lower_ok;
      [eapply Forall_forall in Q1|eapply Forall_forall in Q2]; eauto. }
  destruct u as [|u1 u]; cbn [hd].
  { eexists _, _. split; reflexivity. }
  destruct (N.eqb_spec u1 58) as [->|Hu1]; cbn [negb].
  2:{ eexists _, _. split; [reflexivity|].
      destruct u as [|? [|? ?]]; try reflexivity. }
  destruct (shape_cut _ _ _ _ _ _ F4) as (m' & W & Hs').
  unfold put. rewrite Hpos1, W. cbn [bind mem pos set_mem set_pos perr].
  rewrite Hpos1. replace (length (map to_lower (c :: w)) + 1)%nat
    with (length (map to_lower (c :: w) ++ [0])) by (rewrite app_length; reflexivity).
  rewrite (shape_rd _ _ _ _ _ Hs'). cbn [bind].
  destruct u as [|u2 u]; cbn [hd].
  { eexists _, _. split; reflexivity. }
  destruct (N.eqb_spec u2 47) as [->|Hu2]; cbn [negb].
  2:{ eexists _, _. split; [reflexivity|].
      destruct u as [|? ?]; try reflexivity. }
  replace (length (map to_lower (c :: w)) + 2)%nat
    with (length (map to_lower (c :: w) ++ [0%N]) + 1)%nat by (rewrite app_length; cbn; lia).
  rewrite (shape_rd_k _ _ _ _ _ 1 Hs') by (cbn; lia). cbn [bind nth].
  destruct u as [|u3 u]; cbn [nth].
  { eexists _, _. split; reflexivity. }
  destruct (N.eqb_spec u3 47) as [->|Hu3]; cbn [negb].
  2:{ eexists _, _. split; [reflexivity|].
      reflexivity. }
  eexists _, _. split; [reflexivity|]. cbn [perr mem pos parsed].
  split; [reflexivity|]. split; [cbn; rewrite F3; exact Herr|]. split.
  { replace (map to_lower (c :: w) ++ [0; 47; 47]) with ((map to_lower (c :: w) ++ [0]) ++ [47; 47])
      by (rewrite <- app_assoc; reflexivity).
    apply shape_shift. exact Hs'. }
  split. { cbn [pos set_pos]. rewrite !app_length. cbn. lia. }
  split; [exact Hns|]. cbn. rewrite F2. reflexivity.
Qed.
