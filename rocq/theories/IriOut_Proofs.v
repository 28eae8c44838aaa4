From Verif Require Import Base BaseLemmas Utf8Spec Compat Compat_Proofs Prop_Compat Iri IriSpec IriObs IriOut IriOutSpec
  Canon_Proofs Iri_Proofs Iri_Grammar_Proofs Iri_Final_Proofs.
Local Open Scope N_scope.

Definition enc1 (c : N) : list N := if g_path c then [c]
                     else [37; nth (N.to_nat (c / 16)) HEX 0; nth (N.to_nat (c mod 16)) HEX 0].

Lemma enc_plain_eq c : enc_plain c = g_path c.
Proof. exact (path_char_eq c). Qed.

Lemma hexdigit_HEX a : a < 16 -> hexdigit a = nth (N.to_nat a) HEX 0 /\ is_xdigit (hexdigit a) = true /\ hexval (hexdigit a) = a.
Proof.
  intros H.
  assert (K : forallb (fun a => (hexdigit a =? nth (N.to_nat a) HEX 0) && is_xdigit (hexdigit a) && (hexval (hexdigit a) =? a)) (map N.of_nat (seq 0 16)) = true) by (vm_compute; reflexivity).
  rewrite forallb_forall in K. specialize (K a).
  assert (I : In a (map N.of_nat (seq 0 16))).
  { apply in_map_iff. exists (N.to_nat a). split; [lia|]. apply in_seq. lia. }
  apply K in I. lia.
Qed.

Lemma nib c : c < 256 -> N.shiftr (N.land c 240) 4 = c / 16 /\ N.land c 15 = c mod 16.
Proof.
  intros H. assert (K : forallb (fun c => (N.shiftr (N.land c 240) 4 =? c / 16) && (N.land c 15 =? c mod 16)) all_bytes = true) by (vm_compute; reflexivity).
  rewrite forallb_forall in K. specialize (K c (in_all_bytes c H)). lia.
Qed.

Lemma repeat_app_split (n k : nat) : (k <= n)%nat -> repeat (0:N) n = repeat 0 k ++ repeat 0 (n - k).
Proof. intros. rewrite <- repeat_app. f_equal. lia. Qed.

Lemma enc1_nonul c : c <> 0 -> c < 256 -> nonul (enc1 c).
Proof.
  intros H0 H. unfold enc1. destruct (g_path c); [repeat constructor; auto|].
  assert (A : c / 16 < 16) by (apply N.div_lt_upper_bound; lia).
  assert (B : c mod 16 < 16) by (apply N.mod_lt; lia).
  destruct (hexdigit_HEX _ A) as (<- & _). destruct (hexdigit_HEX _ B) as (<- & _).
  unfold hexdigit. repeat constructor; try lia; destruct (_ <=? 9); lia.
Qed.

Lemma encode_loop_spec : forall path out n, bytes path -> nonul path -> (0 < n)%nat ->
  let e := pct_encode path in
  if (length e <? n)%nat
  then encode_path_loop (out ++ repeat 0 n) (length out) n path = OK (0%Z, out ++ e ++ repeat 0 (n - length e))
  else exists b k, encode_path_loop (out ++ repeat 0 n) (length out) n path = OK ((-1)%Z, out ++ b ++ repeat 0 k) /\
       (exists r, e = b ++ r) /\ (length b + k)%nat = n /\ (0 < k)%nat.
Proof.
  induction path as [|c path IH]; intros out n Hb Hn Hpos; cbn zeta.
  { change (pct_encode []) with (@nil N). cbn [length encode_path_loop app].
    destruct (Nat.ltb_spec 0 n); [|lia]. rewrite Nat.sub_0_r. reflexivity. }
  apply bytes_cons in Hb. destruct Hb as [Hc Hb]. apply nonul_cons in Hn. destruct Hn as [H0 Hn].
  change (pct_encode (c :: path)) with (enc1 c ++ pct_encode path).
  cbn [encode_path_loop]. rewrite enc_plain_eq.
  destruct (Nat.eqb_spec n 1) as [->|Hn1].
  { destruct (Nat.ltb_spec (length (enc1 c ++ pct_encode path)) 1) as [L|L].
    { exfalso. rewrite app_length in L. unfold enc1 in L. destruct (g_path c); cbn in L; lia. }
    exists [], 1%nat. split; [reflexivity|]. split; [eexists; reflexivity|]. cbn; lia. }
  unfold enc1. destruct (g_path c).
  - destruct n as [|n]; [lia|]. cbn [repeat]. rewrite wr_app2 by reflexivity. cbn [bind].
    change (out ++ c :: repeat 0 n) with (out ++ [c] ++ repeat 0 n). rewrite app_assoc.
    replace (length out + 1)%nat with (length (out ++ [c])) by (rewrite app_length; reflexivity).
    replace (S n - 1)%nat with n by lia.
    specialize (IH (out ++ [c]) n Hb Hn ltac:(lia)). cbn zeta in IH. cbn [app length].
    destruct (Nat.ltb_spec (length (pct_encode path)) n) as [L|L];
      destruct (Nat.ltb_spec (S (length (pct_encode path))) (S n)) as [L'|L']; try lia.
    + rewrite IH. rewrite <- !app_assoc. cbn [app]. repeat f_equal.
    + destruct IH as (b & k & I1 & (r & I2) & I3). exists (c :: b), k. rewrite I1. rewrite <- !app_assoc. cbn [app].
      split; [reflexivity|]. split; [exists r; rewrite I2; reflexivity|]. cbn. lia.
  - set (e3 := [37; nth (N.to_nat (c / 16)) HEX 0; nth (N.to_nat (c mod 16)) HEX 0]).
    destruct (Nat.ltb_spec n 4) as [L4|L4].
    { destruct (Nat.ltb_spec (length (e3 ++ pct_encode path)) n) as [L|L].
      { exfalso. rewrite app_length in L. cbn in L; lia. }
      exists [], n. split; [reflexivity|]. split; [eexists; reflexivity|]. cbn; lia. }
    destruct n as [|[|[|n]]]; try lia. cbn [repeat]. rewrite wr_app2 by reflexivity. cbn [bind].
    change (out ++ 37 :: 0 :: 0 :: repeat 0 n) with (out ++ [37] ++ 0 :: 0 :: repeat 0 n). rewrite app_assoc.
    rewrite wr_app2 by (rewrite app_length; reflexivity). cbn [bind].
    rewrite (cons_snoc (out ++ [37])).
    rewrite wr_app2 by (rewrite !app_length; cbn; lia). cbn [bind].
    destruct (nib c Hc) as [-> ->].
    assert (A : c / 16 < 16) by (apply N.div_lt_upper_bound; lia).
    assert (B : c mod 16 < 16) by (apply N.mod_lt; lia).
    destruct (hexdigit_HEX _ A) as (-> & _). destruct (hexdigit_HEX _ B) as (-> & _).
    rewrite cons_snoc. rewrite <- !app_assoc. change ([37] ++ [nth (N.to_nat (c / 16)) HEX 0] ++ [nth (N.to_nat (c mod 16)) HEX 0] ++ repeat 0 n) with (e3 ++ repeat 0 n).
    rewrite (app_assoc out e3).
    replace (length out + 3)%nat with (length (out ++ e3)) by (rewrite app_length; reflexivity).
    replace (S (S (S n)) - 3)%nat with n by lia.
    specialize (IH (out ++ e3) n Hb Hn ltac:(lia)). cbn zeta in IH.
    rewrite app_length. change (length e3) with 3%nat.
    destruct (Nat.ltb_spec (length (pct_encode path)) n) as [L|L];
      destruct (Nat.ltb_spec (3 + length (pct_encode path)) (S (S (S n)))) as [L'|L']; try lia.
    + rewrite IH. rewrite <- !app_assoc. reflexivity.
    + destruct IH as (b & k & I1 & (r & I2) & I3). exists (e3 ++ b), k. rewrite I1. rewrite <- !app_assoc.
      split; [reflexivity|]. split; [exists r; rewrite I2, <- !app_assoc; reflexivity|]. rewrite app_length. change (length e3) with 3%nat. lia.
Qed.

Lemma encode_items p : nonul p -> bytes p -> items g_path true (pct_encode p) p.
Proof.
  induction p as [|c p IH]; intros H0 Hb; [constructor|].
  apply bytes_cons in Hb. destruct Hb as [Hc Hb]. apply nonul_cons in H0. destruct H0 as [Hz Hn].
  change (pct_encode (c :: p)) with (enc1 c ++ pct_encode p). change (c :: p) with ([c] ++ p).
  constructor; [|auto]. unfold enc1. destruct (g_path c) eqn:E; [constructor; exact E|].
  assert (A : c / 16 < 16) by (apply N.div_lt_upper_bound; lia).
  assert (B : c mod 16 < 16) by (apply N.mod_lt; lia).
  destruct (hexdigit_HEX _ A) as (<- & X1 & V1). destruct (hexdigit_HEX _ B) as (<- & X2 & V2).
  assert (D : c = 16 * (c / 16) + c mod 16) by (apply N.div_mod; lia).
  replace [c] with (if true then [16 * hexval (hexdigit (c / 16)) + hexval (hexdigit (c mod 16))] else [37; hexdigit (c/16); hexdigit (c mod 16)]).
  - apply it_pct; auto. intros Q. assert (Q1 := f_equal fst Q). assert (Q2 := f_equal snd Q). cbn [fst snd] in Q1, Q2. rewrite Q1 in V1. rewrite Q2 in V2. change (hexval 48) with 0 in V1, V2. rewrite <- V1, <- V2 in D. lia.
  - rewrite V1, V2, <- D. reflexivity.
Qed.

Lemma encode_bytes p : nonul p -> bytes p -> nonul (pct_encode p) /\ bytes (pct_encode p).
Proof.
  induction p as [|c p IH]; intros H0 Hb; [split; constructor|].
  apply bytes_cons in Hb. destruct Hb as [Hc Hb]. apply nonul_cons in H0. destruct H0 as [Hz Hn].
  change (pct_encode (c :: p)) with (enc1 c ++ pct_encode p). destruct (IH Hn Hb).
  split. { apply nonul_app. split; auto using enc1_nonul. }
  apply bytes_app. split; [|auto]. unfold enc1. destruct (g_path c); [repeat constructor; auto|].
  assert (A : c / 16 < 16) by (apply N.div_lt_upper_bound; lia).
  assert (B : c mod 16 < 16) by (apply N.mod_lt; lia).
  destruct (hexdigit_HEX _ A) as (<- & _). destruct (hexdigit_HEX _ B) as (<- & _).
  unfold hexdigit. repeat constructor; try lia; destruct (_ <=? 9); lia.
Qed.

(** pct_decode_str *)
Lemma pct_decode_str_loop_spec : forall n s fuel pre m E J, (length s <= n)%nat -> (length s < fuel)%nat ->
  shape m pre s E J -> exists m', pct_decode_str_loop fuel m (length pre) = OK m' /\ shape m' (pre ++ url_decode s) [] E J.
Proof.
  induction n as [|n IH]; intros s fuel pre m E J Hn Hf Hsh.
  { destruct s; [|cbn in Hn; lia]. destruct fuel; [cbn in Hf; lia|]. cbn [pct_decode_str_loop].
    rewrite (shape_rd _ _ _ _ _ Hsh). cbn [hd bind]. eexists. split; [reflexivity|]. cbn [url_decode]. rewrite app_nil_r. exact Hsh. }
  destruct s as [|c s].
  { destruct fuel; [cbn in Hf; lia|]. cbn [pct_decode_str_loop].
    rewrite (shape_rd _ _ _ _ _ Hsh). cbn [hd bind]. eexists. split; [reflexivity|]. cbn [url_decode]. rewrite app_nil_r. exact Hsh. }
  destruct fuel as [|fuel]; [cbn in Hf; lia|]. cbn [length] in *. cbn [pct_decode_str_loop].
  rewrite (shape_rd _ _ _ _ _ Hsh). cbn [hd bind].
  assert (Hc0 : c <> 0) by (destruct Hsh as (_ & _ & _ & Hn0 & _); apply nonul_cons in Hn0; tauto).
  destruct (N.eqb_spec c 0); [congruence|].
  assert (STEP : forall m1 d r, (length r <= n)%nat -> (length r < fuel)%nat -> shape m1 pre (d :: r) E J ->
     exists m', pct_decode_str_loop fuel m1 (S (length pre)) = OK m' /\ shape m' (pre ++ d :: url_decode r) [] E J).
  { intros m1 d r H1 H2 H3. apply (shape_shift m1 pre [d] r) in H3.
    replace (S (length pre)) with (length (pre ++ [d])) by (rewrite app_length; cbn; lia).
    destruct (IH r fuel (pre ++ [d]) m1 E J H1 H2 H3) as (m' & A & B). exists m'. split; [exact A|].
    rewrite <- app_assoc in B. exact B. }
  destruct (N.eqb_spec c 43) as [->|N43].
  { destruct (shape_put _ _ _ _ _ _ 32 Hsh) as (m1 & W & H1); [lia|lia|]. rewrite W. cbn [bind].
    apply STEP; auto; lia. }
  assert (UD : c <> 37 -> url_decode (c :: s) = c :: url_decode s).
  { intros H. cbn [url_decode]. destruct c as [|q]; [congruence|].
    repeat (destruct q as [q|q|]; try reflexivity; try congruence). }
  destruct (N.eqb_spec c 37) as [->|N37].
  2:{ rewrite UD by auto. apply STEP; auto; lia. }
  rewrite (valid_pct_list _ _ _ _ _ Hsh). cbn [bind].
  destruct s as [|a [|b r]].
  - apply STEP; auto; lia.
  - change (url_decode [37; a]) with (37 :: url_decode [a]). apply STEP; auto; lia.
  - change (url_decode (37 :: a :: b :: r)) with
      (if is_xdigit a && is_xdigit b && negb ((a =? 48) && (b =? 48))
       then (16 * hexval a + hexval b) :: url_decode r else 37 :: url_decode (a :: b :: r)).
    unfold okpct. destruct (is_xdigit a && is_xdigit b && negb ((a =? 48) && (b =? 48))) eqn:K.
    + apply andb_prop in K. destruct K as [K K3]. apply andb_prop in K. destruct K as [K1 K2].
      apply negb_true_iff in K3.
      destruct (shape_pct _ _ _ _ _ _ _ Hsh K1 K2 K3) as (m' & D & Hsh'). rewrite D. cbn [bind].
      apply STEP; auto; cbn [length] in *; lia.
    + apply STEP; auto; lia.
Qed.

(** serialisation *)
Lemma cat_step b d0 s len : length b = len -> cstr b = Some d0 -> (length d0 < len)%nat -> nonul s ->
  exists b', strlcat b (z s) len = OK ((length d0 + length s)%nat, b') /\ length b' = len /\
             cstr b' = Some (firstn (len - 1) (d0 ++ s)).
Proof.
  intros Hl Hc Hd Hs. apply cstr_inv in Hc. destruct Hc as [H0 [j ->]].
  destruct (c37_strlcat d0 j s [] len H0 Hs ltac:(lia)) as (b' & A & B & C & D).
  exists b'. split; [exact A|]. split; [congruence|]. rewrite D. f_equal.
  rewrite firstn_app. rewrite (@firstn_all2 _ (len - 1) d0) by lia. reflexivity.
Qed.

Lemma nonul_firstn n s : nonul s -> nonul (firstn n s).
Proof. intros H. rewrite <- (firstn_skipn n s) in H. apply nonul_app in H. tauto. Qed.

Lemma serialize_fits c buf len : length buf = len ->
  nonul (c_scheme c) -> nonul (c_host c) -> nonul (c_path c) -> nonul (c_query c) ->
  (length (request_line c) < len)%nat ->
  exists b, serialize_iri c buf len = OK (true, b) /\ cstr b = Some (request_line c).
Proof.
  intros Hb N1 N2 N3 N4 HL. unfold serialize_iri.
  set (sep := s2b "://") in *. set (sl := s2b "/") in *. set (qm := s2b "?") in *.
  assert (HL2 : (length (c_scheme c) + 3 + length (c_host c) + 1 + length (c_path c) +
                 match c_query c with [] => 0 | q => 1 + length q end < len)%nat).
  { unfold request_line in HL. rewrite !app_length in HL. destruct (c_query c); [cbn [length] in *; change (length (s2b "://")) with 3%nat in HL; change (length (s2b "/")) with 1%nat in HL; lia|].
    rewrite !app_length in HL. change (length (s2b "://")) with 3%nat in HL; change (length (s2b "/")) with 1%nat in HL; change (length (s2b "?")) with 1%nat in HL. lia. }
  assert (L3 : length sep = 3%nat) by reflexivity. assert (L1 : length sl = 1%nat) by reflexivity.
  assert (Lq : length qm = 1%nat) by reflexivity.
  assert (M1 : nonul sep) by (repeat constructor; discriminate).
  assert (M2 : nonul sl) by (repeat constructor; discriminate).
  assert (M3 : nonul qm) by (repeat constructor; discriminate).
  destruct (c37_strlcpy (c_scheme c) [] buf len N1 ltac:(lia)) as (b1 & A1 & B1 & _ & D1).
  unfold z at 1. rewrite A1. cbn [bind]. specialize (D1 ltac:(lia)). rewrite firstn_all2 in D1 by lia.
  assert (ST : forall b d s, length b = len -> cstr b = Some d -> nonul s -> (length d + length s < len)%nat ->
     exists b', strlcat b (z s) len = OK ((length d + length s)%nat, b') /\ length b' = len /\ cstr b' = Some (d ++ s)).
  { intros b d s X1 X2 X3 X4. destruct (cat_step b d s len X1 X2 ltac:(lia) X3) as (b' & Y1 & Y2 & Y3).
    exists b'. split; [exact Y1|]. split; [exact Y2|]. rewrite Y3. rewrite firstn_all2; [reflexivity|]. rewrite app_length. lia. }
  destruct (ST b1 _ sep ltac:(congruence) D1 M1 ltac:(lia)) as (b2 & A2 & B2 & D2). rewrite A2. cbn [bind].
  destruct (ST b2 _ _ B2 D2 N2 ltac:(rewrite !app_length; lia)) as (b3 & A3 & B3 & D3). rewrite A3. cbn [bind].
  destruct (ST b3 _ sl B3 D3 M2 ltac:(rewrite !app_length; lia)) as (b4 & A4 & B4 & D4). rewrite A4. cbn [bind].
  destruct (ST b4 _ _ B4 D4 N3 ltac:(rewrite !app_length; lia)) as (b5 & A5 & B5 & D5). rewrite A5. cbn [bind].
  unfold request_line. fold sep sl qm.
  destruct (c_query c) as [|q0 q] eqn:Eq.
  - eexists. split. { f_equal. f_equal. rewrite !app_length. apply Nat.ltb_lt. lia. }
    rewrite D5. rewrite <- !app_assoc, app_nil_r. reflexivity.
  - destruct (ST b5 _ qm B5 D5 M3 ltac:(rewrite !app_length; lia)) as (b6 & A6 & B6 & D6). rewrite A6. cbn [bind].
    destruct (ST b6 _ _ B6 D6 N4 ltac:(rewrite !app_length; lia)) as (b7 & A7 & B7 & D7). rewrite A7. cbn [bind].
    eexists. split. { f_equal. f_equal. rewrite !app_length. apply Nat.ltb_lt. lia. }
    rewrite D7. rewrite <- !app_assoc. reflexivity.
Qed.
