(** C24: replies of FastCGI applications. *)
From Verif Require Import Base BaseLemmas Compat Iri IriSpec IriObs IriOut Puny Conf ConfSpec Mime Fmt Fcgi Server ServerSpec Iri_Last_Proofs Server_Proofs Decide_Proofs RequestSpec Request_Proofs HistorySpec Run_Proofs Wiring_Proofs Hist_Proofs Prop_Server SafeSpec Safe_Proofs Prop_Safe BodySpec Body_Proofs Prop_Body RelaySpec Relay_Proofs FcgiRelay_Proofs RelayOpen_Proofs.
Local Open Scope N_scope.

(** ** what may follow the records *)
Lemma frames_one e r : frames e [r] -> exists ver ty l1 l0 rsv content padding,
  l1 < 256 /\ l0 < 256 /\ N.to_nat (l0 + N.shiftl l1 8) = length content /\ r = (ty, content) /\
  e = [ver; ty; 0; 1; l1; l0; N.of_nat (length padding); rsv] ++ content ++ padding.
Proof.
  intros H. inversion H as [|ver ty l1 l0 pad rsv content padding s rs B1 B0 LC LP F EQ1 EQ2]; subst. inversion F; subst.
  exists ver, ty, l1, l0, rsv, content, padding. repeat split; auto.
  - rewrite N.shiftl_mul_pow2. change (2 ^ 8) with 256. lia.
  - rewrite app_nil_r. reflexivity.
Qed.

Section Tails.
Context (fm : list N -> list N).
Lemma tail_partial t x : partial_record x -> t_done t = false -> loop fm 1 x t = OK (x, t, false).
Proof.
  intros [-> |(y & r & Y & F)] D; cbn [loop]; rewrite D; [reflexivity|].
  apply frames_one in F as (ver & ty & l1 & l0 & rsv & content & padding & _ & _ & LEN & _ & EQ).
  do 7 (destruct x as [|? x]; [reflexivity|]). cbn [app] in EQ. injection EQ as -> -> -> -> -> -> -> EQ.
  destruct x as [|? x]; [reflexivity|]. cbn [app] in EQ. injection EQ as -> EQ.
  change (1 + N.shiftl 0 8 =? 1) with true. cbn [negb]. cbv zeta. rewrite LEN, Nat2N.id.
  destruct (Nat.ltb_spec (length x) (length content + length padding)) as [L|L]; [reflexivity|exfalso].
  apply (f_equal (@length N)) in EQ. rewrite !app_length in EQ. destruct y; [congruence|cbn [length] in EQ; lia].
Qed.
Lemma record_step e ty content y t g : frames e [(ty, content)] -> t_done t = false ->
  loop fm (S g) (e ++ y) t =
      if ty =? FCGI_END_REQUEST then
        if negb (length content =? 8)%nat then OK (skipn 8 (e ++ y), t, true)
        else loop fm g y (mkSt (t_code t) (t_buf t) true (t_str t))
      else if ty =? FCGI_STDERR then loop fm g y t
      else if ty =? FCGI_STDOUT then loop fm g y (feed fm content t)
      else OK (skipn 8 (e ++ y), t, true).
Proof.
  intros F D. apply frames_one in F as (ver & ty' & l1 & l0 & rsv & content' & padding & _ & _ & LEN & RE & ->). injection RE as <- <-.
  cbn [app loop]. rewrite D. change (1 + N.shiftl 0 8 =? 1) with true. cbn [negb]. cbv zeta. rewrite LEN, Nat2N.id.
  rewrite <- !app_assoc. destruct (Nat.ltb_spec (length (content ++ padding ++ y)) (length content + length padding)) as [L|L];
    [rewrite !app_length in L; lia|].
  rewrite firstn_app, Nat.sub_diag, firstn_all. cbn [firstn]. rewrite app_nil_r.
  assert (SK : skipn (length content + length padding) (content ++ padding ++ y) = y).
  { rewrite app_assoc, <- app_length, skipn_app, Nat.sub_diag, skipn_all2 by lia. reflexivity. }
  rewrite SK. reflexivity.
Qed.
Lemma tail_stop t x : stopper x -> t_done t = false -> exists s1 b, loop fm 2 x t = OK (s1, mkSt (t_code t) (t_buf t) b (t_str t), true).
Proof.
  intros H D. assert (TT : t = mkSt (t_code t) (t_buf t) false (t_str t)) by (destruct t; cbn in *; subst; reflexivity).
  destruct H as [(e & content & y & F & L & ->)|[(ver & ty & i1 & i0 & l1 & l0 & pad & rsv & y & NE & ->)|(e & ty & content & y & F & N3 & N6 & N7 & ->)]].
  - exists y, true. rewrite (record_step e 3 content y t 1 F D). change (3 =? FCGI_END_REQUEST) with true. cbv iota. rewrite L. reflexivity.
  - eexists _, false. cbn [app]. unfold loop. rewrite D.
    assert (Q : (i0 + N.shiftl i1 8 =? 1) = false) by (apply N.eqb_neq; rewrite N.shiftl_mul_pow2; change (2 ^ 8) with 256; lia).
    rewrite Q. cbn [negb]. rewrite <- TT. reflexivity.
  - eexists _, false. rewrite (record_step e ty content y t 1 F D). unfold FCGI_END_REQUEST, FCGI_STDERR, FCGI_STDOUT.
    rewrite (proj2 (N.eqb_neq ty 3) N3), (proj2 (N.eqb_neq ty 7) N7), (proj2 (N.eqb_neq ty 6) N6). rewrite <- TT. reflexivity.
Qed.
Lemma fail42_str t b : t_str (fail42 (mkSt (t_code t) (t_buf t) b (t_str t))) = t_str (fail42 t).
Proof. unfold fail42. cbn [t_code t_buf t_str]. destruct (t_code t =? 0); reflexivity. Qed.
End Tails.

Lemma outcome_frames E v i s rs x en F : frames s rs -> outputs rs -> partial_record x \/ stopper x -> outcome E v i (s ++ x) en F ->
  let t := feeds (fmv E v i) rs st0 in
  F = t_str (fail42 t) \/ (t_done t = false /\ partial_record x /\ en = false /\ F = t_str t).
Proof.
  intros FR O X (f & s1 & t1 & b & L & ->) t. destruct (loop_frames (fmv E v i) s rs FR O st0 x) as (k & Hk). fold t in Hk.
  destruct (t_done t) eqn:D.
  - left. destruct (Hk 0%nat) as (s2 & L2). pose proof (loop_det _ _ _ _ _ _ _ _ _ L L2) as Q. injection Q as -> -> ->. reflexivity.
  - destruct X as [X|X].
    + specialize (Hk 1%nat). rewrite (tail_partial _ t x X D) in Hk. pose proof (loop_det _ _ _ _ _ _ _ _ _ L Hk) as Q. injection Q as -> -> ->.
      cbn [orb]. destruct en; [left; reflexivity|right; auto].
    + specialize (Hk 2%nat). destruct (tail_stop (fmv E v i) t x X D) as (s2 & b2 & L2). rewrite L2 in Hk.
      pose proof (loop_det _ _ _ _ _ _ _ _ _ L Hk) as Q. injection Q as -> -> ->. left. cbn [orb]. apply fail42_str.
Qed.

Lemma fmv_sent E v i meta m : meta_sent E v i meta m -> fmv E v i meta = m.
Proof.
  unfold fmv. intros [[N ->]|[-> (lg & (l & G & <-) & ->)]].
  - assert (Q : leqb meta (s2b "text/gemini") = false) by (destruct (leqb meta (s2b "text/gemini")) eqn:Q; [apply leqb_eq in Q; contradiction|reflexivity]).
    rewrite Q. apply app_nil_r.
  - rewrite leqb_refl. rewrite (Prop_Conf.c13_lang _ _ _ _ G). destruct (l_lang l); [apply app_nil_r|reflexivity].
Qed.

Lemma upto_nul_id s : nonul s -> upto_nul s = s.
Proof. induction 1 as [|x s H _ IH]; [reflexivity|]. cbn. destruct (N.eqb_spec x 0); [contradiction|]. rewrite IH. reflexivity. Qed.
Lemma digit_of d : d < 10 -> is_digit (48 + d) = true.
Proof. intros H. unfold is_digit. lia. Qed.
Lemma status_digits sp code rest : 10 <= code < 70 -> sp 32 = true ->
  status sp ([48 + code / 10; 48 + code mod 10; 32] ++ rest) = Some (code, upto_nul rest).
Proof.
  intros R S. cbn [app]. unfold status. pose proof (N.mod_upper_bound code 10 ltac:(lia)). pose proof (N.div_mod code 10 ltac:(lia)).
  rewrite !digit_of, S by lia. cbn [andb]. replace ((48 + code / 10 - 48) * 10 + (48 + code mod 10 - 48)) with code by lia.
  destruct (N.ltb_spec code 10); [lia|]. destruct (N.leb_spec 70 code); [lia|]. reflexivity.
Qed.
Lemma status_line_status code meta line : status_line code meta line -> status (N.eqb 32) line = Some (code, meta).
Proof. intros (R & N & ->). rewrite status_digits by (auto; reflexivity). rewrite upto_nul_id by exact N. reflexivity. Qed.
Lemma bad_status_status line : bad_status line -> status (N.eqb 32) line = None.
Proof.
  intros B. destruct (status (N.eqb 32) line) as [[code meta]|] eqn:S; [exfalso|reflexivity]. apply B. exists code.
  unfold status in S. destruct line as [|a [|b [|x rest]]]; try discriminate.
  destruct (is_digit a && is_digit b && (32 =? x)) eqn:D; [|discriminate]. apply andb_prop in D as [D X]. apply andb_prop in D as [DA DB].
  apply N.eqb_eq in X. subst x. unfold is_digit in DA, DB.
  destruct (((a - 48) * 10 + (b - 48) <? 10) || (70 <=? (a - 48) * 10 + (b - 48))) eqn:R; [discriminate|]. injection S as <- _.
  exists rest. split; [lia|].
  assert (A1 : ((a - 48) * 10 + (b - 48)) / 10 = a - 48) by (symmetry; apply (N.div_unique _ 10 _ (b - 48)); lia).
  assert (A2 : ((a - 48) * 10 + (b - 48)) mod 10 = b - 48) by (symmetry; apply (N.mod_unique _ 10 (a - 48)); lia).
  rewrite A1, A2. cbn [app]. f_equal; [lia|]. f_equal. lia.
Qed.

(** ** the request went to an application *)
Definition handed (E : env) fs sni v line i asked chunks c0 : Prop :=
  conf_ok E /\ sort_ok E /\ request E fs sni v line i asked chunks c0 /\
  exists os k l, decides E fs v i (c_domain c0) asked (mkD os (WFcgi k l)).

Lemma handed_outcome E fs sni v line i asked chunks c0 es c2 : handed E fs sni v line i asked chunks c0 ->
  run E (opening fs sni chunks ++ es) fresh = Some (OK c2) -> quiet es ->
  outcome E v i (app_bytes es) (app_ended es) (stream c2).
Proof.
  intros (HO & HS & RQ & os & k & l & D) R Q. apply run_opening in R as (c1 & R1 & R2).
  exact (run_going E v i es [] c1 c2 (opening_going E fs sni v line i asked chunks c0 c1 k l os HO HS RQ R1 D) Q R2).
Qed.

(** ** C24: how the bytes of the application were split does not matter *)
Lemma c24_same_bytes E v line i asked fs sni chunks c0 fs' sni' chunks' c0' es es' c2 c2' :
  handed E fs sni v line i asked chunks c0 -> handed E fs' sni' v line i asked chunks' c0' ->
  run E (opening fs sni chunks ++ es) fresh = Some (OK c2) -> quiet es ->
  run E (opening fs' sni' chunks' ++ es') fresh = Some (OK c2') -> quiet es' ->
  app_bytes es = app_bytes es' -> app_ended es = app_ended es' -> stream c2 = stream c2'.
Proof.
  intros H H' R Q R' Q' B EN. pose proof (handed_outcome _ _ _ _ _ _ _ _ _ _ _ H R Q) as O. pose proof (handed_outcome _ _ _ _ _ _ _ _ _ _ _ H' R' Q') as O'.
  rewrite B, EN in O. exact (outcome_det E v i _ _ _ _ O O').
Qed.

(** The application sends [S] and closes its side or not ([en]); the client
    stays.  All of [S] was read, or the server dropped the application. *)
Definition heard (S : list N) (en : bool) (es : list event) (c : client) : Prop :=
  quiet es /\ ~ aborted es /\
  ((app_bytes es = S /\ app_ended es = en) \/
   ((exists x, S = app_bytes es ++ x) /\ app_ended es = false /\ forall k, In k (c_conns c) -> k_open k = false)).

Theorem c24_split E v line i asked fs sni chunks c0 fs' sni' chunks' c0' es es' c2 c2' S en :
  handed E fs sni v line i asked chunks c0 -> handed E fs' sni' v line i asked chunks' c0' ->
  run E (opening fs sni chunks ++ es) fresh = Some (OK c2) -> heard S en es c2 ->
  run E (opening fs' sni' chunks' ++ es') fresh = Some (OK c2') -> heard S en es' c2' ->
  c_sent c2 ++ c_out c2 = c_sent c2' ++ c_out c2'.
Proof.
  intros H H' R HE R' HE'.
  assert (G : forall fs sni chunks c0 es c2, handed E fs sni v line i asked chunks c0 -> run E (opening fs sni chunks ++ es) fresh = Some (OK c2) -> heard S en es c2 ->
     outcome E v i S en (stream c2)).
  { clear. intros fs sni chunks c0 es c2 H R (Q & NA & HE). pose proof (handed_outcome _ _ _ _ _ _ _ _ _ _ _ H R Q) as O.
    destruct HE as [[<- <-]|((x & ->) & AE & NK)]; [exact O|].
    destruct H as (HO & HS & RQ & os & k & l & D). apply run_opening in R as (c1 & R1 & R2).
    pose proof (opening_going E fs sni v line i asked chunks c0 c1 k l os HO HS RQ R1 D) as HG.
    destruct (run_going_over E v i es [] c1 c2 HG Q NA AE R2) as [X|(f & s1 & t1 & X)].
    - exfalso. destruct X as (_ & _ & _ & _ & _ & _ & _ & s1 & f & K & _). rewrite K in NK. specialize (NK _ (or_introl eq_refl)). discriminate.
    - cbn [app] in X. destruct O as (g & s2 & t2 & b & Y & Z). pose proof (loop_det _ _ _ _ _ _ _ _ _ X Y) as W. injection W as <- <- <-.
      pose proof (loop_app _ _ _ _ _ _ _ X x) as LA. cbv beta iota in LA. specialize (LA f (le_n _)).
      exists f, (s1 ++ x), t1, true. split; [exact LA|exact Z]. }
  exact (outcome_det E v i _ _ _ _ (G _ _ _ _ _ _ H R HE) (G _ _ _ _ _ _ H' R' HE')).
Qed.

(** ** what is relayed *)
Section Relayed.
Context E fs sni v line i asked chunks c0 (H : handed E fs sni v line i asked chunks c0).
Context es c2 (R : run E (opening fs sni chunks ++ es) fresh = Some (OK c2)) (Q : quiet es).
Context s rs x (F : frames s rs) (O : outputs rs) (X : partial_record x \/ stopper x) (B : app_bytes es = s ++ x).

Lemma st0_before : before st0. Proof. repeat split; [cbn; unfold SBUF; lia|]. intros (a & b & A). destruct a; discriminate. Qed.

(** success: the header, then all of the standard output after its first line *)
Theorem c24_relayed hd body meta m : first_line (stdout rs) hd body -> status_line 20 meta hd -> meta_sent E v i meta m -> (length m <= 1024)%nat ->
  c_sent c2 ++ c_out c2 = header 20 m ++ body.
Proof.
  intros FL SL MS ML. pose proof (handed_outcome _ _ _ _ _ _ _ _ _ _ _ H R Q) as OC. rewrite B in OC.
  pose proof (fmv_sent _ _ _ _ _ MS) as FM.
  assert (LL : (length hd + 2 <= SBUF)%nat).
  { destruct SL as (_ & _ & ->). rewrite app_length. cbn [length]. unfold fmv in FM. apply (f_equal (@length N)) in FM. rewrite app_length in FM. unfold SBUF. lia. }
  destruct (feeds_line (fmv E v i) rs O st0 hd body st0_before FL LL) as (b & r & rs' & O' & -> & FE).
  assert (AN : answer (fmv E v i) hd r b = mkSt 20 b false (header 20 m ++ r)).
  { unfold answer. rewrite (status_line_status _ _ _ SL). unfold start. rewrite FM, (proj2 (Nat.leb_le _ _) ML). reflexivity. }
  rewrite AN in FE. rewrite (feeds_body (fmv E v i) rs' O') in FE; [|discriminate|reflexivity].
  destruct (outcome_frames E v i s rs x _ _ F O X OC) as [Z|(_ & _ & _ & Z)]; rewrite FE in Z; unfold fail42, more in Z; cbn [t_code t_str t_done] in Z;
    rewrite <- app_assoc in Z; exact Z.
Qed.

(** any other class of codes: the header alone *)
Theorem c24_header_only hd body code meta m : first_line (stdout rs) hd body -> status_line code meta hd -> ~ (20 <= code < 30) ->
  meta_sent E v i meta m -> (length m <= 1024)%nat ->
  c_sent c2 ++ c_out c2 = header code m.
Proof.
  intros FL SL NC MS ML. pose proof (handed_outcome _ _ _ _ _ _ _ _ _ _ _ H R Q) as OC. rewrite B in OC.
  pose proof (fmv_sent _ _ _ _ _ MS) as FM.
  assert (LL : (length hd + 2 <= SBUF)%nat).
  { destruct SL as (_ & _ & ->). rewrite app_length. cbn [length]. unfold fmv in FM. apply (f_equal (@length N)) in FM. rewrite app_length in FM. unfold SBUF. lia. }
  destruct (feeds_line (fmv E v i) rs O st0 hd body st0_before FL LL) as (b & r & rs' & O' & -> & FE).
  assert (AN : answer (fmv E v i) hd r b = mkSt code b true (header code m)).
  { unfold answer. rewrite (status_line_status _ _ _ SL). unfold start. rewrite FM, (proj2 (Nat.leb_le _ _) ML). cbn [t_buf t_str t_done app].
    destruct SL as (RG & _). destruct (N.eqb_spec code 20); [lia|]. cbn [negb orb t_code app].
    assert (BB : (code <? 20) || (29 <? code) = true) by lia. rewrite BB. unfold fail42. cbn [t_code t_buf t_str]. destruct (N.eqb_spec code 0); [lia|reflexivity]. }
  rewrite AN in FE. rewrite (feeds_done _ rs') in FE by reflexivity.
  destruct SL as (RG & _).
  destruct (outcome_frames E v i s rs x _ _ F O X OC) as [Z|(_ & _ & _ & Z)]; rewrite FE in Z; [|exact Z]. unfold fail42 in Z. cbn [t_code t_str t_buf] in Z.
  destruct (N.eqb_spec code 0); [lia|exact Z].
Qed.

(** a header the server cannot send *)
Theorem c24_too_long hd body code meta m : first_line (stdout rs) hd body -> status_line code meta hd -> (length meta <= 1024)%nat ->
  meta_sent E v i meta m -> (1024 < length m)%nat ->
  c_sent c2 ++ c_out c2 = header 40 (s2b "internal error").
Proof.
  intros FL SL ML0 MS ML. pose proof (handed_outcome _ _ _ _ _ _ _ _ _ _ _ H R Q) as OC. rewrite B in OC.
  pose proof (fmv_sent _ _ _ _ _ MS) as FM.
  assert (LL : (length hd + 2 <= SBUF)%nat).
  { destruct SL as (_ & _ & ->). rewrite app_length. cbn [length]. unfold SBUF. lia. }
  destruct (feeds_line (fmv E v i) rs O st0 hd body st0_before FL LL) as (b & r & rs' & O' & -> & FE).
  assert (AN : answer (fmv E v i) hd r b = mkSt 40 b true (header 40 (s2b "internal error"))).
  { unfold answer. rewrite (status_line_status _ _ _ SL). unfold start. rewrite FM, (proj2 (Nat.leb_gt _ _) ML). reflexivity. }
  rewrite AN in FE. rewrite (feeds_done _ rs') in FE by reflexivity.
  destruct (outcome_frames E v i s rs x _ _ F O X OC) as [Z|(_ & _ & _ & Z)]; rewrite FE in Z; exact Z.
Qed.

(** not a header *)
Theorem c24_malformed hd body : first_line (stdout rs) hd body -> (length hd <= 1027)%nat -> bad_status hd ->
  c_sent c2 ++ c_out c2 = header 42 (s2b "CGI error").
Proof.
  intros FL LN BS. pose proof (handed_outcome _ _ _ _ _ _ _ _ _ _ _ H R Q) as OC. rewrite B in OC.
  destruct (feeds_line (fmv E v i) rs O st0 hd body st0_before FL ltac:(unfold SBUF; lia)) as (b & r & rs' & O' & -> & FE).
  assert (AN : answer (fmv E v i) hd r b = mkSt 42 b true (header 42 (s2b "CGI error"))).
  { unfold answer. rewrite (bad_status_status _ BS). reflexivity. }
  rewrite AN in FE. rewrite (feeds_done _ rs') in FE by reflexivity.
  destruct (outcome_frames E v i s rs x _ _ F O X OC) as [Z|(_ & _ & _ & Z)]; rewrite FE in Z; exact Z.
Qed.

(** no line among the first 1029 bytes, or none before the application is done *)
Theorem c24_no_header : (forall hd body, first_line (stdout rs) hd body -> (1027 < length hd)%nat) ->
  (1029 <= length (stdout rs))%nat \/ app_ended es = true \/ stopper x ->
  c_sent c2 ++ c_out c2 = header 42 (s2b "CGI error").
Proof.
  intros NL W. pose proof (handed_outcome _ _ _ _ _ _ _ _ _ _ _ H R Q) as OC. rewrite B in OC.
  assert (N : no_line (t_buf st0 ++ stdout rs)) by (intros (hd & r & A & L); specialize (NL hd r A); unfold SBUF in L; lia).
  destruct (feeds_no_line (fmv E v i) rs O st0 st0_before N) as [((A1 & A2 & A3 & _) & _ & L)|(L & b & FE)].
  - destruct (outcome_frames E v i s rs x _ _ F O X OC) as [Z|(D & P & EN & Z)].
    + unfold fail42 in Z. rewrite A1 in Z. cbn [N.eqb t_str] in Z. rewrite A3 in Z. exact Z.
    + exfalso. cbn [t_buf st0 app] in L. destruct W as [W|[W|W]]; [unfold SBUF in L; lia|congruence|].
      destruct (tail_stop (fmv E v i) (feeds (fmv E v i) rs st0) x W A2) as (s1 & b & Y). pose proof (tail_partial (fmv E v i) _ x P A2) as Y2.
      pose proof (loop_det _ _ _ _ _ _ _ _ _ Y Y2) as Y3. discriminate.
  - destruct (outcome_frames E v i s rs x _ _ F O X OC) as [Z|(_ & _ & _ & Z)]; rewrite FE in Z; exact Z.
Qed.

(** until then, nothing *)
Theorem c24_nothing_yet : (forall hd body, first_line (stdout rs) hd body -> (1027 < length hd)%nat) ->
  (length (stdout rs) < 1029)%nat -> app_ended es = false -> partial_record x -> c_sent c2 ++ c_out c2 = [].
Proof.
  intros NL W EN P. pose proof (handed_outcome _ _ _ _ _ _ _ _ _ _ _ H R Q) as OC. rewrite B, EN in OC.
  assert (N : no_line (t_buf st0 ++ stdout rs)) by (intros (hd & r & A & L); specialize (NL hd r A); unfold SBUF in L; lia).
  destruct (feeds_no_line (fmv E v i) rs O st0 st0_before N) as [((A1 & A2 & A3 & _) & _ & L)|(L & b & FE)]; [|cbn [t_buf st0 app] in L; unfold SBUF in L; lia].
  destruct OC as (f & s1 & t1 & b & L1 & Z). destruct (loop_frames (fmv E v i) s rs F O st0 x) as (k & Hk). rewrite A2 in Hk. specialize (Hk 1%nat).
  rewrite (tail_partial _ _ x P A2) in Hk. pose proof (loop_det _ _ _ _ _ _ _ _ _ L1 Hk) as Y. injection Y as -> -> ->. cbn [orb] in Z. rewrite A3 in Z. exact Z.
Qed.
End Relayed.
Print Assumptions c24_split.
Print Assumptions c24_relayed.
Print Assumptions c24_header_only.
Print Assumptions c24_too_long.
Print Assumptions c24_malformed.
Print Assumptions c24_no_header.
Print Assumptions c24_nothing_yet.

(** When the server closes the connection, all of it has been sent. *)
Theorem c24_all_sent E fs sni v line i asked chunks c0 es c2 : handed E fs sni v line i asked chunks c0 ->
  run E (opening fs sni chunks ++ es) fresh = Some (OK c2) -> quiet es -> ~ aborted es -> c_closed c2 = true -> c_out c2 = [].
Proof.
  intros (HO & HS & RQ & os & k & l & D) R Q NA CL. apply run_opening in R as (c1 & R1 & R2).
  exact (run_going_sent E v i es [] c1 c2 (opening_going E fs sni v line i asked chunks c0 c1 k l os HO HS RQ R1 D) Q NA R2 CL).
Qed.
Print Assumptions c24_all_sent.

(** ** an application, its reply in two records, split in the middle of things *)
Definition fcgi_vhost : vhost := ex_vhost Prop_History.fcgi_loc [] [].
Definition app_iri : comps := mkC (s2b "gemini") (s2b "h") [] 1965 (s2b "a") [] [].
Definition app_chunks : list (list N) := [s2b "gemini:/"; s2b "/h/a" ++ [13]; [10]].
Definition app_c0 : client := ok_state (connected Prop_History.fcgi_env).
Lemma app_handed : handed Prop_History.fcgi_env ex_fs (Some (s2b "h")) fcgi_vhost (s2b "gemini://h/a") app_iri (s2b "h") app_chunks app_c0.
Proof.
  split; [repeat constructor|]. split; [exact isort_ok|]. split.
  { constructor.
    - vm_compute. reflexivity.
    - vm_compute. reflexivity.
    - vm_compute. repeat constructor.
    - apply readln_none. vm_compute. reflexivity.
    - split; [repeat constructor; discriminate|]. split; [repeat constructor|]. split; [eexists; split; vm_compute; reflexivity|].
      eexists. split; [vm_compute; reflexivity|]. vm_compute. reflexivity.
    - split; [vm_compute; reflexivity|]. repeat constructor; discriminate. }
  exists [], 0%nat, Prop_History.fcgi_loc.
  apply d_admitted with (ca := None); [constructor|split; [reflexivity|vm_compute; reflexivity]|opt|discriminate|].
  apply a_fcgi; [opt| |reflexivity].
  exists Prop_History.fcgi_loc. split; [apply governs_loc0; reflexivity|]. split; [reflexivity|]. split; [reflexivity|discriminate].
Qed.

Definition rec_ (ty : N) (s padding : list N) : list N := [1; ty; 0; 1; 0; N.of_nat (length s); N.of_nat (length padding); 0] ++ s ++ padding.
Definition app_recs : list (N * list N) := [(6, s2b "20 text/pl"); (7, s2b "oops"); (6, s2b "ain" ++ CRLF ++ s2b "hello")].
Definition app_s : list N := rec_ 6 (s2b "20 text/pl") [0; 0] ++ rec_ 7 (s2b "oops") [] ++ rec_ 6 (s2b "ain" ++ CRLF ++ s2b "hello") [9].
Definition end_rec : list N := rec_ 3 (repeat 0 8) [].
Lemma rec_frames ty s padding x rs : (length s < 256)%nat -> frames x rs -> frames (rec_ ty s padding ++ x) ((ty, s) :: rs).
Proof.
  intros L F. unfold rec_. rewrite <- !app_assoc. apply fr_cons; auto; try lia.
Qed.
Definition in_three (j k : nat) : list event :=
  let s := app_s ++ end_rec in
  [EvFcgi 0 (firstn j s); EvFcgi 0 (firstn k (skipn j s)); EvWrite 3 RdErr; EvFcgi 0 (skipn k (skipn j s)); EvWrite (N.to_nat 1000) RdErr].

Example c24_hypotheses : frames app_s app_recs /\ outputs app_recs /\ stopper end_rec /\
  first_line (stdout app_recs) (s2b "20 text/plain") (s2b "hello") /\ status_line 20 (s2b "text/plain") (s2b "20 text/plain") /\
  meta_sent Prop_History.fcgi_env fcgi_vhost app_iri (s2b "text/plain") (s2b "text/plain") /\
  app_bytes (in_three 30 25) = app_s ++ end_rec /\ quiet (in_three 30 25) /\ ~ aborted (in_three 30 25) /\
  exists c2, run Prop_History.fcgi_env (opening ex_fs (Some (s2b "h")) app_chunks ++ in_three 30 25) fresh = Some (OK c2) /\
    c_closed c2 = true /\ c_sent c2 = s2b "20 text/plain" ++ CRLF ++ s2b "hello".
Proof.
  split. { unfold app_s, app_recs. rewrite <- (app_nil_r (rec_ 6 (s2b "ain" ++ CRLF ++ s2b "hello") [9])). repeat (apply rec_frames; [cbn; lia|]). constructor. }
  split; [unfold app_recs; repeat (apply Forall_cons; [first [left; reflexivity|right; reflexivity]|]); constructor|].
  split. { left. exists end_rec, (repeat 0 8), []. split; [|split; reflexivity]. unfold end_rec. rewrite <- (app_nil_r (rec_ 3 (repeat 0 8) [])). apply rec_frames; [cbn; lia|constructor]. }
  split. { apply readln_sound. vm_compute. reflexivity. }
  split. { split; [lia|]. split; [repeat constructor; discriminate|]. vm_compute. reflexivity. }
  split. { left. split; [|reflexivity]. intros X. apply (f_equal (@length N)) in X. vm_compute in X. discriminate. }
  split; [vm_compute; reflexivity|]. split; [repeat constructor|].
  split. { intros [X|X]; repeat (destruct X as [X|X]; [discriminate|]); contradiction. }
  eexists. split; [vm_compute; reflexivity|]. split; vm_compute; reflexivity.
Qed.

(** The codes 21 to 29, which the specification reserves, are taken for
    successes but what comes in later records is dropped; and a NUL cuts the
    header. *)
Definition late (hd : list N) : list event := [EvFcgi 0 (rec_ 6 (hd ++ CRLF ++ s2b "a") [] ++ rec_ 6 (s2b "b") [])].
Theorem c24_reserved_refuted : ~ (forall E fs sni v line i asked chunks c0 es c2 s rs hd body code meta m,
  handed E fs sni v line i asked chunks c0 -> run E (opening fs sni chunks ++ es) fresh = Some (OK c2) -> quiet es ->
  frames s rs -> outputs rs -> app_bytes es = s ->
  first_line (stdout rs) hd body -> status_line code meta hd -> 20 <= code < 30 -> meta_sent E v i meta m -> (length m <= 1024)%nat ->
  c_sent c2 ++ c_out c2 = header code m ++ body).
Proof.
  intros Hyp. specialize (Hyp Prop_History.fcgi_env ex_fs (Some (s2b "h")) fcgi_vhost _ app_iri (s2b "h") app_chunks app_c0 (late (s2b "21 text/plain"))
    (ok_state (run Prop_History.fcgi_env (opening ex_fs (Some (s2b "h")) app_chunks ++ late (s2b "21 text/plain")) fresh))
    (app_bytes (late (s2b "21 text/plain"))) [(6, s2b "21 text/plain" ++ CRLF ++ s2b "a"); (6, s2b "b")] (s2b "21 text/plain") (s2b "ab") 21 (s2b "text/plain") (s2b "text/plain") app_handed).
  assert (Z : leqb (s2b "21 text/plain" ++ CRLF ++ s2b "a") (s2b "21 text/plain" ++ CRLF ++ s2b "ab") = true).
  { apply leqb_eq. etransitivity; [|etransitivity; [apply Hyp|]].
    - vm_compute. reflexivity.
    - vm_compute. reflexivity.
    - repeat constructor.
    - unfold app_bytes, late. cbn [flat_map]. rewrite app_nil_r. apply rec_frames; [cbn; lia|]. rewrite <- (app_nil_r (rec_ 6 (s2b "b") [])). apply rec_frames; [cbn; lia|constructor].
    - repeat constructor.
    - reflexivity.
    - apply readln_sound. vm_compute. reflexivity.
    - split; [lia|]. split; [repeat constructor; discriminate|]. vm_compute. reflexivity.
    - lia.
    - left. split; [|reflexivity]. intros X. apply (f_equal (@length N)) in X. vm_compute in X. discriminate.
    - cbn. lia.
    - vm_compute. reflexivity. }
  vm_compute in Z. discriminate.
Qed.
Print Assumptions c24_reserved_refuted.
