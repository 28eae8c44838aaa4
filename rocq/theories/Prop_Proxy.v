(** C26: replies of upstream servers. *)
From Verif Require Import Base BaseLemmas Compat Iri IriSpec IriObs IriOut Puny Conf ConfSpec Mime Fmt Fcgi Server ServerSpec Iri_Last_Proofs Server_Proofs Decide_Proofs RequestSpec Request_Proofs HistorySpec Run_Proofs Wiring_Proofs Hist_Proofs Prop_Server SafeSpec Safe_Proofs Prop_Safe BodySpec Body_Proofs Prop_Body RelaySpec FcgiRelay_Proofs RelayOpen_Proofs ProxyRelay_Proofs ProxyOpen_Proofs Prop_Relay.
Local Open Scope N_scope.

Lemma blank_space b : blank b <-> is_space b = true.
Proof. unfold blank, is_space. split; [intros [-> |H]; lia|intros H]. destruct (N.eqb_spec b 32); [auto|]. right. lia. Qed.
Lemma upstream_status code meta line : upstream_line code meta line -> status is_space line = Some (code, meta).
Proof.
  intros (R & N & b & B & ->). apply blank_space in B. cbn [app]. unfold status.
  pose proof (N.mod_upper_bound code 10 ltac:(lia)). pose proof (N.div_mod code 10 ltac:(lia)).
  rewrite !digit_of, B by lia. cbn [andb]. replace ((48 + code / 10 - 48) * 10 + (48 + code mod 10 - 48)) with code by lia.
  destruct (N.ltb_spec code 10); [lia|]. destruct (N.leb_spec 70 code); [lia|]. rewrite upto_nul_id by exact N. reflexivity.
Qed.
Lemma bad_upstream_status line : bad_upstream_line line -> status is_space line = None.
Proof.
  intros B. destruct (status is_space line) as [[code meta]|] eqn:S; [exfalso|reflexivity]. apply B. exists code.
  unfold status in S. destruct line as [|a [|b [|x rest]]]; try discriminate.
  destruct (is_digit a && is_digit b && is_space x) eqn:D; [|discriminate]. apply andb_prop in D as [D X]. apply andb_prop in D as [DA DB].
  apply blank_space in X. unfold is_digit in DA, DB.
  destruct (((a - 48) * 10 + (b - 48) <? 10) || (70 <=? (a - 48) * 10 + (b - 48))) eqn:R; [discriminate|]. injection S as <- _.
  exists x, rest. split; [lia|]. split; [exact X|].
  assert (A1 : ((a - 48) * 10 + (b - 48)) / 10 = a - 48) by (symmetry; apply (N.div_unique _ 10 _ (b - 48)); lia).
  assert (A2 : ((a - 48) * 10 + (b - 48)) mod 10 = b - 48) by (symmetry; apply (N.mod_unique _ 10 (a - 48)); lia).
  rewrite A1, A2. cbn [app]. f_equal; [lia|]. f_equal. lia.
Qed.

(** ** the request went to the upstream of [p] *)
Definition forwarded (E : env) fs sni v line i asked chunks c0 p : Prop :=
  conf_ok E /\ sort_ok E /\ request E fs sni v line i asked chunks c0 /\
  exists os, decides E fs v i (c_domain c0) asked (mkD os (WUp p)).
(** the first line has a reserved code *)
Definition reserved_reply (S : list N) : Prop :=
  exists line rest code meta, first_line S line rest /\ 20 < code < 30 /\ exists b, blank b /\ line = [48 + code / 10; 48 + code mod 10; b] ++ meta.

Lemma reserved_spec S : ProxyRelay_Proofs.reserved S -> reserved_reply S.
Proof.
  intros (line & rest & code & meta & RL & ST & R). exists line, rest, code. 
  assert (X : ~ bad_upstream_line line) by (intros B; apply bad_upstream_status in B; congruence).
  assert (Y : exists code0 b rest0, 10 <= code0 < 70 /\ blank b /\ line = [48 + code0 / 10; 48 + code0 mod 10; b] ++ rest0).
  { unfold status in ST. destruct line as [|a [|b [|x r]]]; try discriminate.
    destruct (is_digit a && is_digit b && is_space x) eqn:D; [|discriminate]. apply andb_prop in D as [D SX]. apply andb_prop in D as [DA DB].
    apply blank_space in SX. unfold is_digit in DA, DB.
    destruct (((a - 48) * 10 + (b - 48) <? 10) || (70 <=? (a - 48) * 10 + (b - 48))) eqn:RR; [discriminate|].
    exists ((a - 48) * 10 + (b - 48)), x, r. split; [lia|]. split; [exact SX|].
    assert (A1 : ((a - 48) * 10 + (b - 48)) / 10 = a - 48) by (symmetry; apply (N.div_unique _ 10 _ (b - 48)); lia).
    assert (A2 : ((a - 48) * 10 + (b - 48)) mod 10 = b - 48) by (symmetry; apply (N.mod_unique _ 10 (a - 48)); lia).
    rewrite A1, A2. cbn [app]. f_equal; [lia|]. f_equal. lia. }
  destruct Y as (k & b & r & K & B & ->). exists r. split; [apply readln_sound; exact RL|].
  assert (KC : k = code).
  { pose proof (N.mod_upper_bound k 10 ltac:(lia)). pose proof (N.div_mod k 10 ltac:(lia)). apply blank_space in B.
    cbn [app] in ST. unfold status in ST. rewrite !digit_of, B in ST by lia. cbn [andb] in ST.
    replace ((48 + k / 10 - 48) * 10 + (48 + k mod 10 - 48)) with k in ST by lia. destruct (_ || _); [discriminate|]. injection ST as -> _. reflexivity. }
  subst k. split; [exact R|]. exists b. auto.
Qed.

Section Relayed.
Context E fs sni v line i asked chunks c0 p (H : forwarded E fs sni v line i asked chunks c0 p).
Context es c2 (R : run E (opening fs sni chunks ++ es) fresh = Some (OK c2)).

Lemma forwarded_phase : ~ ProxyRelay_Proofs.reserved (up_bytes es) -> phase (left_ es) (up_bytes es) (up_ended es) c2.
Proof.
  intros NR. destruct H as (HO & HS & RQ & os & D). apply run_opening in R as (c1 & R1 & R2).
  exact (run_phase E es false [] false c1 c2 (opening_up E fs sni v line i asked chunks c0 c1 p os HO HS RQ R1 D) NR R2).
Qed.
Lemma line_relayed hd body : first_line (up_bytes es) hd body -> ~ ProxyRelay_Proofs.reserved (up_bytes es) -> stream c2 = relayed (up_bytes es) (up_ended es).
Proof.
  intros FL NR. apply readln_complete in FL. destruct (forwarded_phase NR) as [D U _|(_ & _ & _ & _ & _ & _ & X & _) _|(_ & _ & _ & _ & _ & S & _) _|m _ _ U _|(_ & _ & _ & S) _];
    [rewrite U in FL; discriminate|congruence|apply S|rewrite U in FL; discriminate|exact S].
Qed.
Lemma not_reserved hd body : first_line (up_bytes es) hd body -> (forall code meta, status is_space hd = Some (code, meta) -> ~ 20 < code < 30) -> ~ ProxyRelay_Proofs.reserved (up_bytes es).
Proof.
  intros FL N (l & r & code & meta & RL & ST & RG). apply readln_complete in FL. assert (l = hd) by congruence. subst. exact (N _ _ ST RG).
Qed.

(** success: header and body, as they were sent *)
Theorem c26_relayed hd body meta : first_line (up_bytes es) hd body -> upstream_line 20 meta hd -> (length meta <= 1024)%nat ->
  c_sent c2 ++ c_out c2 = header 20 meta ++ body.
Proof.
  intros FL UL LM. pose proof (upstream_status _ _ _ UL) as ST.
  pose proof (line_relayed hd body FL (not_reserved hd body FL ltac:(intros code m X; assert (code = 20) by congruence; lia))) as S.
  unfold stream in S. rewrite S. unfold relayed. rewrite (readln_complete _ _ _ FL), ST, (proj2 (Nat.leb_le _ _) LM), N.eqb_refl.
  destruct (Nat.ltb_spec 1029 (length hd)) as [L|_]; [|reflexivity]. exfalso. destruct UL as (_ & _ & b & _ & ->). rewrite app_length in L. cbn [length] in L. lia.
Qed.
(** other codes: the header *)
Theorem c26_header_only hd body code meta : first_line (up_bytes es) hd body -> upstream_line code meta hd -> ~ (20 <= code < 30) -> (length meta <= 1024)%nat ->
  c_sent c2 ++ c_out c2 = header code meta.
Proof.
  intros FL UL NC LM. pose proof (upstream_status _ _ _ UL) as ST.
  pose proof (line_relayed hd body FL (not_reserved hd body FL ltac:(intros k m X; assert (k = code) by congruence; lia))) as S.
  unfold stream in S. rewrite S. unfold relayed. rewrite (readln_complete _ _ _ FL), ST, (proj2 (Nat.leb_le _ _) LM).
  destruct (N.eqb_spec code 20); [lia|].
  destruct (Nat.ltb_spec 1029 (length hd)) as [L|_]; [|reflexivity]. exfalso. destruct UL as (_ & _ & b & _ & ->). rewrite app_length in L. cbn [length] in L. lia.
Qed.
(** a header that is none *)
Theorem c26_malformed hd body : first_line (up_bytes es) hd body -> bad_upstream_line hd \/ (1029 < length hd)%nat ->
  ~ reserved_reply (up_bytes es) -> c_sent c2 ++ c_out c2 = header 43 (s2b "protocol error").
Proof.
  intros FL W NR. pose proof (line_relayed hd body FL ltac:(intros X; apply NR, reserved_spec, X)) as S.
  unfold stream in S. rewrite S. unfold relayed. rewrite (readln_complete _ _ _ FL).
  destruct (Nat.ltb_spec 1029 (length hd)); [reflexivity|]. destruct W as [W|W]; [|lia]. rewrite (bad_upstream_status _ W). reflexivity.
Qed.
(** no header: more than 1029 bytes without a line, or the upstream is gone *)
Theorem c26_no_header : ~ has_crlf (up_bytes es) -> (1029 < length (up_bytes es))%nat \/ up_ended es = true -> ~ aborted es ->
  c_sent c2 ++ c_out c2 = header 43 (s2b "protocol error").
Proof.
  intros NC W NA. assert (RL : readln (up_bytes es) = None).
  { destruct (readln (up_bytes es)) as [[l r]|] eqn:X; [|reflexivity]. exfalso. apply readln_sound in X as [X _]. apply NC. exists l, r. exact X. }
  assert (NR : ~ ProxyRelay_Proofs.reserved (up_bytes es)) by (intros (l & r & k & m & X & _); congruence).
  assert (NL : left_ es = false).
  { destruct (left_ es) eqn:X; [|reflexivity]. exfalso. apply NA. unfold left_ in X. apply existsb_exists in X as (e & I & L). destruct e; try discriminate; [left|right]; exact I. }
  destruct (forwarded_phase NR) as [D U EN|(_ & _ & _ & _ & _ & _ & _ & L) EN|(_ & _ & _ & _ & _ & _ & l & r & m & X & _) _|m _ _ U EN|(_ & _ & _ & S) _].
  - rewrite U in W. cbn [length] in W. destruct W; [lia|congruence].
  - destruct W; [lia|congruence].
  - congruence.
  - rewrite U in W. cbn [length] in W. destruct W; [lia|congruence].
  - unfold stream in S. rewrite S. unfold relayed. rewrite RL. destruct W as [W|W]; [rewrite (proj2 (Nat.ltb_lt _ _) W)|rewrite W, orb_true_r]; reflexivity.
Qed.
(** before, nothing but a failed TLS handshake is reported *)
Theorem c26_nothing_yet : ~ has_crlf (up_bytes es) -> (length (up_bytes es) <= 1029)%nat -> up_ended es = false ->
  c_sent c2 ++ c_out c2 = [] \/
  (up_bytes es = [] /\ (c_sent c2 ++ c_out c2 = header 43 (s2b "handshake failed") \/ c_sent c2 ++ c_out c2 = header 43 (s2b "timeout"))).
Proof.
  intros NC W EN. assert (RL : readln (up_bytes es) = None).
  { destruct (readln (up_bytes es)) as [[l r]|] eqn:X; [|reflexivity]. exfalso. apply readln_sound in X as [X _]. apply NC. exists l, r. exact X. }
  assert (NR : ~ ProxyRelay_Proofs.reserved (up_bytes es)) by (intros (l & r & k & m & X & _); congruence).
  destruct (forwarded_phase NR) as [(_ & _ & _ & _ & S & _) U _|(_ & _ & _ & _ & S & _) _|(_ & _ & _ & _ & _ & _ & l & r & m & X & _) _|m (_ & _ & _ & S) M U _|(_ & _ & _ & S) _].
  - left. exact S.
  - left. exact S.
  - congruence.
  - right. split; [exact U|]. destruct M as [-> | ->]; auto.
  - left. unfold stream in S. rewrite S. unfold relayed. rewrite RL, EN. destruct (Nat.ltb_spec 1029 (length (up_bytes es))); [lia|reflexivity].
Qed.
End Relayed.

(** ** how the bytes of the upstream were split does not matter *)
Definition uheard (S : list N) (en : bool) (es : list event) (c : client) : Prop :=
  ~ aborted es /\
  ((up_bytes es = S /\ up_ended es = en) \/
   ((exists x, S = up_bytes es ++ x) /\ up_bytes es <> [] /\ up_ended es = false /\ c_up c = None)).

Theorem c26_split E v line i asked p fs sni chunks c0 fs' sni' chunks' c0' es es' c2 c2' S en :
  forwarded E fs sni v line i asked chunks c0 p -> forwarded E fs' sni' v line i asked chunks' c0' p ->
  run E (opening fs sni chunks ++ es) fresh = Some (OK c2) -> uheard S en es c2 ->
  run E (opening fs' sni' chunks' ++ es') fresh = Some (OK c2') -> uheard S en es' c2' ->
  S <> [] \/ en = true -> ~ reserved_reply S -> (forall hd body, first_line S hd body -> length hd <> 1029%nat) ->
  c_sent c2 ++ c_out c2 = c_sent c2' ++ c_out c2'.
Proof.
  intros H H' R HE R' HE' NE NR NL.
  assert (G : forall fs sni chunks c0 es c2, forwarded E fs sni v line i asked chunks c0 p -> run E (opening fs sni chunks ++ es) fresh = Some (OK c2) -> uheard S en es c2 ->
     stream c2 = relayed S en).
  { clear H H' R HE R' HE'. intros fs1 sni1 ch1 c01 es1 c21 H R (NA & HE).
    assert (NRU : ~ ProxyRelay_Proofs.reserved (up_bytes es1)).
    { intros X. apply NR. apply reserved_spec. destruct HE as [[<- _]|((x & ->) & _)]; [exact X|apply reserved_app; exact X]. }
    assert (LF : left_ es1 = false).
    { destruct (left_ es1) eqn:X; [|reflexivity]. exfalso. apply NA. unfold left_ in X. apply existsb_exists in X as (e & I & L). destruct e; try discriminate; [left|right]; exact I. }
    pose proof (forwarded_phase E fs1 sni1 v line i asked ch1 c01 p H es1 c21 R NRU) as PH. rewrite LF in PH.
    destruct HE as [[U EN]|((x & X) & UN & EN & UP)].
    - rewrite U, EN in PH. destruct PH as [D US ES|(_ & _ & _ & _ & ST & _ & RL & L) ES|(_ & _ & _ & _ & _ & ST & _) ES|m _ _ US ES|(_ & _ & _ & ST) _].
      + destruct NE; congruence.
      + rewrite ST, ES. unfold relayed. rewrite RL. destruct (Nat.ltb_spec 1029 (length S)); [lia|reflexivity].
      + apply ST.
      + destruct NE; congruence.
      + exact ST.
    - rewrite EN in PH. destruct PH as [D US ES|(_ & _ & _ & _ & _ & UP' & _) ES|(_ & _ & _ & _ & UP' & _) ES|m _ _ US ES|(_ & _ & _ & ST) W]; try congruence.
      destruct W as [W|[W|W]]; try discriminate. rewrite ST, X. symmetry. apply W.
      intros (l & r & RL & LL). rewrite <- X in RL. apply readln_sound in RL. exact (NL _ _ RL LL). }
  pose proof (G _ _ _ _ _ _ H R HE) as A. pose proof (G _ _ _ _ _ _ H' R' HE') as B. unfold stream in A, B. congruence.
Qed.

(** a meta that is too long for a header *)
Theorem c26_too_long E fs sni v line i asked chunks c0 p es c2 hd body code meta : forwarded E fs sni v line i asked chunks c0 p ->
  run E (opening fs sni chunks ++ es) fresh = Some (OK c2) ->
  first_line (up_bytes es) hd body -> upstream_line code meta hd -> ~ 20 < code < 30 -> (1024 < length meta)%nat ->
  c_sent c2 ++ c_out c2 = header 43 (s2b "protocol error") \/ c_sent c2 ++ c_out c2 = header 40 (s2b "internal error").
Proof.
  intros H R FL UL NC LM. pose proof (upstream_status _ _ _ UL) as ST.
  pose proof (line_relayed E fs sni v line i asked chunks c0 p H es c2 R hd body FL (not_reserved es hd body FL ltac:(intros k m X; assert (k = code) by congruence; lia))) as S.
  unfold stream in S. rewrite S. unfold relayed. rewrite (readln_complete _ _ _ FL), ST. destruct (Nat.leb_spec (length meta) 1024); [lia|].
  destruct (1029 <? length hd)%nat; auto.
Qed.

(** When the server closes the connection, all of it has been sent. *)
Lemma phase_sent E es : forall dead u en c c', phase dead u en c -> ~ ProxyRelay_Proofs.reserved (u ++ up_bytes es) -> ~ aborted es ->
  (c_closed c = true -> c_out c = []) -> run E es c = Some (OK c') -> c_closed c' = true -> c_out c' = [].
Proof.
  induction es as [|e es IH]; intros dead u en c c' PH NR NA HC; cbn [run].
  - intros Q. injection Q as <-. exact HC.
  - destruct (step E e c) as [[c1| |]|] eqn:S; try discriminate. intros Q.
    assert (UB : up_bytes (e :: es) = newly e ++ up_bytes es) by (destruct e; reflexivity). rewrite UB, app_assoc in NR.
    destruct (phase_step E dead u en c e c1 PH ltac:(intros X; apply NR, reserved_app, X) S) as [P1 _].
    apply (IH _ _ _ c1 c' P1 NR); [intros [A|A]; apply NA; [left|right]; right; exact A| |exact Q]. intros C1.
    assert (B : base c /\ (c_closed c = true \/ c_type c = RPROXY \/ c_type c = DONE) /\ (c_closed c = true -> c_up c = None)).
    { destruct PH as [(B & X & T & _) _ _|(B & X & T & _) _|(B & X & T & _) _|m (B & U & X & _) _ _ _|(B & U & X & _) _];
        (split; [exact B|]); (split; [tauto|intros W; congruence]). }
    destruct B as ((Hs & K & G) & T & U). destruct (c_closed c) eqn:CL.
    { exfalso. unfold step in S. cbv zeta in S. rewrite CL, (U eq_refl), K in S. cbn [negb andb] in S. destruct e; try discriminate; try (destruct i; discriminate).
      destruct (c_type c); try discriminate. destruct (c_pxy c), (c_iri c); discriminate. }
    destruct T as [T|T]; [discriminate|].
    destruct (asked_for e) eqn:AF.
    + exfalso. destruct e; try discriminate.
      * unfold step in S. rewrite Hs, CL in S. discriminate.
      * unfold step in S. rewrite Hs, CL in S. discriminate.
      * unfold step in S. cbv zeta in S. rewrite Hs, CL in S. cbn [negb andb] in S. destruct (negb (isnil chunk)); [|discriminate]. apply some_inj in S.
        rewrite client_read_done in S by (cbn; destruct T; congruence). apply OK_inj in S. subst c1. cbn in C1. congruence.
      * apply NA. left. left. reflexivity.
      * apply NA. right. left. reflexivity.
    + eapply step_close; [exact S| |exact AF|exact CL|exact C1]. destruct T; congruence.
Qed.
Theorem c26_all_sent E fs sni v line i asked chunks c0 p es c2 : forwarded E fs sni v line i asked chunks c0 p ->
  run E (opening fs sni chunks ++ es) fresh = Some (OK c2) -> ~ reserved_reply (up_bytes es) -> ~ aborted es -> c_closed c2 = true -> c_out c2 = [].
Proof.
  intros (HO & HS & RQ & os & D) R NR NA CL. apply run_opening in R as (c1 & R1 & R2).
  refine (phase_sent E es false [] false c1 c2 (opening_up E fs sni v line i asked chunks c0 c1 p os HO HS RQ R1 D) _ NA _ R2 CL); [intros X; apply NR, reserved_spec, X|].
  intros C1. destruct (opening_up_ E fs sni v line i asked chunks c0 c1 p os HO HS RQ R1 D) as [(_ & X & _)|(_ & X & _)]; congruence.
Qed.

(** ** an upstream reached without TLS, and one with *)
Definition up_proxy (notls : bool) : proxy := mkProxy [] (s2b "h") [] (s2b "up") (s2b "1966") notls false None.
Definition up_vhost (notls : bool) : vhost := ex_vhost plain_loc [] [up_proxy notls].
Definition up_env (notls : bool) : env :=
  mkEnv (mkConf [] [] [up_vhost notls]) lit (fun _ => false) None (fun _ => false) 1965 (s2b "::1") (s2b "::1") (s2b "gmid")
    (fun _ => true) (fun _ => true) (fun _ => true) isort (repeat 0 1027).
Definition up_c0 (notls : bool) : client := ok_state (connected (up_env notls)).
Lemma up_forwarded notls : forwarded (up_env notls) ex_fs (Some (s2b "h")) (up_vhost notls) (s2b "gemini://h/a") app_iri (s2b "h") app_chunks (up_c0 notls) (up_proxy notls).
Proof.
  split; [repeat constructor|]. split; [exact isort_ok|]. split.
  { constructor.
    - destruct notls; vm_compute; reflexivity.
    - destruct notls; vm_compute; reflexivity.
    - vm_compute. repeat constructor.
    - apply readln_none. vm_compute. reflexivity.
    - split; [repeat constructor; discriminate|]. split; [repeat constructor|]. split; [eexists; split; vm_compute; reflexivity|].
      eexists. split; [vm_compute; reflexivity|]. destruct notls; vm_compute; reflexivity.
    - split; [vm_compute; reflexivity|]. repeat constructor; discriminate. }
  exists []. apply d_proxy with (p := up_proxy notls).
  - exists [], []. split; [reflexivity|]. split; [|constructor]. repeat split; vm_compute; auto.
  - apply rl_up; [discriminate|reflexivity|right; reflexivity].
Qed.

(** header and body in pieces; the client takes them in pieces *)
Definition up_s : list N := s2b "20 text/plain" ++ CRLF ++ s2b "hello".
Definition up_pieces (j k : nat) : list event :=
  [EvUpTls UpOk; EvUp (firstn j up_s); EvUp (firstn k (skipn j up_s)); EvWrite 3 RdErr; EvUp (skipn k (skipn j up_s)); EvUpEnd; EvWrite (N.to_nat 1000) RdErr].
Example c26_hypotheses : first_line up_s (s2b "20 text/plain") (s2b "hello") /\ upstream_line 20 (s2b "text/plain") (s2b "20 text/plain") /\
  up_bytes (up_pieces 5 12) = up_s /\ up_ended (up_pieces 5 12) = true /\ ~ aborted (up_pieces 5 12) /\ ~ reserved_reply up_s /\
  exists c2, run (up_env false) (opening ex_fs (Some (s2b "h")) app_chunks ++ up_pieces 5 12) fresh = Some (OK c2) /\
    c_closed c2 = true /\ c_sent c2 = s2b "20 text/plain" ++ CRLF ++ s2b "hello".
Proof.
  split. { apply readln_sound. vm_compute. reflexivity. }
  split. { split; [lia|]. split; [repeat constructor; discriminate|]. exists 32. split; [left; reflexivity|]. vm_compute. reflexivity. }
  split; [vm_compute; reflexivity|]. split; [vm_compute; reflexivity|].
  split. { intros [X|X]; repeat (destruct X as [X|X]; [discriminate|]); contradiction. }
  split. { intros (l & r & k & m & FL & K & b & _ & ->). apply readln_complete in FL.
    assert (R : readln up_s = Some (50 :: 48 :: 32 :: s2b "text/plain", s2b "hello")) by (vm_compute; reflexivity). rewrite R in FL.
    apply some_inj in FL. apply (f_equal fst) in FL. cbn [fst app] in FL. pose proof (f_equal (@hd N 0) FL) as A. pose proof (f_equal (fun l => @hd N 0 (@tl N l)) FL) as B. cbn [hd tl] in A, B.
    pose proof (N.mod_upper_bound k 10 ltac:(lia)). pose proof (N.div_mod k 10 ltac:(lia)). lia. }
  eexists. split; [vm_compute; reflexivity|]. split; vm_compute; reflexivity.
Qed.
(** 44: the header only; 99 and "2": no header *)
Example c26_others : 
  (exists c2, run (up_env true) (opening ex_fs (Some (s2b "h")) app_chunks ++ [EvUp (s2b "44 12" ++ CRLF ++ s2b "hello")]) fresh = Some (OK c2) /\ c_out c2 = s2b "44 12" ++ CRLF) /\
  (exists c2, run (up_env true) (opening ex_fs (Some (s2b "h")) app_chunks ++ [EvUp (s2b "99 12" ++ CRLF ++ s2b "hello")]) fresh = Some (OK c2) /\ c_out c2 = s2b "43 protocol error" ++ CRLF) /\
  (exists c2, run (up_env true) (opening ex_fs (Some (s2b "h")) app_chunks ++ [EvUp (s2b "2"); EvUpEnd]) fresh = Some (OK c2) /\ c_out c2 = s2b "43 protocol error" ++ CRLF).
Proof. repeat split; eexists; split; vm_compute; reflexivity. Qed.

(** The reserved success codes 21 to 29: what the client gets depends on how
    the reply was split, and part of the body may be lost. *)
Definition up_late : list event := [EvUp (s2b "21 text/plain" ++ CRLF ++ s2b "a"); EvWrite (N.to_nat 1000) RdErr].
Theorem c26_reserved_refuted : ~ (forall E v line i asked p fs sni chunks c0 es es' c2 c2' S,
  forwarded E fs sni v line i asked chunks c0 p ->
  run E (opening fs sni chunks ++ es) fresh = Some (OK c2) -> uheard S false es c2 ->
  run E (opening fs sni chunks ++ es') fresh = Some (OK c2') -> uheard S false es' c2' ->
  S <> [] -> (forall hd body, first_line S hd body -> length hd <> 1029%nat) -> c_sent c2 ++ c_out c2 = c_sent c2' ++ c_out c2').
Proof.
  intros Hyp.
  set (es' := [EvUp (s2b "21 text/plain" ++ CRLF ++ s2b "a"); EvUp (s2b "b")]).
  set (c2 := ok_state (run (up_env true) (opening ex_fs (Some (s2b "h")) app_chunks ++ up_late) fresh)).
  set (c2' := ok_state (run (up_env true) (opening ex_fs (Some (s2b "h")) app_chunks ++ es') fresh)).
  assert (X : leqb (c_sent c2 ++ c_out c2) (c_sent c2' ++ c_out c2') = true); [|vm_compute in X; discriminate].
  apply leqb_eq.
  apply (Hyp (up_env true) (up_vhost true) _ app_iri (s2b "h") (up_proxy true) ex_fs (Some (s2b "h")) app_chunks (up_c0 true) up_late es' c2 c2'
     (s2b "21 text/plain" ++ CRLF ++ s2b "ab") (up_forwarded true)).
  - vm_compute. reflexivity.
  - split; [intros [X|X]; repeat (destruct X as [X|X]; [discriminate|]); contradiction|]. right.
    split; [exists (s2b "b"); reflexivity|]. split; [discriminate|]. split; reflexivity.
  - vm_compute. reflexivity.
  - split; [intros [X|X]; repeat (destruct X as [X|X]; [discriminate|]); contradiction|]. left. split; reflexivity.
  - discriminate.
  - intros hd body FL. apply readln_complete in FL. vm_compute in FL. injection FL as <- _. discriminate.
Qed.

(** A header of exactly 1029 bytes: 43 or 40, depending on how it was split. *)
Definition up_1029 : list N := s2b "20 " ++ repeat 97 (N.to_nat 1026) ++ CRLF.
Theorem c26_1029_refuted : ~ (forall E v line i asked p fs sni chunks c0 es es' c2 c2' S,
  forwarded E fs sni v line i asked chunks c0 p ->
  run E (opening fs sni chunks ++ es) fresh = Some (OK c2) -> uheard S false es c2 ->
  run E (opening fs sni chunks ++ es') fresh = Some (OK c2') -> uheard S false es' c2' ->
  S <> [] -> ~ reserved_reply S -> c_sent c2 ++ c_out c2 = c_sent c2' ++ c_out c2').
Proof.
  intros Hyp. set (es := [EvUp up_1029]). set (es' := [EvUp (s2b "20 " ++ repeat 97 (N.to_nat 1026) ++ [13])]).
  assert (X : leqb (c_out (ok_state (run (up_env true) (opening ex_fs (Some (s2b "h")) app_chunks ++ es) fresh))) (c_out (ok_state (run (up_env true) (opening ex_fs (Some (s2b "h")) app_chunks ++ es') fresh))) = true); [|vm_compute in X; discriminate].
  apply leqb_eq.
  pose proof (Hyp (up_env true) (up_vhost true) _ app_iri (s2b "h") (up_proxy true) ex_fs (Some (s2b "h")) app_chunks (up_c0 true) es es'
    (ok_state (run (up_env true) (opening ex_fs (Some (s2b "h")) app_chunks ++ es) fresh))
    (ok_state (run (up_env true) (opening ex_fs (Some (s2b "h")) app_chunks ++ es') fresh)) up_1029 (up_forwarded true)) as A.
  assert (Z : c_sent (ok_state (run (up_env true) (opening ex_fs (Some (s2b "h")) app_chunks ++ es) fresh)) = [] /\ c_sent (ok_state (run (up_env true) (opening ex_fs (Some (s2b "h")) app_chunks ++ es') fresh)) = []) by (split; vm_compute; reflexivity).
  destruct Z as [Z1 Z2]. rewrite Z1, Z2 in A. cbn [app] in A. apply A; clear.
  - vm_compute. reflexivity.
  - split; [intros [X|X]; repeat (destruct X as [X|X]; [discriminate|]); contradiction|]. left. split; reflexivity.
  - vm_compute. reflexivity.
  - split; [intros [X|X]; repeat (destruct X as [X|X]; [discriminate|]); contradiction|]. right.
    split; [exists [10]; reflexivity|]. split; [discriminate|]. split; reflexivity.
  - discriminate.
  - intros (l & r & k & m & FL & K & b & _ & ->). apply readln_complete in FL.
    assert (R : readln up_1029 = Some (50 :: 48 :: 32 :: repeat 97 (N.to_nat 1026), [])) by (vm_compute; reflexivity). rewrite R in FL.
    apply some_inj in FL. apply (f_equal fst) in FL. cbn [fst app] in FL. pose proof (f_equal (@hd N 0) FL) as A. pose proof (f_equal (fun l => @hd N 0 (@tl N l)) FL) as B. cbn [hd tl] in A, B.
    pose proof (N.mod_upper_bound k 10 ltac:(lia)). pose proof (N.div_mod k 10 ltac:(lia)). lia.
Qed.


Print Assumptions c26_relayed.
Print Assumptions c26_header_only.
Print Assumptions c26_malformed.
Print Assumptions c26_no_header.
Print Assumptions c26_nothing_yet.
Print Assumptions c26_split.

Print Assumptions c26_too_long.
Print Assumptions c26_all_sent.
Print Assumptions c26_reserved_refuted.
Print Assumptions c26_1029_refuted.
