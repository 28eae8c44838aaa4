(** A client whose request was relayed to an upstream. *)
From Verif Require Import Base BaseLemmas Compat Iri IriSpec IriObs IriOut Puny Conf ConfSpec Mime Fmt Fcgi Server ServerSpec Iri_Last_Proofs Server_Proofs Decide_Proofs RequestSpec Request_Proofs HistorySpec Wiring_Proofs BodySpec Body_Proofs RelaySpec FcgiRelay_Proofs RelayOpen_Proofs.
Local Open Scope N_scope.

Definition perr : list N := header 43 (s2b "protocol error").

(** what the upstream's bytes [u] lead to; [en]: it closed the connection *)
Definition relayed (u : list N) (en : bool) : list N :=
  match readln u with
  | None => if (1029 <? length u)%nat || en then perr else []
  | Some (line, rest) =>
    if (1029 <? length line)%nat then perr else
    match status is_space line with
    | None => perr
    | Some (code, meta) =>
      if (length meta <=? 1024)%nat then
        if code =? 20 then header 20 meta ++ rest else header code meta
      else header 40 (s2b "internal error")
    end
  end.
Definition reserved (u : list N) : Prop :=
  exists line rest code meta, readln u = Some (line, rest) /\ status is_space line = Some (code, meta) /\ 20 < code < 30.

Section Up.
Context (E : env) (v : vhost).

Definition base (c : client) : Prop := c_hs c = true /\ c_conns c = [] /\ c_cgibev c = None.
(** the TLS handshake with the upstream is going on *)
Definition dialing (c : client) : Prop := base c /\ c_closed c = false /\ c_type c = RPROXY /\ c_code c = 0 /\ stream c = [] /\ c_up c = None.
Definition listening (u : list N) (c : client) : Prop :=
  base c /\ c_closed c = false /\ c_type c = RPROXY /\ c_code c = 0 /\ stream c = [] /\ c_up c = Some u /\ readln u = None /\ (length u <= 1029)%nat.
Definition passing (u : list N) (c : client) : Prop :=
  base c /\ c_closed c = false /\ c_type c = RPROXY /\ c_code c = 20 /\ c_up c = Some [] /\ (forall en, stream c = relayed u en) /\
  exists line rest meta, readln u = Some (line, rest) /\ status is_space line = Some (20, meta) /\ (length meta <= 1024)%nat /\ (length line <= 1029)%nat.
Definition finished (F : list N) (c : client) : Prop :=
  base c /\ c_up c = None /\ (c_closed c = true \/ c_type c = DONE) /\ stream c = F.

Lemma base_close c : base c -> finished (stream c) (client_close c).
Proof.
  intros (Hs & K & G). unfold client_close, close_pfd. rewrite G. destruct c; cbn in *. subst.
  destruct c_pfd; cbn; repeat split; auto. unfold close_conn. destruct i; reflexivity.
Qed.
Lemma same_base c c' : same c c' -> base c -> base c'.
Proof. intros (A & _ & _ & _ & _ & _ & _ & _ & _ & _ & C & K & _ & _) (B1 & B2 & B3). repeat split; congruence. Qed.

Lemma reply_finished code m c : 10 <= code < 100 -> code <> 20 -> base c -> c_closed c = false -> c_type c = RPROXY -> stream c = [] -> c_up c = None -> (length m <= 1024)%nat ->
  finished (header code m) (reply E code m c).
Proof.
  intros H N B CL T S U L. pose proof (reply_spec E code m c ltac:(lia) ltac:(lia)) as R. cbv zeta in R.
  destruct R as (SM & _ & R). assert (FM : full_meta E c m = m) by (unfold full_meta; rewrite T; apply app_nil_r).
  unfold fits in R. rewrite FM, (proj2 (Nat.leb_le _ _) L) in R. destruct R as (RO & _ & RT & _).
  destruct (stream_nil c S) as [S0 O0]. rewrite (proj2 (N.eqb_neq _ _) N) in RT. pose proof SM as (_ & _ & _ & SS & _ & _ & _ & _ & _ & _ & _ & _ & _ & SU).
  split; [eapply same_base; eauto|]. split; [congruence|]. split; [auto|]. unfold stream. rewrite SS, S0, RO, O0. reflexivity.
Qed.

Lemma error_finished c c' : base c -> c_closed c = false -> c_type c = RPROXY \/ c_type c = DONE -> (c_code c = 0 -> stream c = [] /\ c_type c = RPROXY) ->
  proxy_error E c = OK c' -> finished (if c_code c =? 0 then perr else stream c) c'.
Proof.
  intros B CL T Z. unfold proxy_error. cbv zeta. change (c_code (set_pfd PNone (set_up (c_pxy c) None c))) with (c_code c).
  destruct (N.eqb_spec (c_code c) 0) as [C|C].
  - intros Q. apply OK_inj in Q. subst c'. destruct (Z C) as [S TT]. apply reply_finished; auto; try lia. apply Nat.leb_le. vm_compute. reflexivity.
  - unfold client_write. cbn [c_type set_type]. intros Q. apply OK_inj in Q. subst c'.
    set (d := set_type DONE (set_pfd PNone (set_up (c_pxy c) None c))). assert (BD : base d) by exact B.
    change (c_out d) with (c_out c). destruct (c_out c) eqn:O.
    + change (stream c) with (stream d). apply base_close. exact BD.
    + split; [exact BD|]. split; [reflexivity|]. split; [right; reflexivity|reflexivity].
Qed.

(** the first line is complete *)
Lemma header_step u c c' line rest : base c -> c_closed c = false -> c_type c = RPROXY -> c_code c = 0 -> stream c = [] ->
  readln u = Some (line, rest) -> ~ reserved u -> proxy_read E u c = OK c' ->
  passing u c' \/ forall en, finished (relayed u en) c'.
Proof.
  intros B CL T C S RL NR. unfold proxy_read. rewrite C, N.eqb_refl, RL. cbv zeta. set (d := set_up (c_pxy c) (Some rest) c).
  assert (BD : base d) by exact B. assert (SD : stream d = []) by exact S. assert (TD : c_type d = RPROXY) by exact T. assert (CD : c_code d = 0) by exact C.
  assert (ERR : (1029 < length line)%nat \/ status is_space line = None -> proxy_error E d = OK c' -> forall en, finished (relayed u en) c').
  { intros W Q en. assert (RE : relayed u en = perr).
    { unfold relayed. rewrite RL. destruct (Nat.ltb_spec 1029 (length line)); [reflexivity|]. destruct W as [W|W]; [lia|]. rewrite W. reflexivity. }
    rewrite RE. pose proof (error_finished d c' BD CL (or_introl TD) (fun _ => conj SD TD) Q) as X. rewrite CD in X. exact X. }
  destruct (Nat.ltb_spec (length line) 3) as [L3|L3].
  { cbn [orb]. intros Q. right. apply ERR; [|exact Q]. right. destruct line as [|? [|? [|? ?]]]; try reflexivity. cbn in L3. lia. }
  cbn [orb]. destruct (Nat.ltb_spec 1029 (length line)) as [LL|LL]; [intros Q; right; apply ERR; auto|].
  destruct (status is_space line) as [[code meta]|] eqn:ST; [|intros Q; right; apply ERR; auto].
  pose proof (Wiring_Proofs.status_range _ _ _ _ ST) as RG.
  pose proof (start_reply_spec E code meta d ltac:(lia) ltac:(lia)) as R. destruct (start_reply E code meta d) as [c1 ok]. destruct R as (OKE & SM & _ & R).
  assert (FM : full_meta E d meta = meta) by (unfold full_meta; rewrite TD; apply app_nil_r). unfold fits in OKE. rewrite FM in *.
  destruct (stream_nil d SD) as [S0 O0]. pose proof SM as (_ & SC & _ & SS & _ & _ & _ & _ & _ & _ & _ & _ & _ & SU).
  assert (B1 : base c1) by (eapply same_base; eauto). assert (CL1 : c_closed c1 = false) by (rewrite SC; exact CL).
  assert (RE : forall en, relayed u en = if (length meta <=? 1024)%nat then if code =? 20 then header 20 meta ++ rest else header code meta else header 40 (s2b "internal error")).
  { intros en. unfold relayed. rewrite RL. destruct (Nat.ltb_spec 1029 (length line)); [lia|]. rewrite ST. reflexivity. }
  destruct (length meta <=? 1024)%nat eqn:LM; subst ok; destruct R as (RO & RC & RT & _); cbn [negb orb].
  - rewrite RC. rewrite O0 in RO. cbn [app] in RO. assert (S1 : stream c1 = header code meta) by (unfold stream; rewrite SS, S0, RO; reflexivity).
    destruct (N.eqb_spec code 20) as [-> |N20].
    + change ((20 <? 20) || (29 <? 20)) with false. cbv iota. intros Q. apply OK_inj in Q. subst c'. left.
      set (e := set_up (c_pxy c1) (Some []) c1). pose proof (add_out_same rest e) as SE.
      split; [eapply same_base; [exact SE|exact B1]|]. split; [rewrite (same_closed _ _ SE); exact CL1|].
      split; [rewrite add_out_type; cbn; rewrite RT; exact TD|]. split; [rewrite add_out_code; exact RC|].
      pose proof SE as (_ & _ & _ & SS2 & _ & _ & _ & _ & _ & _ & _ & _ & _ & SU2). split; [rewrite SU2; reflexivity|].
      split; [intros en; rewrite RE; unfold stream; rewrite add_out_out, SS2; cbn [c_sent c_out e set_up]; unfold stream in S1; rewrite app_assoc, S1; reflexivity|].
      exists line, rest, meta. repeat split; auto. apply Nat.leb_le. exact LM.
    + assert (NB : (code <? 20) || (29 <? code) = true).
      { destruct (N.ltb_spec code 20); [reflexivity|]. destruct (N.ltb_spec 29 code); [reflexivity|]. exfalso. apply NR. exists line, rest, code, meta. repeat split; auto; lia. }
      rewrite NB. intros Q. right. intros en. rewrite RE, <- S1.
      pose proof (error_finished c1 c' B1 CL1 (or_intror RT) ltac:(rewrite RC; lia) Q) as X. rewrite RC in X. destruct (N.eqb_spec code 0); [lia|]. exact X.
  - intros Q. right. intros en. rewrite RE.
    assert (S1 : stream c1 = header 40 (s2b "internal error")) by (unfold stream; rewrite SS, S0, RO; reflexivity). rewrite <- S1.
    pose proof (error_finished c1 c' B1 CL1 (or_intror RT) ltac:(rewrite RC; lia) Q) as X. rewrite RC in X. exact X.
Qed.

Lemma readln_some_app u line rest x : readln u = Some (line, rest) -> readln (u ++ x) = Some (line, rest ++ x).
Proof. intros H. apply readln_complete, first_line_app, readln_sound. exact H. Qed.
Lemma reserved_app u x : reserved u -> reserved (u ++ x).
Proof. intros (line & rest & code & meta & A & B & C). exists line, (rest ++ x), code, meta. split; [apply readln_some_app; exact A|auto]. Qed.

(** an event the upstream has nothing to do with *)
Definition calm (e : event) : bool := match e with EvReadEnd | EvWriteErr | EvUp _ | EvUpEnd | EvUpTls _ => false | _ => true end.
Definition newly (e : event) : list N := match e with EvUp x => x | _ => [] end.

(** what stays the same on a calm event *)
Lemma calm_step e c c' : step E e c = Some (OK c') -> base c -> c_closed c = false -> c_type c = RPROXY -> calm e = true ->
  base c' /\ c_closed c' = false /\ c_type c' = RPROXY /\ c_code c' = c_code c /\ stream c' = stream c /\ c_up c' = c_up c.
Proof.
  intros ST (Hs & K & G) CL T CA. unfold step in ST. cbv zeta in ST. rewrite Hs, CL, T, K in ST. cbn [negb andb] in ST. destruct e; try discriminate.
  - destruct (negb (isnil chunk)); [|discriminate]. apply some_inj in ST. rewrite client_read_done in ST by (cbn; congruence). apply OK_inj in ST. subst c'. repeat split; auto.
  - destruct (c_wev c); [|discriminate]. apply some_inj in ST.
    set (kk := Nat.min (Nat.max 1 n) (length (c_out c))) in *.
    set (d := set_io (skipn kk (c_out c)) (c_sent c ++ firstn kk (c_out c)) (negb (isnil (skipn kk (c_out c)))) c) in *.
    assert (SD : stream d = stream c) by (unfold stream, d; cbn [set_io c_sent c_out]; rewrite <- app_assoc, firstn_skipn; reflexivity).
    assert (c' = d).
    { destruct (skipn kk (c_out c)) as [|x o] eqn:SK; [|apply OK_inj in ST; auto].
      unfold client_write in ST. change (c_type d) with (c_type c) in ST. rewrite T in ST. apply OK_inj in ST. auto. }
    subst c'. repeat split; auto.
  - destruct i; discriminate.
  - destruct i; discriminate.
Qed.
Lemma gone_step e c c' : base c -> c_closed c = false -> e = EvReadEnd \/ e = EvWriteErr -> step E e c = Some (OK c') -> finished (stream c) c'.
Proof.
  intros B CL He. pose proof B as (Hs & _). unfold step. cbv zeta. rewrite Hs, CL. cbn [negb andb].
  intros ST. destruct He as [-> | ->]; [|destruct (c_wev c); [|discriminate]]; apply some_inj in ST; apply OK_inj in ST; subst c'; unfold client_error; cbn [andb];
    change (stream c) with (stream (set_type DONE c)); apply base_close; exact B.
Qed.

Lemma finished_step F e c c' : finished F c -> step E e c = Some (OK c') -> finished F c' /\ newly e = [] /\ e <> EvUpEnd.
Proof.
  intros ((Hs & K & G) & U & DC & S) ST.
  assert (NE : newly e = [] /\ e <> EvUpEnd).
  { unfold step in ST. cbv zeta in ST. rewrite U in ST. destruct e; try (split; [reflexivity|discriminate]); discriminate. }
  split; [|exact NE]. unfold step in ST. cbv zeta in ST. rewrite Hs, U, K in ST. destruct DC as [CL|T].
  - rewrite CL in ST. cbn [negb andb] in ST. destruct e; try discriminate; try (destruct i; discriminate).
    destruct (c_type c); try discriminate. destruct (c_pxy c), (c_iri c); discriminate.
  - rewrite T in ST. destruct (c_closed c) eqn:CL; cbn [negb andb] in ST.
    { destruct e; try discriminate; destruct i; discriminate. }
    destruct e; try discriminate; try (destruct i; discriminate).
    + destruct (negb (isnil chunk)); [|discriminate]. apply some_inj in ST. rewrite client_read_done in ST by (cbn; congruence). apply OK_inj in ST. subst c'. repeat split; auto.
    + apply some_inj in ST. apply OK_inj in ST. subst c'. unfold client_error. cbn [andb]. rewrite <- S. change (stream c) with (stream (set_type DONE c)). apply base_close. repeat split; auto.
    + destruct (c_wev c); [|discriminate]. apply some_inj in ST.
      set (kk := Nat.min (Nat.max 1 n) (length (c_out c))) in *.
      set (d := set_io (skipn kk (c_out c)) (c_sent c ++ firstn kk (c_out c)) (negb (isnil (skipn kk (c_out c)))) c) in *.
      assert (SD : stream d = F) by (unfold stream, d; cbn [set_io c_sent c_out]; rewrite <- app_assoc, firstn_skipn; exact S).
      destruct (skipn kk (c_out c)) as [|x o] eqn:SK.
      * unfold client_write in ST. change (c_type d) with (c_type c) in ST. rewrite T in ST. change (c_out d) with (@nil N) in ST. apply OK_inj in ST. subst c'. rewrite <- SD. apply base_close. repeat split; auto.
      * apply OK_inj in ST. subst c'. repeat split; auto.
    + destruct (c_wev c); [|discriminate]. apply some_inj in ST. apply OK_inj in ST. subst c'. unfold client_error. cbn [andb]. rewrite <- S. change (stream c) with (stream (set_type DONE c)). apply base_close. repeat split; auto.
Qed.
Lemma run_finished es : forall F c c', finished F c -> run E es c = Some (OK c') -> finished F c' /\ up_bytes es = [] /\ up_ended es = false.
Proof.
  induction es as [|e es IH]; intros F c c' HF; cbn [run].
  - intros Q. injection Q as <-. auto.
  - destruct (step E e c) as [[c1| |]|] eqn:S; try discriminate. intros Q. destruct (finished_step F e c c1 HF S) as (F1 & N1 & N2).
    destruct (IH F c1 c' F1 Q) as (F2 & A1 & A2). split; [exact F2|]. unfold up_bytes, up_ended in *. cbn [flat_map existsb]. rewrite A1, A2.
    destruct e; try (split; reflexivity); [cbn in N1; subst; split; reflexivity|contradiction].
Qed.

(** ** the phases *)
(** the upstream will not be listened to any more, whatever it says *)
Definition settled (u : list N) : Prop := forall x e, ~ (exists line rest, readln (u ++ x) = Some (line, rest) /\ length line = 1029%nat) -> relayed (u ++ x) e = relayed u false.

Lemma settled_line u line rest : readln u = Some (line, rest) -> (forall en, relayed u en = relayed u false) ->
  (forall meta, status is_space line = Some (20, meta) -> (length line <= 1029)%nat -> (length meta <= 1024)%nat -> False) -> settled u.
Proof.
  intros RL _ N20 x e _. unfold relayed. rewrite (readln_some_app _ _ _ x RL), RL. destruct (Nat.ltb_spec 1029 (length line)); [reflexivity|].
  destruct (status is_space line) as [[code meta]|] eqn:ST; [|reflexivity]. destruct (Nat.leb_spec (length meta) 1024); [|reflexivity].
  destruct (N.eqb_spec code 20) as [-> |]; [|reflexivity]. exfalso. eapply N20; eauto.
Qed.
Lemma settled_long u : readln u = None -> (1029 < length u)%nat -> settled u.
Proof.
  intros RL L x e NL. unfold relayed at 2. rewrite RL, (proj2 (Nat.ltb_lt _ _) L). cbn [orb]. unfold relayed.
  destruct (readln (u ++ x)) as [[line rest]|] eqn:RX.
  - assert (LL : (1029 <= length line)%nat).
    { apply readln_sound in RX as [RX _]. destruct (Nat.le_gt_cases 1029 (length line)) as [|LT]; [assumption|exfalso].
      apply (readln_none _ RL). assert (P : u = firstn (length u) (line ++ CRLF ++ rest)) by (rewrite <- RX, firstn_app, Nat.sub_diag, firstn_all; cbn [firstn]; symmetry; apply app_nil_r).
      rewrite app_assoc, firstn_app in P. rewrite firstn_all2 in P by (rewrite app_length; cbn [length CRLF]; lia).
      rewrite P. exists line, (firstn (length u - length (line ++ CRLF)) rest). rewrite <- app_assoc. reflexivity. }
    destruct (Nat.ltb_spec 1029 (length line)); [reflexivity|]. exfalso. apply NL. exists line, rest. split; [reflexivity|lia].
  - rewrite app_length. destruct (Nat.ltb_spec 1029 (length u + length x)); [reflexivity|lia].
Qed.

Inductive phase (dead : bool) (u : list N) (en : bool) (c : client) : Prop :=
| ph_dial : dialing c -> u = [] -> en = false -> phase dead u en c
| ph_listen : listening u c -> en = false -> phase dead u en c
| ph_pass : passing u c -> en = false -> phase dead u en c
| ph_failed m : finished (header 43 m) c -> m = s2b "handshake failed" \/ m = s2b "timeout" -> u = [] -> en = false -> phase dead u en c
| ph_over : finished (relayed u en) c -> en = true \/ settled u \/ dead = true -> phase dead u en c.

Definition ended (e : event) : bool := match e with EvUpEnd => true | _ => false end.
Definition leaves (e : event) : bool := match e with EvReadEnd | EvWriteErr => true | _ => false end.
Definition failed_tls (e : event) : bool := match e with EvUpTls UpFailed | EvUpTls UpTimeout => true | _ => false end.

Lemma relayed_pass u line rest meta x en : readln u = Some (line, rest) -> status is_space line = Some (20, meta) -> (length meta <= 1024)%nat -> (length line <= 1029)%nat ->
  relayed (u ++ x) en = relayed u false ++ x.
Proof.
  intros RL ST LM LL. unfold relayed. rewrite (readln_some_app _ _ _ x RL), RL. destruct (Nat.ltb_spec 1029 (length line)); [lia|]. rewrite ST, (proj2 (Nat.leb_le _ _) LM).
  rewrite N.eqb_refl. apply app_assoc.
Qed.

Lemma phase_step dead u en c e c' : phase dead u en c -> ~ reserved (u ++ newly e) -> step E e c = Some (OK c') ->
  phase (dead || leaves e) (u ++ newly e) (en || ended e) c' /\ (failed_tls e = true -> u = [] /\ c_type c <> DONE).
Proof.
  intros PH NR ST. assert (FT : failed_tls e = true -> u = [] /\ c_type c <> DONE).
  { intros F. assert (U : c_up c = None /\ c_type c = RPROXY /\ c_closed c = false).
    { destruct e; try discriminate. unfold step in ST. cbv zeta in ST. destruct (c_type c); try discriminate. destruct (c_pxy c), (c_up c), (c_iri c); try discriminate.
      destruct (c_closed c); [discriminate|auto]. }
    destruct U as (U & T & CL). destruct PH as [D Hu _|(_ & _ & _ & _ & _ & X & _)|(_ & _ & _ & _ & X & _)|m _ _ Hu _|(_ & _ & X & _) _]; try congruence.
    - split; congruence.
    - split; congruence.
    - destruct X; congruence. }
  split; [|exact FT].
  assert (FIN : forall F, finished F c -> newly e = [] -> ended e = false -> finished F c') by (intros F HF _ _; destruct (finished_step F e c c' HF ST) as (X & _); exact X).
  assert (NOUP : forall F, finished F c -> newly e = [] /\ ended e = false).
  { intros F HF. destruct (finished_step F e c c' HF ST) as (_ & X & Y). split; [exact X|]. destruct e; try reflexivity. contradiction. }
  destruct PH as [D Hu He|L He|P He|m F Hm Hu He|F W].
  - subst u en. pose proof D as (B & CL & T & C & S & U).
    destruct e; try (destruct (calm_step _ c c' ST B CL T eq_refl) as (A1 & A2 & A3 & A4 & A5 & A6); cbn [leaves ended newly orb app]; rewrite ?orb_false_r; apply ph_dial; [|reflexivity|reflexivity]; (split; [exact A1|repeat split; congruence])).
    + apply ph_over; [|right; right; apply orb_true_r]. pose proof (gone_step _ c c' B CL (or_introl eq_refl) ST) as X. rewrite S in X. exact X.
    + apply ph_over; [|right; right; apply orb_true_r]. pose proof (gone_step _ c c' B CL (or_intror eq_refl) ST) as X. rewrite S in X. exact X.
    + unfold step in ST. cbv zeta in ST. rewrite T, U, CL in ST. cbn [negb andb] in ST. destruct (c_pxy c) as [p|], (c_iri c) as [i|]; try discriminate. destruct (negb (p_notls p)); [|discriminate].
      apply some_inj in ST. cbn [newly app ended orb]. destruct r.
      * unfold proxy_enqueue_req in ST. apply bind_ok in ST as (l & _ & ST). apply OK_inj in ST. subst c'. apply ph_listen; [|reflexivity]. split; [exact B|repeat split; auto; cbn; lia].
      * apply OK_inj in ST. subst c'. eapply ph_failed; [|left; reflexivity|reflexivity|reflexivity]. apply reply_finished; auto; try lia. apply Nat.leb_le. vm_compute. reflexivity.
      * apply OK_inj in ST. subst c'. eapply ph_failed; [|right; reflexivity|reflexivity|reflexivity]. apply reply_finished; auto; try lia. apply Nat.leb_le. vm_compute. reflexivity.
    + unfold step in ST. cbv zeta in ST. rewrite U in ST. discriminate.
    + unfold step in ST. cbv zeta in ST. rewrite U in ST. discriminate.
  - subst en. pose proof L as (B & CL & T & C & S & U & RL & LU).
    assert (RN : relayed u false = []) by (unfold relayed; rewrite RL; destruct (Nat.ltb_spec 1029 (length u)); [lia|reflexivity]).
    destruct e; try (destruct (calm_step _ c c' ST B CL T eq_refl) as (A1 & A2 & A3 & A4 & A5 & A6); cbn [leaves ended newly orb]; rewrite ?orb_false_r, app_nil_r; apply ph_listen; [|reflexivity]; (split; [exact A1|repeat split; congruence])).
    + cbn [newly ended leaves orb]. rewrite app_nil_r. apply ph_over; [|right; right; apply orb_true_r]. pose proof (gone_step _ c c' B CL (or_introl eq_refl) ST) as X. rewrite S in X. rewrite RN. exact X.
    + cbn [newly ended leaves orb]. rewrite app_nil_r. apply ph_over; [|right; right; apply orb_true_r]. pose proof (gone_step _ c c' B CL (or_intror eq_refl) ST) as X. rewrite S in X. rewrite RN. exact X.
    + unfold step in ST. cbv zeta in ST. rewrite T, U in ST. destruct (c_pxy c), (c_iri c); discriminate.
    + cbn [newly ended leaves orb] in *. unfold step in ST. cbv zeta in ST. rewrite U, CL in ST. cbn [negb andb] in ST. destruct (negb (isnil chunk)); [|discriminate]. apply some_inj in ST.
      destruct (readln (u ++ chunk)) as [[line rest]|] eqn:RX.
      * destruct (header_step (u ++ chunk) c c' line rest B CL T C S RX NR ST) as [X|X]; [apply ph_pass; auto|]. apply ph_over; [apply X|]. right. left.
        assert (IND : forall en, relayed (u ++ chunk) en = relayed (u ++ chunk) false) by (intros en; unfold relayed; rewrite RX; reflexivity).
        eapply settled_line; [exact RX|exact IND|]. intros meta ST2 LL LM.
        specialize (X false). clear - X ST ST2 LL LM RX C T CL.
        (* a success leaves the connection open *)
        unfold proxy_read in ST. rewrite C, N.eqb_refl, RX in ST. cbv zeta in ST.
        destruct (Nat.ltb_spec (length line) 3) as [L3|L3]; [destruct line as [|? [|? [|? ?]]]; try discriminate; cbn in L3; lia|]. cbn [orb] in ST.
        destruct (Nat.ltb_spec 1029 (length line)); [lia|]. rewrite ST2 in ST.
        set (d := set_up (c_pxy c) (Some rest) c) in *. pose proof (start_reply_spec E 20 meta d ltac:(lia) ltac:(lia)) as R. destruct (start_reply E 20 meta d) as [c1 ok]. destruct R as (OKE & SM & _ & R).
        assert (FM : full_meta E d meta = meta) by (unfold full_meta; change (c_type d) with (c_type c); rewrite T; apply app_nil_r). unfold fits in OKE. rewrite FM, (proj2 (Nat.leb_le _ _) LM) in OKE. subst ok.
        destruct R as (_ & RC & _). rewrite RC in ST. cbn [negb orb] in ST. change ((20 <? 20) || (29 <? 20)) with false in ST. cbv iota in ST. apply OK_inj in ST. subst c'.
        destruct X as (_ & XU & _). destruct (add_out_same rest (set_up (c_pxy c1) (Some []) c1)) as (_ & _ & _ & _ & _ & _ & _ & _ & _ & _ & _ & _ & _ & SU). rewrite SU in XU. discriminate.
      * unfold proxy_read in ST. rewrite C, N.eqb_refl, RX in ST. destruct (Nat.ltb_spec 1029 (length (u ++ chunk))) as [LX|LX].
        -- apply ph_over; [|right; left; apply settled_long; assumption].
           assert (RP : relayed (u ++ chunk) false = perr) by (unfold relayed; rewrite RX, (proj2 (Nat.ltb_lt _ _) LX); reflexivity). rewrite RP.
           pose proof (error_finished (set_up (c_pxy c) (Some (u ++ chunk)) c) c' B CL (or_introl T) (fun _ => conj S T) ST) as X. change (c_code (set_up (c_pxy c) (Some (u ++ chunk)) c)) with (c_code c) in X. rewrite C in X. exact X.
        -- apply OK_inj in ST. subst c'. apply ph_listen; [|reflexivity]. split; [exact B|repeat split; auto].
    + cbn [newly ended leaves orb]. rewrite app_nil_r. unfold step in ST. cbv zeta in ST. rewrite U, CL in ST. cbn [negb] in ST. apply some_inj in ST.
      apply ph_over; [|left; reflexivity]. assert (RP : relayed u true = perr) by (unfold relayed; rewrite RL, orb_true_r; reflexivity). rewrite RP.
      pose proof (error_finished c c' B CL (or_introl T) (fun _ => conj S T) ST) as X. rewrite C in X. exact X.
  - subst en. pose proof P as (B & CL & T & C & U & S & line & rest & meta & RL & ST2 & LM & LL).
    destruct e; try (destruct (calm_step _ c c' ST B CL T eq_refl) as (A1 & A2 & A3 & A4 & A5 & A6); cbn [leaves ended newly orb]; rewrite ?orb_false_r, app_nil_r; apply ph_pass; [|reflexivity];
       split; [exact A1|]; split; [exact A2|]; split; [exact A3|]; split; [congruence|]; split; [congruence|]; split; [intros en; rewrite A5; apply S|]; exists line, rest, meta; auto).
    + cbn [newly ended leaves orb]. rewrite app_nil_r. apply ph_over; [|right; right; apply orb_true_r]. pose proof (gone_step _ c c' B CL (or_introl eq_refl) ST) as X. rewrite (S false) in X. exact X.
    + cbn [newly ended leaves orb]. rewrite app_nil_r. apply ph_over; [|right; right; apply orb_true_r]. pose proof (gone_step _ c c' B CL (or_intror eq_refl) ST) as X. rewrite (S false) in X. exact X.
    + unfold step in ST. cbv zeta in ST. rewrite T, U in ST. destruct (c_pxy c), (c_iri c); discriminate.
    + cbn [newly ended leaves orb] in *. unfold step in ST. cbv zeta in ST. rewrite U, CL in ST. cbn [negb andb] in ST. destruct (negb (isnil chunk)); [|discriminate]. apply some_inj in ST.
      unfold proxy_read in ST. rewrite C in ST. change (20 =? 0) with false in ST. cbv iota in ST. apply OK_inj in ST. subst c'. cbn [app].
      set (d := set_up (c_pxy c) (Some []) c). pose proof (add_out_same chunk d) as SE. apply ph_pass; [|reflexivity].
      split; [eapply same_base; [exact SE|exact B]|]. split; [rewrite (same_closed _ _ SE); exact CL|]. split; [rewrite add_out_type; exact T|]. split; [rewrite add_out_code; exact C|].
      pose proof SE as (_ & _ & _ & SS2 & _ & _ & _ & _ & _ & _ & _ & _ & _ & SU2). split; [rewrite SU2; reflexivity|].
      split; [intros en; rewrite (relayed_pass u line rest meta chunk en RL ST2 LM LL), <- (S false); unfold stream; rewrite add_out_out, SS2, app_assoc; reflexivity|].
      exists line, (rest ++ chunk), meta. repeat split; auto. apply readln_some_app. exact RL.
    + cbn [newly ended leaves orb]. rewrite app_nil_r. unfold step in ST. cbv zeta in ST. rewrite U, CL in ST. cbn [negb] in ST. apply some_inj in ST.
      apply ph_over; [|left; reflexivity]. rewrite <- (S true).
      pose proof (error_finished c c' B CL (or_introl T) ltac:(rewrite C; discriminate) ST) as X. rewrite C in X. exact X.
  - destruct (NOUP _ F) as [N1 N2]. rewrite N1, N2, app_nil_r, orb_false_r. eapply ph_failed; eauto.
  - destruct (NOUP _ F) as [N1 N2]. rewrite N1, N2, app_nil_r, orb_false_r. apply ph_over; [eauto|]. destruct W as [W|[W|W]]; auto. right. right. rewrite W. reflexivity.
Qed.

Definition left_ (es : list event) : bool := existsb leaves es.
Lemma run_phase es : forall dead u en c c', phase dead u en c -> ~ reserved (u ++ up_bytes es) -> run E es c = Some (OK c') ->
  phase (dead || left_ es) (u ++ up_bytes es) (en || up_ended es) c'.
Proof.
  induction es as [|e es IH]; intros dead u en c c' PH NR; cbn [run].
  - intros Q. injection Q as <-. cbn. rewrite app_nil_r, !orb_false_r. exact PH.
  - destruct (step E e c) as [[c1| |]|] eqn:S; try discriminate. intros Q.
    unfold up_bytes, up_ended, left_ in *. cbn [flat_map existsb] in *. fold (up_bytes es) in *. fold (up_ended es) in *. fold (left_ es) in *.
    change (match e with EvUp x => x | _ => [] end) with (newly e) in *. change (match e with EvUpEnd => true | _ => false end) with (ended e) in *.
    rewrite app_assoc in NR |- *. rewrite !orb_assoc.
    apply (IH _ _ _ c1 c'); [|exact NR|exact Q]. eapply phase_step; [exact PH| |exact S]. intros X. apply NR, reserved_app, X.
Qed.
End Up.
