(** A client waiting for a FastCGI application runs the machine of
    Relay_Proofs. *)
From Verif Require Import Base BaseLemmas Compat Iri IriSpec IriObs IriOut Puny Conf ConfSpec Mime Fmt Fcgi Server ServerSpec Iri_Last_Proofs Server_Proofs Decide_Proofs RequestSpec Request_Proofs HistorySpec Wiring_Proofs BodySpec Body_Proofs RelaySpec Relay_Proofs.
Local Open Scope N_scope.

Section Client.
Context (E : env) (v : vhost) (i : comps).

(** the meta with the language *)
Definition fmv (meta : list N) : list N :=
  meta ++ (if leqb meta (s2b "text/gemini") then
             match vhost_lang (e_fnm E) (Some v) (Some (c_path i)) with Some l => s2b ";lang=" ++ l | None => [] end else []).

Definition isdone (t : rtype) : bool := match t with DONE => true | _ => false end.
Definition abs (c : client) : st := mkSt (c_code c) (c_sbuf c) (isdone (c_type c)) (stream c).
Definition aok (c : client) : Prop :=
  c_vhost c = Some v /\ c_iri c = Some i /\ (c_type c = UNDECIDED \/ c_type c = DONE) /\ (c_code c = 0 -> stream c = []).

Lemma aok_meta c meta : aok c -> full_meta E c meta = fmv meta.
Proof.
  intros (V & I & T & _). unfold full_meta, fmv, path_of. rewrite V, I. destruct T as [-> | ->]; reflexivity.
Qed.
Lemma stream_nil c : stream c = [] -> c_sent c = [] /\ c_out c = [].
Proof. apply app_eq_nil. Qed.

(** untouched by the relay *)
Definition frame (c c' : client) : Prop :=
  c_hs c' = c_hs c /\ c_closed c' = c_closed c /\ c_cgibev c' = c_cgibev c /\ c_up c' = c_up c.
Lemma frame_refl c : frame c c. Proof. repeat split. Qed.
Lemma frame_trans a b c : frame a b -> frame b c -> frame a c.
Proof. intros (A1 & A2 & A3 & A4) (B1 & B2 & B3 & B4). repeat split; congruence. Qed.
Lemma same_frame c c' : same c c' -> frame c c'.
Proof. intros (A & B & _ & _ & _ & _ & _ & _ & _ & _ & C & _ & _ & D). repeat split; assumption. Qed.

Definition hooked (c : client) : Prop :=
  exists k, c_conns c = [k] /\ (k_open k = true /\ c_pfd c = PConn 0 \/ k_open k = false /\ c_pfd c = PNone).
Lemma same_hooked c c' : same c c' -> hooked c -> hooked c'.
Proof. intros (_ & _ & _ & _ & _ & _ & _ & P & _ & _ & _ & K & _) (k & H1 & H2). exists k. rewrite K, P. auto. Qed.

Lemma start_sim code meta c : 10 <= code < 70 -> aok c -> c_code c = 0 ->
  let '(c', ok) := start_reply E code meta c in
  start fmv code meta (abs c) = (abs c', ok) /\ aok c' /\ same c c' /\ c_code c' <> 0.
Proof.
  intros H A C. pose proof A as (V & I & T & Z). destruct (stream_nil c (Z C)) as [S0 O0].
  pose proof (start_reply_spec E code meta c ltac:(lia) ltac:(lia)) as R. destruct (start_reply E code meta c) as [c' ok].
  destruct R as (OKE & SM & W & R). unfold fits in OKE. rewrite (aok_meta c meta A) in *.
  pose proof SM as (_ & _ & _ & SS & SI & _ & SV & _ & _ & SB & _). unfold start.
  assert (STR : stream c = []) by (unfold stream; rewrite S0, O0; reflexivity).
  destruct (length (fmv meta) <=? 1024)%nat; subst ok; destruct R as (RO & RC & RT & _).
  - rewrite O0 in RO. cbn [app] in RO.
    assert (ST : stream c' = header code (fmv meta)) by (unfold stream; rewrite SS, S0, RO; reflexivity).
    split; [|split; [|split; [exact SM|lia]]].
    + unfold abs. cbn [t_buf t_done t_str]. rewrite ST, STR, RC, RT, SB. destruct (code =? 20); reflexivity.
    + split; [congruence|]. split; [congruence|]. split; [rewrite RT; destruct (code =? 20); auto|]. rewrite RC. lia.
  - assert (ST : stream c' = header 40 (s2b "internal error")) by (unfold stream; rewrite SS, S0, RO; reflexivity).
    split; [|split; [|split; [exact SM|lia]]].
    + unfold abs. cbn [t_buf]. rewrite ST, RC, RT, SB. reflexivity.
    + split; [congruence|]. split; [congruence|]. split; [auto|]. rewrite RC. lia.
Qed.

Lemma close_pfd_facts c : hooked c -> let c' := close_pfd c in
  abs c' = abs c /\ (aok c -> aok c') /\ frame c c' /\ c_code c' = c_code c /\ c_type c' = c_type c /\ c_pfd c' = PNone /\
  exists k, c_conns c' = [k] /\ k_open k = false.
Proof.
  intros (k & K & [[O P]|[O P]]); cbv zeta; unfold close_pfd; rewrite P.
  - rewrite K. cbn [close_conn nth_error firstn skipn app]. split; [reflexivity|]. split; [intros A; exact A|]. repeat split. eexists. split; reflexivity.
  - split; [reflexivity|]. split; [intros A; exact A|]. repeat split. exists k. auto.
Qed.

Lemma error_sim c : aok c -> hooked c -> let c' := fcgi_error E c in
  abs c' = fail42 (abs c) /\ aok c' /\ frame c c' /\ hooked c' /\ c_type c' = DONE /\ exists k, c_conns c' = [k] /\ k_open k = false.
Proof.
  intros A H. cbv zeta. unfold fcgi_error. pose proof (close_pfd_facts c H) as F. cbv zeta in F. set (d := close_pfd c) in *.
  destruct F as (AB & AK & FR & C1 & T1 & P1 & k & K1 & K2). specialize (AK A). unfold fail42.
  change (t_code (abs c)) with (c_code c). rewrite C1. destruct (N.eqb_spec (c_code c) 0) as [Z|Z].
  - pose proof (start_sim 42 (s2b "CGI error") d ltac:(lia) AK ltac:(congruence)) as R. unfold reply.
    pose proof (start_reply_type E 42 (s2b "CGI error") d ltac:(lia)) as TT.
    destruct (start_reply E 42 (s2b "CGI error") d) as [c' ok]. cbn [fst] in *. destruct R as (R1 & R2 & R3 & R4).
    assert (FM : fmv (s2b "CGI error") = s2b "CGI error") by reflexivity.
    unfold start in R1. rewrite FM in R1. change (length (s2b "CGI error") <=? 1024)%nat with true in R1. cbv iota in R1.
    rewrite AB in R1. apply (f_equal fst) in R1. cbn [fst] in R1.
    assert (DN : c_type c' = DONE). { apply (f_equal t_done) in R1. cbn in R1. unfold abs in R1. destruct (c_type c'); try discriminate; reflexivity. }
    split; [symmetry; exact R1|]. split; [exact R2|]. split; [eapply frame_trans; [exact FR|apply same_frame; exact R3]|].
    pose proof R3 as (_ & _ & _ & _ & _ & _ & _ & PP & _ & _ & _ & KK & _).
    split; [exists k; rewrite KK, PP; auto|]. split; [exact DN|]. exists k. rewrite KK. auto.
  - split; [|split; [|split; [exact FR|split; [exists k; auto|split; [reflexivity|exists k; auto]]]]].
    + apply (f_equal (fun t => mkSt (t_code t) (t_buf t) true (t_str t))) in AB. exact AB.
    + destruct AK as (V & I & T & W). split; [exact V|]. split; [exact I|]. split; [right; reflexivity|]. exact W.
Qed.

Lemma add_sim s c : aok c -> c_code c <> 0 -> abs (add_out s c) = more s (abs c) /\ aok (add_out s c).
Proof.
  intros (V & I & T & Z) C. pose proof (add_out_same s c) as (_ & _ & _ & SS & SI & _ & SV & _ & _ & SB & _). unfold aok, abs, more.
  rewrite add_out_code, add_out_type, SB, SI, SV. cbn [t_code t_buf t_done t_str]. split.
  - unfold stream. rewrite add_out_out, SS, app_assoc. reflexivity.
  - repeat split; auto. contradiction.
Qed.
Lemma more_more a b t : more b (more a t) = more (a ++ b) t.
Proof. unfold more. cbn. rewrite <- app_assoc. reflexivity. Qed.

Lemma stdout_sim s c : aok c -> hooked c -> let c' := fcgi_handle_stdout E s c in
  abs c' = feed fmv s (abs c) /\ aok c' /\ frame c c' /\ hooked c'.
Proof.
  intros A H. cbv zeta. unfold fcgi_handle_stdout, feed. change (t_code (abs c)) with (c_code c).
  destruct (N.eqb_spec (c_code c) 0) as [Z|Z].
  2:{ destruct (add_sim s c A Z) as [X Y]. split; [exact X|]. split; [exact Y|]. split; [apply same_frame, add_out_same|]. eapply same_hooked; [apply add_out_same|exact H]. }
  cbv zeta. change (t_buf (abs c)) with (c_sbuf c). set (l := Nat.min (length s) (SBUF - length (c_sbuf c))).
  set (b := c_sbuf c ++ firstn l s). set (d := set_sbuf b c). change (c_sbuf d) with b.
  assert (AD : aok d) by exact A. assert (HD : hooked d) by exact H. assert (FD : frame c d) by (repeat split).
  change (mkSt (c_code c) b (t_done (abs c)) (t_str (abs c))) with (abs d).
  assert (ERR : abs (fcgi_error E d) = fail42 (abs d) /\ aok (fcgi_error E d) /\ frame c (fcgi_error E d) /\ hooked (fcgi_error E d)).
  { pose proof (error_sim d AD HD) as X. cbv zeta in X. destruct X as (X1 & X2 & X3 & X4 & _). auto. }
  destruct (readln b) as [[line r]|].
  2:{ destruct (length b =? SBUF)%nat; [exact ERR|]. repeat split; auto; apply AD. }
  destruct (status (N.eqb 32) line) as [[code meta]|] eqn:STT; [|exact ERR].
  pose proof (Wiring_Proofs.status_range _ _ _ _ STT) as RG.
  pose proof (start_sim code meta d RG AD Z) as R. destruct (start_reply E code meta d) as [c' ok]. destruct R as (R1 & R2 & R3 & R4). rewrite R1.
  change (t_code (abs c')) with (c_code c').
  assert (HC : hooked c') by (eapply same_hooked; [exact R3|exact HD]).
  assert (FC : frame c c') by (apply (frame_trans _ _ _ FD), same_frame; exact R3).
  destruct (negb ok || (c_code c' <? 20) || (29 <? c_code c')).
  - pose proof (error_sim c' R2 HC) as X. cbv zeta in X. destruct X as (X1 & X2 & X3 & X4 & _). split; [exact X1|]. split; [exact X2|]. split; [exact (frame_trans _ _ _ FC X3)|exact X4].
  - destruct (add_sim r c' R2 R4) as [X1 Y1]. assert (C2 : c_code (add_out r c') <> 0) by (rewrite add_out_code; exact R4).
    destruct (add_sim (skipn l s) (add_out r c') Y1 C2) as [X2 Y2].
    split; [rewrite X2, X1; apply more_more|]. split; [exact Y2|].
    split; [exact (frame_trans _ _ _ FC (frame_trans _ _ _ (same_frame _ _ (add_out_same _ _)) (same_frame _ _ (add_out_same _ _))))|].
    eapply same_hooked; [apply add_out_same|]. eapply same_hooked; [apply add_out_same|exact HC].
Qed.

Lemma loop_sim : forall f s c, aok c -> hooked c ->
  match fcgi_loop E f s c with
  | OK (s', c', b) => loop fmv f s (abs c) = OK (s', abs c', b) /\ aok c' /\ frame c c' /\ hooked c'
  | Fuel => loop fmv f s (abs c) = Fuel
  | UB => False
  end.
Proof.
  induction f as [|f IH]; intros s c A H; [reflexivity|]. cbn [fcgi_loop loop]. change (t_done (abs c)) with (isdone (c_type c)).
  assert (BASE : aok c /\ frame c c /\ hooked c) by (split; [exact A|split; [apply frame_refl|exact H]]).
  pose proof A as (_ & _ & T & _). destruct T as [T|T]; rewrite T; cbn [isdone]; [|split; [reflexivity|exact BASE]].
  do 8 (destruct s as [|? s]; [split; [reflexivity|exact BASE]|]).
  destruct (negb (_ =? 1)); [split; [reflexivity|exact BASE]|]. cbv zeta.
  destruct (_ <? _)%nat; [split; [reflexivity|exact BASE]|].
  assert (GO : forall s d, aok d -> hooked d -> frame c d ->
    match fcgi_loop E f s d with
    | OK (s', c', b) => loop fmv f s (abs d) = OK (s', abs c', b) /\ aok c' /\ frame c c' /\ hooked c'
    | Fuel => loop fmv f s (abs d) = Fuel
    | UB => False
    end).
  { intros s0 d AD HD FD. pose proof (IH s0 d AD HD) as X. destruct (fcgi_loop E f s0 d) as [[[s' c'] b]| |]; auto.
    destruct X as (X1 & X2 & X3 & X4). split; [exact X1|]. split; [exact X2|]. split; [exact (frame_trans _ _ _ FD X3)|exact X4]. }
  destruct (_ =? FCGI_END_REQUEST).
  { destruct (negb _); [split; [reflexivity|exact BASE]|].
    change (mkSt (t_code (abs c)) (t_buf (abs c)) true (t_str (abs c))) with (abs (set_type DONE c)). apply GO; [|exact H|repeat split].
    destruct A as (V & I & _ & Z). split; [exact V|]. split; [exact I|]. split; [right; reflexivity|exact Z]. }
  destruct (_ =? FCGI_STDERR); [apply GO; [exact A|exact H|apply frame_refl]|].
  destruct (_ =? FCGI_STDOUT); [|split; [reflexivity|exact BASE]].
  pose proof (stdout_sim (firstn (N.to_nat (n4 + N.shiftl n3 8)) s) c A H) as X. cbv zeta in X. destruct X as (X1 & X2 & X3 & X4). rewrite <- X1. apply GO; assumption.
Qed.

(** ** the phases *)
Definition st0 : st := mkSt 0 [] false [].
Definition outcome (s : list N) (ended : bool) (F : list N) : Prop :=
  exists f s1 t1 b, loop fmv f s st0 = OK (s1, t1, b) /\ F = t_str (if b || ended then fail42 t1 else t1).

Lemma loop_det f g s t r r' : loop fmv f s t = OK r -> loop fmv g s t = OK r' -> r = r'.
Proof.
  intros H1 H2. pose proof (loop_mono _ _ _ _ _ H1 (Nat.max f g) ltac:(lia)) as A. pose proof (loop_mono _ _ _ _ _ H2 (Nat.max f g) ltac:(lia)) as B. congruence.
Qed.
Lemma outcome_det s en F F' : outcome s en F -> outcome s en F' -> F = F'.
Proof.
  intros (f & s1 & t1 & b & H & ->) (g & s2 & t2 & b2 & H' & ->). pose proof (loop_det _ _ _ _ _ _ H H') as Q. injection Q as <- <- <-. reflexivity.
Qed.

Definition over (F : list N) (c : client) : Prop :=
  c_hs c = true /\ c_up c = None /\ (c_closed c = true \/ c_type c = DONE) /\ (exists k, c_conns c = [k] /\ k_open k = false) /\ stream c = F.
Definition going (s : list N) (c : client) : Prop :=
  c_hs c = true /\ c_up c = None /\ c_closed c = false /\ c_type c = UNDECIDED /\ aok c /\ c_cgibev c = Some 0%nat /\ c_pfd c = PConn 0 /\
  exists s1 f, c_conns c = [mkConn s1 true] /\ loop fmv f s st0 = OK (s1, abs c, false).

Lemma over_closed c k : c_hs c = true -> c_up c = None -> c_conns c = [k] -> k_open k = false \/ c_cgibev c = Some 0%nat -> over (stream c) (client_close c).
Proof.
  intros Hs U K O. unfold client_close, close_pfd. destruct c; cbn in *. subst.
  assert (CC : forall n, exists k', close_conn n [k] = [k'] /\ (k_open k' = false \/ k' = k /\ n <> 0%nat)).
  { intros n. unfold close_conn. destruct n as [|n]; cbn [nth_error]; [eexists; split; [reflexivity|left; reflexivity]|]. destruct n; exists k; split; auto. }
  assert (CC2 : forall n, k_open k = false -> exists k', close_conn n [k] = [k'] /\ k_open k' = false).
  { intros n Hk. destruct (CC n) as (k' & E1 & [E2|[-> _]]); eauto. }
  destruct O as [O| ->].
  - destruct c_cgibev as [n|].
    + destruct (CC2 n O) as (k' & E1 & E2). cbn. destruct c_pfd as [|rest| |m|]; cbn; rewrite E1; try (repeat split; auto; exists k'; auto; fail).
      repeat split; auto. cbn. unfold close_conn. destruct m as [|m]; cbn; [eexists; split; reflexivity|]. destruct m; exists k'; auto.
    + destruct c_pfd as [|rest| |m|]; cbn; try (repeat split; auto; exists k; auto; fail).
      destruct (CC2 m O) as (k' & E1 & E2). rewrite E1. repeat split; auto. exists k'; auto.
  - cbn. destruct c_pfd as [|rest| |m|]; cbn; try (repeat split; auto; eexists; split; reflexivity; fail).
    repeat split; auto. cbn. unfold close_conn. destruct m as [|m]; cbn; [eexists; split; reflexivity|]. destruct m; eexists; split; reflexivity.
Qed.

Lemma over_step F c e c' : over F c -> step E e c = Some (OK c') ->
  over F c' /\ (forall n x, e <> EvFcgi n x) /\ (forall n, e <> EvFcgiEnd n).
Proof.
  intros (Hs & U & DC & (k & K & KO) & STR) ST.
  assert (NF : forall n x, e <> EvFcgi n x).
  { intros n x ->. unfold step in ST. rewrite K in ST. destruct n as [|[|n]]; cbn [nth_error] in ST; try discriminate. rewrite KO in ST. discriminate. }
  assert (NE : forall n, e <> EvFcgiEnd n).
  { intros n ->. unfold step in ST. rewrite K in ST. destruct n as [|[|n]]; cbn [nth_error] in ST; try discriminate. rewrite KO in ST. discriminate. }
  split; [|auto].
  assert (CL : forall d, c_hs d = true -> c_up d = None -> c_conns d = [k] -> stream d = F -> over F (client_close d)).
  { intros d D1 D2 D3 D4. rewrite <- D4. eapply over_closed; eauto. }
  unfold step in ST. cbv zeta in ST. destruct DC as [CLO|DN].
  - rewrite CLO, U in ST. cbn [negb andb] in ST. destruct e; try discriminate; try (exfalso; eapply NF; reflexivity); try (exfalso; eapply NE; reflexivity).
    destruct (c_type c); try discriminate. destruct (c_pxy c), (c_iri c); discriminate.
  - rewrite Hs, U, DN in ST. destruct (c_closed c) eqn:CLO; cbn [negb andb] in ST.
    { destruct e; try discriminate; try (exfalso; eapply NF; reflexivity); try (exfalso; eapply NE; reflexivity). }
    destruct e; try discriminate; try (exfalso; eapply NF; reflexivity); try (exfalso; eapply NE; reflexivity).
    + destruct (negb (isnil chunk)); [|discriminate]. injection ST as ST. rewrite client_read_done in ST by (cbn; congruence). apply OK_inj in ST. subst c'.
      repeat split; auto. exists k; auto.
    + injection ST as <-. unfold client_error. cbn [andb]. apply CL; auto.
    + destruct (c_wev c); [|discriminate]. apply some_inj in ST.
      set (kk := Nat.min (Nat.max 1 n) (length (c_out c))) in *.
      set (d := set_io (skipn kk (c_out c)) (c_sent c ++ firstn kk (c_out c)) (negb (isnil (skipn kk (c_out c)))) c) in *.
      assert (SD : stream d = F) by (unfold stream, d; cbn [set_io c_sent c_out]; rewrite <- app_assoc, firstn_skipn; exact STR).
      destruct (skipn kk (c_out c)) as [|x o] eqn:SK.
      * unfold client_write in ST. change (c_type d) with (c_type c) in ST. rewrite DN in ST. change (c_out d) with (@nil N) in ST. apply OK_inj in ST. subst c'. apply CL; auto.
      * apply OK_inj in ST. subst c'. repeat split; auto. exists k; auto.
    + destruct (c_wev c); [|discriminate]. injection ST as <-. unfold client_error. cbn [andb]. apply CL; auto.
Qed.

Lemma write_over a F c c' : over F c -> c_type c = DONE -> client_write a c = OK c' -> over F c'.
Proof.
  intros HO T. unfold client_write. rewrite T. intros Q. apply OK_inj in Q. subst c'. destruct (c_out c) eqn:O; [|exact HO].
  destruct HO as (Hs & U & _ & (k & K & KO) & S). rewrite <- S. eapply over_closed; eauto.
Qed.

Lemma going_step s c e c' : going s c -> (forall x fs, e <> EvRead x fs) -> step E e c = Some (OK c') ->
  let s' := s ++ match e with EvFcgi _ x => x | _ => [] end in
  let en := match e with EvFcgiEnd _ => true | _ => false end in
  (going s' c' /\ en = false) \/
  exists F, over F c' /\ outcome s' en F /\ (en = true \/ e = EvReadEnd \/ e = EvWriteErr \/ exists f s1 t1, loop fmv f s' st0 = OK (s1, t1, true)).
Proof.
  intros HG NR ST. pose proof HG as (Hs & U & CL & T & A & CG & P & s1 & f & K & L). cbv zeta.
  assert (OC : outcome s false (stream c)).
  { exists f, s1, (abs c), false. split; [exact L|reflexivity]. }
  assert (HK : hooked c) by (exists (mkConn s1 true); split; [exact K|left; split; [reflexivity|exact P]]).
  unfold step in ST. cbv zeta in ST. rewrite Hs, U, T, CL, ?K in ST. cbn [negb andb] in ST.
  destruct e; try discriminate.
  - exfalso. eapply NR; reflexivity.
  - injection ST as <-. right. exists (stream c). rewrite app_nil_r. split; [|split; [exact OC|auto]]. unfold client_error. cbn [andb].
    change (stream c) with (stream (set_type DONE c)). eapply over_closed; [exact Hs|exact U|exact K|right; exact CG].
  - destruct (c_wev c); [|discriminate]. apply some_inj in ST.
    set (kk := Nat.min (Nat.max 1 n) (length (c_out c))) in *.
    set (d := set_io (skipn kk (c_out c)) (c_sent c ++ firstn kk (c_out c)) (negb (isnil (skipn kk (c_out c)))) c) in *.
    assert (SD : stream d = stream c) by (unfold stream, d; cbn [set_io c_sent c_out]; rewrite <- app_assoc, firstn_skipn; reflexivity).
    assert (c' = d).
    { destruct (skipn kk (c_out c)) as [|x o] eqn:SK; [|apply OK_inj in ST; auto].
      unfold client_write in ST. change (c_type d) with (c_type c) in ST. rewrite T in ST. apply OK_inj in ST. auto. }
    subst c'. left. rewrite app_nil_r. split; [|reflexivity]. split; [exact Hs|]. split; [exact U|]. split; [exact CL|]. split; [exact T|].
    split; [destruct A as (V & I & TT & Z); split; [exact V|]; split; [exact I|]; split; [exact TT|]; rewrite SD; exact Z|]. split; [exact CG|]. split; [exact P|].
    exists s1, f. split; [exact K|]. unfold abs. rewrite SD. exact L.
  - destruct (c_wev c); [|discriminate]. injection ST as <-. right. exists (stream c). rewrite app_nil_r. split; [|split; [exact OC|auto]]. unfold client_error. cbn [andb].
    change (stream c) with (stream (set_type DONE c)). eapply over_closed; [exact Hs|exact U|exact K|right; exact CG].
  - destruct i0 as [|[|n]]; cbn [nth_error] in ST; try discriminate. cbn [k_open andb] in ST. destruct (negb (isnil chunk)); [|discriminate].
    apply some_inj in ST. cbn [k_in] in ST.
    set (d := set_conn 0 (s1 ++ chunk) c) in *.
    assert (ED : d = set_cgi (c_cgibev c) [mkConn (s1 ++ chunk) true] c) by (unfold d, set_conn; rewrite K; reflexivity).
    clearbody d.
    assert (KD : c_conns d = [mkConn (s1 ++ chunk) true]) by (rewrite ED; reflexivity).
    unfold fcgi_read in ST. rewrite KD in ST. cbn [nth_error k_in] in ST.
    apply bind_ok in ST as ([[s2 c2] b] & FL & ST).
    assert (AD : aok d) by (rewrite ED; exact A).
    assert (HD : hooked d) by (exists (mkConn (s1 ++ chunk) true); split; [exact KD|left; split; [reflexivity|rewrite ED; exact P]]).
    pose proof (loop_sim (S (S (length (s1 ++ chunk)))) (s1 ++ chunk) d AD HD) as SIM. rewrite FL in SIM. destruct SIM as (LS & A2 & (F1 & F2 & F3 & F4) & H2).
    assert (ABD : abs d = abs c) by (rewrite ED; reflexivity). rewrite ABD in LS.
    pose proof (loop_app _ _ _ _ _ _ _ L chunk) as LA. cbv beta iota in LA. specialize (LA _ _ LS).
    assert (SC : forall k, c_conns c2 = [k] -> set_conn 0 s2 c2 = set_cgi (c_cgibev c2) [mkConn s2 (k_open k)] c2) by (intros k Hk; unfold set_conn; rewrite Hk; reflexivity).
    destruct H2 as (k2 & K2 & KP). rewrite (SC k2 K2) in ST. clear SC.
    set (c3 := set_cgi (c_cgibev c2) [mkConn s2 (k_open k2)] c2) in *.
    assert (A3 : aok c3) by exact A2. assert (H3 : hooked c3) by (exists (mkConn s2 (k_open k2)); split; [reflexivity|exact KP]).
    destruct b.
    + right. pose proof (error_sim c3 A3 H3) as X. cbv zeta in X. destruct X as (X1 & X2 & (Y1 & Y2 & Y3 & Y4) & X4 & X5 & X6).
      exists (stream (fcgi_error E c3)). split.
      * eapply write_over; [|exact X5|exact ST]. rewrite ED in F1, F4. split; [rewrite Y1; unfold c3; cbn; rewrite F1; exact Hs|]. split; [rewrite Y4; unfold c3; cbn; rewrite F4; exact U|].
        split; [right; exact X5|]. split; [exact X6|reflexivity].
      * split; [|right; right; right; eauto]. eexists _, _, _, true. split; [exact LA|]. cbn [orb]. change (abs c2) with (abs c3). rewrite <- X1. reflexivity.
    + apply OK_inj in ST. subst c'. left. split; [|reflexivity].
      assert (T2 : c_type c2 = UNDECIDED).
      { destruct A2 as (_ & _ & [T2|T2] & _); [exact T2|]. exfalso. clear - LS T2 FL.
        assert (X : forall f s c s' c' , fcgi_loop E f s c = OK (s', c', false) -> c_type c' = DONE -> False).
        { clear. induction f as [|f IH]; intros s c s' c'; [discriminate|]. cbn [fcgi_loop]. intros Q TD.
          destruct (c_type c) eqn:TC; try discriminate;
          (do 8 (destruct s as [|? s]; [apply OK_inj in Q; injection Q as <- <-; congruence|]);
           destruct (negb (_ =? 1)); [discriminate|]; cbv zeta in Q; destruct (_ <? _)%nat; [apply OK_inj in Q; injection Q as <- <-; congruence|];
           destruct (_ =? FCGI_END_REQUEST); [destruct (negb _); [discriminate|eauto]|]; destruct (_ =? FCGI_STDERR); [eauto|]; destruct (_ =? FCGI_STDOUT); [eauto|discriminate]). }
        eapply X; eauto. }
      assert (OPN : k_open k2 = true /\ c_pfd c2 = PConn 0).
      { clear - FL T2 KP K2 KD HD. 
        assert (X : forall f s c s' c' b, fcgi_loop E f s c = OK (s', c', b) -> c_type c' = UNDECIDED -> c_conns c' = c_conns c /\ c_pfd c' = c_pfd c /\ c_type c = UNDECIDED).
        { clear. induction f as [|f IH]; intros s c s' c' b; [discriminate|]. cbn [fcgi_loop]. intros Q TD.
          assert (EC : forall d, c_type (fcgi_error E d) = DONE).
          { intros d. unfold fcgi_error. destruct (_ =? 0); [|reflexivity]. pose proof (reply_spec E 42 (s2b "CGI error") (close_pfd d) ltac:(lia) ltac:(lia)) as R. cbv zeta in R.
            destruct R as (_ & _ & R). destruct (fits _ _ _); destruct R as (_ & _ & R & _); exact R. }
          assert (OUT : forall x, c_type (fcgi_handle_stdout E x c) = UNDECIDED -> c_conns (fcgi_handle_stdout E x c) = c_conns c /\ c_pfd (fcgi_handle_stdout E x c) = c_pfd c).
          { intros x. unfold fcgi_handle_stdout. destruct (c_code c =? 0).
            - cbv zeta. destruct (readln _) as [[line r]|]; [|destruct (_ =? SBUF)%nat; [intros Y; rewrite EC in Y; discriminate|auto]].
              destruct (status _ _) as [[code meta]|] eqn:STT; [|intros Y; rewrite EC in Y; discriminate].
              pose proof (start_reply_same E code meta (set_sbuf (c_sbuf c ++ firstn (Nat.min (length x) (SBUF - length (c_sbuf c))) x) c) ltac:(pose proof (Wiring_Proofs.status_range _ _ _ _ STT); lia)) as SM.
              destruct (start_reply _ _ _ _) as [c1 ok]. cbn [fst] in SM. destruct (_ || _); [intros Y; rewrite EC in Y; discriminate|].
              intros _. destruct SM as (_ & _ & _ & _ & _ & _ & _ & SP & _ & _ & _ & SK & _).
              destruct (add_out_same (skipn (Nat.min (length x) (SBUF - length (c_sbuf c))) x) (add_out r c1)) as (_ & _ & _ & _ & _ & _ & _ & P1 & _ & _ & _ & K1 & _).
              destruct (add_out_same r c1) as (_ & _ & _ & _ & _ & _ & _ & P2 & _ & _ & _ & K2 & _). rewrite P1, K1, P2, K2, SP, SK. auto.
            - intros _. destruct (add_out_same x c) as (_ & _ & _ & _ & _ & _ & _ & P1 & _ & _ & _ & K1 & _). auto. }
          assert (OT : forall x, c_type (fcgi_handle_stdout E x c) = UNDECIDED -> c_type c = UNDECIDED).
          { intros x. unfold fcgi_handle_stdout. destruct (c_code c =? 0).
            - cbv zeta. destruct (readln _) as [[line r]|]; [|destruct (_ =? SBUF)%nat; [intros Y; rewrite EC in Y; discriminate|auto]].
              destruct (status _ _) as [[code meta]|] eqn:STT; [|intros Y; rewrite EC in Y; discriminate].
              pose proof (start_reply_type E code meta (set_sbuf (c_sbuf c ++ firstn (Nat.min (length x) (SBUF - length (c_sbuf c))) x) c) ltac:(pose proof (Wiring_Proofs.status_range _ _ _ _ STT); lia)) as SM.
              destruct (start_reply _ _ _ _) as [c1 ok]. cbn [fst] in SM. destruct (_ || _); [intros Y; rewrite EC in Y; discriminate|].
              rewrite !add_out_type. intros Y. destruct SM as [SM|SM]; rewrite SM in Y; [exact Y|discriminate].
            - rewrite add_out_type. auto. }
          destruct (c_type c) eqn:TC; try (apply OK_inj in Q; injection Q as <- <- <-; congruence);
          (do 8 (destruct s as [|? s]; [apply OK_inj in Q; injection Q as <- <- <-; repeat split; congruence|]);
           destruct (negb (_ =? 1)); [apply OK_inj in Q; injection Q as <- <- <-; repeat split; congruence|]; cbv zeta in Q; destruct (_ <? _)%nat; [apply OK_inj in Q; injection Q as <- <- <-; repeat split; congruence|];
           destruct (_ =? FCGI_END_REQUEST);
             [destruct (negb _); [apply OK_inj in Q; injection Q as <- <- <-; repeat split; congruence|destruct (IH _ _ _ _ _ Q TD) as (_ & _ & Z); discriminate]|];
           destruct (_ =? FCGI_STDERR); [destruct (IH _ _ _ _ _ Q TD) as (Z1 & Z2 & Z3); rewrite TC in Z3; auto|]; 
           destruct (_ =? FCGI_STDOUT); [|apply OK_inj in Q; injection Q as <- <- <-; repeat split; congruence];
           destruct (IH _ _ _ _ _ Q TD) as (Z1 & Z2 & Z3); destruct (OUT _ Z3) as (W1 & W2); specialize (OT _ Z3); rewrite Z1, Z2, W1, W2; auto). }
        destruct (X _ _ _ _ _ _ FL T2) as (X1 & X2 & _). rewrite KD in X1. rewrite K2 in X1. injection X1 as ->. split; [reflexivity|].
        destruct KP as [[_ KP]|[KP _]]; [exact KP|discriminate]. }
      destruct OPN as [OPN PFD]. rewrite ED in F1, F2, F3, F4.
      split; [unfold c3; cbn; rewrite F1; exact Hs|]. split; [unfold c3; cbn; rewrite F4; exact U|]. split; [unfold c3; cbn; rewrite F2; exact CL|].
      split; [exact T2|]. split; [exact A3|]. split; [unfold c3; cbn; rewrite F3; exact CG|]. split; [exact PFD|].
      exists s2. eexists. split; [unfold c3; cbn; rewrite OPN; reflexivity|exact LA].
  - destruct i0 as [|[|n]]; cbn [nth_error] in ST; try discriminate. cbn [k_open] in ST. injection ST as <-. right. rewrite app_nil_r.
    cbn [close_conn nth_error firstn skipn app k_in].
    set (d := set_cgi (c_cgibev c) [mkConn s1 false] c).
    exists (stream (fcgi_error E d)).
    assert (CP : close_pfd d = set_pfd PNone d) by (unfold close_pfd; change (c_pfd d) with (c_pfd c); rewrite P; reflexivity).
    assert (FE : fcgi_error E d = fcgi_error E (set_pfd PNone d)).
    { unfold fcgi_error. rewrite CP. reflexivity. }
    assert (AD : aok (set_pfd PNone d)) by exact A.
    assert (HD : hooked (set_pfd PNone d)) by (exists (mkConn s1 false); split; [reflexivity|right; split; reflexivity]).
    pose proof (error_sim (set_pfd PNone d) AD HD) as X. cbv zeta in X. rewrite <- FE in X. destruct X as (X1 & X2 & (Y1 & Y2 & Y3 & Y4) & X4 & X5 & X6).
    split; [split; [rewrite Y1; exact Hs|]; split; [rewrite Y4; exact U|]; split; [right; exact X5|]; split; [exact X6|reflexivity]|].
    split; [|left; reflexivity]. exists f, s1, (abs c), false. split; [exact L|]. cbn [orb]. change (abs c) with (abs (set_pfd PNone d)). rewrite <- X1. reflexivity.
Qed.

Lemma run_over es : forall F c c', over F c -> run E es c = Some (OK c') -> over F c' /\ app_bytes es = [] /\ app_ended es = false.
Proof.
  induction es as [|e es IH]; intros F c c' HO; cbn [run].
  - intros Q. injection Q as <-. auto.
  - destruct (step E e c) as [[c1| |]|] eqn:S; try discriminate. intros Q. destruct (over_step F c e c1 HO S) as (O1 & N1 & N2).
    destruct (IH F c1 c' O1 Q) as (O2 & A1 & A2). split; [exact O2|]. unfold app_bytes, app_ended in *. cbn [flat_map existsb]. rewrite A1, A2.
    destruct e; try (split; reflexivity); [exfalso; eapply N1; reflexivity|exfalso; eapply N2; reflexivity].
Qed.

Lemma run_going es : forall s c c', going s c -> quiet es -> run E es c = Some (OK c') ->
  outcome (s ++ app_bytes es) (app_ended es) (stream c').
Proof.
  induction es as [|e es IH]; intros s c c' HG HQ; cbn [run].
  - intros Q. injection Q as <-. cbn. rewrite app_nil_r. destruct HG as (_ & _ & _ & _ & _ & _ & _ & s1 & f & _ & L).
    exists f, s1, (abs c), false. split; [exact L|reflexivity].
  - inversion HQ as [|? ? Q1 Q2]; subst. destruct (step E e c) as [[c1| |]|] eqn:S; try discriminate. intros Q.
    pose proof (going_step s c e c1 HG ltac:(intros x fs ->; exact Q1) S) as X. cbv zeta in X.
    unfold app_bytes, app_ended. cbn [flat_map existsb]. fold (app_bytes es). fold (app_ended es). rewrite app_assoc.
    destruct X as [[X EN]|(F & X1 & X2 & _)].
    + rewrite EN. cbn [orb]. eapply IH; eauto.
    + destruct (run_over es F c1 c' X1 Q) as (O & A1 & A2). rewrite A1, A2, app_nil_r, orb_false_r. destruct O as (_ & _ & _ & _ & ->). exact X2.
Qed.

(** once the application is not listened to any more, what it says does not matter *)
Lemma run_going_over es : forall s c c', going s c -> quiet es -> ~ aborted es -> app_ended es = false -> run E es c = Some (OK c') ->
  going (s ++ app_bytes es) c' \/ exists f s1 t1, loop fmv f (s ++ app_bytes es) st0 = OK (s1, t1, true).
Proof.
  induction es as [|e es IH]; intros s c c' HG HQ NA AE; cbn [run].
  - intros Q. injection Q as <-. cbn. rewrite app_nil_r. auto.
  - inversion HQ as [|? ? Q1 Q2]; subst. destruct (step E e c) as [[c1| |]|] eqn:S; try discriminate. intros Q.
    pose proof (going_step s c e c1 HG ltac:(intros x fs ->; exact Q1) S) as X. cbv zeta in X.
    unfold app_bytes, app_ended in *. cbn [flat_map existsb] in *. fold (app_bytes es) in *. fold (app_ended es) in *. rewrite app_assoc. apply orb_false_elim in AE as [AE1 AE2].
    assert (NA2 : ~ aborted es) by (intros [A|A]; apply NA; [left|right]; right; exact A).
    destruct X as [[X EN]|(F & X1 & _ & X2)].
    + eapply IH; eauto.
    + destruct (run_over es F c1 c' X1 Q) as (O & A1 & A2). rewrite A1, app_nil_r. right.
      destruct X2 as [X2|[-> |[-> |X2]]]; [congruence|exfalso; apply NA; left; left; reflexivity|exfalso; apply NA; right; left; reflexivity|exact X2].
Qed.
End Client.
