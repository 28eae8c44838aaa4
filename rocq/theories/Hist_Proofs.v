(** Every polite history satisfies the invariants of Run_Proofs and Wiring_Proofs. *)
From Verif Require Import Base BaseLemmas Compat Iri IriSpec IriObs IriOut Puny Conf ConfSpec Mime Prop_Conf Fmt Fcgi Server ServerSpec Iri_Last_Proofs Server_Proofs Decide_Proofs RequestSpec Request_Proofs HistorySpec Run_Proofs Wiring_Proofs.
Local Open Scope N_scope.

Definition Inv (E : env) (c : client) : Prop := Jc E c /\ K c.

Lemma fresh_inv E : Inv E fresh.
Proof.
  assert (S : silent fresh) by (repeat split).
  split.
  - split; [auto|]. intros _. split; [auto|]. split; [auto|]. split; [auto|]. split; [intros [X|X]; discriminate|]. split; [discriminate|discriminate].
  - split; [discriminate|]. intros _. split; [intros _; repeat split|]. split; [left; split; reflexivity|]. split; [intros X; exfalso; apply X; reflexivity|discriminate].
Qed.

Lemma find_host_in fnm hs d v : find_host fnm hs d = Some v -> In v hs.
Proof.
  induction hs as [|h r IH]; cbn [find_host]; [discriminate|]. destruct (match_host fnm h d); [intros H; injection H as <-; left; reflexivity|right; auto].
Qed.

Lemma handshake_inv E sni c c' : Inv E c -> c_closed c = false -> c_hs c = false -> handle_handshake E sni c = OK c' -> Inv E c'.
Proof.
  intros ((_ & HJ) & HK) L Hs. specialize (HJ L). destruct HJ as (_ & B & _). specialize (B Hs).
  destruct HK as (_ & KL). destruct (KL L) as (A & _ & _ & D). destruct (A Hs) as ((A1 & A2 & A3 & A4) & T).
  assert (P : forall d h, plain (set_host d h c)).
  { intros d h. split; [repeat split; assumption|]. split; [reflexivity|]. intros n X. destruct (D n X). contradiction. }
  assert (S : forall d h, silent (set_host d h c)) by (intros d h; eapply silent_eqs; [|exact B]; eqv_refl).
  assert (R : forall d m, Inv E (reply E 59 m (set_host d None c))).
  { intros d m. split; [|apply plain_K, plain_reply; [lia|apply P]]. apply J_Jc. apply reply_J; try lia; auto; try reflexivity. discriminate. }
  unfold handle_handshake. intros Q. apply bind_ok in Q as (d & _ & Q). destruct d as [|[] out]; [discriminate| |apply OK_inj in Q; subst; apply R].
  destruct (cstr out) as [dom|]; [|discriminate]. cbv zeta in Q. set (dm := match dom with [] => _ | _ => _ end) in *. clearbody dm.
  destruct (find_host (e_fnm E) (c_hosts (e_conf E)) dm) as [v|] eqn:FH; apply OK_inj in Q; subst c'; [|apply R].
  split; [|apply plain_K, P]. apply J_Jc. specialize (S dm (Some v)). unfold J. split; [auto|]. split; [discriminate|]. split; [auto|].
  split; [intros [X|X]; cbn in X; congruence|]. split; [auto|]. intros v0 X. injection X as <-. eapply find_host_in; eauto.
Qed.

Lemma client_close_inv E c : Inv E c -> c_closed c = false -> Inv E (client_close c).
Proof. intros ((A & _) & HK) L. split; [apply close_Jc; exact A|apply client_close_K; assumption]. Qed.

Lemma client_error_inv E c : Inv E c -> c_closed c = false -> c_hs c = true -> Inv E (client_error E false c).
Proof.
  intros ((A & _) & HK) L Hs. unfold client_error. cbn [andb]. split.
  - apply close_Jc. destruct A as [S|R]; [left; eapply silent_eqv; [|exact S]; eqv_refl|right; eapply replied_eqv; [|exact R]; eqv_refl].
  - apply client_close_K; [|exact L]. eapply K_eq; [..|exact HK]; try reflexivity. right. split; [reflexivity|exact Hs].
Qed.

Lemma silent_stream c out sent w : silent c -> out ++ sent = [] -> silent (set_io out sent w c).
Proof. intros (S1 & S2 & S3 & S4 & S5) H. apply app_eq_nil in H as [-> ->]. repeat split; assumption. Qed.
Lemma replied_stream {E} c out sent w : replied E c -> sent ++ out = stream c -> replied E (set_io out sent w c).
Proof.
  intros (code & meta & m & body & H1 & H2 & H3 & H4 & H5 & H6 & H7) H. exists code, meta, m, body. repeat split; auto; try apply H1.
  unfold stream. cbn [set_io c_sent c_out]. rewrite H. exact H6.
Qed.

Theorem step_inv E e c c' : conf_ok E -> Inv E c -> polite_step c e -> step E e c = Some (OK c') -> Inv E c'.
Proof.
  intros HO I HP. pose proof I as ((A & HJ) & HK).
  destruct e as [sni| |chunk fs| |n a| |i chunk|i|r|chunk|]; unfold step; cbv zeta.
  - destruct (negb (c_closed c) && negb (c_hs c)) eqn:B; [|discriminate]. apply andb_true_iff in B as [B1 B2]. apply negb_true_iff in B1, B2.
    intros Q. injection Q as Q. eapply handshake_inv; eauto.
  - destruct (negb (c_closed c) && negb (c_hs c)) eqn:B; [|discriminate]. apply andb_true_iff in B as [B1 B2]. apply negb_true_iff in B1, B2.
    intros Q. injection Q as <-. apply client_close_inv; assumption.
  - destruct (negb (c_closed c) && c_hs c && negb (isnil chunk)) eqn:B; [|discriminate].
    apply andb_true_iff in B as [B B3]. apply andb_true_iff in B as [B1 B2]. apply negb_true_iff in B1. specialize (HJ B1).
    intros Q. injection Q as Q. set (c1 := set_in (c_in c ++ chunk) c) in *.
    assert (J1 : J E c1) by exact HJ. assert (K1 : K c1) by exact HK.
    split; [apply J_Jc; eapply client_read_J; eauto|]. eapply client_read_K; eauto. apply J1.
  - destruct (negb (c_closed c) && c_hs c) eqn:B; [|discriminate]. apply andb_true_iff in B as [B1 B2]. apply negb_true_iff in B1.
    intros Q. injection Q as <-. apply client_error_inv; assumption.
  - destruct (negb (c_closed c) && c_hs c && c_wev c) eqn:B; [|discriminate].
    apply andb_true_iff in B as [B B3]. apply andb_true_iff in B as [B1 B2]. apply negb_true_iff in B1. specialize (HJ B1).
    intros Q. injection Q as Q. set (k := Nat.min _ _) in Q. set (out := skipn k (c_out c)) in Q.
    set (c1 := set_io out (c_sent c ++ firstn k (c_out c)) (negb (isnil out)) c) in *.
    assert (ST : (c_sent c ++ firstn k (c_out c)) ++ out = stream c) by (unfold out, stream; rewrite <- app_assoc, firstn_skipn; reflexivity).
    assert (J1 : J E c1).
    { eapply J_move; [exact HJ|..]; try reflexivity; auto.
      - intros S. apply silent_stream; [exact S|]. destruct S as (_ & _ & S3 & S4 & _). unfold out. rewrite S3, S4. destruct k; reflexivity.
      - intros R. apply replied_stream; [exact R|exact ST]. }
    assert (K1 : K c1) by (eapply K_eq; [..|exact HK]; try reflexivity; left; reflexivity).
    destruct out.
    + split; [eapply client_write_J; eauto|eapply client_write_K; eauto].
    + apply OK_inj in Q. subst c'. split; [apply J_Jc; exact J1|exact K1].
  - destruct (negb (c_closed c) && c_hs c && c_wev c) eqn:B; [|discriminate].
    apply andb_true_iff in B as [B B3]. apply andb_true_iff in B as [B1 B2]. apply negb_true_iff in B1.
    intros Q. injection Q as <-. apply client_error_inv; assumption.
  - destruct (nth_error (c_conns c) i) as [k|] eqn:NE; [|discriminate]. destruct (k_open k && negb (isnil chunk)); [|discriminate].
    destruct (c_closed c) eqn:L; cbn [negb]; [discriminate|]. specialize (HJ eq_refl). intros Q. injection Q as Q.
    destruct (conn_open_KF i k c HK NE L) as [Hs HF].
    pose proof (set_conn_KF i (k_in k ++ chunk) c HF) as HF1. destruct (set_conn_J E i (k_in k ++ chunk) c HJ) as (J1 & _).
    set (c1 := set_conn i (k_in k ++ chunk) c) in *.
    split; [|eapply fcgi_read_K; eauto]. unfold fcgi_read in Q. destruct (nth_error (c_conns c1) i) as [k1|]; [|discriminate].
    apply bind_ok in Q as (((s & c2) & err) & LP & Q).
    destruct (KF_one c1 HF1) as (k2 & _ & G1 & G2 & _).
    destruct (fcgi_loop_J E _ _ _ _ _ _ J1 ltac:(apply HF1) ltac:(congruence) G2 LP) as (J2 & Hs2 & _). cbv zeta in Q.
    destruct (set_conn_J E i s c2 J2) as (J3 & Hs3 & _). destruct err.
    + destruct (fcgi_error_J E (set_conn i s c2) J3 ltac:(congruence)) as (J4 & _). eapply client_write_J; eauto.
    + apply OK_inj in Q. subst c'. apply J_Jc; exact J3.
  - destruct (nth_error (c_conns c) i) as [k|] eqn:NE; [|discriminate]. destruct (k_open k); [|discriminate].
    destruct (c_closed c) eqn:L; cbn [negb]; [discriminate|]. specialize (HJ eq_refl). intros Q. injection Q as <-.
    destruct (conn_open_KF i k c HK NE L) as [Hs HF].
    destruct (KF_one c HF) as (k2 & G & G1 & G2 & G3 & G4).
    set (c1 := set_cgi (c_cgibev c) (close_conn i (c_conns c)) c).
    assert (HF1 : KF c1).
    { eapply one_KF; try eassumption. cbn [c1 set_cgi c_conns]. rewrite G in NE |- *. destruct i as [|[|]]; try discriminate. reflexivity. }
    assert (J1 : J E c1) by (eapply J_move; [exact HJ|..]; try reflexivity; auto).
    split; [apply J_Jc, fcgi_error_J; assumption|]. apply (fcgi_error_KF E c1 HF1).
  - destruct (c_type c) eqn:T; try discriminate. destruct (c_pxy c) as [p|]; [|discriminate]. destruct (c_up c) eqn:U; [discriminate|].
    destruct (c_iri c) as [i|]; [|discriminate]. destruct (negb (c_closed c) && negb (p_notls p)) eqn:B; [|discriminate].
    apply andb_true_iff in B as [B1 B2]. apply negb_true_iff in B1. specialize (HJ B1). intros Q. injection Q as Q.
    pose proof HJ as (_ & _ & _ & _ & PP & V). pose proof (PP T U) as S.
    assert (Hs : c_hs c = true).
    { destruct (c_hs c) eqn:X; [reflexivity|]. destruct HK as (_ & KL). destruct (KL B1) as (Y & _). destruct (Y X) as (_ & Z). congruence. }
    destruct r.
    + unfold proxy_enqueue_req in Q. apply bind_ok in Q as (line & _ & Q). apply OK_inj in Q. subst c'. split.
      * apply J_Jc. apply J0_J; [|cbn; rewrite T; discriminate..]. apply J0_act; [exact Logic.I|]. split; [eapply silent_eqv; [|exact S]; eqv_refl|]. auto.
      * destruct HK as (_ & KL). destruct (KL B1) as (K1 & K2 & K3 & K4). split; [intros X; cbn in X; congruence|]. intros _.
        split; [intros X; cbn in X; congruence|]. split; [|split; [intros _; left; exact T|exact K4]].
        destruct K2 as [K2|(k & _ & _ & K2 & _)]; [left; exact K2|congruence].
    + apply OK_inj in Q. subst c'. split; [apply J_Jc, reply_J; auto; lia|apply reply_K; auto; lia].
    + apply OK_inj in Q. subst c'. split; [apply J_Jc, reply_J; auto; lia|apply reply_K; auto; lia].
  - destruct (c_up c) as [s|] eqn:U; [|discriminate]. destruct (negb (c_closed c) && negb (isnil chunk)) eqn:B; [|discriminate].
    apply andb_true_iff in B as [B1 B2]. apply negb_true_iff in B1. specialize (HJ B1). intros Q. injection Q as Q.
    pose proof (up_KU c HK ltac:(congruence) B1) as HU. pose proof HU as (_ & _ & Hs & _ & _ & TT & _).
    split; [|eapply proxy_read_K; eauto]. eapply proxy_read_J; eauto; [congruence|]. intros X. destruct TT; congruence.
  - destruct (c_up c) as [s|] eqn:U; [|discriminate]. destruct (c_closed c) eqn:L; cbn [negb]; [discriminate|]. specialize (HJ eq_refl). intros Q. injection Q as Q.
    pose proof (up_KU c HK ltac:(congruence) L) as HU. pose proof HU as (_ & _ & Hs & _).
    split; [eapply proxy_error_J; eauto|eapply proxy_error_K; eauto].
Qed.

Theorem history_inv E es c : conf_ok E -> polite_history E es c -> Inv E c.
Proof. intros HO H. induction H; [apply fresh_inv|eapply step_inv; eauto]. Qed.
