From Coq Require Import Permutation Sorting.Sorted.
From Verif Require Import Base BaseLemmas Compat Iri IriSpec IriObs IriSafeSpec IriOut IriOutSpec Prop_IriOut Puny Conf ConfSpec Mime Prop_Conf Fmt Fcgi Server ServerSpec Iri_Last_Proofs Server_Proofs Decide_Proofs RequestSpec Request_Proofs HistorySpec Run_Proofs Wiring_Proofs Hist_Proofs Prop_Server Prop_History SafeSpec Safe_Proofs LegitSpec Legit_Proofs BodySpec.
Local Open Scope N_scope.

(** ** after the header, until the connection is closed *)
Definition B (whole : list N) (c : client) : Prop :=
  c_hs c = true /\ c_conns c = [] /\ c_up c = None /\ c_closed c = false /\ c_wev c = true /\
  exists rest, stream c ++ rest = whole /\
    ((c_type c = RFILE /\ c_pfd c = PFile rest) \/ (c_type c = RDIR /\ dir_lines (c_dir c) = OK rest) \/ (c_type c = DONE /\ rest = [])).

(** closed for good *)
Definition shut (c : client) : Prop := c_closed c = true /\ c_conns c = [] /\ c_up c = None.
Lemma shut_step E e c : shut c -> step E e c = None.
Proof.
  intros (H1 & H2 & H3). destruct e; unfold step; cbv zeta; rewrite ?H1, ?H2, ?H3; cbn [negb andb]; try reflexivity.
  - destruct i; reflexivity.
  - destruct i; reflexivity.
  - destruct (c_type c); try reflexivity. destruct (c_pxy c); try reflexivity. destruct (c_iri c); reflexivity.
Qed.

Lemma close_conn_nil i : close_conn i [] = []. Proof. unfold close_conn. destruct i; reflexivity. Qed.
Lemma client_close_shut c : c_conns c = [] -> shut (client_close c) /\ c_sent (client_close c) = c_sent c /\ c_out (client_close c) = c_out c.
Proof.
  intros H. unfold client_close, close_pfd. destruct (c_cgibev c) as [i|]; cbn [set_cgi c_pfd c_cgibev c_conns]; destruct (c_pfd c); rewrite ?H; cbn; rewrite ?close_conn_nil, ?H; repeat split; try assumption; try (rewrite close_conn_nil; reflexivity).
Qed.

Definition left (c : client) : nat :=
  match c_type c with
  | RFILE => match c_pfd c with PFile r => S (2 * length r) | _ => 0 end
  | RDIR => match dir_lines (c_dir c) with OK l => S (2 * length l) | _ => 0 end
  | _ => 0
  end.
Definition measure (c : client) : nat := (length (c_out c) + left c + 1)%nat.

Lemma prefix_refl a : is_prefix a a. Proof. exists []. symmetry. apply app_nil_r. Qed.
Lemma B_prefix whole c : B whole c -> is_prefix (stream c) whole.
Proof. intros (_ & _ & _ & _ & _ & r & H & _). exists r. symmetry. exact H. Qed.

Lemma some_inj {A} (x y : A) : Some x = Some y -> x = y. Proof. congruence. Qed.

(** one event *)
Definition outcome (E : env) (whole : list N) (c : client) (e : event) (c' : client) : Prop :=
  let w := match e with EvWrite _ _ => 1%nat | _ => 0%nat end in
  (B whole c' /\ (measure c' + w <= measure c)%nat) \/
  (shut c' /\ (c_sent c' = whole /\ c_out c' = [] \/ (e = EvReadEnd \/ e = EvWriteErr) /\ is_prefix (stream c') whole)).

Lemma B_step E whole c e c' : B whole c -> match e with EvWrite _ a => exists n, a = RdMax n /\ (BUFSIZ <= n)%nat | _ => True end ->
  step E e c = Some (OK c') -> outcome E whole c e c'.
Proof.
  intros HB HF. pose proof HB as (Hs & HK & HU & HL & HW & rest & HS & HT).
  assert (TU : c_type c <> UNDECIDED) by (destruct HT as [[H _]|[[H _]|[H _]]]; congruence).
  assert (TP : c_type c <> RPROXY) by (destruct HT as [[H _]|[[H _]|[H _]]]; congruence).
  destruct e as [sni| |chunk fs| |n a| |i chunk|i|w|chunk|]; unfold step; cbv zeta; rewrite ?Hs, ?HL, ?HW, ?HK, ?HU; cbn [negb andb]; try discriminate.
  - destruct (isnil chunk); cbn [negb]; [discriminate|]. intros Q. injection Q as Q.
    rewrite client_read_done in Q by exact TU. apply OK_inj in Q. subst c'. left. split; [exact HB|]. apply Nat.eq_le_incl. rewrite Nat.add_0_r. reflexivity.
  - intros Q. injection Q as <-. right. unfold client_error. cbn [andb].
    destruct (client_close_shut (set_type DONE c) HK) as (S1 & S2 & S3). split; [exact S1|]. right. split; [auto|].
    unfold stream. rewrite S2, S3. exact (B_prefix _ _ HB).
  - intros Q. apply some_inj in Q. change (match n with 0%nat => 1%nat | S m' => S m' end) with (Nat.max 1 n) in Q. set (k := Nat.min (Nat.max 1 n) (length (c_out c))) in *.
    set (out := skipn k (c_out c)) in *. set (c1 := set_io out (c_sent c ++ firstn k (c_out c)) (negb (isnil out)) c) in *.
    assert (ST : stream c1 = stream c) by (unfold stream, c1, out; cbn [set_io c_sent c_out]; rewrite <- app_assoc, firstn_skipn; reflexivity).
    destruct HF as (m & -> & HM).
    assert (LK : (length out = length (c_out c) - k)%nat) by (unfold out; apply skipn_length).
    destruct out as [|x out'] eqn:OU.
    2:{ apply OK_inj in Q. subst c'. left. split.
        - split; [exact Hs|]. split; [exact HK|]. split; [exact HU|]. split; [exact HL|]. split; [reflexivity|]. exists rest. rewrite ST. split; [exact HS|exact HT].
        - unfold measure. change (left c1) with (left c). change (c_out c1) with (x :: out'). rewrite LK. assert (length (c_out c) <> 0)%nat by (intros X; cbn [length] in LK; lia). cbn [length] in LK. lia. }
    assert (O1 : c_out c1 = []) by reflexivity. assert (S1 : c_sent c1 = stream c) by (rewrite <- ST; unfold stream; rewrite O1, app_nil_r; reflexivity).
    assert (KO : k = length (c_out c)) by (cbn [length] in LK; unfold k in *; lia).
    unfold client_write in Q. change (c_type c1) with (c_type c) in Q. destruct HT as [[T P]|[[T P]|[T P]]]; rewrite T in Q.
    + change (c_pfd c1) with (c_pfd c) in Q. rewrite P in Q.
      set (r := Nat.min BUFSIZ (Nat.min m (length rest))) in Q. cbv zeta in Q.
      assert (RB : r = Nat.min BUFSIZ (length rest)) by (unfold r; lia).
      destruct (Nat.eqb_spec r 0) as [Z|Z].
      * apply OK_inj in Q. subst c'. right. destruct (client_close_shut c1 HK) as (X1 & X2 & X3). split; [exact X1|]. left.
        assert (rest = []).
        { destruct rest; [reflexivity|]. exfalso. cbn [length] in RB. assert (0 < BUFSIZ)%nat by (unfold BUFSIZ; lia). lia. }
        subst rest. rewrite X2, X3, S1. rewrite app_nil_r in HS. auto.
      * apply OK_inj in Q. subst c'. left.
        set (c2 := set_pfd (PFile (skipn r rest)) c1).
        set (c3 := if (r =? BUFSIZ)%nat then c2 else set_type DONE c2).
        assert (F3 : c_out c3 = [] /\ c_sent c3 = stream c /\ c_hs c3 = true /\ c_conns c3 = [] /\ c_up c3 = None /\ c_closed c3 = false /\ c_pfd c3 = PFile (skipn r rest)).
        { unfold c3. destruct (r =? BUFSIZ)%nat; repeat split; assumption. }
        destruct F3 as (F1 & F2 & F3 & F4 & F5 & F6 & F7).
        assert (FN : firstn r rest <> []) by (destruct rest; [cbn [length] in RB; lia|destruct r; [lia|discriminate]]).
        rewrite (add_out_eq _ _ FN).
        split.
        -- split; [exact F3|]. split; [exact F4|]. split; [exact F5|]. split; [exact F6|]. split; [reflexivity|].
           exists (skipn r rest). split.
           { unfold stream. cbn [set_io c_sent c_out]. rewrite F1, F2. cbn [app]. rewrite <- app_assoc, firstn_skipn. exact HS. }
           unfold c3. destruct (Nat.eqb_spec r BUFSIZ) as [EB|NB]; [left; split; [exact T|reflexivity]|].
           right. right. split; [reflexivity|]. apply skipn_all2. lia.
        -- unfold measure. cbn [set_io c_out]. rewrite F1. cbn [app]. rewrite firstn_length.
           assert (LL : (left (set_io (firstn r rest) (c_sent c3) true c3) <= S (2 * (length rest - r)))%nat).
           { unfold left. cbn [set_io c_type c_pfd]. rewrite F7, skipn_length. unfold c3. destruct (r =? BUFSIZ)%nat; cbn [c2 set_type set_pfd c_type c1 set_io]; [rewrite T|]; lia. }
           unfold left at 2. rewrite T, P. lia.
    + rewrite P in Q || (change (c_dir c1) with (c_dir c) in Q; rewrite P in Q). cbn [bind] in Q. cbv zeta in Q. apply OK_inj in Q. subst c'. left.
      set (c2 := add_out rest (set_type DONE (set_dir [] c1))).
      assert (F : c_out c2 = rest /\ c_sent c2 = stream c /\ c_hs c2 = true /\ c_conns c2 = [] /\ c_up c2 = None /\ c_closed c2 = false /\ c_type c2 = DONE).
      { unfold c2. destruct rest; repeat split; assumption. }
      destruct F as (F1 & F2 & F3 & F4 & F5 & F6 & F7).
      split.
      -- split; [exact F3|]. split; [exact F4|]. split; [exact F5|]. split; [exact F6|]. split; [reflexivity|]. exists [].
         split; [unfold stream; cbn [set_io c_sent c_out]; rewrite F1, F2, app_nil_r; exact HS|]. right. right. split; [exact F7|reflexivity].
      -- unfold measure, left. cbn [set_io c_out c_type]. rewrite F7, T, P, F1. lia.
    + subst rest. rewrite O1 in Q. apply OK_inj in Q. subst c'. right. destruct (client_close_shut c1 HK) as (X1 & X2 & X3). split; [exact X1|]. left.
      rewrite X2, X3, S1. rewrite app_nil_r in HS. auto.
  - intros Q. injection Q as <-. right. unfold client_error. cbn [andb].
    destruct (client_close_shut (set_type DONE c) HK) as (S1 & S2 & S3). split; [exact S1|]. right. split; [auto|].
    unfold stream. rewrite S2, S3. exact (B_prefix _ _ HB).
  - destruct i; discriminate.
  - destruct i; discriminate.
  - destruct (c_type c); try discriminate. congruence.
Qed.

Lemma B_run E whole : forall es c c', B whole c -> full_reads es -> run E es c = Some (OK c') ->
  (B whole c' \/ (shut c' /\ (c_sent c' = whole /\ c_out c' = [] \/ aborted es /\ is_prefix (stream c') whole))) /\
  (writes es <= measure c)%nat.
Proof.
  induction es as [|e es IH]; intros c c' HB HF; cbn [run].
  - intros Q. injection Q as <-. split; [left; exact HB|]. cbn. lia.
  - inversion HF as [|? ? HF1 HF2]; subst. destruct (step E e c) as [[c1| |]|] eqn:S; try discriminate. intros Q.
    assert (WE : writes (e :: es) = ((match e with EvWrite _ _ => 1%nat | _ => 0%nat end) + writes es)%nat) by (unfold writes; cbn [filter]; destruct e; reflexivity).
    destruct (B_step E whole c e c1 HB HF1 S) as [[HB1 M]|[SH X]].
    + destruct (IH c1 c' HB1 HF2 Q) as [[G|(G1 & G2)] W].
      * split; [left; exact G|]. rewrite WE. lia.
      * split; [|rewrite WE; lia]. right. split; [exact G1|]. destruct G2 as [G2|[[G2|G2] G3]]; [left; exact G2|right|right]; (split; [|exact G3]); [left|right]; right; exact G2.
    + assert (es = [] /\ c' = c1) as [-> ->].
      { destruct es as [|e2 es]; [injection Q as <-; auto|]. cbn [run] in Q. rewrite (shut_step E e2 c1 SH) in Q. discriminate. }
      split.
      * right. split; [exact SH|]. destruct X as [X|[[X|X] Y]]; [left; exact X|right|right]; (split; [|exact Y]); [left|right]; left; symmetry; symmetry; assumption.
      * rewrite WE. unfold measure. cbn. destruct e; lia.
Qed.

(** ** the start of the connection *)
Lemma handshake_waiting E sni v c0 : run E [EvHandshake sni] fresh = Some (OK c0) -> c_vhost c0 = Some v ->
  waiting v c0 /\ c_in c0 = [] /\ K c0 /\ c_cgibev c0 = None /\ In v (c_hosts (e_conf E)).
Proof.
  cbn [run step fresh c_closed c_hs negb andb]. intros Q V. destruct (handle_handshake E sni fresh) as [c| |] eqn:H; try discriminate. injection Q as ->.
  assert (N : forall d m, c_vhost (reply E 59 m (set_host d None fresh)) = None).
  { intros d m. pose proof (reply_spec E 59 m (set_host d None fresh) ltac:(lia) ltac:(lia)) as R. cbv zeta in R. destruct R as ((_ & _ & _ & _ & _ & _ & X & _) & _). rewrite X. reflexivity. }
  unfold handle_handshake in H. apply bind_ok in H as (d & _ & H). destruct d as [|[] out]; [discriminate| |apply OK_inj in H; subst c0; rewrite N in V; discriminate].
  destruct (cstr out) as [dom|]; [|discriminate]. cbv zeta in H. set (dm := match dom with [] => _ | _ => _ end) in *. clearbody dm.
  destruct (find_host (e_fnm E) (c_hosts (e_conf E)) dm) as [v0|] eqn:FH; apply OK_inj in H; subst c0; [|rewrite N in V; discriminate].
  cbn in V. injection V as ->. split; [repeat split|]. split; [reflexivity|]. split; [|split; [reflexivity|eapply find_host_in; eauto]].
  apply plain_K. split; [repeat split|]. split; [reflexivity|]. discriminate.
Qed.

(** a file or a listing: no application is involved *)
Lemma dispatch_plain E fs v i asked c c' : codes_ok v -> plain c -> c_type c = UNDECIDED ->
  dispatch E fs v i asked c = OK c' -> (c_type c' = RFILE \/ c_type c' = RDIR) -> plain c'.
Proof.
  intros HC H HT. unfold dispatch. intros Q TF. apply bind_ok in Q as (r & AR & Q).
  unfold apply_reverse_proxy in AR. destruct (matched_proxy _ _ _ _ _) as [p|].
  - cbv zeta in AR. set (c1 := set_up (Some p) (c_up c) c) in *.
    assert (H1 : plain c1) by exact H.
    pose proof (cert_plain E (p_reqca p) c1 H1) as W.
    destruct (match p_reqca p with Some ca => _ | None => _ end) as [c2|c2].
    + apply OK_inj in AR. subst r. apply OK_inj in Q. subst c'. exact W.
    + destruct W as [W _]. destruct (negb (e_upstream E p)).
      { apply OK_inj in AR. subst r. apply OK_inj in Q. subst c'. apply plain_reply; [lia|exact W]. }
      assert (W2 : plain (set_pfd PUp c2)) by (destruct W as (A & B & _); split; [exact A|]; split; [exact B|discriminate]).
      destruct (p_notls p).
      * apply bind_ok in AR as (c3 & PE & AR). apply OK_inj in AR. subst r. apply OK_inj in Q. subst c'.
        unfold proxy_enqueue_req in PE. apply bind_ok in PE as (line & _ & PE). apply OK_inj in PE. subst c3.
        cbn in TF. destruct TF; discriminate.
      * destruct (e_uptls E p); apply OK_inj in AR; subst r; apply OK_inj in Q; subst c'.
        -- exact W2.
        -- apply plain_reply; [lia|exact W2].
  - apply OK_inj in AR. subst r.
    destruct (negb _ || negb _); [apply OK_inj in Q; subst; apply plain_reply; [lia|exact H]|].
    pose proof (cert_plain E (vhost_require_ca (e_fnm E) v (c_path i)) c H) as W.
    destruct (match vhost_require_ca (e_fnm E) v (c_path i) with Some a => _ | None => _ end) as [c1|c1].
    { apply OK_inj in Q. subst. exact W. }
    destruct W as [W WT]. rewrite HT in WT.
    apply bind_ok in Q as (r & AB & Q). unfold apply_block_return in AB.
    destruct (governs_exists (e_fnm E) (c_path i) (fun l => l_block_code l <> 0) (fun l => negb (l_block_code l =? 0)) v) as (lb & Gb); [intros l; lia|].
    rewrite (Prop_Conf.c13_block _ _ _ _ Gb) in AB.
    assert (CB : l_block_code lb = 0 \/ 10 <= l_block_code lb < 20 \/ 30 <= l_block_code lb < 70).
    { unfold codes_ok in HC. rewrite Forall_forall in HC. apply HC. eapply governs_in; eauto. }
    destruct (N.eqb_spec (l_block_code lb) 0).
    + apply OK_inj in AB. subst r. apply bind_ok in Q as (r & AF & Q). unfold apply_fastcgi in AF.
      destruct (vhost_fastcgi _ _ _) as [l|]; [|apply OK_inj in AF; subst r; eapply file_plain; eauto].
      destruct (l_fcgi l) as [n|]; [|apply OK_inj in AF; subst r; eapply file_plain; eauto].
      destruct (nth_error _ _); [|apply OK_inj in AF; subst r; eapply file_plain; eauto].
      destruct (negb (e_fcgi E n)).
      * apply OK_inj in AF. subst r. apply OK_inj in Q. subst c'. apply plain_reply; [lia|].
        destruct W as (A & B & _). split; [exact A|]. split; [exact B|discriminate].
      * cbv zeta in AF. apply bind_ok in AF as (b & _ & AF). apply OK_inj in AF. subst r. apply OK_inj in Q. subst c'.
        cbn [act set_pfd set_cgi c_type] in TF. rewrite WT in TF. destruct TF; discriminate.
    + cbv zeta in AB. apply bind_ok in AB as (meta & _ & AB). apply OK_inj in AB. subst r. apply OK_inj in Q. subst c'.
      apply plain_reply; [lia|exact W].
Qed.

Lemma client_read_plain E fs c c' : conf_ok E -> (forall v, c_vhost c = Some v -> In v (c_hosts (e_conf E))) ->
  K c -> c_closed c = false -> c_hs c = true -> (c_type c = UNDECIDED -> c_cgibev c = None) ->
  client_read E fs c = OK c' -> c_type c = UNDECIDED -> (c_type c' = RFILE \/ c_type c' = RDIR) -> plain c'.
Proof.
  intros HO HV HK L Hs HP Q0 T. revert Q0. unfold client_read. rewrite T. intros Q0 TF. revert Q0.
  specialize (HP T). pose proof (K_plain c HK L Hs T HP) as H0.
  destruct (1026 <? length (c_in c))%nat; [intros Q; apply OK_inj in Q; subst; apply plain_reply; [lia|exact H0]|].
  destruct (readln (c_in c)) as [[line rest]|]; [|intros Q; apply OK_inj in Q; subst; rewrite T in TF; destruct TF; discriminate].
  cbv zeta. assert (H1 : plain (set_in rest c)) by exact H0.
  destruct (1026 <? length line)%nat; [intros Q; apply OK_inj in Q; subst; apply plain_reply; [lia|exact H1]|].
  destruct (existsb (N.eqb 0) line); [intros Q; apply OK_inj in Q; subst; apply plain_reply; [lia|exact H1]|].
  intros Q. apply bind_ok in Q as ((ok & p) & _ & Q). destruct (comps_of p) as [i|]; [|discriminate].
  assert (H2 : plain (set_iri (Some i) (set_in rest c))) by exact H0.
  destruct (negb ok); [apply OK_inj in Q; subst; apply plain_reply; [lia|exact H2]|].
  apply bind_ok in Q as (d & _ & Q). destruct d as [|[] out]; [discriminate| |apply OK_inj in Q; subst; apply plain_reply; [lia|exact H2]].
  destruct (cstr out) as [dec|]; [|discriminate]. destruct (c_vhost (set_iri (Some i) (set_in rest c))) as [v|] eqn:CV; [|discriminate].
  eapply dispatch_plain; [|exact H2|exact T|exact Q|exact TF].
  unfold conf_ok in HO. rewrite Forall_forall in HO. apply HO. apply HV. exact CV.
Qed.

(** what is known once the request was answered *)
Lemma opening_done E fs sni v line i asked chunks c0 c1 : conf_ok E -> sort_ok E -> request E fs sni v line i asked chunks c0 ->
  run E (opening fs sni chunks) fresh = Some (OK c1) ->
  exists d, decides E fs v i (c_domain c0) asked d /\ performed E v i d c0 c1 /\ K c1 /\ c_closed c1 = false /\ wok c1 /\
    c_conns c0 = [] /\ c_sent c0 = [] /\ c_type c0 = UNDECIDED /\ history E (opening fs sni chunks) c1 /\ ((c_type c1 = RFILE \/ c_type c1 = RDIR) -> plain c1).
Proof.
  intros HO HS [R1 R2 R3 R4 R5 R6] R. destruct (handshake_waiting E sni v c0 R1 R2) as (W & I0 & K0 & CG & IV).
  pose proof R as RH. unfold opening in R.
  change (EvHandshake sni :: reads fs chunks) with ([EvHandshake sni] ++ reads fs chunks) in R. rewrite run_app, R1 in R.
  assert (CO : codes_ok v) by (unfold conf_ok in HO; rewrite Forall_forall in HO; auto).
  destruct (c15_decision E fs v c0 line i asked chunks c1 W I0 HS CO R3 R4 R5 R6 R) as (d & D & P). exists d.
  split; [exact D|]. split; [exact P|]. pose proof W as (W1 & W2 & W3 & W4 & W5 & W6 & W7).
  pose proof R as R'. rewrite (reads_line E fs line chunks c0 W1 W2 W3 I0 R3 R4 R6) in R'. injection R' as R'.
  assert (K1 : K c1).
  { eapply (client_read_K E fs (set_in (line ++ CRLF) c0)); [exact HO| | | | | |exact R']; auto.
    intros v0 V0. cbn in V0. rewrite R2 in V0. injection V0 as <-. exact IV. }
  split; [exact K1|]. destruct P as (new & _ & _ & Cl & _ & _).
  split; [rewrite Cl; exact W2|].
  assert (HH : history E (opening fs sni chunks) c1) by (apply history_run; exact RH).
  assert (BS : bytes_sent (opening fs sni chunks)).
  { intros chunk f [X|X]; [discriminate|]. unfold reads in X. apply in_map_iff in X as (y & Y1 & Y2). injection Y1 as <- <-.
    destruct R6 as [C _]. destruct R5 as (_ & HB & _). assert (Z : bytes (line ++ CRLF)) by (apply bytes_app; split; [exact HB|repeat constructor]).
    rewrite <- C in Z. unfold bytes in *. rewrite Forall_forall in *. intros b Hb. apply Z. apply in_concat. eauto. }
  destruct (history_LI E _ c1 BS HH) as (_ & (_ & WO) & _).
  split; [exact WO|]. split; [|split; [exact W7|split; [exact W3|split; [exact HH|]]]].
  - destruct K0 as (_ & KL). destruct (KL W2) as (_ & [[X _]|(k & _ & X & _)] & _); [exact X|congruence].
  - eapply (client_read_plain E fs (set_in (line ++ CRLF) c0)); [exact HO| | | | | |exact R'|]; auto.
    intros v0 V0. cbn in V0. rewrite R2 in V0. injection V0 as <-. exact IV.
Qed.
