(** C63, C64: connections move on, and come to an end. *)
From Coq Require Import Lia.
From Verif Require Import Base BaseLemmas Compat Iri IriSpec IriObs IriOut Puny Conf ConfSpec Mime Fmt Fcgi Server ServerSpec Iri_Last_Proofs Server_Proofs Decide_Proofs RequestSpec HistorySpec Run_Proofs Wiring_Proofs Hist_Proofs Prop_Server Prop_History BodySpec Body_Proofs LiveSpec Live_Proofs.
From Verif Require Prop_Body.
Local Open Scope N_scope.

(** ** C63: nobody is left hanging *)

(** Whatever happens on a connection, as long as it is open the next move is that
    of the client (the handshake or the rest of its request), or of the server
    (more of the reply is being sent), or of an application or upstream whose
    connection is open and whose reply is not over. *)
Theorem c63_moves_partial E es c : conf_ok E -> civil_history E es c -> c_closed c = false ->
  awaits_client c \/ sending c \/ awaits_backend c.
Proof.
  intros HO H L. destruct (history_W E es c HO H L) as (W1 & W2 & W3 & W4 & W5 & W6).
  destruct (history_inv E es c HO (civil_polite _ _ _ H)) as ((_ & HJ) & (_ & HK)). destruct (HJ L) as (_ & _ & J3 & _). destruct (HK L) as (K1 & K2 & _).
  unfold awaits_client, sending, awaits_backend. destruct (c_hs c) eqn:Hs; [|auto]. destruct (c_type c) eqn:T.
  - destruct K2 as [[N G]|(k & N & G & _)].
    + left. right. destruct (J3 eq_refl G) as (_ & R & _). destruct (W6 eq_refl G). auto.
    + right. right. left. split; [reflexivity|]. exists k. split; [rewrite N; left; reflexivity|]. apply W5; [reflexivity|rewrite N; left; reflexivity].
  - right. left. apply W2. unfold decided. auto.
  - right. left. apply W2. unfold decided. auto.
  - congruence.
  - right. right. right. auto.
  - right. left. apply W2. unfold decided. auto.
Qed.
(** Once the reply no longer depends on a backend, the server is sending. *)
Theorem c63_decided_partial E es c : conf_ok E -> civil_history E es c -> c_closed c = false -> decided c -> sending c.
Proof. intros HO H L D. destruct (history_W E es c HO H L) as (_ & W2 & _). apply W2. exact D. Qed.

(** The reservation is needed: an application that closes the connection in the
    middle of its reply, after what it sent has been passed on, leaves the
    client with an open connection on which nothing will ever happen. *)
Definition hang_up : list event :=
  [EvHandshake (Some (s2b "h")); EvRead (s2b "gemini://h/a" ++ CRLF) nofs;
   EvFcgi 0 (stdout_rec (s2b "20 text/plain" ++ CRLF ++ s2b "half of the body")); EvWrite 1000 RdErr; EvFcgiEnd 0].
Lemma hung_steps E c : c_closed c = false -> c_hs c = true -> c_type c = DONE -> c_wev c = false -> c_up c = None ->
  forallb (fun k => negb (k_open k)) (c_conns c) = true ->
  forall e c', step E e c = Some (OK c') -> e = EvReadEnd \/ (exists chunk fs, e = EvRead chunk fs).
Proof.
  intros A1 A2 A3 A4 A5 A6.
  assert (NK : forall i k, nth_error (c_conns c) i = Some k -> k_open k = false).
  { intros i k X. apply nth_error_In in X. rewrite forallb_forall in A6. apply A6 in X. apply negb_true_iff in X. exact X. }
  intros e c'. destruct e as [sni| |chunk fs| |n a| |i chunk|i|r|chunk|]; unfold step; cbv zeta; rewrite ?A1, ?A2, ?A3, ?A4, ?A5; cbn [negb andb]; try discriminate; try (intros _; eauto; fail).
  - destruct (nth_error (c_conns c) i) as [k|] eqn:NE; [|discriminate]. rewrite (NK _ _ NE). discriminate.
  - destruct (nth_error (c_conns c) i) as [k|] eqn:NE; [|discriminate]. rewrite (NK _ _ NE). discriminate.
Qed.
Theorem c63_hangs_refuted : conf_ok fcgi_env /\ exists c, polite_history fcgi_env hang_up c /\ c_closed c = false /\
  ~ awaits_client c /\ ~ sending c /\ ~ awaits_backend c /\
  forall e c', step fcgi_env e c = Some (OK c') -> e = EvReadEnd \/ (exists chunk fs, e = EvRead chunk fs).
Proof.
  split; [repeat constructor|].
  assert (X : exists c, run fcgi_env hang_up fresh = Some (OK c) /\ c_closed c = false /\ c_hs c = true /\ c_type c = DONE /\ c_wev c = false /\ c_up c = None /\
    forallb (fun k => negb (k_open k)) (c_conns c) = true).
  { eexists. split; [vm_compute; reflexivity|]. vm_compute. auto 10. }
  destruct X as (c & R & A1 & A2 & A3 & A4 & A5 & A6). exists c.
  split. { apply (run_history fcgi_env hang_up fresh c [] (p_new _)); [|exact R]. vm_compute. repeat split; reflexivity. }
  split; [exact A1|]. unfold awaits_client, sending, awaits_backend. rewrite A2, A3, A4.
  split; [intros [X|(_ & X & _)]; discriminate|]. split; [discriminate|]. split; [intros [[X _]|[X _]]; discriminate|].
  apply (hung_steps fcgi_env c A1 A2 A3 A4 A5 A6).
Qed.

(** the hypotheses of the partial theorem, and each of the three cases, occur *)
Fixpoint civil_run (E : env) (es : list event) (c : client) : Prop :=
  match es with
  | [] => True
  | e :: r => polite_step c e /\ civil_step c e /\ match step E e c with Some (OK c') => civil_run E r c' | _ => True end
  end.
Lemma run_civil E : forall es c0 c hs, civil_history E hs c0 -> civil_run E es c0 -> run E es c0 = Some (OK c) -> civil_history E (hs ++ es) c.
Proof.
  induction es as [|e es IH]; intros c0 c hs H P; cbn [run].
  - intros Q. injection Q as <-. rewrite app_nil_r. exact H.
  - cbn [civil_run] in P. destruct P as (P1 & P2 & P3). destruct (step E e c0) as [[c1| |]|] eqn:S; try discriminate. intros Q.
    replace (hs ++ e :: es) with ((hs ++ [e]) ++ es) by (rewrite <- app_assoc; reflexivity).
    eapply IH; [|exact P3|exact Q]. eapply v_step; eauto.
Qed.
Example c63_case : exists c1 c2 c3, civil_history fcgi_env (firstn 2 hang_up) c1 /\ awaits_backend c1 /\ ~ sending c1 /\
  civil_history fcgi_env (firstn 3 hang_up) c2 /\ sending c2 /\ civil_history fcgi_env (firstn 1 hang_up) c3 /\ awaits_client c3 /\ ~ sending c3.
Proof.
  assert (X : forall n, (n <= 3)%nat -> exists c, run fcgi_env (firstn n hang_up) fresh = Some (OK c) /\ civil_run fcgi_env (firstn n hang_up) fresh /\
     match n with 1%nat => c_type c = UNDECIDED /\ c_in c = [] /\ replies c = [] /\ c_wev c = false
                | 2%nat => c_type c = UNDECIDED /\ c_conns c = [mkConn [] true] /\ c_wev c = false | 3%nat => c_wev c = true | _ => True end).
  { intros [|[|[|[|]]]] H; [..|lia]; (eexists; split; [vm_compute; reflexivity|]; split; [vm_compute; repeat split; intros; try reflexivity; try discriminate|vm_compute; auto]). }
  destruct (X 1%nat ltac:(lia)) as (c3 & R3 & P3 & T3 & I3 & S3 & V3). destruct (X 2%nat ltac:(lia)) as (c1 & R1 & P1 & T1 & K1 & V1). destruct (X 3%nat ltac:(lia)) as (c2 & R2 & P2 & V2).
  exists c1, c2, c3. unfold awaits_backend, awaits_client, sending. rewrite T1, K1, V1, V2, V3.
  split; [apply (run_civil _ _ fresh c1 [] (v_new _)); assumption|]. split; [left; split; [reflexivity|]; eexists; split; [left; reflexivity|reflexivity]|]. split; [discriminate|].
  split; [apply (run_civil _ _ fresh c2 [] (v_new _)); assumption|]. split; [reflexivity|].
  split; [apply (run_civil _ _ fresh c3 [] (v_new _)); assumption|]. split; [|discriminate]. right. rewrite I3. cbn. repeat split; auto; lia.
Qed.

(** ** C64: replies come to an end *)
Definition going (c : client) : Prop := c_closed c = false /\ c_hs c = true /\ c_wev c = true /\ decided c /\ Forall (fun d => entry_name (fst d)) (c_dir c).
Lemma write_going E n a c : going c -> exists c', step E (EvWrite n a) c = Some (OK c') /\
  (c_closed c' = true \/ (going c' /\ (measure c' < measure c)%nat)).
Proof.
  intros (L & Hs & V & D & EN). unfold step. cbv zeta. rewrite L, Hs, V. cbn [negb andb].
  set (k := Nat.min _ _). set (out := skipn k (c_out c)). set (c1 := set_io out (c_sent c ++ firstn k (c_out c)) (negb (isnil out)) c).
  assert (LO : length out = (length (c_out c) - k)%nat) by (unfold out; apply skipn_length).
  assert (LK : (c_out c <> [] -> 1 <= k)%nat) by (intros X; destruct (c_out c); [congruence|]; unfold k; cbn [length]; destruct n; lia).
  destruct out as [|x out'] eqn:OU.
  2:{ exists c1. split; [reflexivity|]. right. split; [repeat split; auto|]. unfold measure. change (left c1) with (left c). change (c_out c1) with (x :: out').
      rewrite LO. assert (c_out c <> []) by (intros X; rewrite X in LO; cbn [length] in LO; lia). specialize (LK H). cbn [length] in LO. lia. }
  unfold client_write. change (c_type c1) with (c_type c). change (c_pfd c1) with (c_pfd c). change (c_dir c1) with (c_dir c). destruct D as [T|[T|T]]; rewrite T.
  - destruct a as [|m]; [eexists; split; [reflexivity|left; reflexivity]|].
    destruct (c_pfd c) as [|rest| | |] eqn:P; try (eexists; split; [reflexivity|left; reflexivity]).
    cbv zeta. set (r := Nat.min BUFSIZ (Nat.min m (length rest))). destruct (Nat.eqb_spec r 0) as [Z|Z]; [eexists; split; [reflexivity|left; reflexivity]|].
    assert (FN : firstn r rest <> []) by (destruct rest; [unfold r in Z; cbn [length] in Z; lia|destruct r; [lia|discriminate]]).
    eexists. split; [reflexivity|]. right. rewrite (add_out_eq _ _ FN).
    set (c2 := set_pfd (PFile (skipn r rest)) c1). set (c3 := if (r =? BUFSIZ)%nat then c2 else set_type DONE c2).
    assert (F : c_out c3 = [] /\ c_closed c3 = false /\ c_hs c3 = true /\ c_pfd c3 = PFile (skipn r rest) /\ c_dir c3 = c_dir c /\ (c_type c3 = RFILE \/ c_type c3 = DONE)).
    { unfold c3. destruct (r =? BUFSIZ)%nat; repeat split; auto. }
    destruct F as (F1 & F2 & F3 & F4 & F5 & F6).
    split. { split; [exact F2|]. split; [exact F3|]. split; [reflexivity|]. split; [unfold decided; cbn [set_io c_type]; tauto|]. cbn [set_io c_dir]. rewrite F5. exact EN. }
    unfold measure, left. cbn [set_io c_out c_type c_pfd]. rewrite F1, F4, T, P. cbn [app]. rewrite firstn_length, skipn_length.
    assert (r <= length rest)%nat by (unfold r; lia). destruct F6 as [-> | ->]; lia.
  - rewrite (Prop_Body.dir_lines_ok _ EN). cbn [bind]. eexists. split; [reflexivity|]. right.
    set (c2 := add_out _ _). assert (F : c_closed c2 = false /\ c_hs c2 = true /\ c_type c2 = DONE /\ c_dir c2 = []).
    { unfold c2. destruct (add_out_same (concat (map link_line (c_dir c))) (set_type DONE (set_dir [] c1))) as (-> & -> & _ & _ & _ & _ & _ & _ & -> & _).
      rewrite add_out_type. auto. }
    destruct F as (F1 & F2 & F3 & F4).
    split. { split; [exact F1|]. split; [exact F2|]. split; [reflexivity|]. split; [unfold decided; cbn [set_io c_type]; tauto|]. cbn [set_io c_dir]. rewrite F4. constructor. }
    unfold measure, left. cbn [set_io c_out c_type]. rewrite F3, T, (Prop_Body.dir_lines_ok _ EN). unfold c2. rewrite add_out_out. change (c_out (set_type DONE (set_dir [] c1))) with (@nil N). cbn [app]. lia.
  - change (c_out c1) with (@nil N). eexists. split; [reflexivity|left; reflexivity].
Qed.
Lemma going_ends E : forall m c, going c -> (measure c <= m)%nat -> forall ws, Forall is_write ws -> (m <= length ws)%nat ->
  exists n c', run E (firstn n ws) c = Some (OK c') /\ c_closed c' = true.
Proof.
  induction m as [|m IH]; intros c G M ws FW LW; [unfold measure in M; lia|].
  destruct ws as [|e ws]; [cbn in LW; lia|]. inversion FW as [|? ? IW FW']; subst. destruct e as [| | | |n a| | | | | |]; try contradiction.
  destruct (write_going E n a c G) as (c1 & ST & [C|(G1 & M1)]).
  - exists 1%nat, c1. cbn [firstn run]. rewrite ST. auto.
  - destruct (IH c1 G1 ltac:(lia) ws FW' ltac:(cbn [length] in LW; lia)) as (k & c' & R & C). exists (S k), c'. cbn [firstn run]. rewrite ST. auto.
Qed.

(** Once the reply no longer depends on a backend, there is a number of writes
    after which the connection is closed, however little each of them sends and
    whatever read(2) answers. *)
Theorem c64_ends E es c : conf_ok E -> civil_history E es c -> decided c -> Forall (fun d => entry_name (fst d)) (c_dir c) ->
  exists N, forall ws, Forall is_write ws -> (N <= length ws)%nat -> c_closed c = true \/
    exists n c', run E (firstn n ws) c = Some (OK c') /\ c_closed c' = true.
Proof.
  intros HO H D EN. exists (measure c). intros ws FW LW. destruct (c_closed c) eqn:L; [auto|]. right.
  eapply (going_ends E (measure c)); auto. split; [exact L|]. split; [|split; [|split; [exact D|exact EN]]].
  - destruct (history_inv E es c HO (civil_polite _ _ _ H)) as (_ & (_ & HK)). destruct (HK L) as (K1 & _). destruct (c_hs c); [reflexivity|].
    destruct (K1 eq_refl) as (_ & T). destruct D as [X|[X|X]]; congruence.
  - eapply c63_decided_partial; eauto.
Qed.
(** an open connection can always be written to when it is decided, and the
    client going away closes any connection whose handshake is over *)
Theorem c64_gone E es c : history E es c -> c_closed c = false -> c_hs c = true -> exists c', step E EvReadEnd c = Some (OK c') /\ c_closed c' = true.
Proof. intros H L Hs. unfold step. cbv zeta. rewrite L, Hs. cbn [negb andb]. eexists. split; [reflexivity|]. reflexivity. Qed.

Example c64_case : let E := ex_env (ex_vhost plain_loc [] []) None in
  exists c, civil_history E (firstn 3 ex_events) c /\ decided c /\ c_closed c = false /\ c_dir c = [].
Proof.
  cbv zeta. set (E := ex_env _ _).
  assert (X : exists c, run E (firstn 3 ex_events) fresh = Some (OK c) /\ civil_run E (firstn 3 ex_events) fresh /\ c_type c = RFILE /\ c_closed c = false /\ c_dir c = []).
  { eexists. split; [vm_compute; reflexivity|]. split; [vm_compute; repeat split; intros; reflexivity|]. vm_compute. auto. }
  destruct X as (c & R & P & T & L & D). exists c. split; [apply (run_civil _ _ fresh c [] (v_new _)); assumption|]. unfold decided. auto.
Qed.

Print Assumptions c63_moves_partial.
Print Assumptions c63_hangs_refuted.
Print Assumptions c64_ends.
