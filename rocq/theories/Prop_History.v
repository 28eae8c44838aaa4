(** C17, C47, C48, C49: every history of a connection.  Polite histories are
    those in which the client sends nothing while a FastCGI application works
    on its request; for the others the claims are false. *)
From Verif Require Import Base BaseLemmas Compat Iri IriSpec IriObs IriOut Puny Conf ConfSpec Mime Prop_Conf Fmt Fcgi Server ServerSpec Iri_Last_Proofs Server_Proofs Decide_Proofs RequestSpec Request_Proofs HistorySpec Run_Proofs Wiring_Proofs Hist_Proofs Prop_Server.
Local Open Scope N_scope.

(** ** C17 *)
Lemma header_wf code m : 10 <= code < 70 -> (length m <= 1024)%nat -> wf_header (header code m).
Proof.
  intros HC L. exists (48 + code / 10), (48 + code mod 10), m. split; [reflexivity|].
  assert (code / 10 < 10) by (apply N.div_lt_upper_bound; lia). pose proof (N.mod_lt code 10 ltac:(lia)).
  unfold is_digit. repeat split; auto; lia.
Qed.

(** All that is ever queued for the client is one well-formed header and a body *)
Theorem c17_one_header E es c : conf_ok E -> polite_history E es c ->
  stream c = [] \/ exists h body, stream c = h ++ body /\ wf_header h.
Proof.
  intros HO H. destruct (history_inv E es c HO H) as ((A & _) & _). destruct A as [(_ & _ & O & S & _)|(code & meta & m & body & H1 & _ & _ & _ & H5 & H6 & _)].
  - left. unfold stream. rewrite S, O. reflexivity.
  - right. exists (header code m), body. split; [exact H6|]. apply header_wf; assumption.
Qed.

(** ... which carries the code and the meta of the reply, the language being
    added to text/gemini *)
Theorem c17_header_is_reply E es c code meta : conf_ok E -> polite_history E es c -> In (code, meta) (replies c) ->
  exists m body, stream c = header code m ++ body /\ with_lang meta m /\ (length m <= 1024)%nat /\ 10 <= code < 70.
Proof.
  intros HO H IN. destruct (history_inv E es c HO H) as ((A & _) & _). destruct A as [(_ & R & _)|(code' & meta' & m & body & H1 & H2 & H3 & H4 & H5 & H6 & H7)].
  - rewrite R in IN. destruct IN.
  - rewrite H3 in IN. destruct IN as [X|[]]. injection X as <- <-. exists m, body. auto.
Qed.

(** a meta that does not fit is replaced by a 40 *)
Theorem c17_too_long E code meta c : 10 <= code < 70 -> (1024 < length meta)%nat ->
  let c' := reply E code meta c in
  c_out c' = header 40 (s2b "internal error") /\ c_type c' = DONE /\ c_code c' = 40.
Proof.
  intros HC L. pose proof (reply_spec E code meta c ltac:(lia) ltac:(lia)) as R. cbv zeta in *. destruct R as (_ & _ & R).
  assert (F : fits E c meta = false).
  { apply Nat.leb_gt. unfold full_meta. rewrite app_length. lia. }
  rewrite F in R. destruct R as (O & C & T & _). auto.
Qed.

(** Non-vacuity: a request in two pieces, then the file *)
Fixpoint all_polite (E : env) (es : list event) (c : client) : Prop :=
  match es with
  | [] => True
  | e :: r => polite_step c e /\ match step E e c with Some (OK c') => all_polite E r c' | _ => True end
  end.
Lemma run_history E es : forall c0 c hs, polite_history E hs c0 -> all_polite E es c0 ->
  run E es c0 = Some (OK c) -> polite_history E (hs ++ es) c.
Proof.
  induction es as [|e es IH]; intros c0 c hs H P; cbn [run].
  - intros Q. injection Q as <-. rewrite app_nil_r. exact H.
  - destruct P as [P1 P2]. destruct (step E e c0) as [[c1| |]|] eqn:S; try discriminate. intros Q.
    replace (hs ++ e :: es) with ((hs ++ [e]) ++ es) by (rewrite <- app_assoc; reflexivity).
    eapply (IH c1 c (hs ++ [e])); [|exact P2|exact Q]. eapply p_step; eauto.
Qed.

Definition ex_events : list event :=
  [EvHandshake (Some (s2b "h")); EvRead (s2b "gemini://h/f.") ex_fs; EvRead (s2b "gmi" ++ CRLF) ex_fs; EvWrite 5 (RdMax 100); EvWrite 1000 (RdMax 100); EvWrite 1000 (RdMax 100)].
Example c17_example : let E := ex_env (ex_vhost plain_loc [] []) None in conf_ok E /\
  exists c, polite_history E ex_events c /\ stream c = s2b "20 text/gemini" ++ CRLF ++ s2b "hello" /\ replies c = [(20, s2b "text/gemini")] /\ c_closed c = true.
Proof.
  cbv zeta. split; [repeat constructor|]. set (E := ex_env _ _).
  assert (R : exists c, run E ex_events fresh = Some (OK c) /\ stream c = s2b "20 text/gemini" ++ CRLF ++ s2b "hello" /\ replies c = [(20, s2b "text/gemini")] /\ c_closed c = true).
  { eexists. split; [vm_compute; reflexivity|]. split; [vm_compute; reflexivity|]. split; vm_compute; reflexivity. }
  destruct R as (c & R & R1). exists c. split; [|exact R1].
  apply (run_history E ex_events fresh c [] (p_new E)); [|exact R].
  vm_compute. repeat split; reflexivity.
Qed.

(** ** C47: one reply per connection *)
Theorem c47_one_reply_partial E es c : conf_ok E -> polite_history E es c -> (length (replies c) <= 1)%nat.
Proof.
  intros HO H. destruct (history_inv E es c HO H) as ((A & _) & _).
  destruct A as [(_ & R & _)|(code & meta & m & body & _ & _ & R & _)]; rewrite R; cbn; lia.
Qed.

(** False without politeness: while the application answers, a second line is
    read and answered in the middle of the body. *)
Definition fcgi_loc : location := mkLoc (s2b "*") [] [] [] 0 0 [] 0 None false (Some 0%nat) false 0 [] [] None.
Definition fcgi_env : env :=
  mkEnv (mkConf [] [mkFcgi (s2b "/s") []] [ex_vhost fcgi_loc [] []]) lit (fun _ => false) None (fun _ => false) 1965 (s2b "::1") (s2b "::1") (s2b "gmid")
    (fun _ => true) (fun _ => true) (fun _ => true) isort (repeat 0 1027).
Definition stdout_rec (s : list N) : list N := [1; 6; 0; 1; 0; N.of_nat (length s); 0; 0] ++ s.
Definition nofs (fd : N) (p : list N) : node := NMissing.

Lemma history_app E : forall es c0 c hs, history E hs c0 -> run E es c0 = Some (OK c) -> history E (hs ++ es) c.
Proof.
  induction es as [|e es IH]; intros c0 c hs H; cbn [run].
  - intros Q. injection Q as <-. rewrite app_nil_r. exact H.
  - destruct (step E e c0) as [[c1| |]|] eqn:S; try discriminate. intros Q.
    replace (hs ++ e :: es) with ((hs ++ [e]) ++ es) by (rewrite <- app_assoc; reflexivity).
    eapply IH; [|exact Q]. eapply h_step; eauto.
Qed.
Lemma history_run E es c : history E es c <-> run E es fresh = Some (OK c).
Proof.
  split.
  - intros H. induction H as [|es e c c' H IH S]; [reflexivity|]. rewrite run_app, IH. cbn [run]. rewrite S. reflexivity.
  - intros H. exact (history_app E es fresh c [] (h_new E) H).
Qed.

Definition pipelined : list event :=
  [EvHandshake (Some (s2b "h")); EvRead (s2b "gemini://h/a" ++ CRLF) nofs; EvFcgi 0 (stdout_rec (s2b "20 text/plain" ++ CRLF ++ s2b "half of the body"));
   EvRead (s2b "nonsense" ++ CRLF) nofs].

Theorem c47_one_reply_refuted : ~ (forall E es c, conf_ok E -> history E es c -> (length (replies c) <= 1)%nat).
Proof.
  intros H. assert (X : exists c, run fcgi_env pipelined fresh = Some (OK c) /\ length (replies c) = 2%nat).
  { eexists. split; [vm_compute; reflexivity|]. vm_compute. reflexivity. }
  destruct X as (c & R & L). specialize (H fcgi_env pipelined c ltac:(repeat constructor) (proj2 (history_run _ _ _) R)). lia.
Qed.

(** nor is what it receives one header and the body: the second header follows *)
Theorem c17_pipelined_refuted : ~ (forall E es c, conf_ok E -> history E es c ->
  forall code meta, In (code, meta) (replies c) -> exists body, stream c = header code meta ++ body).
Proof.
  intros H. assert (X : exists c, run fcgi_env pipelined fresh = Some (OK c) /\ In (59, s2b "bad request") (replies c) /\
     stream c = s2b "20 text/plain" ++ CRLF ++ s2b "half of the body59 bad request" ++ CRLF).
  { eexists. split; [vm_compute; reflexivity|]. split; [right; left; reflexivity|]. vm_compute. reflexivity. }
  destruct X as (c & R & I & S). destruct (H fcgi_env pipelined c ltac:(repeat constructor) (proj2 (history_run _ _ _) R) _ _ I) as (b & Q).
  rewrite S in Q. discriminate Q.
Qed.

(** ** C48: every reply is logged once, unless logging is off for the request *)
Theorem c48_logged_partial E es c : conf_ok E -> polite_history E es c ->
  logs c = (if vhost_disable_log (e_fnm E) (c_vhost c) (path_of c) then [] else replies c).
Proof.
  intros HO H. destruct (history_inv E es c HO H) as ((A & _) & _).
  destruct A as [(_ & R & _ & _ & L)|(code & meta & m & body & _ & _ & R & _ & _ & _ & L)]; rewrite R, L; [destruct (vhost_disable_log _ _ _)|]; reflexivity.
Qed.
Example c48_example : let E := ex_env (ex_vhost plain_loc [] []) None in
  exists c, run E ex_events fresh = Some (OK c) /\ logs c = [(20, s2b "text/gemini")].
Proof. cbv zeta. eexists. split; vm_compute; reflexivity. Qed.

(** ** C49: a closed connection is not used any more *)
Theorem c49_nothing_after_close_partial E es c e : conf_ok E -> polite_history E es c -> c_closed c = true -> step E e c = None.
Proof.
  intros HO H CL. destruct (history_inv E es c HO H) as (_ & (KC & _)). destruct (KC CL) as [U NK].
  destruct e; unfold step; cbv zeta; rewrite ?CL, ?U; cbn [negb andb]; try reflexivity.
  - destruct (nth_error (c_conns c) i) as [k|] eqn:X; [|reflexivity]. rewrite (NK k (nth_error_In _ _ X)). reflexivity.
  - destruct (nth_error (c_conns c) i) as [k|] eqn:X; [|reflexivity]. rewrite (NK k (nth_error_In _ _ X)). reflexivity.
  - destruct (c_type c); try reflexivity. destruct (c_pxy c); try reflexivity. destruct (c_iri c); reflexivity.
Qed.

(** False without politeness: two requests to an application, then the client
    leaves; what the first answers is handled with a client that was freed. *)
Theorem c49_use_after_free_refuted : ~ (forall E es e c, conf_ok E -> history E es c -> c_closed c = true -> step E e c <> Some UB).
Proof.
  intros H.
  set (es := [EvHandshake (Some (s2b "h")); EvRead (s2b "gemini://h/a" ++ CRLF) nofs; EvRead (s2b "gemini://h/a" ++ CRLF) nofs; EvReadEnd]).
  assert (X : exists c, run fcgi_env es fresh = Some (OK c) /\ c_closed c = true /\ step fcgi_env (EvFcgi 0 [1]) c = Some UB).
  { eexists. split; [vm_compute; reflexivity|]. split; vm_compute; reflexivity. }
  destruct X as (c & R & CL & S). exact (H fcgi_env es (EvFcgi 0 [1]) c ltac:(repeat constructor) (proj2 (history_run _ _ _) R) CL S).
Qed.
