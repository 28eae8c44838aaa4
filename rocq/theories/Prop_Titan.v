(** Property C72: uploading with titan(1).  Specification: TitanSpec.v; the program
    is [titan] of Titan.v. *)
From Verif Require Import Base BaseLemmas Iri IriSpec IriObs Fmt Titan TitanSpec Titan_Proofs.
Local Open Scope N_scope.

(** Whatever the url, the options, the file, the network and the server do, titan
    has no undefined behaviour (and does not loop for ever without the network). *)
Theorem c72_safe : forall bufsiz W o url i, env_ok W -> args_ok o url ->
  exists r, titan bufsiz W o url i = OK r.
Proof.
  intros bufsiz W o url i HW Ha. destruct (titan_run bufsiz W o url i HW Ha) as [(f & s & c & q & _ & _ & _ & _ & _ & _ & _ & ->)|[-> _]]; [|eauto].
  destruct (session_run bufsiz W (credentials o) c q f HW) as (r & -> & _). eauto.
Qed.
Print Assumptions c72_safe.

(** When it connects, it connects to the host and port of the url (1965 unless
    given) with the given certificate, and what it sends is, up to where it stopped,
    the request line with the size, token and mime parameters, then the file. *)
Theorem c72_request : forall bufsiz W o url i r, env_ok W -> args_ok o url ->
  titan bufsiz W o url i = OK r -> r_peer r <> None ->
  exists file size c line, open_input_file i = Some (file, size) /\
    (length url <= 1024)%nat /\ accepts (w_ip6 W) url c /\ c_scheme c = s2b "titan" /\
    r_peer r = Some (c_host c, default_port (c_port c)) /\ r_pair r = credentials o /\
    ((0 <= size)%Z -> exists ds, numeral (Z.to_N size) ds /\ line = titan_line c ds (o_token o) (o_mime o)) /\
    (length line <= 1024)%nat /\ prefix (r_wire r) (line ++ file).
Proof.
  intros bufsiz W o url i r HW Ha E P. destruct (titan_run bufsiz W o url i HW Ha) as [(f & s & c & q & F & L & A & S & Q & Lq & _ & T)|[T _]].
  2:{ rewrite T in E. inversion E; subst r. cbn in P. congruence. }
  destruct (session_run bufsiz W (credentials o) c q f HW) as (r' & T' & R & _). rewrite T, T' in E. inversion E; subst r'. clear E.
  destruct R as [->|(R1 & R2 & R3 & _)]; [cbn in P; congruence|].
  exists f, s, c, q. repeat (apply conj; [assumption|]). split; [destruct R1 as [R1|R1]; [congruence|exact R1]|].
  split; [exact R2|]. split.
  { intros H0. exists (decz s). split; [|exact Q]. unfold decz. destruct (Z.ltb_spec s 0); [lia|]. apply dec_numeral. }
  split; [exact Lq|]. rewrite <- (firstn_skipn bufsiz f). rewrite app_assoc. apply prefix_app. exact R3.
Qed.
Print Assumptions c72_request.

(** Anything else than a titan url that fits, or a key without a certificate, or a
    file that cannot be read: status 1, nothing printed and nobody contacted. *)
Theorem c72_refused : forall bufsiz W o url i, env_ok W -> args_ok o url ->
  (open_input_file i = None \/ (1024 < length url)%nat \/ (forall c, accepts (w_ip6 W) url c -> c_scheme c <> s2b "titan") \/
   (exists file size c, open_input_file i = Some (file, size) /\ accepts (w_ip6 W) url c /\
      (1024 < length (titan_line c (decz size) (o_token o) (o_mime o)))%nat) \/
   (o_cert o = None /\ o_key o <> None)) ->
  titan bufsiz W o url i = OK (mkRun (Exit 1) [] None None []).
Proof.
  intros bufsiz W o url i HW Ha H. destruct (titan_run bufsiz W o url i HW Ha) as [(f & s & c & q & F & L & A & S & Q & Lq & K & T)|[T _]]; [|exact T].
  exfalso. destruct H as [H|[H|[H|[H|H]]]].
  - congruence.
  - lia.
  - apply (H c A S).
  - destruct H as (f' & s' & c' & F' & A' & L'). rewrite F in F'. inversion F'; subst. rewrite (accepts_fun _ _ _ _ A' A) in L'. lia.
  - destruct H as [H1 H2]. apply H2. auto.
Qed.
Print Assumptions c72_refused.

(** Exit status.  When nothing fails and the server answers [rep] and closes, the
    status and the output are the ones of the manual for [rep], however the answer
    is split and whatever part of the file the server took before. *)
Theorem c72_exit_status : forall bufsiz W o url i file size c r rep, env_ok W -> args_ok o url ->
  open_input_file i = Some (file, size) -> (length url <= 1024)%nat -> accepts (w_ip6 W) url c -> c_scheme c = s2b "titan" ->
  (length (titan_line c (decz size) (o_token o) (o_mime o)) <= 1024)%nat -> (o_cert o = None -> o_key o = None) ->
  (forall f k, credentials o = Some (f, k) -> w_keypair W f k = true) ->
  w_dial W (c_host c) (default_port (c_port c)) = true -> w_start W = true ->
  Forall sending (w_send W) -> (length (titan_line c (decz size) (o_token o) (o_mime o)) < takes (w_send W))%nat ->
  calmly_answers (w_talk W) rep -> titan bufsiz W o url i = OK r ->
  exists k, r_end r = Exit k /\ outcome rep k (r_out r).
Proof.
  intros bufsiz W o url i file size c r rep HW Ha F L A S Ln K Hk Hd Hs Fs Ts Hr E.
  destruct (titan_run bufsiz W o url i HW Ha) as [(f' & s' & c' & q & F' & _ & A' & _ & Q & _ & _ & T)|[T X]].
  2:{ exfalso. destruct (X file size c F L A S Ln) as [X1 X2]. apply X2. auto. }
  rewrite F in F'. inversion F'; subst f' s'. pose proof (accepts_fun _ _ _ _ A' A); subst c'. subst q.
  destruct (session_run bufsiz W (credentials o) c (titan_line c (decz size) (o_token o) (o_mime o)) file HW) as (r' & T' & _ & R). rewrite T, T' in E. inversion E; subst r'.
  destruct (R Hk Hd Hs) as [_ R2]. destruct (R2 Fs Ts) as [R3 _]. apply R3. exact Hr.
Qed.
Print Assumptions c72_exit_status.

(** ... and in every run at all, status 0 or 2 means that the whole request line was
    sent and that the server did answer accordingly and closed the connection; the
    status is never anything but 0, 1, 2. *)
Theorem c72_exit_sound : forall bufsiz W o url i r k, env_ok W -> args_ok o url ->
  titan bufsiz W o url i = OK r -> r_end r = Exit k ->
  (k = 1%nat /\ r_out r = []) \/
  (exists rep, answers (w_talk W) rep /\ outcome rep k (r_out r)) /\
  (exists file size c, open_input_file i = Some (file, size) /\ accepts (w_ip6 W) url c /\
     prefix (titan_line c (decz size) (o_token o) (o_mime o)) (r_wire r)).
Proof.
  intros bufsiz W o url i r k HW Ha E Ek. destruct (titan_run bufsiz W o url i HW Ha) as [(f & s & c & q & F & L & A & S & Q & Lq & _ & T)|[T _]].
  2:{ rewrite T in E. inversion E; subst r. cbn in *. inversion Ek. left. auto. }
  destruct (session_run bufsiz W (credentials o) c q f HW) as (r' & T' & R & _). rewrite T, T' in E. inversion E; subst r'. clear E.
  destruct R as [->|(_ & _ & _ & _ & R)]; [cbn in *; inversion Ek; left; auto|]. rewrite Ek in R.
  destruct R as [R|[R1 R2]]; [left; exact R|right]. split; [exact R2|]. exists f, s, c. repeat split; auto. rewrite <- Q. exact R1.
Qed.
Print Assumptions c72_exit_sound.

Lemma outcome_codes : forall rep k o, outcome rep k o -> k = 0%nat \/ k = 1%nat \/ k = 2%nat.
Proof. intros rep k o H. destruct H; auto. Qed.
Lemma outcome_unique : forall rep k o k' o', outcome rep k o -> outcome rep k' o' -> k = k' /\ o = o'.
Proof. exact outcome_fun. Qed.

(** The whole file is sent: proved for files of at most BUFSIZ bytes.  When the
    server waits for the upload (says nothing) and the network takes at least one
    byte often enough, all of the line and the file has been taken, titan waiting
    for the answer. *)
Theorem c72_whole_file_partial : forall bufsiz W o url i file size c r, env_ok W -> args_ok o url ->
  open_input_file i = Some (file, size) -> (length url <= 1024)%nat -> accepts (w_ip6 W) url c -> c_scheme c = s2b "titan" ->
  (length (titan_line c (decz size) (o_token o) (o_mime o)) <= 1024)%nat -> (o_cert o = None -> o_key o = None) ->
  (forall f k, credentials o = Some (f, k) -> w_keypair W f k = true) ->
  w_dial W (c_host c) (default_port (c_port c)) = true -> w_start W = true ->
  Forall sending (w_send W) -> (length (titan_line c (decz size) (o_token o) (o_mime o)) < takes (w_send W))%nat ->
  Forall silent (w_talk W) -> (length file <= takes (w_talk W))%nat -> titan bufsiz W o url i = OK r ->
  (length file <= bufsiz)%nat ->
  r_end r = Running /\ r_wire r = titan_line c (decz size) (o_token o) (o_mime o) ++ file.
Proof.
  intros bufsiz W o url i file size c r HW Ha F L A S Ln K Hk Hd Hs Fs Ts Fw Tw E Lf.
  destruct (titan_run bufsiz W o url i HW Ha) as [(f' & s' & c' & q & F' & _ & A' & _ & Q & _ & _ & T)|[T X]].
  2:{ exfalso. destruct (X file size c F L A S Ln) as [X1 X2]. apply X2. auto. }
  rewrite F in F'. inversion F'; subst f' s'. pose proof (accepts_fun _ _ _ _ A' A); subst c'. subst q.
  destruct (session_run bufsiz W (credentials o) c (titan_line c (decz size) (o_token o) (o_mime o)) file HW) as (r' & T' & _ & R). rewrite T, T' in E. inversion E; subst r'.
  destruct (R Hk Hd Hs) as [_ R2]. destruct (R2 Fs Ts) as [_ R3]. destruct (R3 Fw) as [R4 R5]. split; [exact R4|].
  rewrite firstn_all2 in R5 by exact Lf. apply R5. exact Tw.
Qed.
Print Assumptions c72_whole_file_partial.

(** For a larger file it is false, always: whatever the schedule, no more than the
    first BUFSIZ bytes are ever sent, *)
Theorem c72_whole_file_refuted : forall bufsiz W o url i file size c r, env_ok W -> args_ok o url ->
  open_input_file i = Some (file, size) -> (bufsiz < length file)%nat -> accepts (w_ip6 W) url c ->
  titan bufsiz W o url i = OK r ->
  (length (r_wire r) <= length (titan_line c (decz size) (o_token o) (o_mime o)) + bufsiz)%nat.
Proof.
  intros bufsiz W o url i file size c r HW Ha F Lf A E.
  destruct (titan_run bufsiz W o url i HW Ha) as [(f' & s' & c' & q & F' & _ & A' & _ & Q & _ & _ & T)|[T X]].
  2:{ rewrite T in E. inversion E. cbn. lia. }
  rewrite F in F'. inversion F'; subst f' s'. pose proof (accepts_fun _ _ _ _ A' A); subst c'. subst q.
  destruct (session_run bufsiz W (credentials o) c (titan_line c (decz size) (o_token o) (o_mime o)) file HW) as (r' & T' & R & _). rewrite T, T' in E. inversion E; subst r'.
  destruct R as [->|(_ & _ & [x R] & _)]; [cbn; lia|]. apply (f_equal (@length N)) in R. rewrite !app_length, firstn_length in R. lia.
Qed.
Print Assumptions c72_whole_file_refuted.

(** ... so with a server that reads the whole upload before it says or does
    anything titan never ends. *)
Theorem c72_ends_refuted : forall bufsiz W o url i file size c, env_ok W -> args_ok o url ->
  open_input_file i = Some (file, size) -> (length url <= 1024)%nat -> accepts (w_ip6 W) url c -> c_scheme c = s2b "titan" ->
  (length (titan_line c (decz size) (o_token o) (o_mime o)) <= 1024)%nat -> (o_cert o = None -> o_key o = None) ->
  (forall f k, credentials o = Some (f, k) -> w_keypair W f k = true) ->
  w_dial W (c_host c) (default_port (c_port c)) = true -> w_start W = true ->
  Forall sending (w_send W) -> (length (titan_line c (decz size) (o_token o) (o_mime o)) < takes (w_send W))%nat ->
  Forall sending (w_talk W) -> (bufsiz < length file)%nat ->
  (forall a t b r, w_talk W = a ++ t :: b -> t_read t <> Rwant -> titan bufsiz (until W a) o url i = OK r ->
     r_wire r = titan_line c (decz size) (o_token o) (o_mime o) ++ file) ->
  exists r, titan bufsiz W o url i = OK r /\ r_end r = Running.
Proof.
  intros bufsiz W o url i file size c HW Ha F L A S Ln K Hk Hd Hs Fs Ts Fw Lf P.
  assert (HU : forall a b, w_talk W = a ++ b -> env_ok (until W a)).
  { intros a b E. destruct HW as (X1 & X2 & X3 & X4 & X5). repeat split; auto. cbn [until w_talk]. rewrite E in X5. apply Forall_app in X5. tauto. }
  assert (Si : forall a b, w_talk W = a ++ b -> Forall silent a).
  { intros a. induction a as [|t a IH] using rev_ind; intros b E; [constructor|]. rewrite <- app_assoc in E. cbn [app] in E.
    apply Forall_app. split; [eapply IH; exact E|]. constructor; [|constructor].
    assert (St : sending t). { rewrite E in Fw. apply Forall_app in Fw. destruct Fw as [_ Fw]. inversion Fw; assumption. }
    assert (R : t_read t = Rwant).
    { destruct (t_read t) eqn:R; [reflexivity|exfalso..].
      all: destruct (c72_safe bufsiz (until W a) o url i (HU _ _ E) Ha) as (r & Hr).
      all: pose proof (P a t b r E ltac:(congruence) Hr) as Wr.
      all: pose proof (c72_whole_file_refuted bufsiz (until W a) o url i file size c r (HU _ _ E) Ha F Lf A Hr) as Le.
      all: rewrite Wr, app_length in Le; lia. }
    destruct St as (S1 & S2 & S3). repeat split; auto; congruence. }
  specialize (Si (w_talk W) [] ltac:(rewrite app_nil_r; reflexivity)).
  destruct (titan_run bufsiz W o url i HW Ha) as [(f' & s' & c' & q & F' & _ & A' & _ & Q & _ & _ & T)|[T X]].
  2:{ exfalso. destruct (X file size c F L A S Ln) as [X1 X2]. apply X2. auto. }
  rewrite F in F'. inversion F'; subst f' s'. pose proof (accepts_fun _ _ _ _ A' A); subst c'. subst q.
  destruct (session_run bufsiz W (credentials o) c (titan_line c (decz size) (o_token o) (o_mime o)) file HW) as (r' & T' & _ & R).
  exists r'. split; [congruence|]. destruct (R Hk Hd Hs) as [_ R2]. destruct (R2 Fs Ts) as [_ R3]. destruct (R3 Si) as [R4 _]. exact R4.
Qed.
Print Assumptions c72_ends_refuted.

(** examples: a small upload, answered in two pieces *)
Definition ex_turns (n : nat) : list turn := repeat (mkT Pready Rwant (Wtook 0)) n.
Definition ex_world (talk : list turn) : world :=
  mkW (fun _ => false) (repeat 7 1025) (repeat 7 1025) (repeat 7 1025) (fun _ _ => true) (fun _ _ => true) true (ex_turns 100) talk.
Definition ex_opts : opts := mkOpts (Some (s2b "c.pem")) None (Some (s2b "text/plain")) (Some (s2b "tok")).
Definition ex_talk : list turn :=
  ex_turns 3 ++ [mkT Pready (Rgot 51 (s2b "0 gemini:")) Wwant; mkT Pready Rwant Wwant; mkT Pready (Rgot 47 (s2b "/x" ++ [13; 10])) Wwant; mkT Pready Reof Wwant].
Example c72_example :
  titan 8 (ex_world ex_talk) ex_opts (s2b "titan://H:1966/a/b?q#f") (Stdin (Some (s2b "hello"))) =
  OK (mkRun (Exit 0) (s2b "gemini://x" ++ [10]) (Some (s2b "c.pem", s2b "c.pem")) (Some (s2b "h", s2b "1966"))
        (s2b "titan://h/a/b;size=5;token=tok;mime=text/plain?q" ++ [13; 10] ++ s2b "hel")).
Proof. vm_compute. reflexivity. Qed.
Example c72_example_hyps :
  env_ok (ex_world ex_talk) /\ args_ok ex_opts (s2b "titan://H:1966/a/b?q#f") /\
  calmly_answers ex_talk (s2b "30 gemini://x" ++ [13; 10]) /\
  titan_line (mkC (s2b "titan") (s2b "h") (s2b "1966") 1966 (s2b "a/b") (s2b "q") (s2b "f")) (s2b "5") (Some (s2b "tok")) (Some (s2b "text/plain"))
   = s2b "titan://h/a/b;size=5;token=tok;mime=text/plain?q" ++ [13; 10] /\
  accepts (fun _ => false) (s2b "titan://H:1966/a/b?q#f") (mkC (s2b "titan") (s2b "h") (s2b "1966") 1966 (s2b "a/b") (s2b "q") (s2b "f")) /\
  Forall sending (w_send (ex_world ex_talk)).
Proof.
  split; [|split; [|split; [|split; [|split]]]].
  - split; [reflexivity|]. split; [reflexivity|]. split; [reflexivity|].
    split; [apply Forall_forall; intros x Hx; apply repeat_spec in Hx; subst; reflexivity|]. repeat constructor.
  - repeat split; repeat constructor; discriminate.
  - change (s2b "30 gemini://x" ++ [13; 10]) with (concat (map delivers (removelast ex_talk))).
    change ex_talk with (removelast ex_talk ++ mkT Pready Reof Wwant :: []) at 1.
    constructor; [|reflexivity|reflexivity]. repeat constructor; discriminate.
  - reflexivity.
  - eexists. split; vm_compute; reflexivity.
  - apply Forall_forall. intros x Hx. apply repeat_spec in Hx. subst. repeat split; discriminate.
Qed.
(** a file one byte larger than BUFSIZ (8 here): all is never sent *)
Example c72_example_large :
  titan 8 (ex_world (ex_turns 50)) (mkOpts None None None None) (s2b "titan://h") (Stdin (Some (s2b "123456789"))) =
  OK (mkRun Running [] None (Some (s2b "h", s2b "1965")) (s2b "titan://h/;size=9" ++ [13; 10] ++ s2b "12345678")).
Proof. vm_compute. reflexivity. Qed.

(** The request is one line naming the resource of the url: false, the decoded path is
    sent, so an encoded line break ends the request and the rest becomes content. *)
Theorem c72_one_line_refuted : exists W url r, env_ok W /\ nonul url /\ bytes url /\
  titan 8192 W (mkOpts None None None None) url (Stdin (Some [])) = OK r /\ r_end r = Exit 0 /\
  exists a b, r_wire r = a ++ [13; 10] ++ b ++ [13; 10] /\ b <> [].
Proof.
  exists (ex_world ([mkT Pready (Rgot 50 (s2b "0 text/plain" ++ [13; 10])) Wwant; mkT Pready Reof Wwant])), (s2b "titan://h/a%0D%0Ab").
  eexists. split; [|split; [|split]].
  - split; [reflexivity|]. split; [reflexivity|]. split; [reflexivity|].
    split; [apply Forall_forall; intros x Hx; apply repeat_spec in Hx; subst; reflexivity|]. repeat constructor.
  - repeat constructor; discriminate.
  - repeat constructor.
  - split; [vm_compute; reflexivity|]. cbn [r_end r_wire]. split; [reflexivity|]. exists (s2b "titan://h/a"), (s2b "b;size=0"). split; [reflexivity|discriminate].
Qed.
Print Assumptions c72_one_line_refuted.
