(** C77: connections across a reload. *)
From Coq Require Import Permutation.
From Verif Require Import Base BaseLemmas Iri IriSpec IriObs Conf ConfSpec Server ServerSpec Server_Proofs RequestSpec Request_Proofs Decide_Proofs BodySpec Body_Proofs HistorySpec LegitSpec Run_Proofs Hist_Proofs
  Prop_Server Prop_Safe Prop_History Prop_Body Stale Stale_Proofs.
Local Open Scope N_scope.

(** The reply of this connection has begun, or its request was passed to the
    upstream. *)
Definition under_way (c : client) : Prop :=
  c_hs c = true /\ (c_code c <> 0 \/ c_type c = RPROXY) /\ (c_type c = RPROXY -> c_up c <> None).

(** the client sends nothing *)
Definition silent (hs : list happening) : Prop := forall chunk fs, ~ In (Ev (EvRead chunk fs)) hs.

(** what can be seen of a connection: bytes sent and to be sent, whether it was
    closed or waits to write, and what was done for it (files opened,
    applications and upstreams asked, replies) apart from the log *)
Definition visible_part (l : list action) : list action := filter (fun a => match a with ALog _ _ => false | _ => true end) l.
Definition same_for_all (a b : client) : Prop :=
  c_sent b = c_sent a /\ c_out b = c_out a /\ c_closed b = c_closed a /\ c_wev b = c_wev a /\ visible_part (c_acts b) = visible_part (c_acts a).

Lemma across_seen : forall hs E E' c c', seen c = seen c' -> settled c -> (c_type c = UNDECIDED -> silent hs) ->
  match run E (calm hs) c, across E' hs c' with
  | None, None => True
  | Some (OK a), Some (OK b) => seen a = seen b
  | Some UB, Some UB => True
  | Some Fuel, Some Fuel => True
  | _, _ => False
  end.
Proof.
  induction hs as [|h hs IH]; intros E E' c c' S ST SI; [exact S|]. destruct h as [e|E1 v p].
  - cbn [calm flat_map app run across]. assert (Q : quiet c e).
    { destruct e; try exact I. intros T. exact (SI T _ _ (or_introl eq_refl)). }
    pose proof (step_seen E E' e c c' S ST Q) as X. pose proof (step_settled E e c) as Y.
    destruct (step E e c) as [[d| |]|], (step E' e c') as [[d'| |]|]; cbn [seen_r] in X; try discriminate X; try exact I.
    destruct (Y d ST Q eq_refl) as (ST' & TY). apply IH; [congruence|exact ST'|].
    intros T. assert (T0 : c_type c = UNDECIDED) by (destruct TY as [TY|TY]; congruence). intros ch f Z. exact (SI T0 ch f (or_intror Z)).
  - cbn [calm flat_map app across]. apply IH; [rewrite seen_stale; exact S|exact ST|].
    intros T ch f Z. exact (SI T ch f (or_intror Z)).
Qed.
Lemma seen_same a b : seen a = seen b -> same_for_all a b.
Proof.
  intros S. assert (X : filter not_log (c_acts a) = filter not_log (c_acts b)) by exact (f_equal c_acts S).
  destruct (seen_fields _ _ S) as (_ & A & _ & _ & _ & B & C & D & _). unfold same_for_all, visible_part. unfold not_log in X.
  rewrite A, B, C, D, X. auto.
Qed.

(** A reply that has begun goes on through any number of reloads as if there had
    been none, and so does that of an upstream that was sent the request. *)
Theorem c77_goes_on E hs c : under_way c -> (c_type c = UNDECIDED -> silent hs) ->
  (forall a, run E (calm hs) c = Some (OK a) -> exists b, across E hs c = Some (OK b) /\ same_for_all a b) /\
  (forall b, across E hs c = Some (OK b) -> exists a, run E (calm hs) c = Some (OK a) /\ same_for_all a b) /\
  (across E hs c = Some UB -> run E (calm hs) c = Some UB).
Proof.
  intros U SI. pose proof (across_seen hs E E c c eq_refl (or_intror U) SI) as X.
  destruct (run E (calm hs) c) as [[a| |]|], (across E hs c) as [[b| |]|]; try contradiction; (split; [|split]); intros; try discriminate; try reflexivity.
  - injection H as <-. exists b. split; [reflexivity|apply seen_same, X].
  - injection H as <-. exists a. split; [reflexivity|apply seen_same, X].
Qed.

(** Once the reply has begun, nothing more is done for the connection, and
    nothing logged. *)
Theorem c77_done : forall hs E c b, under_way c -> c_code c <> 0 -> (c_type c = UNDECIDED -> silent hs) -> across E hs c = Some (OK b) ->
  c_acts b = c_acts c /\ c_code b = c_code c.
Proof.
  assert (G : forall hs E c b, settled c -> c_code c <> 0 -> (c_type c = UNDECIDED -> silent hs) -> across E hs c = Some (OK b) -> replied c b).
  { induction hs as [|h hs IH]; intros E c b ST C SI H; [injection H as <-; split; reflexivity|]. destruct h as [e|E1 v p]; cbn [across] in H.
    - assert (Q : quiet c e). { destruct e; try exact I. intros T. exact (SI T _ _ (or_introl eq_refl)). }
      destruct (step E e c) as [[d| |]|] eqn:S; try discriminate. pose proof (step_replied E e c d C ST Q S) as R. destruct (step_settled E e c d ST Q S) as (ST' & TY).
      eapply replied_trans; [exact R|]. eapply IH; [exact ST'|rewrite (proj2 R); exact C| |exact H].
      intros T ch f Z. assert (T0 : c_type c = UNDECIDED) by (destruct TY as [TY|TY]; congruence). exact (SI T0 ch f (or_intror Z)).
    - exact (IH E1 (stale v p c) b ST C (fun T ch f Z => SI T ch f (or_intror Z)) H). }
  intros hs E c b U C SI H. exact (G hs E c b (or_intror U) C SI H).
Qed.

Lemma same_delivered whole es a b : same_for_all a b -> delivered whole es a -> delivered whole es b.
Proof. intros (A & _ & B & C & _) D. unfold delivered in *. rewrite A, B, C. exact D. Qed.

Lemma across_events : forall es E hs c, across E (map Ev es ++ hs) c =
  match run E es c with Some (OK c1) => across E hs c1 | x => x end.
Proof.
  induction es as [|e es IH]; intros E hs c; [reflexivity|]. cbn [map app across run].
  destruct (step E e c) as [[d| |]|]; try reflexivity. apply IH.
Qed.
Lemma run_app_some E es es' c c1 : run E es c = Some (OK c1) -> run E (es ++ es') c = run E es' c1.
Proof. intros H. rewrite run_app, H. reflexivity. Qed.

Lemma body_under_way E fs sni v line i asked chunks c0 c : conf_ok E -> request E fs sni v line i asked chunks c0 ->
  run E (opening fs sni chunks) fresh = Some (OK c) -> c_closed c = false -> c_hs c = true -> c_type c = RFILE \/ c_type c = RDIR -> under_way c.
Proof.
  intros HO [R1 R2 R3 R4 R5 R6] R CL HS T. destruct (handshake_waiting E sni v c0 R1 R2) as (W & I0 & K0 & CG & IV). pose proof W as (W1 & W2 & W3 & W4 & W5 & W6 & W7).
  unfold opening in R. change (EvHandshake sni :: reads fs chunks) with ([EvHandshake sni] ++ reads fs chunks) in R. rewrite run_app, R1 in R.
  rewrite (reads_line E fs line chunks c0 W1 W2 W3 I0 R3 R4 R6) in R. apply SOi in R.
  assert (ST : step E (EvRead (line ++ CRLF) fs) c0 = Some (OK c)).
  { unfold step. rewrite W1, W2, I0. cbn [negb andb app]. destruct (line ++ CRLF) as [|b l] eqn:LC; [destruct line; discriminate|]. cbn [isnil negb]. rewrite R. reflexivity. }
  cbn [run] in R1. destruct (step E (EvHandshake sni) fresh) as [[x| |]|] eqn:S1; try discriminate. apply SOi, OKi in R1. subst x.
  assert (P : polite_history E (([] ++ [EvHandshake sni]) ++ [EvRead (line ++ CRLF) fs]) c).
  { refine (p_step E _ (EvRead (line ++ CRLF) fs) c0 c (p_step E [] (EvHandshake sni) fresh c0 (p_new E) I S1) (fun _ => CG) ST). }
  destruct (history_inv E _ c HO P) as ((_ & JJ) & _). destruct (JJ CL) as (_ & _ & _ & J4 & _). split; [exact HS|].
  split; [left; exact (replied_code (E:=E) _ (J4 T))|]. intros X. destruct T; congruence.
Qed.

(** A file is delivered whole (C21) whatever the number of reloads while it is
    sent, and whatever is in the memory that the connection still points to. *)
Theorem c77_file E fs sni v line i asked chunks c0 os ty content m hs c2 :
  conf_ok E -> sort_ok E -> request E fs sni v line i asked chunks c0 ->
  decides E fs v i (c_domain c0) asked (mkD os (WBody ty content)) ->
  meta_sent E v i ty m -> (length m <= 1024)%nat ->
  across E (map Ev (opening fs sni chunks) ++ hs) fresh = Some (OK c2) -> full_reads (calm hs) ->
  delivered (header 20 m ++ content) (calm hs) c2.
Proof.
  intros HO HS RQ D MS ML R F. rewrite across_events in R. destruct (run E (opening fs sni chunks) fresh) as [[c1| |]|] eqn:R1; try discriminate.
  destruct (opening_done E fs sni v line i asked chunks c0 c1 HO HS RQ R1) as (d & D' & P & HK & L & W & K0 & S0 & T0 & H & PL).
  destruct (c15_exactly_one _ _ _ _ _ _ _ _ D D') as [OS SW]. cbn [d_open d_what] in OS, SW.
  destruct SW as [SW|(p & l & l' & X & _)]; [|discriminate].
  destruct P as (new & _ & SE & _ & _ & P). cbv zeta in P. rewrite <- SW in P. destruct P as (h & (m' & MS' & HH) & OU & P).
  rewrite <- (meta_sent_unique _ _ _ _ _ _ MS MS') in HH. rewrite (proj2 (Nat.leb_le _ _) ML) in HH.
  destruct P as [(_ & TY & PF)|P]; [|subst h; exfalso; exact (header_not_40 m P)].
  assert (U : under_way c1) by (apply (body_under_way E fs sni v line i asked chunks c0 c1 HO RQ R1 L); [apply PL; auto|auto]).
  destruct (c77_goes_on E hs c1 U) as (_ & G & _); [rewrite TY; discriminate|]. destruct (G c2 R) as (a & RA & SA).
  apply (same_delivered _ _ a c2 SA). apply (c21_file_partial E fs sni v line i asked chunks c0 os ty content m (calm hs) a); auto.
  rewrite (run_app_some _ _ _ _ _ R1). exact RA.
Qed.

(** So is a listing (C22). *)
Theorem c77_listing E fs sni v line i asked chunks c0 os path l0 m hs c2 :
  conf_ok E -> sort_ok E -> request E fs sni v line i asked chunks c0 ->
  decides E fs v i (c_domain c0) asked (mkD os (WList path l0)) -> Forall (fun d => entry_name (fst d)) l0 ->
  meta_sent E v i (s2b "text/gemini") m -> (length m <= 1024)%nat ->
  across E (map Ev (opening fs sni chunks) ++ hs) fresh = Some (OK c2) -> full_reads (calm hs) ->
  exists l, decides E fs v i (c_domain c0) asked (mkD os (WList path l)) /\ Permutation l l0 /\
    delivered (header 20 m ++ index_text path l) (calm hs) c2.
Proof.
  intros HO HS RQ D EN MS ML R F. rewrite across_events in R. destruct (run E (opening fs sni chunks) fresh) as [[c1| |]|] eqn:R1; try discriminate.
  destruct (opening_done E fs sni v line i asked chunks c0 c1 HO HS RQ R1) as (d & D' & P & HK & L & W & K0 & S0 & T0 & H & PL).
  destruct (c15_exactly_one _ _ _ _ _ _ _ _ D D') as [OS SW]. cbn [d_open d_what] in OS, SW.
  assert (exists l, d_what d = WList path l) as (l & DW).
  { destruct SW as [SW|(p & l & l' & X1 & X2 & X3)]; [exists l0; symmetry; exact SW|]. injection X1 as <- <-. exists l'. exact X2. }
  destruct P as (new & _ & SE & _ & _ & P). cbv zeta in P. rewrite DW in P. destruct P as (h & (m' & MS' & HH) & OU & P).
  rewrite <- (meta_sent_unique _ _ _ _ _ _ MS MS') in HH. rewrite (proj2 (Nat.leb_le _ _) ML) in HH.
  destruct P as [(_ & TY & PF)|P]; [|subst h; exfalso; exact (header_not_40 m P)].
  assert (U : under_way c1) by (apply (body_under_way E fs sni v line i asked chunks c0 c1 HO RQ R1 L); [apply PL; auto|auto]).
  destruct (c77_goes_on E hs c1 U) as (_ & G & _); [rewrite TY; discriminate|]. destruct (G c2 R) as (a & RA & SA).
  destruct (c22_listing E fs sni v line i asked chunks c0 os path l0 m (calm hs) a) as (l1 & A & B & C); auto.
  { rewrite (run_app_some _ _ _ _ _ R1). exact RA. }
  exists l1. split; [exact A|]. split; [exact B|]. apply (same_delivered _ _ a c2 SA), C.
Qed.
Print Assumptions c77_goes_on. Print Assumptions c77_done. Print Assumptions c77_file. Print Assumptions c77_listing.

(** What is in the freed memory: another server, another upstream. *)
Definition ex_loc2 : location := mkLoc (s2b "*") (s2b "xx") [] [] 0 30 (s2b "gemini://elsewhere/") 0 None false None false 0 [] [] None.
Definition ex_v2 : vhost := ex_vhost ex_loc2 [] [].
Definition ex_p2 : proxy := mkProxy [] [] [] (s2b "bad") (s2b "1") true false None.
Definition ex_world2 : env := ex_env ex_v2 None.

(** Two reloads while a file is sent; it arrives whole. *)
Definition ex_hs : list happening :=
  [Ev (EvWrite 3 (RdMax BUFSIZ)); Reload ex_world2 ex_v2 ex_p2; Ev (EvWrite 20 (RdMax BUFSIZ)); Ev (EvWrite 2 (RdMax BUFSIZ));
   Reload ex_E ex_v2 ex_p2; Ev (EvWrite 9 (RdMax BUFSIZ))].
Example c77_hypotheses : conf_ok ex_E /\ sort_ok ex_E /\
  request ex_E ex_fs (Some (s2b "h")) (ex_vhost plain_loc [] []) (s2b "gemini://h/f.gmi") ex_iri (s2b "h") ex_chunks ex_c0 /\
  decides ex_E ex_fs (ex_vhost plain_loc [] []) ex_iri (c_domain ex_c0) (s2b "h") (mkD [(3, s2b "f.gmi")] (WBody (s2b "text/gemini") (s2b "hello"))) /\
  meta_sent ex_E (ex_vhost plain_loc [] []) ex_iri (s2b "text/gemini") (s2b "text/gemini") /\ full_reads (calm ex_hs) /\
  exists c2, across ex_E (map Ev (opening ex_fs (Some (s2b "h")) ex_chunks) ++ ex_hs) fresh = Some (OK c2) /\
    c_closed c2 = true /\ c_sent c2 = s2b "20 text/gemini" ++ [13; 10] ++ s2b "hello".
Proof.
  destruct c21_hypotheses as (H1 & H2 & H3 & H4 & H5 & _). do 5 (split; [assumption|]). split.
  { unfold full_reads, calm, ex_hs. cbn [flat_map app]. assert (W : exists n, RdMax BUFSIZ = RdMax n /\ (BUFSIZ <= n)%nat) by (exists BUFSIZ; split; [reflexivity|apply Nat.le_refl]).
    apply Forall_cons; [exact W|]. apply Forall_cons; [exact W|]. apply Forall_cons; [exact W|]. apply Forall_cons; [exact W|]. apply Forall_nil. }
  eexists. split; [vm_compute; reflexivity|]. split; vm_compute; reflexivity.
Qed.

(** A request that is still to come when the configuration is replaced may be
    answered with what neither the old configuration nor the new one says (here
    they are the same): the connection goes by what it finds in the freed
    memory. *)
Definition ex_lost : option (res client) :=
  across ex_E (Ev (EvHandshake (Some (s2b "h"))) :: Reload ex_E ex_v2 ex_p2 :: map Ev (reads ex_fs ex_chunks)) fresh.
Definition ex_meant : option (res client) := run ex_E (opening ex_fs (Some (s2b "h")) ex_chunks) fresh.
Definition out_of (r : option (res client)) : option (list N) := match r with Some (OK c) => Some (c_out c) | _ => None end.
Lemma out_inv r o : out_of r = Some o -> exists c, r = Some (OK c) /\ c_out c = o.
Proof. destruct r as [[c| |]|]; try discriminate. intros H. exists c. split; [reflexivity|apply SOi, H]. Qed.
Lemma out_differ r1 r2 o1 o2 : out_of r1 = Some o1 -> out_of r2 = Some o2 -> leqb o1 o2 = false ->
  (forall c, r1 = Some (OK c) -> exists c1, r2 = Some (OK c1) /\ c_out c = c_out c1) -> False.
Proof.
  intros A B D H. destruct (out_inv _ _ A) as (c & C1 & C2). destruct (H c C1) as (c1 & D1 & D2). rewrite D1 in B. cbn [out_of] in B. apply SOi in B.
  assert (X : leqb o1 o2 = true) by (apply leqb_eq; congruence). congruence.
Qed.
Lemma ex_lost_out : out_of ex_lost = Some (header 30 (s2b "gemini://elsewhere/")). Proof. vm_compute. reflexivity. Qed.
Lemma ex_meant_out : out_of ex_meant = Some (header 20 (s2b "text/gemini")). Proof. vm_compute. reflexivity. Qed.
Lemma ex_differ : leqb (header 30 (s2b "gemini://elsewhere/")) (header 20 (s2b "text/gemini")) = false. Proof. vm_compute. reflexivity. Qed.
Theorem c77_refuted :
  ~ (forall E E' v p fs sni chunks c, across E (Ev (EvHandshake sni) :: Reload E' v p :: map Ev (reads fs chunks)) fresh = Some (OK c) ->
       (exists c1, run E (opening fs sni chunks) fresh = Some (OK c1) /\ c_out c = c_out c1) \/
       (exists c1, run E' (opening fs sni chunks) fresh = Some (OK c1) /\ c_out c = c_out c1)).
Proof.
  intros H. apply (out_differ ex_lost ex_meant _ _ ex_lost_out ex_meant_out ex_differ). unfold ex_lost, ex_meant. intros c LC.
  destruct (H ex_E ex_E ex_v2 ex_p2 ex_fs (Some (s2b "h")) ex_chunks c LC) as [X|X]; exact X.
Qed.
Print Assumptions c77_refuted.
