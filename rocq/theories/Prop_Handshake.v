(** C12: the server a connection talks to is the one its TLS name selects *)
From Verif Require Import Base BaseLemmas Compat Iri IriSpec IriObs Puny Conf ConfSpec Mime Prop_Conf Fmt Fcgi Server ServerSpec Iri_Last_Proofs Server_Proofs Decide_Proofs RequestSpec HistorySpec LegitSpec Logged_Proofs Prop_Server Prop_History.
Local Open Scope N_scope.

(** nothing was opened, and no application or upstream was talked to *)
Definition served_nothing (c : client) : Prop :=
  Forall (fun a => match a with AOpen _ _ | AFcgi _ _ | AUp _ _ => False | _ => True end) (c_acts c).

(** what a refused connection is told *)
Definition refusal : list N := s2b "59 Wrong/malformed host" ++ [13; 10].

(** the state of a connection that was refused, before and after it is closed *)
Definition turned_away (c : client) : Prop :=
  c_hs c = true /\ c_type c = DONE /\ c_conns c = [] /\ c_up c = None /\ c_cgibev c = None /\ c_vhost c = None /\
  c_acts c = [AReply 59 (s2b "Wrong/malformed host"); ALog 59 (s2b "Wrong/malformed host")] /\ stream c = refusal.

Lemma turn E d c : c_acts c = [] -> stream c = [] -> c_conns c = [] -> c_up c = None -> c_cgibev c = None ->
  turned_away (reply E 59 (s2b "Wrong/malformed host") (set_host d None c)).
Proof.
  intros A B C D F. unfold stream in B. apply app_eq_nil in B as [B1 B2].
  unfold reply, start_reply, header_line. change (c_vhost (set_host d None c)) with (@None vhost).
  assert (X : (if negb (is_relayed (c_type (set_host d None c))) && leqb (s2b "Wrong/malformed host") (s2b "text/gemini") then
             match vhost_lang (e_fnm E) None (path_of (set_host d None c)) with
             | Some l => s2b ";lang=" ++ l | None => [] end else []) = []) by (rewrite andb_false_r; reflexivity).
  rewrite X. clear X. change (Nat.ltb 1027%nat (length (dec 59 ++ [32] ++ s2b "Wrong/malformed host"))) with false.
  change (Nat.ltb 1027%nat (Nat.add (length (dec 59 ++ [32] ++ s2b "Wrong/malformed host")) (length (@nil N)))) with false.
  cbn [orb fst]. rewrite app_nil_r. unfold emit. cbv zeta. change (59 =? 20) with false. cbv iota.
  set (h := dec 59 ++ [32] ++ s2b "Wrong/malformed host").
  assert (HN : h = s2b "59 Wrong/malformed host") by reflexivity. rewrite HN. clear HN.
  assert (AO : add_out (s2b "59 Wrong/malformed host" ++ [13; 10]) (set_code 59 (set_host d None c)) =
    set_io (c_out c ++ refusal) (c_sent c) true (set_code 59 (set_host d None c))) by reflexivity.
  rewrite AO. set (c1 := set_io _ _ _ _). change (c_vhost (act (AReply 59 (s2b "Wrong/malformed host")) c1)) with (@None vhost).
  cbn [vhost_disable_log]. unfold turned_away, stream. cbn [set_type act c_hs c_type c_conns c_up c_cgibev c_vhost c_acts c_sent c_out c1 set_io set_code set_host].
  rewrite A, B1, B2. repeat split; assumption.
Qed.

Lemma close_turned c : turned_away c -> turned_away (client_close c).
Proof.
  intros (H1 & H2 & H3 & H4 & H5 & H6 & H7 & H8). unfold client_close. rewrite H5. unfold close_pfd.
  destruct (c_pfd c); unfold turned_away, stream in *; cbn; rewrite ?H3; repeat split; auto;
  unfold close_conn; destruct i; reflexivity.
Qed.

Lemma step_turned E e c c' : turned_away c -> step E e c = Some (OK c') -> turned_away c'.
Proof.
  intros T. pose proof T as (H1 & H2 & H3 & H4 & H5 & H6 & H7 & H8).
  destruct e as [sni| |chunk fs| |n a| |i chunk|i|r|chunk|]; unfold step; cbv zeta; rewrite ?H1, ?H2, ?H3, ?H4.
  - rewrite andb_false_r. discriminate.
  - rewrite andb_false_r. discriminate.
  - destruct (_ && _); [|discriminate]. unfold client_read. change (c_type (set_in _ c)) with (c_type c). rewrite H2.
    intros Q. injection Q as <-. exact T.
  - destruct (_ && _); [|discriminate]. intros Q. injection Q as <-. unfold client_error. cbn [andb]. apply close_turned. unfold turned_away in *. cbn. tauto.
  - destruct (_ && _); [|discriminate]. intros Q. injection Q as Q. set (k := Nat.min _ _) in Q.
    set (c1 := set_io (skipn k (c_out c)) _ _ c) in Q.
    assert (T1 : turned_away c1).
    { unfold turned_away, c1, stream in *. cbn. rewrite <- app_assoc, firstn_skipn. repeat split; assumption. }
    destruct (skipn k (c_out c)) eqn:SK; [|apply OK_inj in Q; subst; exact T1].
    unfold client_write in Q. assert (TD : c_type c1 = DONE) by exact H2. rewrite TD in Q. apply OK_inj in Q. subst c'.
    destruct (c_out c1); [apply close_turned; exact T1|exact T1].
  - destruct (_ && _); [|discriminate]. intros Q. injection Q as <-. unfold client_error. cbn [andb]. apply close_turned. unfold turned_away in *. cbn. tauto.
  - destruct i; discriminate.
  - destruct i; discriminate.
  - discriminate.
  - discriminate.
  - discriminate.
Qed.

(** before the handshake *)
Definition newborn (c : client) : Prop := c_acts c = [] /\ stream c = [] /\ c_conns c = [] /\ c_up c = None /\ c_cgibev c = None /\ c_type c = UNDECIDED.

Definition chosen (E : env) (es : list event) (c : client) : Prop :=
  if c_hs c then forall sni, In (EvHandshake sni) es ->
    (exists name v, named E sni name /\ selects (e_fnm E) (c_hosts (e_conf E)) name (Some v) /\ c_vhost c = Some v) \/
    ((forall name, named E sni name -> selects (e_fnm E) (c_hosts (e_conf E)) name None) /\ turned_away c)
  else newborn c /\ forall sni, ~ In (EvHandshake sni) es.

Lemma named_unique E sni a b : named E sni a -> named E sni b -> a = b.
Proof.
  intros (d & A & ->) (d' & B & ->). assert (d = d') as ->; [|reflexivity].
  destruct sni as [s|]; [|congruence]. destruct A as (o & A1 & A2), B as (o' & B1 & B2). congruence.
Qed.

Lemma handshake_chosen E sni c c' : newborn c -> handle_handshake E sni c = OK c' -> c_hs c' = true /\
    ((exists name v, named E sni name /\ selects (e_fnm E) (c_hosts (e_conf E)) name (Some v) /\ c_vhost c' = Some v) \/
    ((forall name, named E sni name -> selects (e_fnm E) (c_hosts (e_conf E)) name None) /\ turned_away c')).
Proof.
  intros (A & B & C & D & F & _) Q. unfold handle_handshake in Q. apply bind_ok in Q as (d & PD & Q).
  destruct d as [|[] out]; [discriminate| |].
  2:{ apply OK_inj in Q. subst c'. pose proof (turn E [] c A B C D F) as T. split; [exact (proj1 T)|]. right. split; [|exact T].
      intros name (d & X & _). destruct sni as [s|]; [|discriminate]. destruct X as (o & X & _). congruence. }
  destruct (cstr out) as [dom|] eqn:CO; [|discriminate]. cbv zeta in Q. set (dm := match dom with [] => _ | _ => _ end) in *.
  assert (NM : named E sni dm).
  { exists dom. split; [|reflexivity]. destruct sni as [s|]; [exists out; auto|]. injection PD as <-. cbn in CO. congruence. }
  clearbody dm. pose proof (c12_first_match (e_fnm E) (c_hosts (e_conf E)) dm) as FM.
  destruct (find_host (e_fnm E) (c_hosts (e_conf E)) dm) as [v|].
  - apply OK_inj in Q. subst c'. split; [reflexivity|]. left. exists dm, v. auto.
  - apply OK_inj in Q. subst c'. pose proof (turn E dm c A B C D F) as T. split; [exact (proj1 T)|]. right. split; [|exact T].
    intros name X. rewrite (named_unique _ _ _ _ X NM). exact FM.
Qed.

Lemma newborn_step E e c c' : newborn c -> c_hs c = false -> step E e c = Some (OK c') -> (forall sni, e <> EvHandshake sni) -> newborn c' /\ c_hs c' = false.
Proof.
  intros (H1 & H2 & H3 & H4 & H5 & H6) Hs S NE. revert S. destruct e as [sni| |chunk fs| |n a| |i chunk|i|r|chunk|]; unfold step; cbv zeta; rewrite ?Hs, ?H3, ?H4, ?H6, ?andb_false_r; cbn [andb]; try discriminate.
  - exfalso. eapply NE. reflexivity.
  - destruct (_ && _); [|discriminate]. intros Q. injection Q as <-. unfold client_close. rewrite H5. unfold close_pfd.
    destruct (c_pfd c); unfold newborn, stream in *; cbn; rewrite ?H3; repeat split; auto. destruct i; reflexivity.
  - destruct i; discriminate.
  - destruct i; discriminate.
Qed.

Lemma history_chosen E es c : history E es c -> chosen E es c.
Proof.
  intros H. induction H as [|es e c c' H IH S]; [split; [repeat split|intros sni []]|].
  unfold chosen in IH. destruct (c_hs c) eqn:Hs.
  - pose proof (step_lk E e c c' S) as (c1 & (_ & F) & (V & G) & _). destruct (F Hs) as (F1 & F2).
    unfold chosen. rewrite G, F1. intros sni I. apply in_app_or in I as [I|[I|[]]].
    + destruct (IH sni I) as [(name & v & N1 & N2 & N3)|(N1 & N2)].
      * left. exists name, v. split; [exact N1|]. split; [exact N2|congruence].
      * right. split; [exact N1|]. eapply step_turned; eauto.
    + subst e. unfold step in S. rewrite Hs, andb_false_r in S. discriminate.
  - destruct IH as (NB & NI). destruct e as [sni| | | | | | | | | |].
    { unfold step in S. destruct (_ && _) in S; [|discriminate]. injection S as S. destruct (handshake_chosen E sni c c' NB S) as (K1 & K2).
      unfold chosen. rewrite K1. intros sni0 I. apply in_app_or in I as [I|[I|[]]]; [destruct (NI _ I)|]. injection I as <-. exact K2. }
    all: destruct (newborn_step _ _ _ _ NB Hs S ltac:(intros ?; discriminate)) as (K1 & K2); unfold chosen; rewrite K2; split; [exact K1|];
      intros sni I; apply in_app_or in I as [I|[I|[]]]; [exact (NI _ I)|discriminate].
Qed.

(** In every history in which the TLS handshake completed, asking for [sni],
    the connection belongs to the first configured server one of whose names
    matches the name asked for (the address connected to, when none was), or
    no server matches, or the name is not decodable: then the client was told
    59, that is all it was told, and nothing was done for it. *)
Theorem c12_handshake E es c sni : history E es c -> In (EvHandshake sni) es ->
  (exists name v, named E sni name /\ selects (e_fnm E) (c_hosts (e_conf E)) name (Some v) /\ c_vhost c = Some v) \/
  ((forall name, named E sni name -> selects (e_fnm E) (c_hosts (e_conf E)) name None) /\ c_vhost c = None /\
   replies c = [(59, s2b "Wrong/malformed host")] /\ stream c = refusal /\ served_nothing c).
Proof.
  intros H I. apply history_chosen in H. unfold chosen in H. destruct (c_hs c).
  - destruct (H sni I) as [X|(X & (H1 & H2 & H3 & H4 & H5 & H6 & H7 & H8))]; [left; exact X|]. right.
    split; [exact X|]. split; [exact H6|]. unfold replies, served_nothing. rewrite H7. split; [reflexivity|]. split; [exact H8|]. repeat constructor.
  - destruct H as (_ & H). destruct (H sni I).
Qed.

(** Before the handshake completes the connection is told and served nothing. *)
Theorem c12_before E es c : history E es c -> (forall sni, ~ In (EvHandshake sni) es) -> c_acts c = [] /\ stream c = [].
Proof.
  intros H N. apply history_chosen in H as K. unfold chosen in K. destruct (c_hs c) eqn:Hs.
  - exfalso. clear K. revert N Hs. induction H as [|es e c c' H IH S]; intros N Hs; [discriminate|].
    destruct (c_hs c) eqn:Hs0; [apply IH; [intros sni I; apply (N sni), in_or_app; left; exact I|reflexivity]|].
    destruct e as [sni| | | | | | | | | |]; [refine (N sni _); apply in_or_app; right; left; reflexivity|..];
    (apply history_chosen in H; unfold chosen in H; rewrite Hs0 in H; destruct H as (NB & _);
     destruct (newborn_step _ _ _ _ NB Hs0 S ltac:(intros ?; discriminate)) as (_ & K2); congruence).
  - destruct K as ((A & B & _) & _). auto.
Qed.

(** both cases occur, and both with more events after the handshake *)
Definition knock (name : list N) : list event := [EvHandshake (Some name); EvWrite 100 RdErr].
Definition asks : list event := [EvHandshake (Some (s2b "h")); EvRead (s2b "gemini://h/" ++ [13; 10]) (fun _ _ => NMissing)].
Definition one_host : env := ex_env (ex_vhost plain_loc [] []) None.
Example c12_example_refused : exists c, history one_host (knock (s2b "elsewhere.org")) c /\ c_vhost c = None /\ c_sent c = refusal /\ c_closed c = true.
Proof.
  assert (X : exists c, run one_host (knock (s2b "elsewhere.org")) fresh = Some (OK c) /\ c_vhost c = None /\ c_sent c = refusal /\ c_closed c = true).
  { eexists. split; [vm_compute; reflexivity|]. repeat split; vm_compute; reflexivity. }
  destruct X as (c & R & X). exists c. split; [apply history_run; exact R|exact X].
Qed.
Example c12_example_served : exists c, history one_host asks c /\ c_vhost c <> None /\ replies c = [(51, s2b "not found")].
Proof.
  assert (X : exists c, run one_host asks fresh = Some (OK c) /\ c_vhost c <> None /\ replies c = [(51, s2b "not found")]).
  { eexists. split; [vm_compute; reflexivity|]. split; [discriminate|vm_compute; reflexivity]. }
  destruct X as (c & R & X). exists c. split; [apply history_run; exact R|exact X].
Qed.

Print Assumptions c12_handshake.
Print Assumptions c12_before.
