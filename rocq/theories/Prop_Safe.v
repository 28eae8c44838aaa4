(** C50, C51: no undefined behaviour, and nothing but what the configuration
    allows, in any history. *)
From Coq Require Import Permutation Sorting.Sorted.
From Verif Require Import Base BaseLemmas Compat Prop_Compat Iri IriSpec IriObs IriSafeSpec Prop_Iri IriOut Puny Conf ConfSpec Mime MimeSpec Prop_Conf Fmt FmtSpec Fcgi Server ServerSpec Iri_Last_Proofs Server_Proofs Decide_Proofs RequestSpec Request_Proofs HistorySpec Run_Proofs Wiring_Proofs Hist_Proofs Prop_Server Prop_History SafeSpec Safe_Proofs LegitSpec Legit_Proofs.
Local Open Scope N_scope.

(** ** C50 *)
Theorem c50_no_ub_partial E es c e r : sound_env E -> sound_history E es c -> polite_step c e -> event_ok E c e ->
  step E e c = Some r -> exists c', r = OK c'.
Proof.
  intros SO H P K S. destruct (step_safe E e c r SO (sound_inv E es c SO H) P K S) as (c' & -> & _). exists c'. reflexivity.
Qed.

(** Non-vacuity: the requests of ex_events are such a history *)
Lemma ex_fs_ok fd p : node_ok (ex_fs fd p).
Proof.
  unfold ex_fs. repeat match goal with |- context[if ?b then _ else _] => destruct b end; try constructor; try (repeat constructor; fail).
  intros l X. injection X as <-. repeat constructor; cbn; lia.
Qed.
Lemma ex_sound_env : sound_env (ex_env (ex_vhost plain_loc [] []) None).
Proof.
  constructor.
  - repeat constructor.
  - repeat constructor.
    all: intros X; exfalso; apply X; reflexivity.
  - exists []. split; [constructor|constructor].
  - exact isort_ok.
  - vm_compute. reflexivity.
Qed.

Fixpoint all_ok (E : env) (es : list event) (c : client) : Prop :=
  match es with
  | [] => True
  | e :: r => event_ok E c e /\ match step E e c with Some (OK c') => all_ok E r c' | _ => True end
  end.
Lemma run_sound E es : forall c0 c hs, sound_history E hs c0 -> all_polite E es c0 -> all_ok E es c0 ->
  run E es c0 = Some (OK c) -> sound_history E (hs ++ es) c.
Proof.
  induction es as [|e es IH]; intros c0 c hs H P O; cbn [run].
  - intros Q. injection Q as <-. rewrite app_nil_r. exact H.
  - destruct P as [P1 P2]. destruct O as [O1 O2]. destruct (step E e c0) as [[c1| |]|] eqn:S; try discriminate. intros Q.
    replace (hs ++ e :: es) with ((hs ++ [e]) ++ es) by (rewrite <- app_assoc; reflexivity).
    eapply (IH c1 c (hs ++ [e])); [|exact P2|exact O2|exact Q]. eapply s_step; eauto.
Qed.

(** the state a computed step gives *)
Definition ok_state (r : option (res client)) : client := match r with Some (OK c) => c | _ => fresh end.
Lemma some_ok_inj r c : r = Some (OK c) -> ok_state r = c.
Proof. intros ->. reflexivity. Qed.

(** a test for [tame] of the hosts asked for *)
Definition tame_b (h : list N) : bool :=
  match puny_decode h DOMAIN_NAME_LEN with
  | OK (Ret false _) => true
  | OK (Ret true out) => match cstr out with Some _ => true | None => false end
  | _ => false
  end.
Lemma tame_b_ok h : tame_b h = true -> tame h.
Proof.
  unfold tame_b, tame. destruct (puny_decode h DOMAIN_NAME_LEN) as [[|[] out]| |]; try discriminate; [|left; eauto].
  destruct (cstr out) eqn:C; [|discriminate]. right; eauto.
Qed.
Definition line_b (E : env) (s : list N) : bool :=
  match readln s with
  | None => true
  | Some (line, _) => match parse_iri (e_ip6 E) (line ++ [0]) with
                      | OK (_, p) => match comps_of p with Some i => tame_b (c_host i) | None => true end
                      | _ => true end
  end.
Lemma line_b_ok E s : line_b E s = true -> forall line rest i, first_line s line rest -> accepts (e_ip6 E) line i -> tame (c_host i).
Proof.
  unfold line_b. intros H line rest i F (p & P & C). rewrite (readln_complete _ _ _ F), P, C in H. apply tame_b_ok. exact H.
Qed.

Example c50_example : let E := ex_env (ex_vhost plain_loc [] []) None in
  sound_env E /\ exists c, sound_history E ex_events c /\ c_closed c = true /\ c_sent c = s2b "20 text/gemini" ++ CRLF ++ s2b "hello".
Proof.
  cbv zeta. split; [exact ex_sound_env|]. set (E := ex_env _ _).
  assert (R : exists c, run E ex_events fresh = Some (OK c) /\ c_closed c = true /\ c_sent c = s2b "20 text/gemini" ++ CRLF ++ s2b "hello").
  { eexists. split; [vm_compute; reflexivity|]. split; vm_compute; reflexivity. }
  destruct R as (c & R & R1). exists c. split; [|exact R1].
  apply (run_sound E ex_events fresh c [] (s_new E)); [vm_compute; repeat split; reflexivity| |exact R].
  unfold ex_events. cbn [all_ok]. split; [apply tame_b_ok; vm_compute; reflexivity|].
  destruct (step E (EvHandshake (Some (s2b "h"))) fresh) as [[c1| |]|] eqn:S1; auto. apply some_ok_inj in S1.
  cbn [all_ok]. split.
  { split; [repeat constructor|]. split; [apply ex_fs_ok|]. apply line_b_ok. rewrite <- S1. vm_compute. reflexivity. }
  destruct (step E (EvRead _ _) c1) as [[c2| |]|] eqn:S2; auto. rewrite <- S1 in S2. apply some_ok_inj in S2.
  cbn [all_ok]. split.
  { split; [repeat constructor|]. split; [apply ex_fs_ok|]. apply line_b_ok. rewrite <- S2. vm_compute. reflexivity. }
  repeat (match goal with |- match ?x with _ => _ end => destruct x as [[?| |]|]; auto end; cbn [all_ok]; split; [exact Logic.I|]).
  match goal with |- match ?x with _ => _ end => destruct x as [[?| |]|]; auto end.
Qed.

(** ** C51 *)
Definition dd : list N := s2b "..".
Lemma walk_no_dd ws : forall d, ~ In dd ws -> walk d ws <> None.
Proof.
  induction ws as [|w r IH]; intros d H; cbn [walk]; [discriminate|].
  assert (H1 : ~ In dd r) by (intros X; apply H; right; exact X).
  destruct (leqb w [] || leqb w (s2b ".")); [apply IH; exact H1|].
  destruct (leqb w (s2b "..")) eqn:L; [|apply IH; exact H1]. exfalso. apply H. left. apply leqb_eq in L. exact L.
Qed.
Lemma split_ne s : split_slash s <> [].
Proof. destruct s as [|c r]; cbn [split_slash]; [discriminate|]. destruct (c =? 47); [discriminate|]. destruct (split_slash r); discriminate. Qed.
Lemma split_tail c r w : w <> [] -> In w (tl (split_slash r)) -> In w (split_slash (c :: r)).
Proof.
  intros NE H. cbn [split_slash]. destruct (c =? 47); [right; destruct (split_slash r); [destruct H|right; exact H]|].
  destruct (split_slash r); [destruct H|right; exact H].
Qed.
Lemma unslash_split s w : w <> [] -> In w (split_slash (unslash s)) -> In w (split_slash s).
Proof.
  intros NE. rewrite <- skip_unslash. induction s as [|c r IH]; cbn [skip_slashes]; [auto|].
  destruct (N.eqb_spec c 47) as [->|_]; [|auto]. intros H. cbn [split_slash]. right. apply IH. exact H.
Qed.
Lemma from_slash_in s t w : from_slash s = Some t -> w <> [] -> In w (split_slash t) -> In w (split_slash s).
Proof.
  revert t. induction s as [|c r IH]; intros t; cbn [from_slash]; [discriminate|]. destruct (N.eqb_spec c 47) as [->|NC].
  - intros X. injection X as <-. auto.
  - intros X NE H. specialize (IH t X NE H). apply split_tail; [exact NE|].
    assert (F : exists t', t = 47 :: t').
    { clear -X. induction r as [|a r IH]; cbn [from_slash] in X; [discriminate|]. destruct (N.eqb_spec a 47) as [->|]; [injection X as <-; eauto|auto]. }
    destruct F as (t' & ->). cbn [split_slash] in H. change (47 =? 47) with true in H. destruct H as [H|H]; [congruence|].
    clear IH. revert t' X H. induction r as [|a r IH]; intros t' X H; cbn [from_slash] in X; [discriminate|].
    cbn [split_slash]. destruct (N.eqb_spec a 47) as [->|].
    + injection X as <-. cbn [tl]. exact H.
    + specialize (IH t' X H). destruct (split_slash r); [destruct IH|exact IH].
Qed.
Lemma strip_in n : forall s w, w <> [] -> In w (split_slash (strip_path s n)) -> In w (split_slash s).
Proof.
  induction n as [|n IH]; intros s w NE; cbn [strip_path]; [auto|]. destruct (from_slash s) as [t|] eqn:F.
  - intros H. eapply from_slash_in; eauto.
  - intros [H|[]]. congruence.
Qed.
Lemma unslash_hd s : hd 0 (unslash s) <> 47.
Proof.
  rewrite <- skip_unslash. induction s as [|c r IH]; cbn [skip_slashes]; [discriminate|]. destruct (N.eqb_spec c 47); [exact IH|]. cbn. assumption.
Qed.
Lemma below_inside ip6 line i n : nonul line -> bytes line -> accepts ip6 line i -> stays_inside (below i n).
Proof.
  intros HN HB HA. destruct (c01_path_never_escapes ip6 line i HN HB HA) as (_ & SP & _).
  assert (ND : ~ In dd (split_slash (c_path i))).
  { destruct SP as [->|(ws & _ & F & SS)]; [intros [X|[]]; discriminate|]. rewrite Forall_forall in F.
    intros X. assert (Y : In dd ws).
    { destruct SS as [->| ->] in X; [exact X|]. apply in_app_or in X. destruct X as [X|[X|[]]]; [exact X|discriminate]. }
    destruct (F dd Y) as (_ & _ & _ & Q). apply Q. reflexivity. }
  assert (NU : ~ In dd (split_slash (unslash (strip_path (c_path i) n)))).
  { intros X. apply ND. apply (strip_in n); [discriminate|]. apply unslash_split; [discriminate|exact X]. }
  unfold stays_inside, below. split.
  - pose proof (unslash_hd (strip_path (c_path i) n)) as U. destruct (unslash _); [discriminate|exact U].
  - intros pre suf X. apply walk_no_dd. intros Y. apply NU. destruct (unslash (strip_path (c_path i) n)) as [|a r].
    + exfalso. assert (Z : In dd (split_slash [46])) by (rewrite X; apply in_or_app; left; exact Y). destruct Z as [Z|[]]; discriminate.
    + rewrite X. apply in_or_app. left. exact Y.
Qed.

(** Everything done in any history, whatever the client, the applications, the
    upstreams and the file system do, is done for a request the client sent and
    is what the configuration says for it. *)
Theorem c51_only_what_is_configured E es c a : bytes_sent es -> history E es c -> In a (c_acts c) -> legit E es a.
Proof. intros HB H IN. destruct (history_LI E es c HB H) as (F & _). rewrite Forall_forall in F. apply F; exact IN. Qed.

(** In particular: only roots of configured locations are opened, only below
    them, and under a client CA only if the certificate was verified. *)
Theorem c51_opens E es c fd p : bytes_sent es -> history E es c -> In (AOpen fd p) (c_acts c) ->
  stays_inside p /\
  exists v i line, In v (c_hosts (e_conf E)) /\ sent_line es line /\ accepts (e_ip6 E) line i /\
    option_is E v i l_dirfd (fun x => x <> None) (Some fd) /\
    (exists l, In l (v_loc0 v :: v_locs v) /\ l_dirfd l = Some fd) /\
    exists ca, option_is E v i l_reqca (fun x => x <> None) ca /\ admitted E ca.
Proof.
  intros HB H IN. pose proof (c51_only_what_is_configured E es c _ HB H IN) as L. inversion L as [v i name asked fd' n LI AP OD OS| | | | |]; subst.
  destruct LI as ((_ & SE & (line & N0 & N1 & N2 & N3 & N4) & _) & _ & _ & CA & _).
  split; [eapply below_inside; eauto|]. exists v, i, line.
  split; [destruct SE as (b & a & -> & _); apply in_or_app; right; left; reflexivity|]. split; [exact N0|]. split; [exact N4|]. split; [exact OD|].
  split; [|exact CA]. destruct OD as (l & G & F). exists l. split; [eapply governs_in; eauto|exact F].
Qed.

Example c51_example : let E := ex_env (ex_vhost plain_loc [] []) None in
  bytes_sent ex_events /\ exists c, history E ex_events c /\ In (AOpen 3 (s2b "f.gmi")) (c_acts c).
Proof.
  cbv zeta. split.
  - intros chunk fs IN. cbn in IN. repeat (destruct IN as [IN|IN]; [try discriminate IN; injection IN as <- _; repeat constructor|]). destruct IN.
  - set (E := ex_env _ _). assert (R : exists c, run E ex_events fresh = Some (OK c) /\ In (AOpen 3 (s2b "f.gmi")) (c_acts c)).
    { eexists. split; [vm_compute; reflexivity|]. left. reflexivity. }
    destruct R as (c & R & R1). exists c. split; [apply history_run; exact R|exact R1].
Qed.
