(** The parser never changes the size of its buffer. *)
From Verif Require Import Base BaseLemmas Utf8 Iri.
Local Open Scope N_scope.

Lemma wr_len m p v m' : wr m p v = OK m' -> length m' = length m.
Proof.
  unfold wr. destruct (Nat.ltb_spec p (length m)); [|discriminate]. intros H1. apply (f_equal (fun r => match r with OK a => length a | _ => 0%nat end)) in H1.
  rewrite <- H1. rewrite app_length, firstn_length. change (length (v :: skipn (S p) m)) with (S (length (skipn (S p) m))).
  rewrite skipn_length. lia.
Qed.

Lemma memmove_len m d s n m' : memmove m d s n = OK m' -> length m' = length m.
Proof.
  unfold memmove. destruct (_ && _) eqn:E; [|discriminate]. intros H. apply (f_equal (fun r => match r with OK a => length a | _ => 0%nat end)) in H.
  apply andb_true_iff in E. rewrite <- H. rewrite !Nat.leb_le in E.
  rewrite !app_length, !firstn_length, !skipn_length. lia.
Qed.

Ltac step_in H :=
  lazymatch type of H with
  | bind ?e _ = OK _ => let E := fresh "E" in destruct e eqn:E; cbn [bind] in H; [|discriminate H|discriminate H]
  | (let '(_, _) := ?x in _) = OK _ => destruct x
  | (if ?b then _ else _) = OK _ => let E := fresh "E" in destruct b eqn:E
  | (match ?o with Some _ => _ | None => _ end) = OK _ => let E := fresh "E" in destruct o eqn:E
  | OK _ = OK _ => inversion H; clear H; subst
  | UB = OK _ => discriminate H
  | Fuel = OK _ => discriminate H
  end.
Ltac steps H := repeat (step_in H; cbn [fst snd] in *).

Lemma pct_decode_len m s m' : pct_decode m s = OK m' -> length m' = length m.
Proof. unfold pct_decode. intros H. steps H. apply memmove_len in H. apply wr_len in E1. congruence. Qed.

Lemma put_len p c p' : put p c = OK p' -> length (mem p') = length (mem p).
Proof. unfold put. intros H. steps H. apply wr_len in E. exact E. Qed.

Ltac putin := match goal with E : put _ _ = OK _ |- _ => apply put_len in E; cbn [mem set_parsed set_pos] in E end.

Lemma valid_pct_encoded_len p b p' : valid_pct_encoded p = OK (b, p') -> length (mem p') = length (mem p).
Proof. unfold valid_pct_encoded. intros H. steps H; reflexivity. Qed.

Lemma parse_pct_encoded_len p b p' : parse_pct_encoded p = OK (b, p') -> length (mem p') = length (mem p).
Proof. unfold parse_pct_encoded. intros H. steps H; try reflexivity; apply pct_decode_len in E3; exact E3. Qed.

Lemma p_multibyte_len p b p' : p_multibyte p = OK (b, p') -> mem p' = mem p.
Proof.
  unfold p_multibyte. intros H. destruct (valid_multibyte_utf8 (mem p) (pos p)) as [[[? ?] e]| |]; cbn in H; try discriminate.
  inversion H; subst. destruct e; reflexivity.
Qed.

Definition lenpres (f : pst -> res (bool * pst)) : Prop :=
  forall p b p', f p = OK (b, p') -> length (mem p') = length (mem p).

Lemma scan_cond_len ok pct : lenpres pct -> lenpres (scan_cond ok pct).
Proof.
  intros G p b p' H. unfold scan_cond in H. steps H; try reflexivity.
  - apply G in E1. exact E1.
  - apply G in E1. apply p_multibyte_len in H. congruence.
Qed.

Lemma scan_loop_len ok pct : lenpres pct -> forall fuel p p',
  scan_loop fuel ok pct p = OK p' -> length (mem p') = length (mem p).
Proof.
  intros G. induction fuel; intros p p' H; cbn [scan_loop] in H; [discriminate|].
  steps H; apply (scan_cond_len _ _ G) in E.
  - apply IHfuel in H. cbn in H. congruence.
  - congruence.
Qed.

Lemma host_loop_len : forall fuel p p',
  host_loop fuel p = OK p' -> length (mem p') = length (mem p).
Proof.
  induction fuel; intros p p' H; cbn [host_loop] in H; [discriminate|].
  destruct (scan_cond host_char parse_pct_encoded p) as [[b0 p1]| |] eqn:E; cbn [bind] in H; try discriminate.
  apply (scan_cond_len _ _ parse_pct_encoded_len) in E.
  destruct b0; [|inversion H; subst; exact E].
  destruct (rd (mem p1) (pos p1)) as [c| |]; cbn [bind] in H; try discriminate.
  destruct (_ || _).
  - destruct (put p1 (to_lower c)) eqn:E2; cbn [bind] in H; try discriminate.
    apply put_len in E2. apply IHfuel in H. cbn in H. congruence.
  - cbn [bind] in H. apply IHfuel in H. cbn in H. congruence.
Qed.

Lemma scheme_loop_len : forall fuel p p',
  scheme_loop fuel p = OK p' -> length (mem p') = length (mem p).
Proof.
  induction fuel; intros p p' H; cbn [scheme_loop] in H; [discriminate|]. steps H.
  - apply put_len in E0. apply IHfuel in H. cbn in H. congruence.
  - apply put_len in E0. exact E0.
Qed.

Lemma parse_scheme_len : lenpres parse_scheme.
Proof.
  intros p b p' H. unfold parse_scheme in H. steps H; try reflexivity; cbn [mem set_err set_pos];
    apply scheme_loop_len in E1; cbn [mem set_parsed] in E1; try exact E1;
    match goal with E : put _ _ = OK _ |- _ => apply put_len in E end; congruence.
Qed.

Lemma port_loop_len : forall fuel p i o p', port_loop fuel p i = OK (o, p') -> mem p' = mem p.
Proof.
  induction fuel; intros p i o p' H; cbn [port_loop] in H; [discriminate|]. steps H; try reflexivity.
  apply IHfuel in H. exact H.
Qed.

Lemma parse_port_len : lenpres parse_port.
Proof.
  intros p b p' H. unfold parse_port in H.
  match type of H with bind ?e _ = _ => destruct e as [[o p1]| |] eqn:E end; cbn [bind] in H; try discriminate.
  apply port_loop_len in E. cbn [mem set_parsed] in E.
  steps H; cbn [mem set_err set_pos set_parsed]; try congruence.
  putin. congruence.
Qed.

Lemma parse_authority_len ip6 : lenpres (parse_authority ip6).
Proof.
  intros p b p' H. unfold parse_authority in H.
  destruct (rd (mem p) (pos p)) as [c| |]; cbn [bind] in H; try discriminate.
  match type of H with bind ?e _ = _ => destruct e as [[ok p1]| |] eqn:E end; cbn [bind] in H; try discriminate.
  assert (L : length (mem p1) = length (mem p)).
  { destruct (c =? 91).
    - steps E; try reflexivity;
        match goal with E : wr _ _ _ = OK _ |- _ => apply wr_len in E; exact E end.
    - steps E. apply host_loop_len in E0. exact E0. }
  steps H; cbn [mem set_err set_pos set_parsed]; try congruence.
  - putin. apply parse_port_len in H. cbn in H. congruence.
  - putin. congruence.
Qed.

Lemma clean_loop_len path : forall fuel m p q m' p' q',
  clean_loop fuel m path p q = OK (m', p', q') -> length m' = length m.
Proof.
  induction fuel; intros m p q m' p' q' H; cbn [clean_loop] in H; [discriminate|].
  steps H; try reflexivity; try (apply IHfuel in H; exact H).
  apply IHfuel in H. match goal with E : wr _ _ _ = OK _ |- _ => apply wr_len in E end. congruence.
Qed.

Lemma path_clean_len m path b m' : path_clean m path = OK (b, m') -> length m' = length m.
Proof.
  unfold path_clean. intros H.
  match type of H with bind ?e _ = _ => destruct e as [[[m1 p1] q1]| |] eqn:E end; cbn [bind] in H; try discriminate.
  apply clean_loop_len in E. steps H; try congruence. match goal with E : wr _ _ _ = OK _ |- _ => apply wr_len in E end. congruence.
Qed.

Lemma parse_query_len : lenpres parse_query.
Proof.
  intros p b p' H. unfold parse_query in H. steps H; try reflexivity; cbn [mem set_err set_pos];
   match goal with E : scan_loop _ _ _ _ = OK _ |- _ => apply (scan_loop_len _ _ valid_pct_encoded_len) in E; cbn [mem set_parsed] in E end;
   try assumption.
  match goal with E : put _ _ = OK _ |- _ => apply put_len in E end. congruence.
Qed.

Lemma trim_len : forall fuel p p', trim_slashes fuel p = OK p' -> mem p' = mem p.
Proof.
  induction fuel; intros p p' H; cbn [trim_slashes] in H; [discriminate|]. steps H; try reflexivity.
  apply IHfuel in H. exact H.
Qed.

Lemma parse_path_len : lenpres parse_path.
Proof.
  intros p b p' H. unfold parse_path in H.
  destruct (trim_slashes _ p) as [p0| |] eqn:E; cbn [bind] in H; try discriminate.
  apply trim_len in E.
  match type of H with bind ?e _ = _ => destruct e as [c| |] end; cbn [bind] in H; try discriminate.
  destruct (c =? 0). { inversion H; subst. cbn. congruence. }
  match type of H with bind ?e _ = _ => destruct e as [p1| |] eqn:E1 end; cbn [bind] in H; try discriminate.
  apply (scan_loop_len _ _ parse_pct_encoded_len) in E1. cbn [mem set_parsed] in E1.
  destruct (perr p1). { inversion H; subst. congruence. }
  match type of H with bind ?e _ = _ => destruct e as [c1| |] end; cbn [bind] in H; try discriminate.
  destruct (negb (c1 =? 0) && negb (c1 =? 63) && negb (c1 =? 35)). { inversion H; subst. cbn. congruence. }
  match type of H with bind ?e _ = _ => destruct e as [[ok p2]| |] eqn:E2 end; cbn [bind] in H; try discriminate.
  assert (L : length (mem p2) = length (mem p1)).
  { steps E2; try reflexivity.
    - putin. assumption.
    - putin. match goal with E : parse_query _ = OK _ |- _ => apply parse_query_len in E; cbn in E |- * end. congruence.
    - putin. match goal with E : parse_query _ = OK _ |- _ => apply parse_query_len in E; cbn in E |- * end. congruence. }
  destruct ok; cbn [negb] in H. 2:{ inversion H; subst. congruence. }
  match type of H with bind ?e _ = _ => destruct e as [[b2 m2]| |] eqn:E3 end; cbn [bind] in H; try discriminate.
  apply path_clean_len in E3. destruct b2; inversion H; subst; cbn; congruence.
Qed.

Theorem parse_iri_len ip6 buf b p' : parse_iri ip6 buf = OK (b, p') -> length (mem p') = length buf.
Proof.
  unfold parse_iri. intros H.
  match type of H with bind ?e _ = _ => destruct e as [n| |] end; cbn [bind] in H; try discriminate.
  match type of H with bind ?e _ = _ => destruct e as [[b1 p1]| |] eqn:E1 end; cbn [bind] in H; try discriminate.
  apply parse_scheme_len in E1. cbn [mem] in E1.
  destruct b1; cbn [negb] in H. 2:{ inversion H; subst. exact E1. }
  match type of H with bind ?e _ = _ => destruct e as [[b2 p2]| |] eqn:E2 end; cbn [bind] in H; try discriminate.
  apply parse_authority_len in E2.
  destruct b2; cbn [negb] in H. 2:{ inversion H; subst. congruence. }
  apply parse_path_len in H. congruence.
Qed.
