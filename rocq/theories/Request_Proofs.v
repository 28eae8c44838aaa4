From Verif Require Import Base BaseLemmas Compat Iri IriSpec IriObs Prop_Iri Puny Conf ConfSpec Mime Prop_Conf Fmt FmtSpec Prop_Fmt Fcgi Server ServerSpec Iri_Last_Proofs Server_Proofs Decide_Proofs RequestSpec.
Local Open Scope N_scope.

Lemma readln_cons a b r : readln (a :: b :: r) =
  if (a =? 13) && (b =? 10) then Some ([], r) else match readln (b :: r) with Some (l, t) => Some (a :: l, t) | None => None end.
Proof. reflexivity. Qed.

Lemma readln_sound s : forall l t, readln s = Some (l, t) -> first_line s l t.
Proof.
  induction s as [|a s IH]; [discriminate|]. destruct s as [|b r]; [discriminate|].
  intros l t. rewrite readln_cons. destruct ((a =? 13) && (b =? 10)) eqn:E.
  - intros H. inversion H; subst. assert (a = 13 /\ b = 10) as [-> ->] by lia. split; [reflexivity|].
    intros (x & y & H1). destruct x as [|? [|? x]]; discriminate.
  - destruct (readln (b :: r)) as [[l' t']|] eqn:R; [|discriminate]. intros H. inversion H; subst.
    destruct (IH _ _ eq_refl) as [H1 H2]. split; [cbn; rewrite H1; reflexivity|].
    intros (x & y & H3). destruct x as [|u x].
    + cbn in H3. injection H3 as Ha H4. subst a. destruct l' as [|w l']; [discriminate|].
      cbn in H4. injection H4 as Hw _. subst w. cbn in H1. injection H1 as Hb _. subst b. discriminate.
    + cbn in H3. injection H3 as Hu H4. apply H2. exists x, y. exact H4.
Qed.

Lemma readln_none s : readln s = None -> ~ has_crlf s.
Proof.
  induction s as [|a s IH]; [intros _ (x & y & H); destruct x as [|? [|? x]]; discriminate|].
  destruct s as [|b r]; [intros _ (x & y & H); destruct x as [|? [|? x]]; discriminate|].
  rewrite readln_cons. destruct ((a =? 13) && (b =? 10)) eqn:E; [discriminate|].
  destruct (readln (b :: r)) as [[l' t']|]; [discriminate|]. intros _ (x & y & H). destruct x as [|u x].
  - cbn in H. injection H as -> -> _. discriminate.
  - cbn in H. injection H as _ H. apply (IH eq_refl). exists x, y. exact H.
Qed.

Lemma first_line_unique s l t l' t' : first_line s l t -> first_line s l' t' -> l = l' /\ t = t'.
Proof.
  intros [H1 H2] [H3 H4]. revert s l' t' H1 H2 H3 H4. induction l as [|a l IH]; intros s l' t' H1 H2 H3 H4.
  - destruct l' as [|b l']; [subst s; cbn in H3; injection H3 as ->; auto|].
    exfalso. subst s. cbn in H3. injection H3 as Hb H5. subst b. destruct l' as [|b l']; [discriminate|].
    cbn in H5. injection H5 as Hb _. subst b. apply H4. exists [], (l' ++ [13]). reflexivity.
  - destruct l' as [|b l'].
    + exfalso. subst s. cbn in H3. injection H3 as Ha H5. subst a. destruct l as [|a l]; [discriminate|].
      cbn in H5. injection H5 as Ha _. subst a. apply H2. exists [], (l ++ [13]). reflexivity.
    + subst s. cbn in H3. injection H3 as Hb H3. subst b. destruct (IH (l ++ CRLF ++ t) l' t') as [-> ->]; auto.
      * intros (x & y & H). apply H2. exists (a :: x), y. cbn. rewrite H. reflexivity.
      * intros (x & y & H). apply H4. exists (a :: x), y. cbn. rewrite H. reflexivity.
Qed.

Lemma readln_complete s l t : first_line s l t -> readln s = Some (l, t).
Proof.
  intros H. destruct (readln s) as [[l' t']|] eqn:E.
  - destruct (first_line_unique _ _ _ _ _ (readln_sound _ _ _ E) H) as [-> ->]. reflexivity.
  - exfalso. apply (readln_none _ E). destruct H as [-> _]. exists l, t. reflexivity.
Qed.

(** more input does not change the first line *)
Lemma first_line_app s l t x : first_line s l t -> first_line (s ++ x) l (t ++ x).
Proof. intros [-> H]. split; [rewrite <- !app_assoc; reflexivity|exact H]. Qed.

Lemma nonul_existsb line : existsb (N.eqb 0) line = false <-> nonul line.
Proof.
  unfold nonul. induction line as [|x l IH]; cbn [existsb]; [split; [constructor|auto]|].
  rewrite orb_false_iff, IH. split.
  - intros [H1 H2]. constructor; [intros ->; discriminate|exact H2].
  - intros H. inversion H; subst. split; [|assumption]. destruct (N.eqb_spec 0 x); [congruence|reflexivity].
Qed.

(** ** what [client_read] does with a complete line *)
Definition reading (c : client) : Prop := c_type c = UNDECIDED /\ (length (c_in c) <= 1026)%nat.

Lemma client_read_understood E fs c line rest i asked v : reading c -> first_line (c_in c) line rest ->
  understood E line i asked -> c_vhost c = Some v ->
  client_read E fs c = dispatch E fs v i asked (set_iri (Some i) (set_in rest c)).
Proof.
  intros (HT & HL) HF (HN & HB & (p & HP & HC) & (out & HD & HO)) HV. unfold client_read. rewrite HT.
  destruct (Nat.ltb_spec 1026 (length (c_in c))); [lia|].
  rewrite (readln_complete _ _ _ HF). cbv zeta.
  destruct HF as [HE _]. rewrite HE, !app_length in HL.
  destruct (Nat.ltb_spec 1026 (length line)); [lia|].
  rewrite (proj2 (nonul_existsb line) HN). rewrite HP. cbn [bind]. rewrite HC. cbn [negb].
  rewrite HD. cbn [bind]. rewrite HO. change (c_vhost (set_iri (Some i) (set_in rest c))) with (c_vhost c). rewrite HV. reflexivity.
Qed.

(** the same client up to the request it read *)
Definition refreshed (c c1 : client) : Prop :=
  c_out c1 = c_out c /\ c_sent c1 = c_sent c /\ c_closed c1 = c_closed c /\ c_vhost c1 = c_vhost c /\ c_acts c1 = c_acts c /\
  c_type c1 = c_type c /\ c_conns c1 = c_conns c /\ c_domain c1 = c_domain c /\ c_hs c1 = c_hs c /\ c_cgibev c1 = c_cgibev c /\
  c_code c1 = c_code c /\ c_up c1 = c_up c /\ c_pfd c1 = c_pfd c /\ c_dir c1 = c_dir c.

Lemma client_read_malformed E fs c line rest : reading c -> first_line (c_in c) line rest -> malformed E line ->
  exists c1, refreshed c c1 /\ client_read E fs c = OK (reply E 59 (s2b "bad request") c1).
Proof.
  intros (HT & HL) HF HM. unfold client_read. rewrite HT.
  destruct (Nat.ltb_spec 1026 (length (c_in c))); [lia|].
  rewrite (readln_complete _ _ _ HF). cbv zeta.
  destruct HF as [HE _]. rewrite HE, !app_length in HL. change (length CRLF) with 2%nat in HL.
  destruct (Nat.ltb_spec 1026 (length line)); [lia|].
  destruct (existsb (N.eqb 0) line) eqn:EX.
  { eexists. split; [|reflexivity]. repeat split. }
  assert (HN : nonul line) by (apply nonul_existsb; exact EX).
  destruct HM as [HM|[HM|[(_ & HB & p & HP)|(_ & HB & i & out & (p & HP & HC) & HD)]]].
  - lia.
  - exfalso. unfold nonul in HN. rewrite Forall_forall in HN. apply (HN 0 HM). reflexivity.
  - rewrite HP. cbn [bind]. destruct (refused_comps _ _ _ HP) as (i & ->). cbn [negb].
    eexists. split; [|reflexivity]. repeat split.
  - rewrite HP. cbn [bind]. rewrite HC. cbn [negb]. rewrite HD. cbn [bind].
    eexists. split; [|reflexivity]. repeat split.
Qed.

Lemma client_read_incomplete E fs c : reading c -> ~ has_crlf (c_in c) -> client_read E fs c = OK c.
Proof.
  intros (HT & HL) H. unfold client_read. rewrite HT.
  destruct (Nat.ltb_spec 1026 (length (c_in c))); [lia|].
  destruct (readln (c_in c)) as [[l t]|] eqn:R; [|reflexivity].
  exfalso. apply H. destruct (readln_sound _ _ _ R) as [-> _]. exists l, t. reflexivity.
Qed.

Lemma client_read_oversize E fs c : c_type c = UNDECIDED -> (1026 < length (c_in c))%nat ->
  client_read E fs c = OK (reply E 59 (s2b "bad request") c).
Proof.
  intros HT HL. unfold client_read. rewrite HT. destruct (Nat.ltb_spec 1026 (length (c_in c))); [reflexivity|lia].
Qed.

Lemma client_read_done E fs c : c_type c <> UNDECIDED -> client_read E fs c = OK c.
Proof. unfold client_read. destruct (c_type c); congruence. Qed.

(** ** the same under every fragmentation *)
Lemma step_read E fs x c : c_hs c = true -> c_closed c = false -> x <> [] ->
  step E (EvRead x fs) c = Some (client_read E fs (set_in (c_in c ++ x) c)).
Proof. intros H1 H2 H3. cbn [step]. rewrite H1, H2. destruct x; [congruence|reflexivity]. Qed.

Lemma set_in_id c : set_in (c_in c) c = c.
Proof. destruct c; reflexivity. Qed.
Lemma set_in_in a b c : set_in a (set_in b c) = set_in a c. Proof. reflexivity. Qed.

(** nothing happens while the request is incomplete *)
Lemma reads_incomplete E fs chunks : forall c, Forall (fun x => x <> []) chunks -> c_hs c = true -> c_closed c = false -> c_type c = UNDECIDED ->
  (length (c_in c ++ concat chunks) <= 1026)%nat -> ~ has_crlf (c_in c ++ concat chunks) ->
  run E (reads fs chunks) c = Some (OK (set_in (c_in c ++ concat chunks) c)).
Proof.
  induction chunks as [|x r IH]; intros c HF H1 H2 H3 HL HC.
  - cbn. rewrite app_nil_r. rewrite set_in_id. reflexivity.
  - inversion HF; subst. cbn [reads map run]. rewrite step_read by assumption.
    cbn [concat] in *. rewrite client_read_incomplete.
    + cbn [bind]. change (map (fun x0 => EvRead x0 fs) r) with (reads fs r).
      rewrite IH; auto; [|cbn [set_in c_in]; rewrite <- app_assoc; exact HL|cbn [set_in c_in]; rewrite <- app_assoc; exact HC].
      cbn [set_in c_in]. rewrite <- app_assoc. reflexivity.
    + split; [exact H3|]. cbn [set_in c_in]. rewrite app_assoc, app_length in HL. lia.
    + cbn [set_in c_in]. intros (a & b & E1). apply HC. rewrite app_assoc, E1. exists a, (b ++ concat r).
      rewrite <- !app_assoc. reflexivity.
Qed.

(** once decided, what comes next is only buffered *)
Lemma reads_done E fs chunks : forall c, Forall (fun x => x <> []) chunks -> c_hs c = true -> c_closed c = false -> c_type c <> UNDECIDED ->
  run E (reads fs chunks) c = Some (OK (set_in (c_in c ++ concat chunks) c)).
Proof.
  induction chunks as [|x r IH]; intros c HF H1 H2 H3.
  - cbn. rewrite app_nil_r, set_in_id. reflexivity.
  - inversion HF; subst. cbn [reads map run concat]. rewrite step_read by assumption.
    rewrite client_read_done by exact H3. change (map (fun x0 => EvRead x0 fs) r) with (reads fs r).
    rewrite IH; auto. cbn [set_in c_in]. rewrite <- app_assoc. reflexivity.
Qed.

Lemma run_app E es1 : forall es2 c, run E (es1 ++ es2) c =
  match run E es1 c with Some (OK c') => run E es2 c' | r => r end.
Proof.
  induction es1 as [|e es1 IH]; intros es2 c; [reflexivity|]. cbn [app run].
  destruct (step E e c) as [[c'| |]|]; [apply IH|reflexivity|reflexivity|reflexivity].
Qed.

(** the pieces up to the one that completes a property of the prefix *)
Lemma split_at (P : list N -> Prop) (dec : forall s, P s \/ ~ P s) chunks : forall pre, ~ P pre -> P (pre ++ concat chunks) ->
  exists a x b, chunks = a ++ x :: b /\ ~ P (pre ++ concat a) /\ P (pre ++ concat a ++ x).
Proof.
  induction chunks as [|x r IH]; intros pre H1 H2; cbn [concat] in *.
  - rewrite app_nil_r in H2. contradiction.
  - destruct (dec (pre ++ x)) as [D|D].
    + exists [], x, r. cbn. rewrite app_nil_r. auto.
    + destruct (IH (pre ++ x) D) as (a & y & b & E & N & Y); [rewrite <- app_assoc; exact H2|].
      exists (x :: a), y, b. subst r. cbn [concat app]. rewrite <- !app_assoc in *. auto.
Qed.

Lemma has_crlf_dec s : has_crlf s \/ ~ has_crlf s.
Proof.
  destruct (readln s) as [[l t]|] eqn:R; [left|right; apply readln_none; exact R].
  destruct (readln_sound _ _ _ R) as [-> _]. exists l, t. reflexivity.
Qed.

Lemma crlf_first s : has_crlf s -> exists l t, first_line s l t.
Proof.
  intros H. destruct (readln s) as [[l t]|] eqn:R; [exists l, t; apply readln_sound; exact R|].
  exfalso. eapply readln_none; eauto.
Qed.

Lemma reads_app fs a b : reads fs (a ++ b) = reads fs a ++ reads fs b.
Proof. apply map_app. Qed.

(** a complete line of at most 1024 bytes with nothing behind: read at once *)
Lemma reads_line E fs line chunks c : c_hs c = true -> c_closed c = false -> c_type c = UNDECIDED -> c_in c = [] ->
  (length line <= 1024)%nat -> ~ has_crlf (line ++ [13]) -> pieces (line ++ CRLF) chunks ->
  run E (reads fs chunks) c = Some (client_read E fs (set_in (line ++ CRLF) c)).
Proof.
  intros H1 H2 H3 H4 HL HC [HE HF].
  destruct (split_at has_crlf has_crlf_dec chunks []) as (a & x & b & E1 & N & Y).
  - intros (p & q & H). destruct p; discriminate.
  - cbn [app]. rewrite HE. exists line, []. reflexivity.
  - cbn [app] in N, Y. subst chunks.
    assert (B : b = []).
    { destruct b as [|y b]; [reflexivity|]. exfalso.
      destruct (crlf_first _ Y) as (l & t & F).
      pose proof (first_line_app _ _ _ (concat (y :: b)) F) as F2.
      rewrite <- !app_assoc in F2. change (concat (a ++ x :: y :: b)) with (concat (a ++ x :: y :: b)) in HE.
      rewrite concat_app in HE. cbn [concat] in HE. cbn [concat] in F2. rewrite HE in F2.
      assert (F3 : first_line (line ++ CRLF) line []) by (split; [rewrite app_nil_r; reflexivity|exact HC]).
      destruct (first_line_unique _ _ _ _ _ F2 F3) as [_ T]. apply app_eq_nil in T as [_ T]. apply app_eq_nil in T as [T _].
      rewrite Forall_forall in HF. apply (HF y); [apply in_or_app; right; right; left; reflexivity|exact T]. }
    subst b. rewrite concat_app in HE. cbn [concat] in HE. rewrite app_nil_r in HE.
    apply Forall_app in HF as [HFa HFx]. inversion HFx; subst.
    rewrite reads_app, run_app, reads_incomplete; auto.
    + rewrite H4. cbn [app]. cbn [reads map run]. rewrite step_read by assumption. cbn [set_in c_in]. rewrite HE.
      rewrite set_in_in. destruct (client_read E fs (set_in (line ++ CRLF) c)) as [? | |]; reflexivity.
    + rewrite H4. cbn [app]. assert (length (concat a ++ x) = length (line ++ CRLF)) by (rewrite HE; reflexivity).
      rewrite !app_length in H. change (length CRLF) with 2%nat in H. lia.
    + rewrite H4. exact N.
Qed.

(** too much input without an end of line *)
Lemma reads_oversize E fs s chunks c : c_hs c = true -> c_closed c = false -> c_type c = UNDECIDED -> c_in c = [] ->
  (1026 < length s)%nat -> ~ has_crlf (firstn 1026 s) -> pieces s chunks ->
  exists c1 c2, refreshed c c1 /\ c2 = reply E 59 (s2b "bad request") c1 /\ run E (reads fs chunks) c = Some (OK (set_in s c2)).
Proof.
  intros H1 H2 H3 H4 HL HC [HE HF].
  assert (D : forall p : list N, (1026 < length p)%nat \/ ~ (1026 < length p)%nat) by (intros p; destruct (Nat.lt_ge_cases 1026 (length p)); [left; assumption|right; lia]).
  destruct (split_at (fun p => (1026 < length p)%nat) D chunks []) as (a & x & b & E1 & N & Y).
  - cbn. lia.
  - cbn [app]. rewrite HE. exact HL.
  - cbn [app] in N, Y. subst chunks. rewrite concat_app in HE. cbn [concat] in HE.
    apply Forall_app in HF as [HFa HFx]. inversion HFx; subst x0 l.
    assert (NC : ~ has_crlf (concat a)).
    { intros (p & q & H). apply HC. rewrite <- HE, firstn_app, (firstn_all2 (concat a)) by lia.
      rewrite H. exists p, (q ++ firstn (1026 - length (p ++ CRLF ++ q)) (x ++ concat b)). rewrite <- !app_assoc. reflexivity. }
    rewrite reads_app, run_app, reads_incomplete; auto; [|rewrite H4; cbn [app]; lia|rewrite H4; exact NC].
    rewrite H4. cbn [app]. cbn [reads map run]. rewrite step_read by assumption.
    set (c1 := set_in (c_in (set_in (concat a) c) ++ x) (set_in (concat a) c)).
    assert (I1 : c_in c1 = concat a ++ x) by reflexivity.
    rewrite client_read_oversize; [|exact H3|rewrite I1; exact Y]. change (map (fun x0 => EvRead x0 fs) b) with (reads fs b).
    exists c1, (reply E 59 (s2b "bad request") c1).
    assert (RF : refreshed c c1) by (repeat split). split; [exact RF|]. split; [reflexivity|].
    pose proof (reply_spec E 59 (s2b "bad request") c1 ltac:(lia) ltac:(lia)) as R. cbv zeta in R. destruct R as (S & _ & R).
    destruct S as (Sh & Sc & Si & _).
    rewrite reads_done; [|assumption|rewrite Sh; exact H1|rewrite Sc; exact H2|].
    + rewrite Si, I1. rewrite <- app_assoc, HE. reflexivity.
    + destruct (fits E c1 (s2b "bad request")); destruct R as (_ & _ & -> & _); cbn; discriminate.
Qed.
