(** Lemmas for C75 and C76: dirname(3), mkdirs, gencert. *)
From Verif Require Import Base BaseLemmas Conf Fcgi Server Ge GeSpec.
Local Open Scope N_scope.

Lemma drop_slashes_app s : exists n, s = repeat 47 n ++ drop_slashes s /\ hd 0 (drop_slashes s) <> 47.
Proof.
  induction s as [|c s (n & E & H)]; [exists 0%nat; split; [reflexivity|discriminate]|]. destruct (N.eq_dec c 47) as [->|D].
  - exists (S n). cbn [drop_slashes repeat app]. rewrite <- E. split; [reflexivity|exact H].
  - assert (G : drop_slashes (c :: s) = c :: s). { cbn. destruct c as [|p]; [reflexivity|]. repeat (destruct p as [p|p|]; try reflexivity). congruence. }
    rewrite G. exists 0%nat. split; [reflexivity|exact D].
Qed.
Lemma drop_slashes_not s : hd 0 s <> 47 -> drop_slashes s = s.
Proof.
  destruct s as [|c s]; [reflexivity|]. cbn. intros D. destruct c as [|p]; [reflexivity|]. repeat (destruct p as [p|p|]; try reflexivity). congruence.
Qed.
Lemma drop_word_cons c s : c <> 47 -> drop_word (c :: s) = drop_word s.
Proof. intros D. cbn. destruct c as [|p]; [reflexivity|]. repeat (destruct p as [p|p|]; try reflexivity). congruence. Qed.
Lemma drop_word_app s : exists w, s = w ++ drop_word s /\ ~ In 47 w /\ (drop_word s = [] \/ hd 0 (drop_word s) = 47).
Proof.
  induction s as [|c s (w & E & N & H)]; [exists []; split; [reflexivity|split; [intros []|left; reflexivity]]|].
  destruct (N.eq_dec c 47) as [->|D]; [exists []; split; [reflexivity|]; split; [intros []|right; reflexivity]|].
  rewrite (drop_word_cons c s D). exists (c :: w). split; [cbn; rewrite <- E; reflexivity|]. split; [intros [X|X]; congruence|exact H].
Qed.
Lemma drop_word_skip w s : ~ In 47 w -> drop_word (w ++ s) = drop_word s.
Proof.
  induction w as [|c w IH]; intros N; [reflexivity|]. cbn [app]. rewrite drop_word_cons by (intros ->; apply N; left; reflexivity).
  apply IH. intros I. apply N. right. exact I.
Qed.

(** the shape of dirname's result *)
Lemma dirname_shape two p : p <> [] ->
  (* only slashes *) (p = repeat 47 (length p) /\ dirname two p = top two (length p)) \/
  (* no slash before the last word *) (exists w n, p = w ++ repeat 47 n /\ w <> [] /\ ~ In 47 w /\ dirname two p = [46]) \/
  (* one word below the top *) (exists n w m, p = repeat 47 n ++ w ++ repeat 47 m /\ (0 < n)%nat /\ w <> [] /\ ~ In 47 w /\ dirname two p = top two n) \/
  (exists q n w m, p = q ++ repeat 47 n ++ w ++ repeat 47 m /\ (0 < n)%nat /\ w <> [] /\ ~ In 47 w /\ q <> [] /\ last q 0 <> 47 /\ dirname two p = q).
Proof.
  intros NE. unfold dirname. destruct p as [|p0 p'] eqn:EP; [congruence|]. rewrite <- EP in *. clear EP p0 p' NE.
  assert (RR : forall n, rev (repeat 47 n) = repeat 47 n).
  { induction n as [|n IH]; [reflexivity|]. cbn. rewrite IH. clear. induction n as [|n IH]; [reflexivity|]. cbn. rewrite IH. reflexivity. }
  destruct (drop_slashes_app (rev p)) as (m & E1 & H1). destruct (drop_slashes (rev p)) as [|a r] eqn:D1.
  { left. rewrite app_nil_r in E1. assert (P : p = repeat 47 m) by (rewrite <- (rev_involutive p), E1, RR; reflexivity).
    split; [|reflexivity]. rewrite P at 1. f_equal. rewrite P, repeat_length. reflexivity. }
  right. destruct (drop_word_app (a :: r)) as (w & E2 & NW & H2). assert (WN : w <> []).
  { intros ->. cbn [app] in E2. rewrite <- E2 in H2. destruct H2 as [X|X]; [discriminate|]. exact (H1 X). }
  destruct (drop_word (a :: r)) as [|b r'] eqn:D2.
  { left. rewrite app_nil_r in E2. rewrite E2 in E1. exists (rev w), m. split.
    - rewrite <- (rev_involutive p), E1, rev_app_distr, RR. reflexivity.
    - split; [intros X; apply WN; rewrite <- (rev_involutive w), X; reflexivity|]. split; [rewrite <- in_rev; exact NW|reflexivity]. }
  right. destruct H2 as [X|X]; [discriminate|]. cbn in X. subst b.
  destruct (drop_slashes_app (47 :: r')) as (n & E3 & H3).
  assert (WR : rev w <> []) by (intros X; apply WN; rewrite <- (rev_involutive w), X; reflexivity).
  assert (NR : ~ In 47 (rev w)) by (rewrite <- in_rev; exact NW).
  assert (N0 : (0 < n)%nat). { destruct n; [|lia]. cbn [repeat app] in E3. rewrite <- E3 in H3. exfalso. apply H3. reflexivity. }
  destruct (drop_slashes (47 :: r')) as [|x q] eqn:D3.
  - left. rewrite app_nil_r in E3. exists n, (rev w), m. split; [|split; [exact N0|]; split; [exact WR|]; split; [exact NR|]].
    + rewrite <- (rev_involutive p), E1, E2, E3, !rev_app_distr, !RR, app_assoc. reflexivity.
    + rewrite E3, repeat_length. reflexivity.
  - right. exists (rev (x :: q)), n, (rev w), m. split; [|split; [exact N0|]; split; [exact WR|]; split; [exact NR|]; split; [|split; [|reflexivity]]].
    + rewrite <- (rev_involutive p), E1, E2, E3, !rev_app_distr, !RR, <- !app_assoc. reflexivity.
    + cbn. destruct (rev q); discriminate.
    + cbn [rev]. rewrite last_last. exact H3.
Qed.

(** ** paths of words *)
Lemma words_app ws w : path_of_words (ws ++ [w]) = path_of_words ws ++ 47 :: w.
Proof. induction ws as [|x ws IH]; cbn; [rewrite app_nil_r; reflexivity|]. rewrite IH, app_assoc. reflexivity. Qed.
Lemma words_last ws : ws <> [] -> Forall word ws -> last (path_of_words ws) 0 <> 47.
Proof.
  intros NE F. destruct (exists_last NE) as (r & w & ->). apply Forall_app in F as (_ & F). inversion F as [|? ? (W1 & W2) _]; subst.
  rewrite words_app. destruct (exists_last W1) as (u & x & ->). rewrite app_comm_cons, app_assoc, last_last. intros ->. apply W2. apply in_or_app. right. left. reflexivity.
Qed.
Lemma dirname_words two ws w : Forall word ws -> word w -> dirname two (path_of_words (ws ++ [w])) = match ws with [] => [47] | _ => path_of_words ws end.
Proof.
  intros F (W1 & W2). rewrite words_app. unfold dirname. destruct (path_of_words ws ++ 47 :: w) as [|p0 p'] eqn:EP; [destruct (path_of_words ws); discriminate|].
  rewrite <- EP. clear EP p0 p'. rewrite rev_app_distr. cbn [rev]. rewrite <- app_assoc. cbn [app].
  assert (HW : hd 0 (rev w ++ 47 :: rev (path_of_words ws)) <> 47).
  { destruct (rev w) as [|x r] eqn:R; [exfalso; apply W1; rewrite <- (rev_involutive w), R; reflexivity|]. cbn. intros ->. apply W2. rewrite in_rev, R. left. reflexivity. }
  rewrite (drop_slashes_not _ HW). destruct (rev w ++ 47 :: rev (path_of_words ws)) as [|z zs] eqn:Z; [destruct (rev w); discriminate|]. rewrite <- Z.
  rewrite drop_word_skip by (rewrite <- in_rev; exact W2). cbn [drop_word drop_slashes].
  destruct ws as [|w0 ws']; [cbn; unfold top; rewrite andb_false_r; reflexivity|].
  assert (HL : hd 0 (rev (path_of_words (w0 :: ws'))) <> 47).
  { pose proof (words_last (w0 :: ws') ltac:(discriminate) F) as L. assert (P : path_of_words (w0 :: ws') <> []) by discriminate.
    destruct (exists_last P) as (u & x & E). rewrite E, last_last in L. rewrite E, rev_app_distr. exact L. }
  rewrite (drop_slashes_not _ HL). destruct (rev (path_of_words (w0 :: ws'))) as [|x q] eqn:R.
  - exfalso. assert (P : path_of_words (w0 :: ws') = []) by (rewrite <- (rev_involutive (path_of_words _)), R; reflexivity). discriminate P.
  - transitivity (rev (x :: q)); [reflexivity|]. rewrite <- R, rev_involutive. reflexivity.
Qed.

Lemma in_turn_app ok a : forall b cs ds x, in_turn ok a cs true -> in_turn ok b ds x -> in_turn ok (a ++ b) (cs ++ ds) x.
Proof.
  induction a as [|p a IH]; intros b cs ds x HA HB; inversion HA; subst; [exact HB|]. cbn. constructor; [assumption|]. apply IH; assumption.
Qed.
Lemma in_turn_stop ok a : forall b cs, in_turn ok a cs false -> in_turn ok (a ++ b) cs false.
Proof. induction a as [|p a IH]; intros b cs HA; inversion HA; subst; cbn; [constructor; [assumption|apply IH; assumption]|apply it_fails; assumption]. Qed.

Lemma ancestors_snoc ws w : ws <> [] -> ancestors (ws ++ [w]) = ancestors ws ++ [path_of_words (ws ++ [w])].
Proof.
  intros NE. unfold ancestors. rewrite app_length. cbn [length]. destruct ws as [|w0 ws]; [congruence|]. cbn [length].
  replace (S (length ws) + 1 - 1)%nat with (S (length ws)) by lia. replace (S (length ws) - 1)%nat with (length ws) by lia.
  rewrite seq_S, map_app. f_equal.
  - apply map_ext_in. intros k K. apply in_seq in K. rewrite firstn_app. cbn [length]. replace (k - S (length ws))%nat with 0%nat by lia.
    cbn [firstn]. rewrite app_nil_r. reflexivity.
  - cbn [map]. f_equal. f_equal. apply firstn_all2. rewrite app_length. cbn. lia.
Qed.

Lemma words_len ws w : (length (path_of_words ws) < length (path_of_words (ws ++ [w])))%nat.
Proof. rewrite words_app, app_length. cbn. lia. Qed.

Lemma mkdirs_words two mkdir : forall ws fuel, ws <> [] -> Forall word ws -> (length (path_of_words ws) <= PATH_MAX)%nat -> (length ws <= fuel)%nat ->
  exists cs b, mkdirs two mkdir fuel (path_of_words ws) = OK (cs, b) /\ in_turn mkdir (ancestors ws) cs b.
Proof.
  induction ws as [|w ws IH] using rev_ind; intros fuel NE F L LF; [congruence|]. apply Forall_app in F as (F & FW). inversion FW as [|? ? W _]; subst.
  rewrite app_length in LF. cbn in LF. destruct fuel as [|fuel]; [lia|]. cbn [mkdirs].
  destruct (Nat.leb_spec (PATH_MAX + 1) (length (path_of_words (ws ++ [w])))); [lia|]. rewrite (dirname_words two ws w F W).
  destruct ws as [|w0 ws0] eqn:EW.
  - cbn. eexists _, _. split; [reflexivity|]. constructor.
  - rewrite <- EW in *. assert (NW : ws <> []) by (rewrite EW; discriminate). destruct (leqb (path_of_words ws) [47]) eqn:Q.
    { exfalso. apply leqb_eq in Q. pose proof (words_last ws NW F) as X. rewrite Q in X. apply X. reflexivity. }
    pose proof (words_len ws w). destruct (IH fuel NW F ltac:(lia) ltac:(lia)) as (cs & b & E & T). rewrite E. cbn [bind]. rewrite (ancestors_snoc ws w NW).
    destruct b; [|eexists _, _; split; [reflexivity|apply in_turn_stop; exact T]].
    eexists _, _. split; [reflexivity|]. eapply in_turn_app; [exact T|]. destruct (mkdir (path_of_words (ws ++ [w]))) eqn:M; [apply it_next; [exact M|constructor]|apply it_fails; exact M].
Qed.

(** ** when mkdirs comes to an end *)

(** absolute, and not with exactly two leading slashes if the library keeps them *)
Definition two_slashes (p : list N) : Prop := exists r, p = 47 :: 47 :: r /\ hd 0 r <> 47.
Definition rooted (two : bool) (p : list N) : Prop := hd 0 p = 47 /\ (two = true -> ~ two_slashes p).

Lemma top_one two n p : rooted two p -> (exists r, p = repeat 47 n ++ r /\ hd 0 r <> 47) -> top two n = [47].
Proof.
  intros (_ & R) (r & -> & H). unfold top. destruct two; [|reflexivity]. destruct (Nat.eqb_spec n 2) as [->|]; [|reflexivity].
  exfalso. apply (R eq_refl). exists r. split; [reflexivity|exact H].
Qed.
Lemma hd_word w s : w <> [] -> ~ In 47 w -> hd 0 (w ++ s) <> 47.
Proof. intros NE N. destruct w as [|x w]; [congruence|]. cbn. intros ->. apply N. left. reflexivity. Qed.

Lemma rooted_step two p : rooted two p -> dirname two p = [47] \/ (rooted two (dirname two p) /\ (length (dirname two p) < length p)%nat).
Proof.
  intros R. assert (NE : p <> []) by (intros ->; destruct R as (X & _); discriminate X).
  destruct (dirname_shape two p NE) as [(E & D)|[(w & n & E & W1 & W2 & D)|[(n & w & m & E & N0 & W1 & W2 & D)|(q & n & w & m & E & N0 & W1 & W2 & Q1 & Q2 & D)]]]; rewrite D.
  - left. apply (top_one two _ p R). exists []. split; [rewrite app_nil_r; exact E|discriminate].
  - exfalso. destruct R as (X & _). rewrite E in X. exact (hd_word _ _ W1 W2 X).
  - left. apply (top_one two _ p R). exists (w ++ repeat 47 m). split; [exact E|apply hd_word; assumption].
  - right. split.
    + destruct R as (X & R). split; [rewrite E in X; destruct q; [congruence|exact X]|]. intros T (r & Y & H). apply (R T).
      exists (r ++ repeat 47 n ++ w ++ repeat 47 m). split; [rewrite E, Y; reflexivity|].
      destruct r as [|y r]; [exfalso; rewrite Y in Q2; apply Q2; reflexivity|exact H].
    + rewrite E, !app_length, repeat_length. lia.
Qed.

Lemma mkdirs_ends two mkdir : forall fuel p, rooted two p -> (length p <= fuel)%nat -> exists r, mkdirs two mkdir fuel p = OK r.
Proof.
  induction fuel as [|f IH]; intros p R L.
  { exfalso. destruct R as (X & _). destruct p; [discriminate X|cbn in L; lia]. }
  cbn [mkdirs]. destruct (PATH_MAX + 1 <=? length p)%nat; [eauto|]. destruct (leqb (dirname two p) [47]) eqn:Q; [eauto|].
  destruct (rooted_step two p R) as [E|(R' & L')]; [rewrite E in Q; discriminate|]. destruct (IH _ R' ltac:(lia)) as ((cs & b) & E). rewrite E. cbn [bind].
  destruct b; eauto.
Qed.

Lemma unrooted_step two p : ~ rooted two p -> ~ rooted two (dirname two p) /\ dirname two p <> [47] /\ (length (dirname two p) <= Nat.max 1 (length p))%nat.
Proof.
  intros R. assert (DOT : ~ rooted two [46] /\ [46] <> [47] /\ (length [46] <= Nat.max 1 (length p))%nat).
  { split; [intros (X & _); discriminate X|]. split; [discriminate|]. cbn [length]. lia. }
  destruct p as [|a p']; [exact DOT|]. set (p := a :: p') in *. assert (NE : p <> []) by discriminate.
  assert (TOP : forall n r, p = repeat 47 n ++ r -> hd 0 r <> 47 -> (0 < n)%nat -> ~ rooted two (top two n) /\ top two n <> [47] /\ (length (top two n) <= Nat.max 1 (length p))%nat).
  { intros n r E H N0. assert (T : two = true /\ n = 2%nat).
    { destruct two; [|exfalso; apply R; split; [rewrite E; destruct n; [lia|reflexivity]|discriminate]]. split; [reflexivity|].
      destruct (Nat.eq_dec n 2) as [|D]; [assumption|]. exfalso. apply R. split; [rewrite E; destruct n; [lia|reflexivity]|]. intros _ (r' & Y & H').
      rewrite E in Y. destruct n as [|[|[|n]]]; [lia| |congruence|]; cbn in Y.
      - injection Y as Y. rewrite Y in H. apply H. reflexivity.
      - injection Y as Y. rewrite <- Y in H'. apply H'. reflexivity. }
    destruct T as (-> & ->). cbn. split; [|split; [discriminate|]].
    - intros (_ & X). apply (X eq_refl). exists []. split; [reflexivity|discriminate].
    - apply (f_equal (@length N)) in E. rewrite app_length in E. unfold p in E. cbn [repeat length] in E |- *. lia. }
  destruct (dirname_shape two p NE) as [(E & D)|[(w & n & E & W1 & W2 & D)|[(n & w & m & E & N0 & W1 & W2 & D)|(q & n & w & m & E & N0 & W1 & W2 & Q1 & Q2 & D)]]]; rewrite D.
  - apply (TOP (length p) []); [rewrite app_nil_r; exact E|discriminate|cbn; lia].
  - exact DOT.
  - apply (TOP n (w ++ repeat 47 m)); [exact E|apply hd_word; assumption|exact N0].
  - split; [|split].
    + intros (X & X2). apply R. split; [rewrite E; destruct q; [congruence|exact X]|]. intros T (r & Y & H). apply (X2 T).
      rewrite E in Y. destruct q as [|q0 [|q1 q2]]; [congruence| |].
      * cbn in X, Q2. congruence.
      * injection Y as -> -> Y. exists q2. split; [reflexivity|]. destruct q2 as [|q3 q4]; [discriminate|]. rewrite <- Y in H. exact H.
    + intros ->. apply Q2. reflexivity.
    + rewrite E, !app_length, repeat_length. lia.
Qed.

Lemma mkdirs_never two mkdir : forall fuel p, ~ rooted two p -> (length p <= PATH_MAX)%nat -> mkdirs two mkdir fuel p = Fuel.
Proof.
  induction fuel as [|f IH]; intros p R L; [reflexivity|]. cbn [mkdirs]. destruct (Nat.leb_spec (PATH_MAX + 1) (length p)); [lia|].
  destruct (unrooted_step two p R) as (R' & D & L'). destruct (leqb (dirname two p) [47]) eqn:Q; [apply leqb_eq in Q; congruence|].
  rewrite IH; [reflexivity|exact R'|]. unfold PATH_MAX in *. lia.
Qed.

(** ** gencert *)
Lemma leqb_refl' s : leqb s s = true. Proof. apply leqb_eq. reflexivity. Qed.
Lemma put_same d p f : put d p f p = f. Proof. unfold put. rewrite leqb_refl'. reflexivity. Qed.
Lemma put_other d p f q : q <> p -> put d p f q = d q.
Proof. intros N. unfold put. destruct (leqb p q) eqn:E; [apply leqb_eq in E; congruence|reflexivity]. Qed.
Lemma cert_key dir host : cert_path dir host <> key_path dir host.
Proof. unfold cert_path, key_path. intros H. do 3 apply app_inv_head in H. discriminate H. Qed.
