(** Elementary facts about buffers; no model content. *)
From Verif Require Import Base.

Lemma bind_OK {A B} (x : res A) (f : A -> res B) b :
  bind x f = OK b -> exists a, x = OK a /\ f a = OK b.
Proof. destruct x; simpl; intros H; try discriminate; eauto. Qed.

Lemma rd_app2 pre c r p : p = length pre -> rd (pre ++ c :: r) p = OK c.
Proof.
  intros ->. unfold rd. rewrite nth_error_app2 by lia.
  rewrite Nat.sub_diag. reflexivity.
Qed.

Lemma wr_app2 pre c r p v :
  p = length pre -> wr (pre ++ c :: r) p v = OK (pre ++ v :: r).
Proof.
  intros ->. unfold wr. rewrite app_length. cbn [length].
  destruct (Nat.ltb_spec (length pre) (length pre + S (length r))); [|lia].
  f_equal. f_equal.
  - rewrite firstn_app, Nat.sub_diag, firstn_all. cbn. apply app_nil_r.
  - f_equal. rewrite skipn_app. rewrite skipn_all2 by lia.
    replace (S (length pre) - length pre) with 1 by lia. reflexivity.
Qed.

Lemma rd_ok m p c : rd m p = OK c -> p < length m /\ nth_error m p = Some c.
Proof.
  unfold rd. destruct (nth_error m p) eqn:E; intros H; inversion H; subst.
  split; auto. apply nth_error_Some. congruence.
Qed.

Lemma skipn_pre {A} (pre r : list A) p : p = length pre -> skipn p (pre ++ r) = r.
Proof.
  intros ->. rewrite skipn_app, skipn_all, Nat.sub_diag. reflexivity.
Qed.

Lemma firstn_pre {A} (pre r : list A) p : p = length pre -> firstn p (pre ++ r) = pre.
Proof.
  intros ->. rewrite firstn_app, Nat.sub_diag, firstn_all. simpl. apply app_nil_r.
Qed.

Lemma nonul_app a b : nonul (a ++ b) <-> nonul a /\ nonul b.
Proof. apply Forall_app. Qed.
Lemma nonul_cons c s : nonul (c :: s) <-> c <> 0%N /\ nonul s.
Proof. split; intros H; [inversion H; auto | destruct H; constructor; auto]. Qed.
Lemma bytes_app a b : bytes (a ++ b) <-> bytes a /\ bytes b.
Proof. apply Forall_app. Qed.
Lemma bytes_cons c s : bytes (c :: s) <-> (c < 256)%N /\ bytes s.
Proof. split; intros H; [inversion H; auto | destruct H; constructor; auto]. Qed.

Lemma cstr_nul s j : nonul s -> cstr (s ++ 0%N :: j) = Some s.
Proof.
  induction s as [|c s IH]; intros H; simpl; [reflexivity|].
  apply nonul_cons in H. destruct H as [H1 H2].
  destruct (N.eqb_spec c 0); [contradiction|]. rewrite IH by auto. reflexivity.
Qed.

Lemma cstr_inv m s : cstr m = Some s -> nonul s /\ exists j, m = s ++ 0%N :: j.
Proof.
  revert s. induction m as [|c m IH]; simpl; intros s H; [discriminate|].
  destruct (N.eqb_spec c 0).
  - inversion H; subst. split; [constructor|]. exists m. reflexivity.
  - destruct (cstr m) as [l|] eqn:E; [|discriminate]. inversion H; subst.
    destruct (IH l eq_refl) as [H1 [j Hj]]. split; [constructor; auto|].
    exists j. rewrite Hj. reflexivity.
Qed.

Lemma cstr_at_app pre s j p :
  p = length pre -> nonul s -> cstr_at (pre ++ s ++ 0%N :: j) p = Some s.
Proof. intros Hp Hs. unfold cstr_at. rewrite skipn_pre by auto. apply cstr_nul; auto. Qed.

Lemma strlen_app pre s j p :
  p = length pre -> nonul s -> strlen (pre ++ s ++ 0%N :: j) p = OK (length s).
Proof. intros. unfold strlen. rewrite cstr_at_app; auto. Qed.

(** finite sweeps over bytes *)
Definition all_bytes : list N := map N.of_nat (seq 0 256).
Lemma in_all_bytes c : (c < 256)%N -> In c all_bytes.
Proof.
  intros H. unfold all_bytes. apply in_map_iff. exists (N.to_nat c). split; [lia|].
  apply in_seq. lia.
Qed.
Lemma byte_sweep (f : N -> bool) :
  forallb f all_bytes = true -> forall c, (c < 256)%N -> f c = true.
Proof. intros H c Hc. rewrite forallb_forall in H. apply H, in_all_bytes, Hc. Qed.

Lemma leqb_eq a b : leqb a b = true <-> a = b.
Proof.
  revert b. induction a as [|x a IH]; intros [|y b]; simpl; split; intros H; try discriminate; auto.
  - apply andb_true_iff in H. destruct H as [H1 H2]. apply N.eqb_eq in H1. apply IH in H2. congruence.
  - inversion H; subst. rewrite N.eqb_refl. simpl. apply IH. reflexivity.
Qed.
Lemma leqb_refl a : leqb a a = true.
Proof. apply leqb_eq. reflexivity. Qed.
Lemma leqb_neq a b : leqb a b = false <-> a <> b.
Proof.
  destruct (leqb a b) eqn:E; split; intros H; try discriminate; auto.
  - apply leqb_eq in E. contradiction.
  - intros ->. rewrite leqb_refl in E. discriminate.
Qed.

Lemma bytes_s2b s : bytes (s2b s).
Proof.
  induction s as [|a s IH]; simpl; [constructor|]. constructor; auto.
  apply N_ascii_bounded.
Qed.

Lemma Forall_bool {A} (f : A -> bool) l :
  forallb f l = true -> Forall (fun x => f x = true) l.
Proof. intros H. apply Forall_forall. intros x Hx. rewrite forallb_forall in H. auto. Qed.
