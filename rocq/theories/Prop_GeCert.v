(** C76: the certificate of gemexp(1). *)
From Verif Require Import Base BaseLemmas Conf Fcgi Server Ge GeSpec GeDir_Proofs.
Local Open Scope N_scope.

Lemma writing_in d p s n x : In x (writing d p s n) -> exists k, x = put d p (filled (d p) (firstn k s)).
Proof. unfold writing. intros H. apply in_map_iff in H as (k & <- & _). eauto. Qed.
Lemma writing_last d p s n dd : last (writing d p s n) dd = put d p (filled (d p) (firstn (Nat.min n (length s)) s)).
Proof. unfold writing. rewrite seq_S, map_app. cbn [map]. rewrite last_last. reflexivity. Qed.
Lemma filled_emptied f s : filled (emptied f) s = match f with Absent => File true s | File r _ => File r s end.
Proof. destruct f; reflexivity. Qed.

(** every disk [gencert] goes through, by cases *)
Inductive stage (g : gen) (cert key : list N) (d x : disk) : Prop :=
| st_start : x cert = d cert -> x key = d key -> stage g cert key d x
| st_key s : (s = [] \/ exists k n, g_key g = Some k /\ s = firstn n k) -> x key = filled (emptied (d key)) s -> x cert = d cert -> stage g cert key d x
| st_cert k c n : g_key g = Some k -> g_cert g k = Some c -> x key = filled (emptied (d key)) k -> x cert = filled (emptied (d cert)) (firstn n c) ->
    stage g cert key d x
| st_gone : (x cert = Absent \/ x key = Absent) -> stage g cert key d x
| st_left : (g_unlink g cert = false \/ g_unlink g key = false) -> stage g cert key d x.

Lemma same_put d0 d cert key p f : p = cert \/ p = key -> elsewhere_same cert key d0 d -> elsewhere_same cert key d0 (put d p f).
Proof. intros H S q A B. rewrite put_other by (destruct H; congruence). apply S; assumption. Qed.
Lemma same_refl cert key d : elsewhere_same cert key d d. Proof. intros p _ _. reflexivity. Qed.

Definition both (g : gen) (cert key : list N) (d x : disk) : Prop := stage g cert key d x /\ elsewhere_same cert key d x.

Lemma err_both g cert key d0 d : both g cert key d0 d -> Forall (both g cert key d0) (gen_err g cert key d).
Proof.
  intros (S & E). unfold gen_err. constructor; [split; assumption|].
  assert (E1 : elsewhere_same cert key d0 (if g_unlink g cert then put d cert Absent else d)) by (destruct (g_unlink g cert); [apply same_put; auto|exact E]).
  constructor; [|constructor; [|constructor]].
  - split; [|exact E1]. destruct (g_unlink g cert); [|exact S]. apply st_gone. left. apply put_same.
  - destruct (g_unlink g key) eqn:U; (split; [|try (apply same_put; auto); exact E1]); [apply st_gone; right; apply put_same|apply st_left; auto].
Qed.

Lemma key_both g cert key d s : cert <> key -> (s = [] \/ exists k n, g_key g = Some k /\ s = firstn n k) ->
  both g cert key d (put (put d key (emptied (d key))) key (filled (put d key (emptied (d key)) key) s)).
Proof.
  intros CK H. split.
  - apply (st_key _ _ _ _ _ s H); [rewrite !put_same; reflexivity|]. rewrite !put_other by exact CK. reflexivity.
  - apply same_put; [auto|]. apply same_put; [auto|apply same_refl].
Qed.
Lemma open_both g cert key d : cert <> key -> both g cert key d (put d key (emptied (d key))).
Proof.
  intros CK. split; [|apply same_put; [auto|apply same_refl]]. apply (st_key _ _ _ _ _ []); [auto|rewrite put_same; destruct (d key); reflexivity|].
  rewrite put_other by exact CK. reflexivity.
Qed.
Lemma cert_both g cert key d k c n : cert <> key -> g_key g = Some k -> g_cert g k = Some c ->
  let d2 := put (put d key (emptied (d key))) key (filled (put d key (emptied (d key)) key) k) in
  let d3 := put d2 cert (emptied (d2 cert)) in
  both g cert key d (put d3 cert (filled (d3 cert) (firstn n c))).
Proof.
  intros CK K C d2 d3. split.
  - apply (st_cert _ _ _ _ _ k c n K C).
    + unfold d3. rewrite !put_other by congruence. unfold d2. rewrite !put_same. reflexivity.
    + unfold d3. rewrite !put_same. unfold d2. rewrite !put_other by exact CK. reflexivity.
  - unfold d3, d2. repeat (apply same_put; [auto|]). apply same_refl.
Qed.

Lemma forall_writing (P : disk -> Prop) d p s n : (forall k, P (put d p (filled (d p) (firstn k s)))) -> Forall P (writing d p s n).
Proof. intros H. apply Forall_forall. intros x I. apply writing_in in I as (k & ->). apply H. Qed.

Lemma gencert_stages g cert key d : cert <> key -> Forall (both g cert key d) (fst (gencert g cert key d)).
Proof.
  intros CK. assert (B0 : both g cert key d d) by (split; [apply st_start; reflexivity|apply same_refl]).
  unfold gencert. destruct (g_openkey g); cbn [negb]; [|apply err_both; exact B0].
  destruct (g_key g) as [k|] eqn:K; cbn [fst]; [|constructor; [exact B0|apply err_both, open_both; exact CK]].
  assert (BK : forall n, both g cert key d (put (put d key (emptied (d key))) key (filled (put d key (emptied (d key)) key) (firstn n k)))).
  { intros n. apply key_both; [exact CK|]. right. eauto. }
  assert (BF : both g cert key d (written (put d key (emptied (d key))) key k (length k))) by apply BK.
  destruct (g_keyout g) as [n|]; cbn [fst].
  { constructor; [exact B0|]. apply Forall_app. split; [apply forall_writing; exact BK|]. apply err_both. apply BK. }
  assert (T2 : Forall (both g cert key d) (d :: writing (put d key (emptied (d key))) key k (length k))) by (constructor; [exact B0|apply forall_writing; exact BK]).
  destruct (g_cert g k) as [c|] eqn:C; [|cbn [fst]; apply Forall_app; split; [exact T2|apply err_both; exact BF]].
  destruct (g_opencert g); cbn [negb fst]; [|apply Forall_app; split; [exact T2|apply err_both; exact BF]].
  pose proof (fun n => cert_both g cert key d k c n CK K C) as BC. cbv zeta in BC.
  unfold written. rewrite firstn_all. destruct (g_certout g) as [n|]; cbn [fst].
  - apply Forall_app. split; [exact T2|]. apply Forall_app. split; [apply forall_writing; exact BC|apply err_both, BC].
  - apply Forall_app. split; [exact T2|]. apply forall_writing. exact BC.
Qed.

Lemma last_app {A} (a b : list A) x y : b <> [] -> last (a ++ b) x = last b y.
Proof.
  intros NE. destruct (exists_last NE) as (r & z & ->). rewrite app_assoc, !last_last. reflexivity.
Qed.
Lemma writing_ne d p s n : writing d p s n <> []. Proof. unfold writing. cbn [seq map]. discriminate. Qed.

(** how it ends *)
Lemma gencert_returns g cert key d : cert <> key -> snd (gencert g cert key d) = true ->
  exists k c, g_key g = Some k /\ g_cert g k = Some c /\
    last (fst (gencert g cert key d)) d key = filled (emptied (d key)) k /\ last (fst (gencert g cert key d)) d cert = filled (emptied (d cert)) c.
Proof.
  intros CK. unfold gencert. destruct (g_openkey g); cbn [negb]; [|discriminate]. destruct (g_key g) as [k|] eqn:K; [|discriminate].
  destruct (g_keyout g); [discriminate|]. destruct (g_cert g k) as [c|] eqn:C; [|discriminate]. destruct (g_opencert g); cbn [negb]; [|discriminate].
  destruct (g_certout g); [discriminate|]. cbn [fst snd]. intros _. exists k, c. split; [reflexivity|]. split; [exact C|].
  rewrite (last_app _ _ d d (writing_ne _ _ _ _)), writing_last, Nat.min_id, firstn_all. unfold written. rewrite firstn_all.
  rewrite !put_same. rewrite !(put_other _ cert _ key) by congruence. rewrite !put_same. rewrite !(put_other _ key _ cert) by congruence. auto.
Qed.
Lemma gencert_fails g cert key d : cert <> key -> snd (gencert g cert key d) = false -> g_unlink g cert = true -> g_unlink g key = true ->
  last (fst (gencert g cert key d)) d key = Absent /\ last (fst (gencert g cert key d)) d cert = Absent.
Proof.
  intros CK F U1 U2. assert (EN : forall x, gen_err g cert key x <> []) by discriminate.
  assert (EL : forall x y, last (gen_err g cert key x) y key = Absent /\ last (gen_err g cert key x) y cert = Absent).
  { intros x y. unfold gen_err. rewrite U1, U2. cbn [last]. rewrite put_same. rewrite (put_other _ key _ cert) by exact CK. rewrite put_same. auto. }
  revert F. unfold gencert. destruct (g_openkey g); cbn [negb fst snd]; [|intros _; apply EL].
  destruct (g_key g) as [k|] eqn:K; cbn [fst snd].
  2:{ intros _. change (d :: gen_err g cert key (put d key (emptied (d key)))) with ([d] ++ gen_err g cert key (put d key (emptied (d key)))).
      rewrite (last_app _ _ d d (EN _)). apply EL. }
  destruct (g_keyout g) as [n|]; cbn [fst snd]; [intros _; rewrite app_comm_cons, (last_app _ _ d d (EN _)); apply EL|].
  destruct (g_cert g k) as [c|]; cbn [fst snd]; [|intros _; rewrite (last_app _ _ d d (EN _)); apply EL].
  destruct (g_opencert g); cbn [negb fst snd]; [|intros _; rewrite (last_app _ _ d d (EN _)); apply EL].
  destruct (g_certout g); cbn [fst snd]; [|discriminate]. intros _. rewrite app_assoc, (last_app _ _ d d (EN _)). apply EL.
Qed.

Lemma load_cases g host dir d :
  let cert := cert_path dir host in let key := key_path dir host in
  (exists c k, usable d cert key c k /\ load_local_cert g host dir d = ([d], if (256 <=? length host)%nat then None else Some (c, k))) \/
  (unusable d cert key /\
    load_local_cert g host dir d =
      (fst (gencert g cert key d),
       if snd (gencert g cert key d) then
         match tls_load_file (last (fst (gencert g cert key d)) d cert), tls_load_file (last (fst (gencert g cert key d)) d key) with
         | Some c, Some k => if (256 <=? length host)%nat then None else Some (c, k)
         | _, _ => None
         end
       else None)).
Proof.
  cbv zeta. unfold load_local_cert. set (cert := cert_path dir host). set (key := key_path dir host). change (HOST_NAME_MAX + 1)%nat with 256%nat.
  destruct (accessible (d cert)) eqn:A; [destruct (accessible (d key)) eqn:B|]; cbn [negb orb].
  - left. destruct (d cert) as [|[] c] eqn:DC; try discriminate A. destruct (d key) as [|[] k] eqn:DK; try discriminate B.
    exists c, k. split; [split; assumption|]. cbn [last]. rewrite DC, DK. cbn [tls_load_file]. destruct (256 <=? length host)%nat; reflexivity.
  - right. split; [intros c k (X & Y); rewrite Y in B; discriminate B|]. destruct (gencert g cert key d) as [t []]; cbn [fst snd negb]; [|reflexivity].
    destruct (tls_load_file (last t d cert)), (tls_load_file (last t d key)); try reflexivity. destruct (256 <=? length host)%nat; reflexivity.
  - right. split; [intros c k (X & Y); rewrite X in A; discriminate A|]. destruct (gencert g cert key d) as [t []]; cbn [fst snd negb]; [|reflexivity].
    destruct (tls_load_file (last t d cert)), (tls_load_file (last t d key)); try reflexivity. destruct (256 <=? length host)%nat; reflexivity.
Qed.

Lemma load_file f s : tls_load_file f = Some s <-> f = File true s.
Proof. split; [|intros ->; reflexivity]. destruct f as [|[] x]; cbn; intros H; congruence. Qed.

(** A pair of files that can be read is used as it is: nothing is written. *)
Theorem c76_kept g host dir d c k : (length host <= 255)%nat -> usable d (cert_path dir host) (key_path dir host) c k ->
  load_local_cert g host dir d = ([d], Some (c, k)).
Proof.
  intros L U. destruct (load_cases g host dir d) as [(c' & k' & (U1 & U2) & E)|(N & _)]; [|exfalso; exact (N _ _ U)].
  destruct U as (X & Y). rewrite X in U1. rewrite Y in U2. injection U1 as <-. injection U2 as <-. rewrite E.
  destruct (Nat.leb_spec 256 (length host)); [lia|reflexivity].
Qed.

(** Otherwise a new key and a certificate made for it are written, and used. *)
Theorem c76_generated g host dir d t c k : unusable d (cert_path dir host) (key_path dir host) -> load_local_cert g host dir d = (t, Some (c, k)) ->
  g_key g = Some k /\ g_cert g k = Some c /\ usable (last t d) (cert_path dir host) (key_path dir host) c k.
Proof.
  intros N H. destruct (load_cases g host dir d) as [(c' & k' & U & _)|(_ & E)]; [exfalso; exact (N _ _ U)|]. rewrite E in H. clear E.
  destruct (snd (gencert g _ _ d)) eqn:S; [|discriminate]. destruct (gencert_returns g _ _ d (cert_key dir host) S) as (k' & c' & K & C & LK & LC).
  destruct (tls_load_file (last _ d (cert_path dir host))) as [c0|] eqn:TC; [|discriminate]. destruct (tls_load_file (last _ d (key_path dir host))) as [k0|] eqn:TK; [|discriminate].
  destruct (256 <=? length host)%nat; [discriminate|]. injection H as <- <- <-. apply load_file in TC. apply load_file in TK.
  assert (EK : k0 = k') by (rewrite LK, filled_emptied in TK; destruct (d (key_path dir host)) as [|[] ?]; congruence).
  assert (EC : c0 = c') by (rewrite LC, filled_emptied in TC; destruct (d (cert_path dir host)) as [|[] ?]; congruence).
  subst. split; [exact K|]. split; [exact C|]. split; assumption.
Qed.

(** A later run uses the same pair. *)
Theorem c76_again g g' host dir d t c k : load_local_cert g host dir d = (t, Some (c, k)) ->
  load_local_cert g' host dir (last t d) = ([last t d], Some (c, k)).
Proof.
  intros H. assert (L : (length host <= 255)%nat).
  { destruct (load_cases g host dir d) as [(c' & k' & _ & E)|(_ & E)]; rewrite E in H; destruct (Nat.leb_spec 256 (length host)); try lia; try discriminate.
    destruct (snd _); [|discriminate]. destruct (tls_load_file _); [|discriminate]. destruct (tls_load_file _); discriminate. }
  apply c76_kept; [exact L|]. destruct (load_cases g host dir d) as [(c' & k' & U & E)|(N & _)].
  - rewrite E in H. destruct (256 <=? length host)%nat; [discriminate|]. injection H as <- <- <-. exact U.
  - exact (proj2 (proj2 (c76_generated g host dir d t c k N H))).
Qed.

(** No other file is touched, at any moment. *)
Theorem c76_elsewhere g host dir d x : In x (fst (load_local_cert g host dir d)) -> elsewhere_same (cert_path dir host) (key_path dir host) d x.
Proof.
  intros I. destruct (load_cases g host dir d) as [(c' & k' & U & E)|(N & E)]; rewrite E in I; cbn [fst] in I.
  - destruct I as [<-|[]]. apply same_refl.
  - pose proof (gencert_stages g _ _ d (cert_key dir host)) as F. rewrite Forall_forall in F. exact (proj2 (F x I)).
Qed.

(** A failure that is noticed leaves neither file. *)
Theorem c76_failed g host dir d t : (length host <= 255)%nat -> (forall s, d (cert_path dir host) <> File false s) -> (forall s, d (key_path dir host) <> File false s) ->
  (forall p, g_unlink g p = true) -> load_local_cert g host dir d = (t, None) ->
  last t d (cert_path dir host) = Absent /\ last t d (key_path dir host) = Absent.
Proof.
  intros L NC NK U H. destruct (load_cases g host dir d) as [(c' & k' & _ & E)|(N & E)]; rewrite E in H.
  - destruct (Nat.leb_spec 256 (length host)); [lia|discriminate].
  - destruct (snd (gencert g _ _ d)) eqn:S.
    + exfalso. destruct (gencert_returns g _ _ d (cert_key dir host) S) as (k' & c' & K & C & LK & LC). rewrite LK, LC, !filled_emptied in H.
      destruct (Nat.leb_spec 256 (length host)); [lia|].
      destruct (d (cert_path dir host)) as [|[] ?] eqn:DC; [|  |exact (NC _ eq_refl)]; (destruct (d (key_path dir host)) as [|[] ?] eqn:DK; [| |exact (NK _ eq_refl)]); discriminate H.
    + injection H as <-. destruct (gencert_fails g _ _ d (cert_key dir host) S (U _) (U _)). auto.
Qed.

(** A crash at any point: what the next run finds usable is the whole new key,
    with a certificate cut short at some byte or whole (if there was no
    certificate before).  Missing: that it is whole (see below). *)
Theorem c76_crash_partial g host dir d x c k : (forall s, d (cert_path dir host) <> File true s) -> (forall p, g_unlink g p = true) ->
  In x (fst (load_local_cert g host dir d)) -> usable x (cert_path dir host) (key_path dir host) c k ->
  g_key g = Some k /\ exists c', g_cert g k = Some c' /\ exists n, c = firstn n c'.
Proof.
  intros NC U I (X & Y). destruct (load_cases g host dir d) as [(c' & k' & (V & _) & E)|(N & E)]; [exfalso; exact (NC _ V)|].
  rewrite E in I. cbn [fst] in I. pose proof (gencert_stages g _ _ d (cert_key dir host)) as F. rewrite Forall_forall in F. destruct (F x I) as (S & _).
  destruct S as [S1 S2|s HS S1 S2|k' c' n K C S1 S2|[G|G]|[G|G]].
  - exfalso. rewrite S1 in X. exact (NC _ X).
  - exfalso. rewrite S2 in X. exact (NC _ X).
  - rewrite S1, filled_emptied in Y. rewrite S2, filled_emptied in X.
    assert (k = k') by (destruct (d (key_path dir host)) as [|[] ?]; congruence). assert (c = firstn n c') by (destruct (d (cert_path dir host)) as [|[] ?]; congruence).
    subst. eauto.
  - congruence.
  - congruence.
  - rewrite U in G. discriminate.
  - rewrite U in G. discriminate.
Qed.

(** ** where it fails *)
Definition ge_gen : gen := mkGen true (Some (s2b "K")) None (fun k => Some (s2b "cert of " ++ k)) true None (fun _ => true).
Definition no_files : disk := fun _ => Absent.
Definition h_cert : list N := cert_path (s2b "/d") (s2b "h").
Definition h_key : list N := key_path (s2b "/d") (s2b "h").

(** a first run, and a second *)
Example c76_case : exists t, load_local_cert ge_gen (s2b "h") (s2b "/d") no_files = (t, Some (s2b "cert of K", s2b "K")) /\
  usable (last t no_files) h_cert h_key (s2b "cert of K") (s2b "K") /\ unusable no_files h_cert h_key /\
  load_local_cert ge_gen (s2b "h") (s2b "/d") (last t no_files) = ([last t no_files], Some (s2b "cert of K", s2b "K")).
Proof.
  assert (N : unusable no_files h_cert h_key) by (intros c k (X & _); discriminate X).
  assert (H : snd (load_local_cert ge_gen (s2b "h") (s2b "/d") no_files) = Some (s2b "cert of K", s2b "K")) by (vm_compute; reflexivity).
  destruct (load_local_cert ge_gen (s2b "h") (s2b "/d") no_files) as [t r] eqn:E. cbn [snd] in H. subst r. exists t. split; [reflexivity|].
  split; [exact (proj2 (proj2 (c76_generated _ _ _ _ _ _ _ N E)))|]. split; [exact N|]. exact (c76_again _ _ _ _ _ _ _ _ E).
Qed.

(** a failure that leaves nothing *)
Definition no_space : gen := mkGen true (Some (s2b "K")) None (fun k => Some (s2b "cert of " ++ k)) true (Some 3%nat) (fun _ => true).
Example c76_failed_case : exists t, load_local_cert no_space (s2b "h") (s2b "/d") no_files = (t, None) /\
  last t no_files h_cert = Absent /\ last t no_files h_key = Absent /\ exists x, In x t /\ x h_cert = File true (s2b "cer").
Proof.
  destruct (load_local_cert no_space (s2b "h") (s2b "/d") no_files) as [t r] eqn:E.
  assert (H : snd (load_local_cert no_space (s2b "h") (s2b "/d") no_files) = None) by (vm_compute; reflexivity). rewrite E in H. cbn [snd] in H. subst r.
  exists t. split; [reflexivity|].
  destruct (c76_failed no_space (s2b "h") (s2b "/d") no_files t) as (A & B); [cbn; lia|discriminate|discriminate|reflexivity|exact E|]. split; [exact A|]. split; [exact B|].
  assert (X : exists n, match nth_error (fst (load_local_cert no_space (s2b "h") (s2b "/d") no_files)) n with Some x => x h_cert | None => Absent end = File true (s2b "cer")).
  { exists 6%nat. vm_compute. reflexivity. }
  destruct X as (n & X). rewrite E in X. cbn [fst] in X. destruct (nth_error t n) as [x|] eqn:Q; [|discriminate]. exists x. split; [eapply nth_error_In; eauto|exact X].
Qed.

(** A crash may leave an empty certificate that all later runs use. *)
Theorem c76_crash_refuted : ~ (forall g host dir d x, (forall p, d p = Absent) -> In x (fst (load_local_cert g host dir d)) ->
  forall g' t c k, load_local_cert g' host dir x = (t, Some (c, k)) ->
    (g_key g = Some k /\ g_cert g k = Some c) \/ (g_key g' = Some k /\ g_cert g' k = Some c)).
Proof.
  intros H. set (x := nth 3 (fst (load_local_cert ge_gen (s2b "h") (s2b "/d") no_files)) no_files).
  assert (I : In x (fst (load_local_cert ge_gen (s2b "h") (s2b "/d") no_files))) by (apply nth_In; vm_compute; lia).
  assert (U : usable x h_cert h_key [] (s2b "K")) by (split; vm_compute; reflexivity).
  pose proof (c76_kept ge_gen (s2b "h") (s2b "/d") x [] (s2b "K") ltac:(cbn; lia) U) as L.
  destruct (H ge_gen (s2b "h") (s2b "/d") no_files x (fun _ => eq_refl) I ge_gen _ _ _ L) as [(_ & C)|(_ & C)]; vm_compute in C; discriminate C.
Qed.

(** A failure may delete a certificate that was there: the key file cannot be
    opened, both are unlinked. *)
Theorem c76_failure_keeps_refuted : ~ (forall g host dir d t s, d (cert_path dir host) = File true s ->
  load_local_cert g host dir d = (t, None) -> last t d (cert_path dir host) = File true s).
Proof.
  intros H. set (g := mkGen false None None (fun _ => None) true None (fun _ => true)).
  set (d := put (put no_files h_cert (File true (s2b "mine"))) h_key (File false (s2b "K"))).
  assert (D : d (cert_path (s2b "/d") (s2b "h")) = File true (s2b "mine")) by (vm_compute; reflexivity).
  destruct (load_local_cert g (s2b "h") (s2b "/d") d) as [t r] eqn:E.
  assert (R : snd (load_local_cert g (s2b "h") (s2b "/d") d) = None) by (vm_compute; reflexivity). rewrite E in R. cbn in R. subst r.
  specialize (H g _ _ d t _ D E).
  assert (L : last (fst (load_local_cert g (s2b "h") (s2b "/d") d)) d (cert_path (s2b "/d") (s2b "h")) = Absent) by (vm_compute; reflexivity).
  rewrite E in L. cbn [fst] in L. rewrite L in H. discriminate.
Qed.

(** With a certificate but no key, a crash leaves the old certificate with the
    new key. *)
Theorem c76_mixed_refuted : ~ (forall g host dir d x c k, In x (fst (load_local_cert g host dir d)) ->
  usable x (cert_path dir host) (key_path dir host) c k -> unusable d (cert_path dir host) (key_path dir host) ->
  exists c', g_cert g k = Some c' /\ exists n, c = firstn n c').
Proof.
  intros H. set (d := put no_files h_cert (File true (s2b "old"))).
  set (x := nth 2 (fst (load_local_cert ge_gen (s2b "h") (s2b "/d") d)) d).
  assert (I : In x (fst (load_local_cert ge_gen (s2b "h") (s2b "/d") d))) by (apply nth_In; vm_compute; lia).
  assert (U : usable x h_cert h_key (s2b "old") (s2b "K")) by (split; vm_compute; reflexivity).
  destruct (H ge_gen (s2b "h") (s2b "/d") d x (s2b "old") (s2b "K") I U) as (c' & C & n & E).
  - intros c k (_ & X). vm_compute in X. discriminate X.
  - injection C as <-. destruct n; discriminate E.
Qed.

Print Assumptions c76_kept. Print Assumptions c76_generated. Print Assumptions c76_again. Print Assumptions c76_elsewhere.
Print Assumptions c76_failed. Print Assumptions c76_crash_partial. Print Assumptions c76_crash_refuted.
Print Assumptions c76_failure_keeps_refuted. Print Assumptions c76_mixed_refuted.
