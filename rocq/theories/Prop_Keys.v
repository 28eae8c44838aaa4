(** C89.  Private keys in memory. *)
From Verif Require Import Base BaseLemmas Arr ArrSpec Arr_Proofs Keys KeysSpec Keys_Proofs KeysRun_Proofs.
Local Open Scope N_scope.

Lemma good_start m P : good m P m [].
Proof. split; [intros k K; reflexivity | lia | constructor | constructor | intros k K; lia]. Qed.
Lemma good_clean m P m' : good m P m' [] -> clean (sz m) m m'.
Proof.
  intros G. split; [apply G|]. split; [apply G|]. intros k K. destruct (g_dead _ _ _ _ G k K) as [[]|(c & H & _)]. exists c. exact H.
Qed.
Lemma public_zeros pubkey ops n : public pubkey ops (zeros n).
Proof. left. unfold zeros. apply Forall_forall. intros x X. apply repeat_spec in X. auto. Qed.
Lemma public_opub pubkey ops : Forall (opub (public pubkey ops) pubkey) ops.
Proof.
  apply Forall_forall. intros o O. split.
  - intros s S d D. right. exists o, s, d. split; [exact O|]. split; [exact D|]. left. auto.
  - intros s S d h D H. right. exists o, s, d. split; [exact O|]. split; [exact D|]. right. split; [exact S|]. exists h. auto.
Qed.

(** A TLS configuration, from tls_config_new on, whatever is done with it in whatever
    order, whatever certificates, keys and staples it gets from memory or from files, and
    whatever memory the system refuses:
    - no memory is used that is not the configuration's, none after it was freed, none is
      freed twice, and nothing else in memory changes;
    - its keypairs hold what they were given, in order, with the hash of the public key of
      their certificate, as [effects] says, and an operation fails only if something it
      needs is refused;
    - it goes exactly when the last reference is given back, and then all its memory is
      freed;
    - what is left in freed memory is zeros, or a certificate, a staple or the hash of a
      public key that it was given: never a private key. *)
Theorem c89_config : forall E pubkey m cf m0, config_new E m = OK (Some cf, m0) ->
  forall ops, exists oks r m' n vs, run E pubkey m0 cf ops = OK (oks, r, m') /\ old_kept (sz m) m m' /\
    effects pubkey (firstn n ops) oks [(None, None, None, None)] vs /\
    (generous E -> Forall (possible pubkey) ops -> Forall (eq true) oks) /\
    (forall k c, (sz m <= k)%nat -> nth_error (blocks m') k = Some (mkBlk false c) -> public pubkey ops c) /\
    match r with
    | Some c => n = length ops /\ refs 1 ops = Some (cf_refs c) /\ Forall2 (holds m') (cf_kps c) vs
    | None => refs 1 ops = None /\ clean (sz m) m m'
    end.
Proof.
  intros E pubkey m cf m0 H ops. set (P := public pubkey ops). assert (Pz : forall n, P (zeros n)) by (intros n; apply public_zeros).
  destruct (config_new_ok E m P Pz m (good_start m P)) as (c & m1 & H1 & X). rewrite H in H1. injection H1 as <- <-. destruct X as [X R1].
  destruct (run_ok E m P Pz pubkey ops m0 cf _ X (public_opub pubkey ops)) as (oks & r & m' & n & l & Y & Ef & Ge & W). rewrite R1 in W.
  assert (D : forall L, good m P m' L -> forall k c, (sz m <= k)%nat -> nth_error (blocks m') k = Some (mkBlk false c) -> P c).
  { intros L G k c K N. destruct (g_dead _ _ _ _ G k) as [I|(c' & N' & Q)].
    - split; [exact K|]. apply nth_error_Some. unfold sz. congruence.
    - exfalso. apply in_map_iff in I. destruct I as (x & A & B). pose proof (g_pts _ _ _ _ G) as F. rewrite Forall_forall in F.
      destruct (F x B) as [_ F2]. unfold pts in F2. rewrite A in F2. congruence.
    - assert (c = c') by congruence. subst. exact Q. }
  exists oks, r, m', n, (map pv l). split; [exact Y|]. destruct r as [c|].
  - destruct W as (-> & G & R). split; [apply (g_old _ _ _ _ (proj1 G))|]. split; [exact Ef|]. split; [exact Ge|]. split; [exact (D _ (proj1 G))|].
    split; [reflexivity|]. split; [exact R|]. destruct G as (G & F & _). eapply kbs_holds; eauto. intros x Hx. unfold cbl. apply in_or_app. right. exact Hx.
  - destruct W as (R & G). split; [apply (g_old _ _ _ _ G)|]. split; [exact Ef|]. split; [exact Ge|]. split; [exact (D _ G)|]. split; [exact R|].
    eapply good_clean; exact G.
Qed.
Print Assumptions c89_config.

(** tls_config_new itself: a configuration, or nothing left. *)
Theorem c89_new : forall E m, exists r m', config_new E m = OK (r, m') /\ (generous E -> r <> None) /\
  (r = None -> clean (sz m) m m' /\ forall k c, (sz m <= k)%nat -> nth_error (blocks m') k = Some (mkBlk false c) -> Forall (eq (By 0)) c).
Proof.
  intros E m. set (P := Forall (eq (By 0))). assert (Pz : forall n, P (zeros n)). { intros n. apply Forall_forall. intros x X. apply repeat_spec in X. auto. }
  destruct (config_new_ok E m P Pz m (good_start m P)) as (c & m1 & H & X). exists c, m1. split; [exact H|]. split.
  - intros G ->. destruct X as [_ X]. contradiction.
  - intros ->. destruct X as [X _]. split; [eapply good_clean; exact X|]. intros k b K N. destruct (g_dead _ _ _ _ X k) as [[]|(c' & N' & Q)].
    + split; [exact K|]. apply nth_error_Some. unfold sz. congruence.
    + assert (b = c') by congruence. subst. exact Q.
Qed.
Print Assumptions c89_new.

(** A private key that is not also one of the certificates, staples or hashes is nowhere
    in the memory the configuration gave back. *)
Theorem c89_no_key_left : forall E pubkey m cf m0, config_new E m = OK (Some cf, m0) ->
  forall ops key oks r m', run E pubkey m0 cf ops = OK (oks, r, m') ->
  (exists b, In b key /\ b <> 0) ->
  (forall o s d, In o ops -> In s (certs o ++ staples o) -> got s = Some d -> d <> key /\ forall h, pubkey d = Some h -> h ++ [0] <> key) ->
  forall k, (sz m <= k)%nat -> nth_error (blocks m') k <> Some (mkBlk false (map By key)).
Proof.
  intros E pubkey m cf m0 H ops key oks r m' R (b & B1 & B2) Ne k K N.
  assert (Inj : forall x y, map By x = map By y -> x = y). { induction x; intros [|? y] Q; try discriminate; auto. cbn in Q. injection Q as -> Q. f_equal. auto. }
  destruct (c89_config E pubkey m cf m0 H ops) as (oks' & r' & m'' & n & vs & R' & _ & _ & _ & P & _). rewrite R in R'. injection R' as <- <- <-.
  destruct (P k _ K N) as [Z|(o & s & d & O & D & [[S C]|[S (h & Hh & C)]])].
  - rewrite Forall_forall in Z. specialize (Z (By b) (in_map By _ _ B1)). injection Z as Z. congruence.
  - apply Inj in C. destruct (Ne o s d O S D) as [X _]. congruence.
  - apply Inj in C. destruct (Ne o s d O (in_or_app _ _ _ (or_introl S)) D) as [_ X]. apply (X h Hh). congruence.
Qed.
Print Assumptions c89_no_key_left.

(** tls_load_file gives exactly the bytes of the file, or fails and leaves nothing, and
    wipes what it had read.  tls_unload_file gives the memory back wiped. *)
Theorem c89_load_file : forall E m f, exists p len m', load_file E m f = OK (p, len, m') /\
  match p with
  | Some q => (exists d, content (Disk f) = Some d /\ len = N.of_nat (length d) /\ pts m' q (map By d)) /\ old_kept (sz m) m m' /\
      exists m'', unload_file m' p len = OK m'' /\ clean (sz m) m m'' /\
        forall k c, (sz m <= k)%nat -> nth_error (blocks m'') k = Some (mkBlk false c) -> Forall (eq (By 0)) c
  | None => clean (sz m) m m' /\ ~ (content (Disk f) <> None /\ generous E /\ fit (Some (Disk f))) /\
        forall k c, (sz m <= k)%nat -> nth_error (blocks m') k = Some (mkBlk false c) -> Forall (eq (By 0)) c
  end.
Proof.
  intros E m f. set (P := Forall (eq (By 0))). assert (Pz : forall n, P (zeros n)). { intros n. apply Forall_forall. intros x X. apply repeat_spec in X. auto. }
  assert (D : forall m', good m P m' [] -> forall k c, (sz m <= k)%nat -> nth_error (blocks m') k = Some (mkBlk false c) -> Forall (eq (By 0)) c).
  { intros m' G k c K N. destruct (g_dead _ _ _ _ G k) as [[]|(c' & N' & Q)].
    - split; [exact K|]. apply nth_error_Some. unfold sz. congruence.
    - assert (c = c') by congruence. subst. exact Q. }
  destruct (load_file_ok E m P Pz m f [] (good_start m P)) as (p & len & m' & R & X). exists p, len, m'. split; [exact R|].
  destruct p as [q|]; destruct (content (Disk f)) as [d|] eqn:C; try contradiction.
  - destruct X as [G ->]. split. { exists d. split; [reflexivity|]. split; [reflexivity|]. exact (good_pts _ _ _ _ _ _ G). }
    split; [apply G|]. unfold unload_file. destruct (good_freezero m P Pz m' q (map By d) (N.of_nat (length d)) [] G) as (m2 & F & G2). { rewrite map_length. lia. }
    exists m2. split; [exact F|]. split; [eapply good_clean; exact G2 | apply D; exact G2].
  - destruct X as (G & _ & N). split; [eapply good_clean; exact G|]. split; [exact N | apply D; exact G].
  - destruct X as (G & _ & N). split; [eapply good_clean; exact G|]. split; [exact N | apply D; exact G].
Qed.
Print Assumptions c89_load_file.

(** Not so config_purge: on a reload it frees the keys of the hosts (in the processes that
    have them) as they are, and they stay in the memory of the process. *)
Theorem c89_purge_refuted : forall m q key, pts m q (map By key) ->
  exists m', purge_host m (mkHost None None None None (Some q) None) = OK m' /\ nth_error (blocks m') q = Some (mkBlk false (map By key)).
Proof.
  intros m q key H. assert (Fn : forall m, free m None = OK m) by reflexivity.
  destruct (free_ok _ _ _ H) as (m' & F & C). exists m'. split; [|exact (ch_at _ _ _ _ C)].
  unfold purge_host. cbn [h_cert_path h_key_path h_ocsp_path h_cert h_key h_ocsp].
  repeat (first [rewrite Fn | rewrite F]; cbn [bind]). reflexivity.
Qed.
Print Assumptions c89_purge_refuted.

(** The hypotheses are met: a system that refuses nothing but the ninth request; a
    certificate and a key; a second pair whose key cannot be had; another key; and a key
    whose file is cut. *)
Definition c89_sys := mkSys (fun n _ => negb (n =? 8)%nat) (fun _ _ => By 7) true (fun _ l => l).
Definition c89_ops := [OSet (Some (Mem [1; 2])) (Some (Mem [3; 4; 5])) None; ORef; OFree;
  OAdd (Some (Mem [6])) (Some (Disk (File 2 (Some [8; 9])))) None;
  OKey (Some (Disk (File 2 (Some [10; 11])))); OKey (Some (Disk (File 2 (Some [12]))))].
Example c89_case :
  (match config_new c89_sys (mkMem [] 0) with
   | OK (Some c, m) =>
     match run c89_sys (fun d => Some (map (N.add 48) d)) m c c89_ops with
     | OK (oks, Some c, m) => Some (oks, map (fun k => (fst (kp_cert k), fst (kp_key k))) (cf_kps c), map (fun b => (live b, firstn 4 (map val (body b)))) (skipn 2 (blocks m)))
     | _ => None
     end
   | _ => None
   end) =
  Some ([true; true; true; false; true; false], [(Some 2%nat, None)],
    [(true, [1; 2]); (true, [49; 50; 0]); (false, [0; 0; 0]); (false, [0; 0; 0; 0]); (false, [6]); (false, [54; 0]); (false, [0; 0]); (false, [0; 0])]).
Proof. vm_compute. reflexivity. Qed.
