(** C30 (signatures) and C54: the crypto process answers whoever asked. *)
From Coq Require Import Lia.
From Verif Require Import Base BaseLemmas Conf Config Prop_Config Crypto.
Local Open Scope N_scope.

Section Spec.
Variable is_rsa : N -> bool.
Variable rsa_size : N -> N.
Variable rsa : kind -> N -> Z -> list N -> Z * list N.
Variable ecdsa : N -> list N -> option (list N).
Variable size_of : list N -> N.

(** the key that goes with a certificate: that of the first host that has it *)
Definition holds (pkis : list pki) (hash : list N) (k : N) : Prop :=
  exists a p b, pkis = a ++ p :: b /\ pk_hash p = hash /\ pk_key p = Some k /\ forall x, In x a -> pk_hash x <> hash.
(** what OpenSSL would have said, had the server the key *)
Definition outcome_of (k : N) (a : ask) (r : result) : Prop :=
  match k_kind a with
  | KSign => (exists s, ecdsa k (k_data a) = Some s /\ r = Some (1%Z, s)) \/ (ecdsa k (k_data a) = None /\ r = None)
  | kd => r = Some (rsa kd k (k_pad a) (k_data a))
  end.
Definition answered (pkis : list pki) (x : ask * result) : Prop := exists k, holds pkis (k_hash (fst x)) k /\ outcome_of k (fst x) (snd x).

(** a reasonable thing to ask: the hash is that of a certificate (SHA256:..., 71
    bytes) whose key the crypto process has, of the right type, and the operation
    does not fail *)
Definition reasonable (pkis : list pki) (a : ask) : Prop :=
  N.of_nat (length (k_hash a)) < 128 /\
  exists k, holds pkis (k_hash a) k /\
  match k_kind a with
  | KSign => is_rsa k = false
  | kd => is_rsa k = true /\ size_of (k_hash a) = rsa_size k /\ (0 <= fst (rsa kd k (k_pad a) (k_data a)))%Z
  end.
(** RSA operations write as many bytes as they say *)
Definition rsa_ok : Prop := forall kd k pad d, (0 <= fst (rsa kd k pad d))%Z -> Z.of_nat (length (snd (rsa kd k pad d))) = fst (rsa kd k pad d).
(** servers ask, the crypto process serves: no reconfiguration, no forgery *)
Definition honest (prefork : nat) (pkis : list pki) (e : event) : Prop :=
  match e with EAsk i a => (i < prefork)%nat /\ reasonable pkis a | EServe _ | EAnswer _ => True | _ => False end.
Definition fresh (y : sys) : Prop := forall i, v_wait (y_srv y i) = None /\ v_done (y_srv y i) = [] /\ v_asked (y_srv y i) = [] /\ v_out (y_srv y i) = [] /\ v_in (y_srv y i) = [].
End Spec.

Lemma holds_get pkis h k : holds pkis h k -> get_pkey pkis h = Some k.
Proof.
  intros (a & p & b & -> & PH & PK & N1). induction a as [|x a IH]; cbn [app get_pkey].
  - rewrite PH, leqb_refl. exact PK.
  - destruct (leqb (pk_hash x) h) eqn:E; [apply leqb_eq in E; exfalso; apply (N1 x); [left; reflexivity|exact E]|]. apply IH. intros y Y. apply N1. right. exact Y.
Qed.

Section Proofs.
Variable is_rsa : N -> bool.
Variable rsa_size : N -> N.
Variable rsa : kind -> N -> Z -> list N -> Z * list N.
Variable ecdsa : N -> list N -> option (list N).
Variable size_of : list N -> N.
Variable prefork : nat.
Hypothesis RSA : rsa_ok rsa.

Definition q_of (i : nat) (a : ask) (id : N) : req :=
  mkReq (N.of_nat i + 1) (k_kind a) id (k_hash a) (N.of_nat (length (k_data a))) (match k_kind a with KSign => 0 | _ => size_of (k_hash a) end) (k_pad a) (k_data a).
Definition good_ans (pkis : list pki) (a : ask) (id : N) (x : ans) : Prop :=
  forall s rest, exists r, take_ans a id x s rest = Some (mkSrv (v_reqid s) None (v_done s ++ [(a, r)]) (v_asked s) (v_out s) rest) /\ answered rsa ecdsa pkis (a, r).

Lemma serve_good pkis i a id : (i < prefork)%nat -> reasonable is_rsa rsa_size rsa size_of pkis a ->
  exists x, crypto_dispatch_server is_rsa rsa_size rsa ecdsa prefork pkis (q_of i a id) = Reply i x /\ good_ans pkis a id x.
Proof.
  intros L (HL & k & HK & KD). unfold crypto_dispatch_server, q_of. cbn [q_data q_flen q_hash q_kind q_pid q_tlen q_pad q_id]. rewrite N.eqb_refl. cbn [negb]. rewrite (holds_get _ _ _ HK).
  assert (RT : forall x, reply_to prefork (N.of_nat i + 1) x = Reply i x).
  { intros x. unfold reply_to. destruct (N.ltb_spec 0 (N.of_nat i + 1)); [|lia]. destruct (N.leb_spec (N.of_nat i + 1) (N.of_nat prefork)); [|lia]. cbn [andb]. rewrite N.add_sub, Nat2N.id. reflexivity. }
  destruct a as [kd h pad d]. cbn [k_kind k_hash k_pad k_data] in *.
  assert (RS : forall kd0, kd0 = kd -> kd <> KSign -> is_rsa k = true /\ size_of h = rsa_size k /\ (0 <= fst (rsa kd k pad d))%Z ->
    exists x, (let '(ret, out) := rsa kd k pad d in reply_to prefork (N.of_nat i + 1) (if (0 <? ret)%Z then mkAns kd id ret (Z.to_N ret) out else mkAns kd id ret 0 [])) = Reply i x /\ good_ans pkis (mkAsk kd h pad d) id x).
  { intros kd0 _ NK (R1 & R2 & R3). pose proof (RSA kd k pad d R3) as LN. destruct (rsa kd k pad d) as [ret out] eqn:RQ. cbn [fst snd] in *. rewrite RT. eexists. split; [reflexivity|].
    intros s rest. unfold take_ans. cbn [k_kind].
    assert (O : ret = 0%Z -> out = []) by (intros Z0; rewrite Z0 in LN; destruct out; [reflexivity|cbn in LN; lia]).
    assert (AN : answered rsa ecdsa pkis (mkAsk kd h pad d, Some (ret, out))).
    { exists k. split; [exact HK|]. unfold outcome_of. cbn. destruct kd; [| |contradiction]; rewrite RQ; reflexivity. }
    destruct (Z.ltb_spec 0 ret) as [P|P].
    - cbn [a_kind a_data a_ret a_len a_id]. rewrite N.eqb_refl. rewrite LN, Z.eqb_refl. exists (Some (ret, out)). split; [|exact AN]. destruct kd; [reflexivity|reflexivity|contradiction].
    - assert (Z0 : ret = 0%Z) by lia. rewrite (O Z0), Z0 in AN. rewrite Z0. cbn [a_kind a_data a_ret a_len a_id length]. rewrite !N.eqb_refl. exists (Some (0%Z, [])). split; [|exact AN]. destruct kd; [reflexivity|reflexivity|contradiction]. }
  destruct kd.
  - destruct KD as (R1 & R2 & R3). rewrite R1. cbn [negb]. rewrite R2, N.ltb_irrefl. apply (RS KEnc eq_refl); [discriminate|auto].
  - destruct KD as (R1 & R2 & R3). rewrite R1. cbn [negb]. rewrite R2, N.ltb_irrefl. apply (RS KDec eq_refl); [discriminate|auto].
  - rewrite KD. clear RS. destruct (ecdsa k d) as [sg|] eqn:EC; rewrite RT; eexists; (split; [reflexivity|]); intros s rest; unfold take_ans; cbn [k_kind a_kind a_data a_ret a_len a_id same_kind negb length]; rewrite !N.eqb_refl; cbn [andb].
    + exists (Some (1%Z, sg)). split; [reflexivity|]. exists k. split; [exact HK|]. left. exists sg. auto.
    + exists None. split; [reflexivity|]. exists k. split; [exact HK|]. right. auto.
Qed.

Definition srv_inv (pkis : list pki) (i : nat) (s : srv) : Prop :=
  Forall (answered rsa ecdsa pkis) (v_done s) /\
  match v_wait s with
  | None => v_out s = [] /\ v_in s = [] /\ v_asked s = map fst (v_done s)
  | Some (a, id) => (i < prefork)%nat /\ reasonable is_rsa rsa_size rsa size_of pkis a /\ v_asked s = map fst (v_done s) ++ [a] /\
     ((v_out s = [q_of i a id] /\ v_in s = []) \/ (v_out s = [] /\ exists x, v_in s = [x] /\ good_ans pkis a id x))
  end.

Lemma upd_same f i s : upd f i s i = s. Proof. unfold upd. rewrite Nat.eqb_refl. reflexivity. Qed.
Lemma upd_other f i j s : i <> j -> upd f i s j = f j. Proof. intros N1. unfold upd. destruct (Nat.eqb_spec i j); [contradiction|reflexivity]. Qed.

Variable load_ca : list N -> option N.
Variable pubkey_hash : list N -> option (list N).
Variable load_pkey : list N -> option N.
Notation step := (step is_rsa rsa_size rsa ecdsa prefork size_of load_ca pubkey_hash load_pkey).
Notation run := (run is_rsa rsa_size rsa ecdsa prefork size_of load_ca pubkey_hash load_pkey).

Lemma step_inv pkis e y : cc_pkis (k_conf (y_crypto y)) = pkis -> (forall i, srv_inv pkis i (y_srv y i)) -> honest is_rsa rsa_size rsa size_of prefork pkis e ->
  exists y', step e y = Run y' /\ cc_pkis (k_conf (y_crypto y')) = pkis /\ forall i, srv_inv pkis i (y_srv y' i).
Proof.
  intros PK I H. destruct e as [i a|i|i|m|i q]; cbn in H; try contradiction; cbn [Crypto.step].
  - destruct H as [L R]. destruct (v_wait (y_srv y i)) as [w|] eqn:W; [exists y; auto|]. pose proof (I i) as Ii. unfold srv_inv in Ii. rewrite W in Ii. destruct Ii as (D & O & N1 & A).
    unfold send_req. destruct R as [RL RK]. destruct (N.leb_spec 128 (N.of_nat (length (k_hash a)))); [lia|].
    eexists. split; [reflexivity|]. split; [exact PK|]. intros j. cbn [y_srv]. destruct (Nat.eq_dec i j) as [<-|NE]; [rewrite upd_same|rewrite upd_other by exact NE; apply I].
    unfold srv_inv. cbn [v_done v_wait v_out v_in v_asked]. split; [exact D|]. split; [exact L|]. split; [split; assumption|]. rewrite A. split; [reflexivity|]. left. rewrite O, N1. auto.
  - destruct (v_out (y_srv y i)) as [|q r] eqn:O; [exists y; auto|]. pose proof (I i) as Ii. unfold srv_inv in Ii. destruct (v_wait (y_srv y i)) as [[a id]|] eqn:W; [|destruct Ii as (_ & X & _); congruence].
    destruct Ii as (D & L & R & A & [[X1 X2]|[X1 _]]); [|congruence]. rewrite O in X1. injection X1 as -> ->. rewrite PK. destruct (serve_good pkis i a id L R) as (x & E & G). rewrite E. rewrite upd_same.
    eexists. split; [reflexivity|]. split; [exact PK|]. intros j. cbn [y_srv]. destruct (Nat.eq_dec i j) as [<-|NE]; [rewrite upd_same|rewrite !upd_other by exact NE; apply I].
    unfold srv_inv. cbn [v_done v_wait v_out v_in v_asked]. split; [exact D|]. split; [exact L|]. split; [exact R|]. split; [exact A|]. right. split; [reflexivity|]. exists x. rewrite X2. auto.
  - destruct (v_wait (y_srv y i)) as [[a id]|] eqn:W; [|exists y; auto]. destruct (v_in (y_srv y i)) as [|x r] eqn:IN; [exists y; auto|]. pose proof (I i) as Ii. unfold srv_inv in Ii. rewrite W in Ii.
    destruct Ii as (D & L & R & A & [[X1 X2]|[X1 (x' & X2 & G)]]); [congruence|]. rewrite IN in X2. injection X2 as <- ->. destruct (G (y_srv y i) []) as (rs & E & AN). rewrite E.
    eexists. split; [reflexivity|]. split; [exact PK|]. intros j. cbn [y_srv]. destruct (Nat.eq_dec i j) as [<-|NE]; [rewrite upd_same|rewrite upd_other by exact NE; apply I].
    unfold srv_inv. cbn [v_done v_wait v_out v_in v_asked]. split; [apply Forall_app; auto|]. split; [exact X1|]. split; [reflexivity|]. rewrite A, map_app. reflexivity.
Qed.
Lemma run_inv pkis es : forall y, cc_pkis (k_conf (y_crypto y)) = pkis -> (forall i, srv_inv pkis i (y_srv y i)) -> Forall (honest is_rsa rsa_size rsa size_of prefork pkis) es ->
  exists y', run es y = Run y' /\ forall i, srv_inv pkis i (y_srv y' i).
Proof.
  induction es as [|e es IH]; intros y PK I H; [exists y; auto|]. inversion H as [|? ? H1 H2]; subst. destruct (step_inv _ e y eq_refl I H1) as (y1 & E & PK1 & I1). cbn [Crypto.run]. rewrite E. apply IH; auto; rewrite PK1; auto.
Qed.
End Proofs.

(** ** C54 *)
(** Any number of server processes, asking in any order and at any time: nobody
    dies, and each gets, in the order it asked, what the key of the certificate it
    named gives; at most its last request is unanswered. *)
Theorem c54_answers is_rsa rsa_size rsa ecdsa prefork size_of load_ca pubkey_hash load_pkey y es :
  rsa_ok rsa -> fresh y -> Forall (honest is_rsa rsa_size rsa size_of prefork (cc_pkis (k_conf (y_crypto y)))) es ->
  exists y', run is_rsa rsa_size rsa ecdsa prefork size_of load_ca pubkey_hash load_pkey es y = Run y' /\
  forall i, Forall (answered rsa ecdsa (cc_pkis (k_conf (y_crypto y)))) (v_done (y_srv y' i)) /\
    exists last, v_asked (y_srv y' i) = map fst (v_done (y_srv y' i)) ++ last /\ (length last <= 1)%nat.
Proof.
  intros RSA F H. destruct (run_inv is_rsa rsa_size rsa ecdsa size_of prefork RSA load_ca pubkey_hash load_pkey (cc_pkis (k_conf (y_crypto y))) es y eq_refl) as (y' & E & I); [|exact H|].
  { intros i. destruct (F i) as (A & B & C & D & G). unfold srv_inv. rewrite A, B, C. repeat split; auto. }
  exists y'. split; [exact E|]. intros i. destruct (I i) as [D W]. split; [exact D|]. destruct (v_wait (y_srv y' i)) as [[a id]|].
  - destruct W as (_ & _ & A & _). exists [a]. split; [exact A|cbn; lia].
  - destruct W as (_ & _ & A). exists []. rewrite app_nil_r. split; [exact A|cbn; lia].
Qed.

(** ** Cases and refutations *)
Definition x_is_rsa (k : N) : bool := k <? 10.
Definition x_rsa (kd : kind) (k : N) (pad : Z) (d : list N) : Z * list N := match d with [] => ((-1)%Z, []) | _ => (2%Z, [k; N.of_nat (length d)]) end.
Definition x_ec (k : N) (d : list N) : option (list N) := Some [k; N.of_nat (length d)].
Definition x_srv : srv := mkSrv 0 None [] [] [] [].
Definition x_sys : sys := mkSys (mkChild (mkCconf 0 [] 0 [] [] [] [mkPki (s2b "h1") (Some 1); mkPki (s2b "h2") (Some 12)]) PNull PNull PNull PNull 0) (fun _ => x_srv).
Notation xrun := (run x_is_rsa (fun _ => 2) x_rsa x_ec 2 (fun _ => 2) (fun _ => None) (fun d => Some d) (fun _ => Some 1)).
Example c54_case : exists y', xrun [EAsk 0 (mkAsk KEnc (s2b "h1") 1 [5]); EAsk 1 (mkAsk KSign (s2b "h2") 0 [5; 6]); EServe 1; EServe 0; EAnswer 0; EAsk 0 (mkAsk KSign (s2b "h2") 0 []); EAnswer 1] x_sys = Run y' /\
  map snd (v_done (y_srv y' 0)) = [Some (2%Z, [1; 1])] /\ map snd (v_done (y_srv y' 1)) = [Some (1%Z, [12; 2])] /\ length (v_asked (y_srv y' 0)) = 2%nat.
Proof. eexists. split; [vm_compute; reflexivity|]. vm_compute. auto. Qed.
Example c54_hyps : Forall (honest x_is_rsa (fun _ => 2) x_rsa (fun _ => 2) 2 (cc_pkis (k_conf (y_crypto x_sys)))) [EAsk 0 (mkAsk KEnc (s2b "h1") 1 [5]); EServe 0; EAnswer 0] /\ fresh x_sys.
Proof.
  split; [|intros i; repeat split; reflexivity]. constructor; [|repeat constructor]. split; [lia|]. split; [vm_compute; reflexivity|]. exists 1. split; [exists [], (mkPki (s2b "h1") (Some 1)), [mkPki (s2b "h2") (Some 12)]; repeat split; intros x []|].
  cbn. repeat split; lia.
Qed.

(** An RSA operation that fails (returns -1) kills the server that asked instead
    of failing one handshake. *)
Theorem c54_failed_operation_refuted : exists a, x_rsa KDec 1 1 (k_data a) = ((-1)%Z, []) /\ k_kind a = KDec /\ xrun [EAsk 0 a; EServe 0; EAnswer 0] x_sys = ServerDied 0.
Proof. exists (mkAsk KDec (s2b "h1") 1 []). repeat split; vm_compute; reflexivity. Qed.
(** A handshake that needs its key while a new configuration is being sent kills
    the crypto process, although the old and the new one have the key. *)
Theorem c54_reload_refuted : exists a, reasonable x_is_rsa (fun _ => 2) x_rsa (fun _ => 2) (cc_pkis (k_conf (y_crypto x_sys))) a /\
  xrun [EAsk 0 a; EConf MStart; EServe 0; EConf (MCert (s2b "h1")); EConf (MKey (s2b "k")); EConf MEnd] x_sys = CryptoDied /\
  exists y', xrun [EConf MStart; EConf (MCert (s2b "h1")); EConf (MKey (s2b "k")); EConf MEnd; EAsk 0 a; EServe 0; EAnswer 0] x_sys = Run y' /\ length (v_done (y_srv y' 0)) = 1%nat.
Proof.
  exists (mkAsk KEnc (s2b "h1") 1 [5]). split; [|split; [vm_compute; reflexivity|eexists; split; [vm_compute; reflexivity|vm_compute; reflexivity]]].
  split; [vm_compute; reflexivity|]. exists 1. split; [exists [], (mkPki (s2b "h1") (Some 1)), [mkPki (s2b "h2") (Some 12)]; repeat split; intros x []|]. cbn. repeat split; lia.
Qed.
(** A compromised server process can make the crypto process write beyond a
    buffer, use memory outside its table of channels, and have the answer to its
    own request delivered to another server, which dies of it when it waits for one
    itself. *)
Theorem c54_hostile_refuted :
  (exists q, xrun [EForge 0 q; EServe 0] x_sys = CryptoUndef /\ q_pid q = 1 /\ q_tlen q = 0) /\
  (exists q, xrun [EForge 0 q; EServe 0] x_sys = CryptoUndef /\ q_pid q = 9) /\
  (exists q a, q_pid q = 2 /\ xrun [EForge 0 q; EServe 0; EAsk 1 a; EAnswer 1] x_sys = ServerDied 1).
Proof.
  split; [exists (mkReq 1 KEnc 1 (s2b "h1") 1 0 1 [5]); repeat split; vm_compute; reflexivity|]. split; [exists (mkReq 9 KSign 1 (s2b "h2") 1 0 1 [5]); repeat split; vm_compute; reflexivity|].
  exists (mkReq 2 KSign 7 (s2b "h2") 1 0 1 [5]), (mkAsk KSign (s2b "h2") 0 [5; 6]). repeat split; vm_compute; reflexivity.
Qed.
