(** Proofs about gmid's main. *)
From Verif Require Import Base BaseLemmas Compat Compat_Proofs Fmt Prop_Fmt Conf Config Mime Prop_Mime Parse Tls TlsSpec Prop_Tls Gram Proc Main MainSpec.
Local Open Scope N_scope.

(** ** getopt *)
Lemma getopt_arg posix ch f a r : kind_of ch = Arg f -> ch <> 45 ->
  getopt posix ([45; ch] :: a :: r) = let '(os, rest) := getopt posix r in (f a :: os, rest).
Proof.
  intros K N. cbn [getopt]. destruct (N.eqb_spec ch 45) as [E|_]; [contradiction|].
  assert (C : cluster [ch] = ([], Some f)) by (cbn [cluster]; rewrite K; reflexivity).
  destruct ch as [|p]; [discriminate K|]. 
  do 6 (try (destruct p as [p|p|]; try (rewrite C; destruct (getopt posix r); reflexivity))); try contradiction; discriminate K.
Qed.

(** ** the options *)
Definition outer (o : opts) := (o_path o, o_syms o, o_debug o, o_verbose o, o_test o, o_pid o).
Definition inner (o : opts) := (o_role o, o_inst o, o_n o, o_user o, o_chroot o).

Lemma take_keeps W x o o1 o' : internal x = false -> take W x o = Goes o1 -> outer o = outer o' ->
  inner o1 = inner o /\ exists o1', take W x o' = Goes o1' /\ outer o1 = outer o1' /\ inner o1' = inner o'.
Proof.
  destruct o as [pa sy de ve te pi ro ins n u c], o' as [pa' sy' de' ve' te' pi' ro' ins' n' u' c'].
  unfold outer. cbn [o_path o_syms o_debug o_verbose o_test o_pid]. intros I H E. injection E as <- <- <- <- <- <-.
  destruct x; cbn [internal] in I; try discriminate I; cbn [take] in H |- *; try discriminate H;
    try (destruct (Ge.absolutify_path (w_cwd W) s) as [q|]; [|discriminate H]); try (destruct (cmdline_symset s sy) as [q|]; [|discriminate H]);
    injection H as <-; (split; [reflexivity|]); eexists; (split; [reflexivity|]); split; reflexivity.
Qed.
Lemma take_all_keeps W l : forall o o1 o', Forall (fun x => internal x = false) l -> take_all W l o = Goes o1 -> outer o = outer o' ->
  inner o1 = inner o /\ exists o1', take_all W l o' = Goes o1' /\ outer o1 = outer o1' /\ inner o1' = inner o'.
Proof.
  induction l as [|x l IH]; intros o o1 o' F H E; cbn [take_all] in *.
  - injection H as <-. split; [reflexivity|]. exists o'. auto.
  - inversion F as [|? ? F1 F2]; subst. destruct (take W x o) as [o2|] eqn:T; [|discriminate].
    destruct (take_keeps _ _ _ _ _ F1 T E) as (I1 & o2' & T' & E2 & I2). rewrite T'. destruct (IH _ _ _ F2 H E2) as (I3 & o3 & H3 & E3 & I4).
    split; [congruence|]. exists o3. split; [exact H3|]. split; [exact E3|congruence].
Qed.
Lemma take_all_app W a b o : take_all W (a ++ b) o = match take_all W a o with Goes o' => take_all W b o' | Exits c s => Exits c s end.
Proof. revert o. induction a as [|x a IH]; intros o; cbn [take_all app]; [reflexivity|]. destruct (take W x o); [apply IH|reflexivity]. Qed.

(** ** numbers *)
Lemma read_back n : (n <= 16)%nat -> strtonum (dec (N.of_nat n)) 0 PROC_MAX_INSTANCES = (Z.of_nat n, NumOk).
Proof. intros H. do 17 (destruct n as [|n]; [vm_compute; reflexivity|]). lia. Qed.

(** ** a started daemon *)
Lemma find_user_inv W c : match find_user W (g_user c) (g_chroot c) with
  | Refused => ~ (exists r, settled W c r) 
  | NoUser r => g_user c = [] /\ r = g_chroot c
  | User p r => g_user c <> [] /\ w_root W = true /\ w_pw W (g_user c) = Some p /\ settled W c r /\ (length (g_chroot c) < 4096 -> length r < 4096)%nat
  end.
Proof.
  unfold find_user. destruct (g_user c) as [|u us] eqn:U; [auto|]. destruct (w_root W) eqn:R; cbn [negb].
  - destruct (w_pw W (u :: us)) as [p|] eqn:P.
    + split; [discriminate|]. split; [reflexivity|]. split; [reflexivity|]. destruct (g_chroot c) as [|x xs] eqn:C; split.
      * rewrite <- U in P. unfold strlcpy_to. change (Fcgi.PATH_MAX - 1)%nat with 4095%nat. eapply se_home; eauto. congruence.
      * intros _. unfold strlcpy_to. rewrite firstn_length. change (Fcgi.PATH_MAX - 1)%nat with 4095%nat. lia.
      * rewrite <- C, <- U in *. eapply se_user; eauto; congruence.
      * auto.
    + intros (r & X). inversion X; congruence.
  - intros (r & X). inversion X; congruence.
Qed.

Lemma as_child_stays W o pw r c path pid dbg cs : as_child W o pw r = Started c path pid dbg cs -> False.
Proof. unfold as_child. destruct (0 <? o_test o)%nat; [|discriminate]. generalize (config_test W (set_globals r match o_user o with Some u => u | None => [] end (o_n o) 24 fresh_core)). intros []; discriminate. Qed.

Lemma started_inv W args c path pid dbg cs : gmid_main W args = Started c path pid dbg cs ->
  exists o c0 r pw, take_all W (fst (getopt (w_posix W) args)) no_opts = Goes o /\ o_role o = Proc.PARENT /\ o_test o = 0%nat /\
    path = o_path o /\ pid = o_pid o /\ dbg = o_debug o /\ w_parse W path (o_syms o) = Some c0 /\ settled W c0 r /\
    c = set_globals r (g_user c0) (g_prefork c0) (g_protos c0) c0 /\
    match pw with None => g_user c0 = [] | Some p => g_user c0 <> [] /\ w_pw W (g_user c0) = Some p end /\
    cs = proc_exec pw r (Z.to_nat (g_prefork c0)) args.
Proof.
  unfold gmid_main. destruct (take_all W (fst (getopt (w_posix W) args)) no_opts) as [o|] eqn:T; [|discriminate].
  destruct (Nat.eqb_spec (o_role o) Proc.PARENT) as [R|R].
  - destruct (w_parse W (o_path o) (o_syms o)) as [c0|] eqn:P; [|discriminate]. intros H.
    assert (H' : match find_user W (g_user c0) (g_chroot c0) with
          | Refused => Exit 1 Complaint
          | NoUser chroot => if (0 <? o_test o)%nat then (if config_test W (set_globals chroot (g_user c0) (g_prefork c0) (g_protos c0) c0) then Exit 0 ConfigOK else Exit 1 Complaint)
              else Started (set_globals chroot (g_user c0) (g_prefork c0) (g_protos c0) c0) (o_path o) (o_pid o) (o_debug o) (proc_exec None chroot (Z.to_nat (g_prefork c0)) args)
          | User p chroot => if (0 <? o_test o)%nat then (if config_test W (set_globals chroot (g_user c0) (g_prefork c0) (g_protos c0) c0) then Exit 0 ConfigOK else Exit 1 Complaint)
              else Started (set_globals chroot (g_user c0) (g_prefork c0) (g_protos c0) c0) (o_path o) (o_pid o) (o_debug o) (proc_exec (Some p) chroot (Z.to_nat (g_prefork c0)) args)
          end = Started c path pid dbg cs /\ (g_chroot c0 = [] \/ g_user c0 <> [])).
    { destruct (g_chroot c0) as [|x xs], (g_user c0) as [|y ys]; try discriminate H; (split; [exact H|]); auto; right; discriminate. }
    clear H. destruct H' as (H & G). pose proof (find_user_inv W c0) as F.
    destruct (find_user W (g_user c0) (g_chroot c0)) as [r|p r|]; [| |discriminate].
    + destruct F as (U & ->). destruct (Nat.ltb_spec 0 (o_test o)) as [L|L]; [destruct (config_test W _); discriminate H|]. injection H as <- <- <- <- <-.
      exists o, c0, (g_chroot c0), None. split; [reflexivity|]. split; [exact R|]. split; [lia|]. split; [reflexivity|]. split; [reflexivity|]. split; [reflexivity|]. split; [exact P|].
      destruct G as [G|G]; [|congruence]. split; [rewrite G; apply se_nobody; assumption|]. auto.
    + destruct F as (U & _ & PW & S & _). destruct (Nat.ltb_spec 0 (o_test o)) as [L|L]; [destruct (config_test W _); discriminate H|]. injection H as <- <- <- <- <-.
      exists o, c0, r, (Some p). repeat (split; [first [reflexivity|assumption|lia]|]). split; [|reflexivity]. auto.
  - destruct (negb _ || negb _); [discriminate|].
    destruct (find_user W _ _) as [r|p r|]; intros H; [exfalso; exact (as_child_stays _ _ _ _ _ _ _ _ _ H)|exfalso; exact (as_child_stays _ _ _ _ _ _ _ _ _ H)|discriminate].
Qed.

(** ** what a child makes of its command line *)
Lemma child_getopt posix title pw r n i args : r <> [] \/ pw = None ->
  fst (getopt posix (child_args title pw r n i args)) =
  OT title :: match pw with Some p => [OU (pw_name p); OX r] | None => [] end ++ [OJ (dec (N.of_nat n)); OI (dec (N.of_nat i))] ++ fst (getopt posix args).
Proof.
  intros NE. unfold child_args.
  change (s2b "-T") with [45; 84]. change (s2b "-U") with [45; 85]. change (s2b "-X") with [45; 88]. change (s2b "-J") with [45; 74]. change (s2b "-I") with [45; 73].
  assert (TL : getopt posix ([[45; 74]; dec (N.of_nat n); [45; 73]; dec (N.of_nat i)] ++ args) =
               (OJ (dec (N.of_nat n)) :: OI (dec (N.of_nat i)) :: fst (getopt posix args), snd (getopt posix args))).
  { cbn [app]. rewrite (getopt_arg posix 74 OJ) by (reflexivity || discriminate). rewrite (getopt_arg posix 73 OI) by (reflexivity || discriminate).
    destruct (getopt posix args); reflexivity. }
  cbn [app]. rewrite (getopt_arg posix 84 OT) by (reflexivity || discriminate). destruct pw as [p|].
  - destruct NE as [NE|NE]; [|discriminate]. destruct r as [|x xs]; [congruence|]. cbn [app].
    rewrite (getopt_arg posix 85 OU) by (reflexivity || discriminate). rewrite (getopt_arg posix 88 OX) by (reflexivity || discriminate).
    cbn [app] in TL. rewrite TL. reflexivity.
  - cbn [app] in TL. rewrite TL. reflexivity.
Qed.
