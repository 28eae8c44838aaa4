(** C35: who is connected to whom. *)
From Verif Require Import Base Proc.
Local Open Scope nat_scope.

(** ** Specification *)
(** with [n] servers, the pairs that talk *)
Inductive talk (n : nat) : proc -> proc -> Prop :=
| t_ps i : i < n -> talk n (PARENT, 0) (SERVER, i)
| t_pc : talk n (PARENT, 0) (CRYPTO, 0)
| t_pl : talk n (PARENT, 0) (LOGGER, 0)
| t_sc i : i < n -> talk n (SERVER, i) (CRYPTO, 0)
| t_sl i : i < n -> talk n (SERVER, i) (LOGGER, 0).
Definition peers n p q := talk n p q \/ talk n q p.
(** the end process [p] uses to talk to [q] *)
Definition uses (prefork : nat) (p q : proc) (e : endp) : Prop :=
  running prefork p /\ exists t, final prefork p = Some t /\ t q = Some e.

(** ** Proofs *)
Definition nserv (prefork : nat) := if prefork <? 1 then 1 else prefork.

Lemma init_eq pf : proc_init pf =
  map (fun i => ((0, 0), (1, i))) (seq 0 (nserv pf)) ++ [((0, 0), (2, 0)); ((0, 0), (3, 0))].
Proof. unfold proc_init, PROC_MAX, instances. cbn [seq flat_map Nat.eqb PARENT SERVER map app]. reflexivity. Qed.

Lemma flat_map_nil {A B} (f : A -> list B) l : (forall x, In x l -> f x = []) -> flat_map f l = [].
Proof. induction l; cbn; auto. intros H. rewrite H, IHl; auto. Qed.
Lemma flat_map_one {A B} (f : A -> list B) g l : (forall x, f x = [g x]) -> flat_map f l = map g l.
Proof. intros H. induction l; cbn; auto. now rewrite H, IHl. Qed.

Lemma connect_eq pf : proc_connect pf =
  map (fun i => ((1, i), (2, 0))) (seq 0 (nserv pf)) ++ map (fun i => ((1, i), (3, 0))) (seq 0 (nserv pf)) ++ [((2, 0), (3, 0))].
Proof.
  unfold proc_connect, PROC_MAX. cbn [seq flat_map Nat.eqb PARENT Nat.sub orb app].
  replace (proc_open pf 1 1) with (@nil (proc * proc)).
  2:{ symmetry. unfold proc_open. apply flat_map_nil. intros i _. apply flat_map_nil. intros j _. cbn [Nat.eqb SERVER andb]. now destruct (i =? j). }
  assert (E : forall d, (d = 2 \/ d = 3) -> proc_open pf 1 d = map (fun i => ((1, i), (d, 0))) (seq 0 (nserv pf))).
  { intros d H. unfold proc_open. replace (instances pf 1) with (nserv pf) by reflexivity. apply flat_map_one. intros x. destruct H as [->| ->]; reflexivity. }
  rewrite (E 2), (E 3) by auto. rewrite !app_nil_r. rewrite <- !app_assoc. reflexivity.
Qed.

Lemma number_app {A} (l l' : list A) k : number k (l ++ l') = number k l ++ number (k + length l) l'.
Proof. revert k. induction l; intros k; cbn [app number length]; [now rewrite Nat.add_0_r|]. rewrite IHl. now rewrite Nat.add_succ_comm. Qed.

Lemma number_map_seq {A} (f : nat -> A) n : forall k s, number k (map f (seq s n)) = map (fun i => (k + i, f (s + i))) (seq 0 n).
Proof.
  induction n; intros k s; auto. cbn [seq map number]. rewrite !Nat.add_0_r. f_equal. rewrite IHn.
  rewrite <- seq_shift, map_map. apply map_ext. intros i. now rewrite !Nat.add_succ_comm.
Qed.

Lemma pick {B} (f : nat -> list B) i n : forall s, s <= i < s + n -> (forall j, j <> i -> f j = []) -> flat_map f (seq s n) = f i.
Proof.
  induction n; intros s L H; [lia|]. cbn [seq flat_map]. destruct (Nat.eq_dec s i) as [->|N].
  - rewrite (flat_map_nil f); [now rewrite app_nil_r|]. intros j J. apply in_seq in J. apply H. lia.
  - rewrite (H s N). cbn. apply IHn; auto; lia.
Qed.

Lemma fm_map {A B C} (f : A -> B) (g : B -> list C) l : flat_map g (map f l) = flat_map (fun x => g (f x)) l.
Proof. induction l; cbn; auto. now rewrite IHl. Qed.
Lemma fm_fm {A B C} (f : A -> list B) (g : B -> list C) l : flat_map g (flat_map f l) = flat_map (fun x => flat_map g (f x)) l.
Proof. induction l; cbn; auto. now rewrite flat_map_app, IHl. Qed.

Lemma procfds_eq pf : let n := nserv pf in procfds pf =
  flat_map (fun i => [((2, 0), ((1, i), (n + 2 + i, true))); ((1, i), ((2, 0), (n + 2 + i, false)))]) (seq 0 n) ++
  flat_map (fun i => [((3, 0), ((1, i), (n + 2 + n + i, true))); ((1, i), ((3, 0), (n + 2 + n + i, false)))]) (seq 0 n) ++
  [((3, 0), ((2, 0), (n + 2 + n + n, true))); ((2, 0), ((3, 0), (n + 2 + n + n, false)))].
Proof.
  intros n. unfold procfds. rewrite init_eq, connect_eq. rewrite app_length, map_length, seq_length. fold n. cbn [length].
  rewrite !number_app, !number_map_seq, !flat_map_app, !fm_map, !map_length, !seq_length. reflexivity.
Qed.

(** what each process is sent *)
Definition mail pf p := flat_map (fun '(r, m) => if peq r p then [m] else []) (procfds pf).
Definition boot pf p := flat_map (fun '(k, (_, b)) => if peq b p then [((PARENT, 0), (k, true))] else []) (number 0 (proc_init pf)) : list (proc * endp).

Ltac mailbox := unfold mail; rewrite procfds_eq; rewrite !flat_map_app, !fm_fm; cbn [flat_map peq fst snd Nat.eqb andb app].

Lemma peq_self a i j : peq (a, i) (a, j) = (i =? j).
Proof. unfold peq. cbn. now rewrite Nat.eqb_refl. Qed.

Lemma mail_server pf i : i < nserv pf -> let n := nserv pf in
  mail pf (1, i) = [((2, 0), (n + 2 + i, false)); ((3, 0), (n + 2 + n + i, false))].
Proof.
  intros L n. mailbox. fold n.
  rewrite (pick _ i), (pick _ i); cbn [app]; rewrite ?Nat.eqb_refl; cbn; auto; try lia.
  - intros j J. rewrite (proj2 (Nat.eqb_neq j i) J). reflexivity.
  - intros j J. rewrite (proj2 (Nat.eqb_neq j i) J). reflexivity.
Qed.
Lemma mail_crypto pf : let n := nserv pf in
  mail pf (2, 0) = map (fun i => ((1, i), (n + 2 + i, true))) (seq 0 n) ++ [((3, 0), (n + 2 + n + n, false))].
Proof.
  intros n. mailbox. fold n. rewrite (flat_map_one _ (fun i => ((1, i), (n + 2 + i, true)))) by reflexivity.
  rewrite (flat_map_nil (fun _ => [])); auto.
Qed.
Lemma mail_logger pf : let n := nserv pf in
  mail pf (3, 0) = map (fun i => ((1, i), (n + 2 + n + i, true))) (seq 0 n) ++ [((2, 0), (n + 2 + n + n, true))].
Proof.
  intros n. mailbox. fold n. rewrite (flat_map_nil (fun _ => [])) by auto.
  rewrite (flat_map_one _ (fun i => ((1, i), (n + 2 + n + i, true)))) by reflexivity. reflexivity.
Qed.
Ltac bootbox := unfold boot; rewrite init_eq, number_app, number_map_seq, flat_map_app, fm_map, map_length, seq_length;
  cbn [flat_map number peq fst snd Nat.eqb andb app Nat.add].
Lemma boot_server pf i : i < nserv pf -> boot pf (1, i) = [((0, 0), (i, true))].
Proof.
  intros L. bootbox. rewrite (pick _ i); try lia; [now rewrite Nat.eqb_refl|]. intros j J. now rewrite (proj2 (Nat.eqb_neq j i) J).
Qed.
Lemma boot_crypto pf : boot pf (2, 0) = [((0, 0), (nserv pf, true))].
Proof. bootbox. rewrite flat_map_nil; auto. Qed.
Lemma boot_logger pf : boot pf (3, 0) = [((0, 0), (S (nserv pf), true))].
Proof. bootbox. rewrite flat_map_nil; auto. Qed.

Lemma peq_spec a b : Bool.reflect (a = b) (peq a b).
Proof.
  destruct a as [a i], b as [b j]. unfold peq. cbn. destruct (Nat.eqb_spec a b), (Nat.eqb_spec i j); cbn; constructor; congruence.
Qed.

Lemma accept_app pf me l : forall t l', accept_all pf me t (l ++ l') = match accept_all pf me t l with Some t' => accept_all pf me t' l' | None => None end.
Proof. induction l as [|[q e] l IH]; intros; cbn; auto. destruct (proc_accept pf me t q e); auto. Qed.

Lemma accept_servers pf me base : listed me 1 = true -> forall m s t, s + m <= nserv pf -> (forall i, s <= i -> t (1, i) = None) ->
  exists t', accept_all pf me t (map (fun i => ((1, i), (base + i, true))) (seq s m)) = Some t' /\
    forall q, t' q = match q with (1, i) => if (s <=? i) && (i <? s + m) then Some (base + i, true) else t q | _ => t q end.
Proof.
  intros LI. induction m; intros s t L N.
  - exists t. split; auto. intros [[|[|a]] i]; auto. destruct (Nat.leb_spec s i), (Nat.ltb_spec i (s + 0)); cbn; auto; lia.
  - cbn [seq map accept_all]. unfold proc_accept. cbn [fst snd]. rewrite LI. cbn [negb].
    change (instances pf 1) with (nserv pf). destruct (Nat.leb_spec (nserv pf) s); [lia|]. rewrite (N s) by lia.
    destruct (IHm (S s) (set t (1, s) (base + s, true))) as (t' & A & B); [lia| |].
    + intros i I. unfold set. destruct (peq_spec (1, s) (1, i)) as [E|E]; [injection E; lia|]. apply N. lia.
    + exists t'. split; auto. intros q. rewrite B. unfold set. destruct q as [[|[|a]] i]; auto.
      destruct (Nat.leb_spec (S s) i), (Nat.ltb_spec i (S s + m)), (Nat.leb_spec s i), (Nat.ltb_spec i (s + S m)); cbn [andb]; try lia; auto.
      * rewrite peq_self. destruct (Nat.eqb_spec s i); [lia|auto].
      * rewrite peq_self. destruct (Nat.eqb_spec s i); [subst; auto|lia].
      * rewrite peq_self. destruct (Nat.eqb_spec s i); [lia|auto].
Qed.

Definition child_table (pf : nat) (p q : proc) : option endp :=
  let n := nserv pf in
  match p, q with
  | (0, 0), (1, i) => if i <? n then Some (i, false) else None
  | (0, 0), (2, 0) => Some (n, false)
  | (0, 0), (3, 0) => Some (S n, false)
  | (1, i), (0, 0) => Some (i, true)
  | (1, i), (2, 0) => Some (n + 2 + i, false)
  | (1, i), (3, 0) => Some (n + 2 + n + i, false)
  | (2, 0), (0, 0) => Some (n, true)
  | (2, 0), (1, i) => if i <? n then Some (n + 2 + i, true) else None
  | (3, 0), (0, 0) => Some (S n, true)
  | (3, 0), (1, i) => if i <? n then Some (n + 2 + n + i, true) else None
  | _, _ => None
  end.

Lemma parent_fold n : forall s k t, (k = s) ->
  forall q, fold_left (fun t '(k, (_, b)) => set t b (k, false)) (map (fun i => (k + i, ((0, 0), (1, s + i)))) (seq 0 n)) t q =
    match q with (1, i) => if (s <=? i) && (i <? s + n) then Some (i, false) else t q | _ => t q end.
Proof.
  induction n; intros s k t -> q.
  - destruct q as [[|[|a]] i]; cbn [seq map fold_left]; auto. destruct (Nat.leb_spec s i), (Nat.ltb_spec i (s + 0)); cbn [andb]; auto; lia.
  - cbn [seq map fold_left]. rewrite <- seq_shift, map_map.
    rewrite (map_ext _ (fun i => (S s + i, ((0, 0), (1, S s + i))))) by (intros; rewrite Nat.add_succ_comm; reflexivity).
    rewrite !Nat.add_0_r. rewrite (IHn (S s) (S s) _ eq_refl). unfold set. destruct q as [[|[|a]] i]; cbn [peq fst snd Nat.eqb andb]; auto.
    destruct (Nat.leb_spec (S s) i), (Nat.ltb_spec i (S s + n)), (Nat.leb_spec s i), (Nat.ltb_spec i (s + S n)), (Nat.eqb_spec s i); subst; cbn [andb]; try lia; auto.
Qed.

Lemma final_eq pf p : running pf p -> exists t, final pf p = Some t /\ forall q, t q = child_table pf p q.
Proof.
  destruct p as [a i]. intros [L I]. cbn [fst snd] in *. unfold PROC_MAX in L.
  assert (NS : 0 < nserv pf) by (unfold nserv; destruct (Nat.ltb_spec pf 1); lia).
  destruct a as [|[|[|[|a]]]]; [| | | |lia].
  - unfold instances in I. cbn in I. assert (i = 0) by lia. subst i. unfold final. cbn [fst Nat.eqb PARENT].
    eexists. split; [reflexivity|]. intros q. rewrite init_eq, number_app, number_map_seq, fold_left_app.
    cbn [number fold_left map_length]. rewrite map_length, seq_length. unfold set at 1 2. rewrite (parent_fold (nserv pf) 0 0 _ eq_refl).
    destruct q as [[|[|[|[|a]]]] [|j]]; cbn [peq fst snd Nat.eqb andb child_table Nat.add Nat.leb]; auto.
  - unfold final. cbn [fst Nat.eqb PARENT]. change (instances pf 1) with (nserv pf) in I.
    fold (boot pf (1, i)). fold (mail pf (1, i)). rewrite boot_server, mail_server by auto.
    cbn [app accept_all]. unfold proc_accept at 1. cbn [fst snd listed Nat.eqb PARENT orb negb instances SERVER Nat.leb].
    unfold proc_accept at 1. cbn [fst snd listed Nat.eqb PARENT CRYPTO orb negb instances SERVER Nat.leb set peq andb].
    unfold proc_accept at 1. cbn [fst snd listed Nat.eqb PARENT CRYPTO LOGGER orb negb instances SERVER Nat.leb set peq andb].
    eexists. split; [reflexivity|]. intros q. destruct q as [[|[|[|[|a]]]] [|j]]; cbn [peq fst snd Nat.eqb andb child_table]; auto.
  - unfold instances in I. cbn in I. assert (i = 0) by lia. subst i. unfold final. cbn [fst Nat.eqb PARENT].
    fold (boot pf (2, 0)). fold (mail pf (2, 0)). rewrite boot_crypto, mail_crypto.
    cbn [app accept_all]. unfold proc_accept at 1. cbn [fst snd listed Nat.eqb PARENT orb negb instances SERVER Nat.leb].
    rewrite accept_app. destruct (accept_servers pf 2 (nserv pf + 2) eq_refl (nserv pf) 0 (set (fun _ => None) (0, 0) (nserv pf, true))) as (t & A & B); [lia|reflexivity|].
    rewrite A. cbn [accept_all]. unfold proc_accept. cbn [fst snd listed Nat.eqb PARENT SERVER orb negb].
    exists t. split; auto. intros q. rewrite B. unfold set. destruct q as [[|[|[|[|a]]]] [|j]]; cbn [peq fst snd Nat.eqb andb child_table Nat.leb Nat.add]; auto.
  - unfold instances in I. cbn in I. assert (i = 0) by lia. subst i. unfold final. cbn [fst Nat.eqb PARENT].
    fold (boot pf (3, 0)). fold (mail pf (3, 0)). rewrite boot_logger, mail_logger.
    cbn [app accept_all]. unfold proc_accept at 1. cbn [fst snd listed Nat.eqb PARENT orb negb instances SERVER Nat.leb].
    rewrite accept_app. destruct (accept_servers pf 3 (nserv pf + 2 + nserv pf) eq_refl (nserv pf) 0 (set (fun _ => None) (0, 0) (S (nserv pf), true))) as (t & A & B); [lia|reflexivity|].
    rewrite A. cbn [accept_all]. unfold proc_accept. cbn [fst snd listed Nat.eqb PARENT SERVER orb negb].
    exists t. split; auto. intros q. rewrite B. unfold set. destruct q as [[|[|[|[|a]]]] [|j]]; cbn [peq fst snd Nat.eqb andb child_table Nat.leb Nat.add]; auto.
Qed.

Lemma uses_eq pf p q e : uses pf p q e <-> running pf p /\ child_table pf p q = Some e.
Proof.
  split.
  - intros (R & t & F & E). split; auto. destruct (final_eq pf p R) as (t' & F' & E'). rewrite F in F'. injection F' as <-. now rewrite <- E'.
  - intros (R & E). split; auto. destruct (final_eq pf p R) as (t' & F' & E'). exists t'. split; auto. now rewrite E'.
Qed.

Ltac tab H := repeat match type of H with context [match ?x with _ => _ end] => destruct x eqn:?; try discriminate end.

(** ** C35 *)
(** For every number of servers: a process has a socket to another iff the two
    must talk; it is one end of a pair whose other end the peer uses for it; and
    every end is used by one process for one peer. *)
Theorem c35_topology prefork : let n := Nat.max 1 prefork in
  (forall p q, (exists e, uses prefork p q e) <-> peers n p q) /\
  (forall p q k b, uses prefork p q (k, b) -> uses prefork q p (k, negb b)) /\
  (forall p q p' q' e, uses prefork p q e -> uses prefork p' q' e -> p = p' /\ q = q') /\
  (forall p q e e', uses prefork p q e -> uses prefork p q e' -> e = e').
Proof.
  intros n. assert (NE : nserv prefork = n) by (unfold nserv, n; destruct (Nat.ltb_spec prefork 1); lia).
  assert (RS : forall i, running prefork (1, i) <-> i < n).
  { intros i. unfold running. cbn [fst snd]. change (instances prefork 1) with (nserv prefork). rewrite NE. unfold PROC_MAX. lia. }
  assert (RO : forall a, a = 0 \/ a = 2 \/ a = 3 -> running prefork (a, 0)).
  { intros a H. unfold running, PROC_MAX. cbn [fst snd]. destruct H as [->|[->| ->]]; cbn; lia. }
  split; [|split; [|split]].
  - intros p q. split.
    + intros (e & U). apply uses_eq in U. destruct U as [R E]. destruct p as [a i], q as [b j].
      assert (RI : a = 1 -> i < n) by (intros ->; now apply RS).
      unfold child_table in E. rewrite NE in E. clear R.
      destruct a as [|[|[|[|a]]]]; try (destruct i; try discriminate); destruct b as [|[|[|[|b]]]]; try (destruct j; try discriminate); try discriminate;
      repeat match type of E with context [?x <? ?y] => destruct (Nat.ltb_spec x y); try discriminate end;
      try (specialize (RI eq_refl));
      solve [left; constructor; auto | right; constructor; auto].
    + intros [T|T]; destruct T; eexists; apply uses_eq; (split; [first [now apply RS | apply RO; auto]|]); cbn [child_table PARENT SERVER CRYPTO LOGGER]; rewrite ?NE;
      repeat match goal with |- context [?x <? ?y] => destruct (Nat.ltb_spec x y); [|lia] end; reflexivity.
  - intros p q k b U. apply uses_eq in U. destruct U as [R E]. apply uses_eq. destruct p as [a i], q as [a' j].
    assert (RI : a = 1 -> i < n) by (intros ->; now apply RS).
    unfold child_table in *. rewrite NE in *. clear R.
    destruct a as [|[|[|[|a]]]]; try (destruct i; try discriminate); destruct a' as [|[|[|[|a']]]]; try (destruct j; try discriminate); try discriminate;
      repeat match type of E with context [?x <? ?y] => destruct (Nat.ltb_spec x y); try discriminate end;
      try (specialize (RI eq_refl)); injection E as <- <-; (split; [first [now apply RS | apply RO; auto]|]);
      repeat match goal with |- context [?x <? ?y] => destruct (Nat.ltb_spec x y); [|lia] end; reflexivity.
  - intros p q p' q' e U U'. apply uses_eq in U, U'. destruct U as [R E], U' as [R' E']. destruct p as [a i], q as [b j], p' as [a' i'], q' as [b' j'].
    assert (RI : a = 1 -> i < n) by (intros ->; now apply RS). assert (RI' : a' = 1 -> i' < n) by (intros ->; now apply RS).
    unfold child_table in *. rewrite NE in *. clear R R'.
    destruct a as [|[|[|[|a]]]]; try (destruct i; try discriminate); destruct b as [|[|[|[|b]]]]; try (destruct j; try discriminate); try discriminate;
      repeat match type of E with context [?x <? ?y] => destruct (Nat.ltb_spec x y); try discriminate end;
      try (specialize (RI eq_refl)); injection E as <-;
    (destruct a' as [|[|[|[|a']]]]; try (destruct i'; try discriminate); destruct b' as [|[|[|[|b']]]]; try (destruct j'; try discriminate); try discriminate;
      repeat match type of E' with context [?x <? ?y] => destruct (Nat.ltb_spec x y); try discriminate end;
      try (specialize (RI' eq_refl));
      pose proof (f_equal (fun x => match x with Some (k, _) => k | None => 0 end) E') as K; cbv beta iota in K;
      first [lia | split; f_equal; lia | exfalso; discriminate E']).
  - intros p q e e' U U'. apply uses_eq in U, U'. destruct U, U'. congruence.
Qed.

(** no two servers are connected, nor the logger and the crypto process *)
Theorem c35_isolated prefork i j e : ~ uses prefork (SERVER, i) (SERVER, j) e /\ ~ uses prefork (CRYPTO, i) (LOGGER, j) e /\ ~ uses prefork (LOGGER, i) (CRYPTO, j) e.
Proof.
  repeat split; intros U; apply uses_eq in U; destruct U as [_ E]; unfold child_table in E; cbn in E; try discriminate; destruct i; discriminate.
Qed.

(** three servers: twelve sockets, and one of them *)
Example c35_case : uses 3 (SERVER, 2) (CRYPTO, 0) (7, false) /\ uses 3 (CRYPTO, 0) (SERVER, 2) (7, true) /\ length (proc_init 3) = 5 /\ length (proc_connect 3) = 7.
Proof.
  assert (R : forall p, fst p < 4 -> snd p < instances 3 (fst p) -> running 3 p) by (split; auto).
  split; [|split; [|split; reflexivity]].
  - split; [apply R; vm_compute; lia|]. eexists. split; [vm_compute; reflexivity|]. vm_compute. reflexivity.
  - split; [apply R; vm_compute; lia|]. eexists. split; [vm_compute; reflexivity|]. vm_compute. reflexivity.
Qed.
