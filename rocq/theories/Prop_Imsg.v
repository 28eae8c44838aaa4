(** C32 and C33: the messages between the processes. *)
From Verif Require Import Base BaseLemmas Imsg Imsg_Proofs.
Local Open Scope N_scope.

(** ** Specification *)
(** the messages a run accepted: those whose data fit; process id 0 stands for
    the sender's own *)
Definition fits (m : imsg) : bool := N.of_nat (length (i_data m)) <=? 16368.
Definition own_pid (pid : N) (m : imsg) : imsg :=
  if i_pid m =? 0 then mkImsg (i_type m) (i_id m) pid (i_data m) (i_fd m) else m.
Definition composed (pid : N) (es : list ev) : list imsg :=
  flat_map (fun e => match e with ECompose m => if fits m then [own_pid pid m] else [] | _ => [] end) es.
(** what imsg_get(3) returned so far *)
Definition received (c : chan) : list imsg :=
  match ch_rd c with Some r => map imsg_get (r_q r) | None => [] end.
Definition without_fd (m : imsg) : imsg := mkImsg (i_type m) (i_id m) (i_pid m) (i_data m) None.
(** imsgbuf_read(3) failed at some point *)
Definition failed (c : chan) : Prop := ch_rd c = None.
Definition drained (c : chan) : Prop := ch_q c = [] /\ ch_sock c = [].

Lemma accepted_composed pid es : accepted pid es = composed pid es.
Proof.
  induction es as [|e es IH]; auto. cbn [accepted composed flat_map]. f_equal; [|exact IH].
  destruct e as [m| |]; auto. cbn [accept]. unfold fits, own_pid. destruct (N.of_nat (length (i_data m)) <=? 16368); auto.
  destruct m as [t i p d f]. cbn. destruct (p =? 0); auto.
Qed.

Lemma wf_split good acc c : cinv good acc c -> exists r dn rest,
  ch_rd c = Some r /\ acc = dn ++ rest /\
  Forall2 (fun m x => without_fd m = without_fd x /\ good m (i_fd x)) dn (map imsg_get (r_q r)) /\
  (drained c -> rest = []).
Proof.
  intros (W & NE & r & dn & rest & pre & RD & EA & I & ST & T & LP & LO).
  exists r, dn, rest. split; auto. split; auto. split.
  - assert (WD : Forall wf dn) by (apply Forall_app with (l2 := rest); now rewrite <- EA).
    destruct I as (I & _). clear - I WD. induction I as [|m b dn q [E G] _ IH]; cbn [map]; constructor.
    + destruct b as [d f]. cbn [fst snd] in E, G. subst d. apply Forall_inv in WD. rewrite (get_enc m f WD). cbn. destruct m; auto.
    + inversion_clear WD. auto.
  - intros [D1 D2]. rewrite D1, D2 in *. destruct I as (_ & I). destruct (r_pmsg r) as [[[sz got] f]|].
    + destruct I as (I & _ & m & r0 & -> & SZ & LG & _). cbn in ST. rewrite ST in I. cbn [map concat app] in I. rewrite app_nil_r in I.
      rewrite I in LG. rewrite app_length in LG. lia.
    + cbn [map concat app] in I. rewrite app_nil_r in I. destruct rest as [|m r0]; auto. unfold settled in ST. rewrite I in ST.
      cbn [map concat] in ST. rewrite app_length, enc_len in ST. lia.
Qed.

Lemma forall2_map {A B C} (f : A -> C) (g : B -> C) (P : A -> B -> Prop) l l' :
  (forall a b, P a b -> f a = g b) -> Forall2 P l l' -> map f l = map g l'.
Proof. intros H. induction 1; cbn; auto. f_equal; auto. Qed.

(** ** C32 *)
(** Whatever messages are composed, however the kernel splits and joins the
    reads and writes and whatever it does with descriptors: reading never fails,
    the messages received are the first ones of those composed, in order, and
    all of them once the queue and the socket are empty. *)
Theorem c32_stream sem pid iov_max es c : pid < 4294967296 -> runs sem pid iov_max new_chan es c ->
  ~ failed c /\
  exists rest, map without_fd (composed pid es) = map without_fd (received c) ++ rest /\ (drained c -> rest = []).
Proof.
  intros U R.
  assert (I : cinv (fun _ _ => True) (composed pid es) c).
  { rewrite <- accepted_composed. apply (runs_cinv (fun _ _ => True) sem) with (iov_max := iov_max) (c := new_chan) (acc := []); auto.
    - intros pm buf rest pre s tl n fd _ _ _ _ _ _. split; auto. unfold started_ok. destruct pm as [[[? ?] ?]|], rest; auto.
    - apply new_cinv. }
  destruct (wf_split _ _ _ I) as (r & dn & rest & RD & E & F & D).
  split. { unfold failed. congruence. }
  exists (map without_fd rest). unfold received. rewrite RD, E, map_app. split.
  - f_equal. eapply forall2_map; [|exact F]. cbn. tauto.
  - intros H. now rewrite (D H).
Qed.

(** Nothing gets stuck: from any point the rest can be written and read (one
    byte at a time, if the kernel is that slow). *)
Theorem c32_drains (sem : sock -> option N -> Prop) pid iov_max es c : pid < 4294967296 -> (0 < iov_max)%nat -> (forall b t, sem [(b, t)] t) ->
  runs sem pid iov_max new_chan es c ->
  exists es' c', runs sem pid iov_max c es' c' /\ drained c' /\ composed pid es' = [] /\
    map without_fd (received c') = map without_fd (composed pid es).
Proof.
  intros U IO SM R.
  assert (I : cinv (fun _ _ => True) (composed pid es) c).
  { rewrite <- accepted_composed. apply (runs_cinv (fun _ _ => True) sem) with (iov_max := iov_max) (c := new_chan) (acc := []); auto.
    - intros pm buf rest pre s tl n fd _ _ _ _ _ _. split; auto. unfold started_ok. destruct pm as [[[? ?] ?]|], rest; auto.
    - apply new_cinv. }
  assert (K : forall k c, (2 * length (concat (map fst (ch_q c))) + length (ch_sock c) <= k)%nat -> cinv (fun _ _ => True) (composed pid es) c ->
     exists es' c', runs sem pid iov_max c es' c' /\ drained c' /\ composed pid es' = []).
  { clear c R I. induction k; intros c L I.
    - exists [], c. split; [constructor|]. split; [|auto]. destruct I as (_ & NE & _). split.
      + destruct (ch_q c) as [|[d f] q]; auto. inversion_clear NE. cbn in *. rewrite app_length in L. destruct d; [congruence|cbn in L; lia].
      + destruct (ch_sock c); auto. cbn in L. lia.
    - assert (C : drained c \/ exists e, possible sem iov_max c e /\ accept pid e = [] /\
         (2 * length (concat (map fst (ch_q (exec pid iov_max c e)))) + length (ch_sock (exec pid iov_max c e)) <= k)%nat).
      { destruct (ch_sock c) as [|[b t] s] eqn:ES.
        - destruct (ch_q c) as [|[d f] q] eqn:EQ; [left; split; auto|]. right. exists (EWrite 1).
          destruct I as (_ & NE & _). rewrite EQ in NE. inversion NE as [|? ? NE1 NE2]; subst. cbn [fst] in NE1.
          assert (P : possible sem iov_max c (EWrite 1)).
          { cbn [possible]. rewrite EQ. destruct iov_max; [lia|]. cbn [group Nat.leb Nat.ltb andb map concat fst].
            destruct d; [congruence|]. cbn. lia. }
          split; auto. split; auto. cbn [exec]. destruct (msgbuf_write iov_max (ch_q c) (ch_sock c) 1) as [q' s'] eqn:EW.
          destruct (write_ok iov_max (ch_q c) (ch_sock c) 1 q' s') as (W1 & W2 & W3); auto; [now rewrite EQ|].
          cbn [ch_q ch_sock].
          assert (LS : length s' = 1%nat).
          { unfold msgbuf_write in EW. rewrite EQ, ES in EW. destruct iov_max; [lia|]. cbn [group Nat.leb Nat.ltb andb map concat fst Nat.eqb] in EW.
            apply (f_equal snd) in EW. cbn [snd] in EW. rewrite <- EW. destruct d; [congruence|]. reflexivity. }
          apply (f_equal (@length N)) in W3. rewrite !app_length, !map_length, LS, ES, EQ in W3. cbn [length] in *. lia.
        - right. exists (ERecv 1 t). destruct I as (_ & _ & r & _ & _ & _ & RD & _ & _ & ST & _).
          split.
          { cbn [possible]. rewrite RD, ES. cbn [length firstn]. repeat split; try lia; auto.
            unfold settled in ST. destruct (r_pmsg r); [rewrite ST; cbn; unfold IBUF_READ_SIZE; lia|unfold IBUF_READ_SIZE; lia]. }
          split; auto. cbn [exec]. rewrite RD. cbn [ch_q ch_sock]. rewrite ES. cbn [skipn]. cbn [length] in L. lia. }
      destruct C as [D|(e & P & A & M)].
      + exists [], c. split; [constructor|]. auto.
      + destruct (IHk (exec pid iov_max c e) M) as (es' & c' & R' & D' & C').
        { rewrite <- (app_nil_r (composed pid es)). rewrite <- A. apply (step_cinv (fun _ _ => True) sem); auto.
          intros pm buf rest pre s tl n fd _ _ _ _ _ _. split; auto. unfold started_ok. destruct pm as [[[? ?] ?]|], rest; auto. }
        exists (e :: es'), c'. split; [econstructor; eauto|]. split; auto. rewrite <- accepted_composed in *. cbn [accepted]. now rewrite A, C'. }
  destruct (K _ c (Nat.le_refl _) I) as (es' & c' & R' & D' & C'). exists es', c'. repeat split; auto; try apply D'.
  assert (RR : runs sem pid iov_max new_chan (es ++ es') c').
  { clear - R R'. induction R; cbn; auto. econstructor; eauto. }
  destruct (c32_stream _ _ _ _ _ U RR) as (_ & rest & E & F). rewrite (F D'), app_nil_r in E.
  rewrite <- E. f_equal. unfold composed in *. rewrite flat_map_app, C', app_nil_r. reflexivity.
Qed.

(** ** C33 *)

Lemma barrier_inside taken fd k b t : barrier taken fd -> (0 < k)%nat -> nth_error taken k = Some (b, t) -> t = None.
Proof.
  destruct taken as [|[b0 t0] r]; [contradiction|]. intros [_ F] K E. destruct k; [lia|]. cbn in E. apply nth_error_In in E.
  unfold untagged in F. rewrite Forall_forall in F. apply (F _ E).
Qed.

(** the obligation on the kernel, with [good m f] := f is m's, or none if [lossy] *)
Lemma barrier_good (lossy : Prop) (sem : sock -> option N -> Prop) :
  (forall tk fd, sem tk fd -> barrier tk fd /\ (lossy \/ (fd <> None -> (16 <= length tk)%nat))) ->
  let good := fun m f => f = i_fd m \/ (lossy /\ f = None) in
  forall pm buf rest pre s tl n fd,
  settled buf pm -> length pre = held pm buf ->
  match pm with Some (_, got, _) => (16 <= length got)%nat /\ match rest with m :: _ => (length got < length (enc m))%nat | [] => True end
  | None => match rest with m :: _ => buf <> [] -> good m None | [] => True end end ->
  pre ++ s ++ tl = concat (map tenc rest) -> (0 < n <= length s)%nat -> sem (firstn n s) fd ->
  started_ok good pm (match pm with Some _ => None | None => fd end) (buf ++ map fst (firstn n s)) rest /\
  (forall x m r (buf' : list N), rest = x ++ m :: r -> (length (concat (map enc x)) + length buf' = held pm buf + n)%nat -> (0 < length buf' < 16)%nat -> good m None).
Proof.
  intros HS good pm buf rest pre s tl n fd ST LP LO T NL SE. destruct (HS _ _ SE) as [B SH].
  assert (TL : length (firstn n s) = n) by (rewrite firstn_length; lia).
  (* messages that start inside what is read, not at its first byte, carry no descriptor *)
  assert (IN : forall a m b, rest = a ++ m :: b -> (length pre < length (concat (map enc a)) < length pre + n)%nat -> i_fd m = None).
  { intros a m b E P. destruct (start_taken rest a m b pre s tl n E T) as (ch & H); [lia|lia|]. eapply barrier_inside; [exact B| |exact H]. lia. }
  split.
  - unfold started_ok. rewrite app_length, map_length, TL. destruct pm as [[[sz got] f]|].
    + destruct rest as [|m r]; auto. cbn in ST. subst buf. cbn [held] in LP. cbn [length] in *. intros a m' b -> Q.
      left. symmetry. apply (IN (m :: a) m' b eq_refl). split; [|lia]. cbn [map concat]. rewrite app_length. lia.
    + cbn in ST. cbn [held] in LP. destruct rest as [|m r]; auto. split.
      * intros _. destruct buf as [|x buf].
        -- destruct pre; [|cbn in LP; lia]. destruct (start_taken (m :: r) [] m r [] s tl n eq_refl T) as (ch & H); [lia|cbn; lia|].
           cbn in H. destruct (firstn n s) as [|[b t] tk]; [discriminate|]. cbn in H. injection H as -> ->. destruct B as [-> _]. left. reflexivity.
        -- (* in the middle of a header *)
           assert (fd = None) as ->; [|now apply LO].
           assert (E : exists ch, nth_error (firstn n s) 0 = Some (ch, None)).
           { assert (H : nth_error (concat (map tenc (m :: r))) (length pre) = nth_error s 0).
             { rewrite <- T. rewrite nth_error_app2, Nat.sub_diag by lia. destruct s; [cbn in NL; lia|reflexivity]. }
             cbn [map concat] in H. rewrite nth_error_app1 in H by (unfold tenc; rewrite tag_first_len, enc_len; lia).
             unfold tenc in H. destruct (enc m) as [|e0 el] eqn:EE; [apply (f_equal (@length N)) in EE; rewrite enc_len in EE; discriminate|].
             cbn [tag_first] in H. destruct (length pre) as [|k] eqn:LK; [cbn in LP; lia|]. cbn [nth_error] in H.
             assert (LE : (k < length el)%nat) by (apply (f_equal (@length N)) in EE; rewrite enc_len in EE; cbn in EE; lia).
             destruct (nth_error el k) as [ch|] eqn:EK; [|apply nth_error_None in EK; lia].
             rewrite (map_nth_error (fun b => (b, None)) k el EK) in H. exists ch. destruct n; [lia|]. destruct s; [discriminate|]. cbn in *. congruence. }
           destruct E as (ch & E). destruct (firstn n s) as [|[b t] tk]; [discriminate|]. cbn in E. injection E as -> ->. destruct B as [-> _]. reflexivity.
      * intros a m' b -> Q. left. symmetry. apply (IN (m :: a) m' b eq_refl). split; [|lia]. cbn [map concat]. rewrite app_length, enc_len. lia.
  - intros x m r buf' E LQ LB.
    destruct (Nat.lt_trichotomy (length (concat (map enc x))) (length pre)) as [C|[C|C]].
    + (* it was already there *)
      destruct x as [|m0 x].
      * cbn [app] in E. subst rest. cbn [map concat length] in *. destruct pm as [[[sz got] f]|].
        -- cbn in ST. subst buf. cbn [held length] in *.
           (* the message of pm is not complete: it cannot be in the buffer *)
           exfalso. lia.
        -- apply LO. intros ->. cbn in *. lia.
      * exfalso. subst rest. cbn [app map concat] in *. rewrite app_length in C. destruct pm as [[[sz got] f]|].
        -- cbn in ST. subst buf. cbn [held length] in *. lia.
        -- cbn in ST. cbn [held] in LP. rewrite enc_len in C. lia.
    + (* it starts with the first byte read *)
      destruct SH as [L|L]; [right; auto|]. destruct (start_taken rest x m r pre s tl n E T) as (ch & H); [lia|lia|].
      rewrite C, Nat.sub_diag in H. destruct (firstn n s) as [|[b t] tk] eqn:TK; [discriminate|]. cbn in H. injection H as -> ->.
      destruct B as [-> _]. left. destruct (i_fd m); auto. specialize (L ltac:(congruence)). lia.
    + left. symmetry. apply (IN x m r E). lia.
Qed.

Lemma f2_length {A B} (P : A -> B -> Prop) l l' : Forall2 P l l' -> length l = length l'.
Proof. induction 1; cbn; auto. Qed.
Lemma eta_imsg a b : without_fd a = without_fd b -> i_fd b = i_fd a -> a = b.
Proof. destruct a, b. unfold without_fd. cbn. intros E F. injection E. congruence. Qed.

(** a read that gets a descriptor gets at least a header with it *)
Definition whole_header (taken : sock) (fd : option N) : Prop := barrier taken fd /\ (fd <> None -> (16 <= length taken)%nat).

(** On a kernel where descriptors are barriers (BSD), when the read that gets a
    descriptor gets a whole header: every message arrives with its descriptor
    and no other. *)
Theorem c33_fds_partial pid iov_max es c : pid < 4294967296 -> runs whole_header pid iov_max new_chan es c ->
  exists rest, composed pid es = received c ++ rest /\ (drained c -> rest = []).
Proof.
  intros U R.
  assert (I : cinv (fun m f => f = i_fd m \/ (False /\ f = None)) (composed pid es) c).
  { rewrite <- accepted_composed. apply (runs_cinv _ whole_header) with (iov_max := iov_max) (c := new_chan) (acc := []); auto.
    - apply (barrier_good False whole_header). intros tk fd [B L]. auto.
    - apply new_cinv. }
  destruct (wf_split _ _ _ I) as (r & dn & rest & RD & E & F & D). exists rest. split; auto.
  unfold received. rewrite RD, E. f_equal. clear - F. rewrite <- (map_id (map imsg_get (r_q r))), <- (map_id dn).
  eapply forall2_map; [|exact F]. cbn. intros a b [W [G|[[] _]]]. now apply eta_imsg.
Qed.

(** However short the reads: never with another message's descriptor. *)
Theorem c33_never_wrong pid iov_max es c : pid < 4294967296 -> runs barrier pid iov_max new_chan es c ->
  exists rest, Forall2 (fun m x => x = m \/ x = without_fd m) (firstn (length (received c)) (composed pid es)) (received c) /\
    composed pid es = firstn (length (received c)) (composed pid es) ++ rest.
Proof.
  intros U R.
  assert (I : cinv (fun m f => f = i_fd m \/ (True /\ f = None)) (composed pid es) c).
  { rewrite <- accepted_composed. apply (runs_cinv _ barrier) with (iov_max := iov_max) (c := new_chan) (acc := []); auto.
    - apply (barrier_good True barrier). intros tk fd B. auto.
    - apply new_cinv. }
  destruct (wf_split _ _ _ I) as (r & dn & rest & RD & E & F & D). exists rest. unfold received. rewrite RD, E.
  rewrite <- (f2_length _ _ _ F). rewrite firstn_app, Nat.sub_diag, firstn_all. cbn [firstn]. rewrite app_nil_r. split; auto.
  clear - F. induction F as [|a b l l' [W G] _ IH]; constructor; auto.
  destruct G as [G|[_ G]]; [left; symmetry; now apply eta_imsg|right]. rewrite W. destruct b; cbn in *. unfold without_fd. cbn. congruence.
Qed.

(** ** Cases *)
Definition host_msg := mkImsg 5 0 0 [104; 105] None.
Definition cert_msg := mkImsg 6 0 0 [] (Some 9).
(** two messages, the second with a descriptor, written and read in pieces *)
Example c33_case : exists c, runs whole_header 77 1024 new_chan
    [ECompose host_msg; EWrite 5; ECompose cert_msg; ERecv 3 None; EWrite 13; EWrite 16; ERecv 15 None; ERecv 16 (Some 9)] c /\
  received c = [mkImsg 5 0 77 [104; 105] None; mkImsg 6 0 77 [] (Some 9)] /\ drained c.
Proof.
  eexists. split.
  - repeat (eapply runs_cons; [vm_compute; repeat split; try congruence; try lia; repeat constructor|]). apply runs_nil.
  - vm_compute. auto.
Qed.
(** composed messages need not fit: 16369 bytes do not *)
Example c32_case : fits (mkImsg 1 0 0 (repeat 0 (N.to_nat 16369)) None) = false /\ fits (mkImsg 1 0 0 (repeat 0 (N.to_nat 16368)) None) = true.
Proof. split; vm_compute; reflexivity. Qed.

(** A read of less than a header takes the descriptor away from its message. *)
Theorem c33_short_refuted : exists c, runs barrier 77 1024 new_chan
    [ECompose cert_msg; EWrite 16; ERecv 10 (Some 9); ERecv 6 None] c /\ drained c /\
  received c = [mkImsg 6 0 77 [] None] /\ i_fd cert_msg = Some 9.
Proof.
  eexists. split.
  - repeat (eapply runs_cons; [vm_compute; repeat split; try congruence; try lia; repeat constructor|]). apply runs_nil.
  - vm_compute. auto.
Qed.
(** On Linux a descriptor comes with whatever is in the socket before it: when
    the reader is late it is attached to an earlier message. *)
Theorem c33_linux_refuted : exists c, runs glue 77 1024 new_chan
    [ECompose host_msg; ECompose cert_msg; EWrite 18; EWrite 16; ERecv 34 (Some 9)] c /\ drained c /\
  received c = [mkImsg 5 0 77 [104; 105] (Some 9); mkImsg 6 0 77 [] None].
Proof.
  eexists. split.
  - do 4 (eapply runs_cons; [vm_compute; repeat split; try congruence; try lia; repeat constructor|]).
    eapply runs_cons; [|apply runs_nil]. cbn [possible]. split; [lia|]. split; [vm_compute; lia|]. split; [vm_compute; congruence|].
    right. exists (map (fun b => (b, None)) (enc (mkImsg 5 0 77 [104; 105] None))), 6, 9, (map (fun b => (b, None)) (skipn 1 (enc (mkImsg 6 0 77 [] None)))).
    vm_compute. repeat split; repeat constructor.
  - vm_compute. auto.
Qed.
