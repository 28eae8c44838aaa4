(** C82: the lists of the configuration in memory.  Objects are made, put on lists,
    and all freed at a reload; the objects of a list are found in the order they were
    put there, nothing that was freed is used, nothing is lost. *)
From Verif Require Import Base Tailq Tailq_Proofs.
Local Open Scope nat_scope.

(** ** what it should be *)
(** the objects there are: those added since the last purge *)
Definition objs_step (os : list (nat * kind)) (e : event) : list (nat * kind) :=
  match e with Add _ h x => (x, snd h) :: os | Purge => [] end.
Definition objs (es : list event) : list (nat * kind) := fold_left objs_step es [].
(** and the objects of each list, in order *)
Definition lists_step (L : head -> list nat) (e : event) : head -> list nat :=
  match e with
  | Add tail h x => fun g => if heq h g then (if tail then L g ++ [x] else x :: L g) else L g
  | Purge => fun _ => []
  end.
Definition lists (es : list event) : head -> list nat := fold_left lists_step es (fun _ => []).
(** the head is in the configuration or in an object there is *)
Definition there (os : list (nat * kind)) (h : head) : Prop :=
  match owner (snd h) with None => fst h = 0 | Some w => In (fst h, w) os end.
(** calloc(3) returns what is not in use; the addresses to listen on are put first *)
Fixpoint legal (os : list (nat * kind)) (es : list event) : Prop :=
  match es with
  | [] => True
  | Add tail h x :: r => x <> 0 /\ (forall k, ~ In (x, k) os) /\ there os h /\ (tail = true -> h <> (0, KAddr)) /\ legal ((x, snd h) :: os) r
  | Purge :: r => legal [] r
  end.

(** ** proofs *)
Definition J (B : nat) (m : mem) (L : head -> list nat) (os : list (nat * kind)) : Prop :=
  0 < B /\ inv B m L [] /\ (forall x k, knd m x = Some k <-> In (x, k) os) /\ forall g, hlive m g = false -> L g = [].
Lemma J_live B m L os h : J B m L os -> (forall x k, In (x, k) os -> x <> 0) -> there os h <-> hlive m h = true.
Proof.
  intros (_ & _ & K & _) NZ. destruct h as [o k]. rewrite hlive_iff. unfold there. cbn [fst snd]. destruct (owner k) as [w|]; [|reflexivity]. rewrite K. split; [intros A; split; [exact (NZ _ _ A)|exact A]|intros (_ & A); exact A].
Qed.
Lemma J_nz B m L os : J B m L os -> forall x k, In (x, k) os -> x <> 0.
Proof. intros (_ & I & K & _) x k A ->. apply K in A. rewrite (i_zero _ _ _ _ I) in A. discriminate A. Qed.
Lemma J_add B m L os tail h x : J B m L os -> x <> 0 -> (forall k, ~ In (x, k) os) -> there os h -> (tail = true -> h <> (0, KAddr)) ->
  exists m', add tail h x m = OK m' /\ J (S B) m' (lists_step L (Add tail h x)) ((x, snd h) :: os).
Proof.
  intros JJ NX FR TH TA. pose proof (J_nz _ _ _ _ JJ) as NZ. apply (J_live _ _ _ _ _ JJ NZ) in TH. destruct JJ as (B0 & I & K & D).
  assert (KX : knd m x = None). { destruct (knd m x) as [k|] eqn:E; [|reflexivity]. apply K in E. exfalso. exact (FR k E). }
  destruct (new_ok B m L [] (snd h) x I B0 NX KX) as (m1 & E1 & K1 & I1). unfold add. rewrite E1. cbn [bind].
  assert (UP : forall g, hlive m g = true -> hlive m1 g = true /\ fst g <> x).
  { intros [o j]. rewrite !hlive_iff. cbn [fst]. destruct (owner j) as [w|]; [|intros ->; split; [reflexivity|congruence]]. intros (A & C). rewrite K1. destruct (Nat.eqb_spec x o) as [<-|N]; [congruence|]. split; [auto|congruence]. }
  destruct (UP h TH) as (H1 & NH). assert (KX1 : knd m1 x = Some (snd h)) by (rewrite K1, Nat.eqb_refl; reflexivity).
  assert (EX : forall g, fst g = x -> L g = []). { intros g G. apply D. destruct (hlive m g) eqn:E; [|reflexivity]. destruct (UP g E) as (_ & N). congruence. }
  set (q1 := fun g : head => if fst g =? x then [] else L g) in *.
  assert (Q1 : forall g, q1 g = L g). { intros g. unfold q1. destruct (Nat.eqb_spec (fst g) x) as [A|]; [rewrite (EX g A); reflexivity|reflexivity]. }
  assert (FIN : forall m', knd m' = knd m1 -> inv (S B) m' (upd q1 h (if tail then q1 h ++ [x] else x :: q1 h)) [] -> J (S B) m' (lists_step L (Add tail h x)) ((x, snd h) :: os)).
  { intros m' K' I'. split; [lia|]. split; [|split].
    - eapply inv_ext; [exact I'|lia|]. intros g _. cbn [lists_step]. unfold upd. destruct (heq_spec h g) as [<-|]; rewrite !Q1; reflexivity.
    - intros y k. rewrite K', K1. cbn [In]. destruct (Nat.eqb_spec x y) as [<-|N].
      + split; [intros A; injection A as ->; left; reflexivity|]. intros [A|A]; [injection A as ->; reflexivity|exfalso; exact (FR k A)].
      + rewrite K. split; [auto|]. intros [A|A]; [congruence|exact A].
    - intros g G. rewrite (hlive_knd m1 m' g K') in G. cbn [lists_step]. destruct (heq_spec h g) as [<-|N]; [congruence|]. apply D. destruct (hlive m g) eqn:E; [|reflexivity]. destruct (UP g E). congruence. }
  destruct tail.
  - destruct (insert_tail_ok B m1 q1 [] h x I1 (fun A => A) H1 KX1 (TA eq_refl)) as (m' & E2 & K2 & I2). exists m'. split; [exact E2|]. apply FIN; assumption.
  - destruct (insert_head_ok B m1 q1 [] h x I1 (fun A => A) H1 KX1) as (m' & E2 & K2 & I2). exists m'. split; [exact E2|]. apply FIN; assumption.
Qed.
Lemma J_fresh B m : 0 < B -> inv 1 m (fun _ => []) [] -> (forall x, knd m x = None) -> J B m (fun _ => []) [].
Proof.
  intros B0 I K. split; [exact B0|]. split; [eapply inv_ext; [exact I|lia|reflexivity]|]. split; [|reflexivity]. intros x k. rewrite K. split; [discriminate|intros []].
Qed.
Lemma J_purge B m L os fuel : J B m L os -> B <= fuel -> exists m', config_purge fuel m = OK m' /\ J (S B) m' (fun _ => []) [].
Proof. intros (B0 & I & _) LB. destruct (config_purge_ok B m L fuel I LB) as (m' & E & I' & K). exists m'. split; [exact E|]. apply J_fresh; [lia|exact I'|exact K]. Qed.

Lemma run_ok fuel : forall es B m L os, J B m L os -> legal os es -> B + length es <= fuel ->
  exists m', run fuel es m = OK m' /\ J (B + length es) m' (fold_left lists_step es L) (fold_left objs_step es os).
Proof.
  induction es as [|e r IH]; intros B m L os JJ LE F; cbn [run fold_left length] in *.
  - exists m. rewrite Nat.add_0_r. auto.
  - assert (ST : exists m', step fuel m e = OK m' /\ J (S B) m' (lists_step L e) (objs_step os e) /\ legal (objs_step os e) r).
    { destruct e as [tail h x|]; cbn [legal step lists_step objs_step] in *.
      - destruct LE as (NX & FR & TH & TA & LE). destruct (J_add _ _ _ _ tail h x JJ NX FR TH TA) as (m' & A & C). eauto.
      - destruct (J_purge _ _ _ _ fuel JJ) as (m' & A & C); [lia|]. eauto. }
    destruct ST as (m1 & -> & J1 & L1). cbn [bind]. destruct (IH (S B) m1 _ _ J1 L1) as (m2 & E2 & J2); [lia|]. exists m2. split; [exact E2|]. replace (B + S (length r)) with (S B + length r) by lia. exact J2.
Qed.

(** After any history: nothing goes wrong, every list is what it should be when it is
    walked, and what is allocated is what was added since the last purge. *)
Theorem c82_lists fuel es : legal [] es -> length es < fuel ->
  exists m, (let* m := config_new in run fuel es m) = OK m /\
    (forall h, there (objs es) h -> TAILQ_FOREACH fuel h m = OK (lists es h)) /\
    (forall x k, knd m x = Some k <-> In (x, k) (objs es)).
Proof.
  intros LE F. destruct config_new_ok as (m0 & -> & I0 & K0). cbn [bind].
  destruct (run_ok fuel es 1 m0 (fun _ => []) [] (J_fresh 1 m0 Nat.lt_0_1 I0 K0) LE) as (m & E & JJ); [lia|]. exists m. split; [exact E|]. split.
  - intros h TH. pose proof (J_nz _ _ _ _ JJ) as NZ. apply (J_live _ _ _ _ _ JJ NZ) in TH. destruct JJ as (B0 & I & _). apply (foreach_ok _ _ _ _ _ _ I TH). pose proof (i_len _ _ _ _ I h TH). unfold lists. lia.
  - destruct JJ as (_ & _ & K & _). exact K.
Qed.

(** a purge frees everything *)
Theorem c82_purge fuel es : legal [] es -> length es + 1 < fuel -> exists m, (let* m := config_new in run fuel (es ++ [Purge]) m) = OK m /\ forall x, knd m x = None.
Proof.
  intros LE F. assert (LE' : legal [] (es ++ [Purge])).
  { revert LE. generalize (@nil (nat * kind)). induction es as [|e r IH]; intros os LE; [exact Logic.I|]. destruct e; cbn [legal app] in *.
    - destruct LE as (A & C & D & G & LE). repeat (split; [assumption|]). apply IH; [cbn in F; lia|exact LE].
    - apply IH; [cbn in F; lia|exact LE]. }
  destruct (c82_lists fuel (es ++ [Purge]) LE') as (m & E & _ & K); [rewrite app_length; cbn; lia|]. exists m. split; [exact E|]. intros x. destruct (knd m x) as [k|] eqn:A; [|reflexivity].
  apply K in A. unfold objs in A. rewrite fold_left_app in A. destruct A.
Qed.

(** Why the addresses to listen on have to be put first: config_purge does not
    initialise that list again. *)
Theorem c82_tail_refuted : exists es, es = [Purge; Add true (0, KAddr) 7] /\ there (objs es) (0, KAddr) /\ (let* m := config_new in run 10 es m) = UB.
Proof. eexists. split; [reflexivity|]. split; [reflexivity|]. vm_compute. reflexivity. Qed.

(** ** the messages of a reload *)
(** what a message adds: to the list of the last host, of the last location; [None]:
    there is none since the reload started *)
Fixpoint events (h l : option nat) (gs : list msg) : option (list event) :=
  let on (o : option nat) (k : kind) (x : nat) (r : option (list event)) : option (list event) :=
    match o, r with Some o, Some r => Some (Add true (o, k) x :: r) | _, _ => None end in
  let top (tail : bool) (k : kind) (x : nat) (r : option (list event)) : option (list event) := match r with Some r => Some (Add tail (0, k) x :: r) | None => None end in
  match gs with
  | [] => Some []
  | MStart :: r => match events None None r with Some r => Some (Purge :: r) | None => None end
  | MSock x :: r => top false KAddr x (events h l r)
  | MFcgi x :: r => top true KFcgi x (events h l r)
  | MHost x :: r => top true KHost x (events (Some x) None r)
  | MHaddr x :: r => on h KHaddr x (events h l r)
  | MLoc x :: r => on h KLoc x (events h (Some x) r)
  | MEnv x :: r => on l KEnv x (events h l r)
  | MAlias x :: r => on h KAlias x (events h l r)
  | MProxy x :: r => on h KProxy x (events h l r)
  end.
(** calloc(3) returns what is not in use *)
Definition obj_of (g : msg) : option nat := match g with MStart => None | MSock x | MFcgi x | MHost x | MHaddr x | MLoc x | MEnv x | MAlias x | MProxy x => Some x end.
Fixpoint fresh (used : list nat) (gs : list msg) : Prop :=
  match gs with [] => True | g :: r => match obj_of g with None => fresh [] r | Some x => x <> 0 /\ ~ In x used /\ fresh (x :: used) r end end.
(** after a reload started no MEnv comes before a host *)
Fixpoint calm (may : bool) (gs : list msg) : Prop :=
  match gs with [] => True | MStart :: r => calm false r | MHost _ :: r => calm true r | MEnv _ :: r => may = true /\ calm may r | _ :: r => calm may r end.

Definition o2n (o : option nat) : nat := match o with Some x => x | None => 0 end.
Lemma recv_ok fuel : forall gs B m L os h l l0 p may,
  J B m L os -> (forall x, h = Some x -> In (x, KHost) os) -> (forall x, l = Some x -> In (x, KLoc) os) -> (may = true -> l0 = o2n l) ->
  fresh (map fst os) gs -> calm may gs -> B + length gs <= fuel ->
  match events h l gs with
  | None => recv_all fuel gs (mkR m (o2n h) l0 p) = OK None
  | Some es => exists s, recv_all fuel gs (mkR m (o2n h) l0 p) = OK (Some s) /\ J (B + length gs) (r_m s) (fold_left lists_step es L) (fold_left objs_step es os)
  end.
Proof.
  induction gs as [|g r IH]; intros B m L os h l l0 p may JJ HH HL HM FR CA F; cbn [recv_all events length] in *.
  - exists (mkR m (o2n h) l0 p). rewrite Nat.add_0_r. auto.
  - assert (NZ := J_nz _ _ _ _ JJ).
    assert (FRK : forall x, ~ In x (map fst os) -> forall k, ~ In (x, k) os) by (intros x N k A; apply N; apply (in_map fst) in A; exact A).
    replace (B + S (length r)) with (S B + length r) by lia.
    assert (TOP : forall tail k x h' l' l0' p' may', owner k = None -> obj_of g = Some x -> (tail = true -> k <> KAddr) ->
      calm may' r -> (forall y, h' = Some y -> In (y, KHost) ((x, k) :: os)) -> (forall y, l' = Some y -> In (y, KLoc) ((x, k) :: os)) -> (may' = true -> l0' = o2n l') ->
      recv fuel (mkR m (o2n h) l0 p) g = (let* m := add tail (0, k) x m in OK (Some (mkR m (o2n h') l0' p'))) ->
      match (match events h' l' r with Some r => Some (Add tail (0, k) x :: r) | None => None end) with
      | None => (let* o := recv fuel (mkR m (o2n h) l0 p) g in match o with None => OK None | Some s => recv_all fuel r s end) = OK None
      | Some es => exists s, (let* o := recv fuel (mkR m (o2n h) l0 p) g in match o with None => OK None | Some s => recv_all fuel r s end) = OK (Some s) /\
          J (S B + length r) (r_m s) (fold_left lists_step es L) (fold_left objs_step es os) end).
    { intros tail k x h' l' l0' p' may' OW OB TA CA' H' L' M' ->. cbn [fresh] in FR. rewrite OB in FR. destruct FR as (NX & NI & FR).
      destruct (J_add _ _ _ _ tail (0, k) x JJ NX (FRK x NI)) as (m1 & -> & J1); [unfold there; cbn [fst snd]; rewrite OW; reflexivity|intros A C; injection C as ->; exact (TA A eq_refl)|].
      cbn [bind snd] in *. pose proof (IH (S B) m1 _ _ h' l' l0' p' may' J1 H' L' M' FR CA') as R. destruct (events h' l' r) as [es|]; [|apply R; lia]. destruct R as (s & A & C); [lia|]. exists s. split; [exact A|]. exact C. }
    assert (HERE : forall o k w x h' l' l0' p' may', owner k = Some w -> obj_of g = Some x -> (forall y, o = Some y -> In (y, w) os) ->
      calm may' r -> (forall y, h' = Some y -> In (y, KHost) ((x, k) :: os)) -> (forall y, l' = Some y -> In (y, KLoc) ((x, k) :: os)) -> (may' = true -> l0' = o2n l') ->
      recv fuel (mkR m (o2n h) l0 p) g = (if o2n o =? 0 then OK None else let* m := add true (o2n o, k) x m in OK (Some (mkR m (o2n h') l0' p'))) ->
      match (match o, events h' l' r with Some o, Some r => Some (Add true (o, k) x :: r) | _, _ => None end) with
      | None => (let* o := recv fuel (mkR m (o2n h) l0 p) g in match o with None => OK None | Some s => recv_all fuel r s end) = OK None
      | Some es => exists s, (let* o := recv fuel (mkR m (o2n h) l0 p) g in match o with None => OK None | Some s => recv_all fuel r s end) = OK (Some s) /\
          J (S B + length r) (r_m s) (fold_left lists_step es L) (fold_left objs_step es os) end).
    { intros o k w x h' l' l0' p' may' OW OB OIN CA' H' L' M' ->. cbn [fresh] in FR. rewrite OB in FR. destruct FR as (NX & NI & FR). destruct o as [y|]; [|reflexivity]. cbn [o2n].
      pose proof (OIN y eq_refl) as Y. assert (N := NZ _ _ Y). apply Nat.eqb_neq in N. rewrite N.
      destruct (J_add _ _ _ _ true (y, k) x JJ NX (FRK x NI)) as (m1 & -> & J1); [unfold there; cbn [fst snd]; rewrite OW; exact Y|intros _ C; injection C as _ ->; discriminate OW|].
      cbn [bind snd] in *. pose proof (IH (S B) m1 _ _ h' l' l0' p' may' J1 H' L' M' FR CA') as R. destruct (events h' l' r) as [es|]; [|apply R; lia]. destruct R as (s & A & C); [lia|]. exists s. split; [exact A|]. exact C. }
    assert (HH' : forall x k y, h = Some y -> In (y, KHost) ((x, k) :: os)) by (intros; right; auto).
    assert (HL' : forall x k y, l = Some y -> In (y, KLoc) ((x, k) :: os)) by (intros; right; auto).
    destruct g as [|x|x|x|x|x|x|x|x]; cbn [calm obj_of] in *.
    + cbn [fresh obj_of] in FR. destruct (J_purge _ _ _ _ fuel JJ) as (m1 & E1 & J1); [lia|]. cbn [recv r_m r_l]. rewrite E1. cbn [bind].
      pose proof (IH (S B) m1 _ _ None None l0 0 false J1) as R. cbn [o2n] in R.
      destruct (events None None r) as [es|]; [destruct R as (s & A & C); [discriminate|discriminate|discriminate|exact FR|exact CA|lia|exists s; split; [exact A|exact C]]|apply R; [discriminate|discriminate|discriminate|exact FR|exact CA|lia]].
    + apply (TOP false KAddr x h l l0 p may); auto; try discriminate.
    + apply (TOP true KFcgi x h l l0 p may); auto; try discriminate.
    + apply (TOP true KHost x (Some x) None 0 0 true); auto; try discriminate. intros y A. injection A as ->. left. reflexivity.
    + apply (HERE h KHaddr KHost x h l l0 p may); auto.
    + apply (HERE h KLoc KHost x h (Some x) x p may); auto. intros y A. injection A as ->. left. reflexivity.
    + destruct CA as (MAY & CA). rewrite (HM MAY) in *. apply (HERE l KEnv KLoc x h l (o2n l) p may); auto.
    + apply (HERE h KAlias KHost x h l l0 p may); auto.
    + apply (HERE h KProxy KHost x h l l0 x may); auto.
Qed.

(** The messages of any number of reloads: a message without the host or the location
    it is about ends the process; otherwise the lists are those of the messages since
    the last reload started. *)
Theorem c82_reload fuel gs : fresh [] gs -> calm true gs -> length gs < fuel ->
  match events None None gs with
  | None => (let* m := config_new in recv_all fuel gs (mkR m 0 0 0)) = OK None
  | Some es => exists s, (let* m := config_new in recv_all fuel gs (mkR m 0 0 0)) = OK (Some s) /\
      (forall h, there (objs es) h -> TAILQ_FOREACH fuel h (r_m s) = OK (lists es h)) /\ (forall x k, knd (r_m s) x = Some k <-> In (x, k) (objs es))
  end.
Proof.
  intros FR CA F. destruct config_new_ok as (m0 & -> & I0 & K0). cbn [bind].
  pose proof (recv_ok fuel gs 1 m0 (fun _ => []) [] None None 0 0 true (J_fresh 1 m0 Nat.lt_0_1 I0 K0)) as R. cbn [o2n] in R.
  destruct (events None None gs) as [es|]; [|apply R; try discriminate; auto; lia].
  destruct R as (s & E & JJ); [discriminate|discriminate|reflexivity|exact FR|exact CA|lia|]. exists s. split; [exact E|]. split.
  - intros h TH. pose proof (J_nz _ _ _ _ JJ) as NZ. apply (J_live _ _ _ _ _ JJ NZ) in TH. destruct JJ as (B0 & I & _). apply (foreach_ok _ _ _ _ _ _ I TH). pose proof (i_len _ _ _ _ I h TH). unfold lists. lia.
  - destruct JJ as (_ & _ & K & _). exact K.
Qed.

(** Without [calm]: a message IMSG_RECONF_ENV that comes first in a reload writes in
    the location of before, that was freed: config_recv does not reset [l]. *)
Theorem c82_reload_env_refuted : exists gs, fresh [] gs /\ (let* m := config_new in recv_all 10 gs (mkR m 0 0 0)) = UB.
Proof. exists [MHost 1; MLoc 2; MStart; MEnv 3]. split; [cbn; intuition discriminate|]. vm_compute. reflexivity. Qed.

(** ** a case *)
Definition case_msgs : list msg :=
  [MStart; MSock 1; MSock 2; MFcgi 3; MHost 4; MHaddr 5; MLoc 6; MEnv 7; MEnv 8; MLoc 9; MEnv 10; MAlias 11; MProxy 12; MHost 13; MLoc 14;
   MStart; MSock 2; MFcgi 1; MHost 14; MLoc 7; MEnv 6; MLoc 3; MAlias 4; MAlias 5].
Example c82_case : fresh [] case_msgs /\ calm true case_msgs /\
  match events None None case_msgs with
  | Some es => legal [] es /\ map (lists es) [(0, KAddr); (0, KHost); (14, KLoc); (7, KEnv); (3, KEnv); (14, KAlias); (0, KPki)] = [[2]; [14]; [7; 3]; [6]; []; [4; 5]; []]
  | None => False
  end.
Proof.
  split; [|split]; [cbn; intuition discriminate|cbn; tauto|]. cbn [events case_msgs]. split; [|vm_compute; reflexivity].
  cbn [legal snd there owner fst]. repeat (split; [first [discriminate|reflexivity|intros k A; cbn in A; intuition discriminate|cbn; tauto|intros _ A; discriminate A]|]). exact Logic.I.
Qed.
