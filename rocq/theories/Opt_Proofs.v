(** getopt_long(3) on command lines as they are written. *)
From Verif Require Import Base BaseLemmas Conf Config Mime Parse Tls TlsSpec Gram Proc Main MainSpec.
Local Open Scope N_scope.

Lemma plain_kind ch o : In (ch, o) plain_letters -> kind_of ch = Flag o.
Proof. unfold plain_letters. cbn [In]. intros H. repeat (destruct H as [H|H]; [injection H as <- <-; reflexivity|]). destruct H. Qed.
Lemma arg_kind ch f : In (ch, f) arg_letters -> kind_of ch = Arg f.
Proof. unfold arg_letters. cbn [In]. intros H. repeat (destruct H as [H|H]; [injection H as <- <-; reflexivity|]). destruct H. Qed.
Lemma other_kind ch : ~ In ch (map fst plain_letters) -> ~ In ch (map fst arg_letters) -> kind_of ch = Flag Obad.
Proof.
  cbn. intros A B. unfold kind_of.
  repeat match goal with |- context [?x =? ?y] => destruct (N.eqb_spec x y) as [E|_]; [exfalso; subst; tauto|] end. reflexivity.
Qed.
Lemma kind_cases ch : (exists o, In (ch, o) plain_letters) \/ (exists f, In (ch, f) arg_letters) \/ (~ In ch (map fst plain_letters) /\ ~ In ch (map fst arg_letters)).
Proof.
  destruct (in_dec N.eq_dec ch (map fst plain_letters)) as [I|I].
  - left. apply in_map_iff in I. destruct I as ((c & o) & <- & I). eauto.
  - destruct (in_dec N.eq_dec ch (map fst arg_letters)) as [J|J]; [|auto]. right. left. apply in_map_iff in J. destruct J as ((c & o) & <- & J). eauto.
Qed.
Lemma cluster_plain l os s : plain l os -> cluster (l ++ s) = (os ++ fst (cluster s), snd (cluster s)).
Proof.
  intros P. induction P as [|ch o l os I P IH]; cbn [app cluster]; [destruct (cluster s); reflexivity|]. rewrite (plain_kind _ _ I), IH. reflexivity.
Qed.
Lemma plain_45 o : ~ In (45, o) plain_letters.
Proof. cbn. intros H. repeat (destruct H as [H|H]; [discriminate H|]). exact H. Qed.

(** a word of letters *)
Definition is_letters (s : word) : Prop := match s with [] => False | c :: _ => c <> 45 end.
Lemma getopt_letters posix s r : is_letters s -> getopt posix ((45 :: s) :: r) =
  match cluster s with
  | (os, None) => let '(os', rest) := getopt posix r in (os ++ os', rest)
  | (os, Some f) => match r with [] => (os ++ [Obad], []) | a :: r' => let '(os', rest) := getopt posix r' in (os ++ f a :: os', rest) end
  end.
Proof.
  destruct s as [|c s]; [intros []|]. intros NE. cbn [is_letters] in NE. destruct c as [|p]; [reflexivity|]. cbn [getopt].
  do 6 (try (destruct p as [p|p|]; try reflexivity)). exfalso. apply NE. reflexivity.
Qed.
Lemma plain_hd l os : plain l os -> l <> [] -> forall s, is_letters (l ++ s).
Proof. intros P N s. destruct l as [|c l]; [congruence|]. cbn. intros ->. inversion P as [|a b c0 d I Q]; subst. exact (plain_45 _ I). Qed.
Lemma arg_hd l os ch f s : plain l os -> In (ch, f) arg_letters -> is_letters (l ++ ch :: s).
Proof.
  intros P I. destruct l as [|c l]; [cbn|apply (plain_hd _ _ P); discriminate]. intros ->. apply arg_kind in I. discriminate I.
Qed.
Lemma getopt_long_word posix name r : name <> [] -> getopt posix ((45 :: 45 :: name) :: r) = (long name :: fst (getopt posix r), snd (getopt posix r)).
Proof. intros N. destruct name as [|c name]; [congruence|]. cbn [getopt]. destruct (getopt posix r). reflexivity. Qed.
Lemma getopt_word posix w r : (w = [] \/ w = [45] \/ hd 0 w <> 45) -> getopt posix (w :: r) = if posix then ([], w :: r) else (fst (getopt posix r), w :: snd (getopt posix r)).
Proof.
  intros H. transitivity (if posix then (@nil opt, w :: r) else let '(os, rest) := getopt posix r in (os, w :: rest)); [|destruct posix; [reflexivity|destruct (getopt false r); reflexivity]].
  destruct H as [->|[->|H]]; [reflexivity|reflexivity|]. destruct w as [|c w]; [reflexivity|]. cbn [hd] in H. cbn [getopt]. destruct c as [|p]; [reflexivity|].
  do 6 (try (destruct p as [p|p|]; try reflexivity)). exfalso. apply H. reflexivity.
Qed.
Lemma shortens_b name full : name <> [] -> leqb name (firstn (length name) full) = true <-> shortens name full.
Proof.
  intros N. rewrite leqb_eq. unfold shortens. split.
  - intros E. split; [exact N|]. exists (skipn (length name) full). rewrite E at 1. apply firstn_skipn.
  - intros (_ & r & <-). rewrite firstn_app, Nat.sub_diag, firstn_all, app_nil_r. reflexivity.
Qed.
Lemma long_help name : shortens name (s2b "help") -> long name = Oh.
Proof. intros H. unfold long. apply (shortens_b name (s2b "help") (proj1 H)) in H. rewrite H. reflexivity. Qed.
Lemma long_version name : shortens name (s2b "version") -> long name = OV.
Proof.
  intros H. unfold long. destruct (leqb name (firstn (length name) (s2b "help"))) eqn:E.
  - exfalso. apply shortens_b in E; [|exact (proj1 H)]. destruct E as (N & r & E), H as (_ & r' & H). destruct name as [|c name]; [congruence|].
    apply (f_equal (hd 0)) in E, H. cbn [app hd] in E, H. rewrite E in H. vm_compute in H. discriminate H.
  - apply (shortens_b name (s2b "version") (proj1 H)) in H. rewrite H. reflexivity.
Qed.
Lemma long_bad name : name <> [] -> ~ shortens name (s2b "help") -> ~ shortens name (s2b "version") -> long name = Obad.
Proof.
  intros N A B. unfold long. destruct (leqb name (firstn (length name) (s2b "help"))) eqn:E; [exfalso; apply A, shortens_b; auto|].
  destruct (leqb name (firstn (length name) (s2b "version"))) eqn:E2; [exfalso; apply B, shortens_b; auto|]. reflexivity.
Qed.

Lemma take_all_split W l1 l2 o : take_all W (l1 ++ l2) o = match take_all W l1 o with Goes o => take_all W l2 o | Exits c s => Exits c s end.
Proof. revert o. induction l1 as [|x l1 IH]; intros o; cbn [app take_all]; [reflexivity|]. destruct (take W x o); [apply IH|reflexivity]. Qed.
Lemma take_bad W os tl o : take_all W (os ++ Obad :: tl) o = take_all W (os ++ [Obad]) o.
Proof. rewrite !take_all_split. destruct (take_all W os o) as [o'|]; [|reflexivity]. cbn [take_all]. destruct o'. reflexivity. Qed.

(** the options read are those written, up to the first bad one *)
Definition upto (l os : list opt) : Prop := l = os \/ exists os0 tl, os = os0 ++ [Obad] /\ l = os0 ++ Obad :: tl.
Lemma upto_app a l os : upto l os -> upto (a ++ l) (a ++ os).
Proof. intros [->|(os0 & tl & -> & ->)]; [left; reflexivity|]. right. exists (a ++ os0), tl. rewrite !app_assoc. auto. Qed.
Lemma upto_bad os tl : upto (os ++ Obad :: tl) (os ++ [Obad]).
Proof. right. eauto. Qed.
Lemma reads posix ws os : written posix ws os -> upto (fst (getopt posix ws)) os.
Proof.
  intros H. induction H as [|r|l os r os' N P H IH|l os ch f a r os' P I N H IH|l os ch f a r os' P I H IH|l os ch f P I|l os ch m r P A B C|name r os' S H IH|name r os' S H IH|name r N A B|w r D E|w r os' D E H IH].
  - left. reflexivity.
  - left. reflexivity.
  - rewrite getopt_letters by (rewrite <- (app_nil_r l); apply (plain_hd _ _ P N)). rewrite <- (app_nil_r l), (cluster_plain _ _ _ P). cbn [cluster fst snd].
    destruct (getopt posix r). cbn [fst] in *. rewrite app_nil_r. apply upto_app, IH.
  - rewrite getopt_letters by apply (arg_hd _ _ _ _ _ P I). rewrite (cluster_plain _ _ _ P). cbn [cluster]. rewrite (arg_kind _ _ I). destruct a as [|a0 a]; [congruence|]. cbn [fst snd].
    destruct (getopt posix r). cbn [fst] in *. rewrite <- app_assoc. apply upto_app. cbn [app]. apply (upto_app [f (a0 :: a)]), IH.
  - rewrite getopt_letters by apply (arg_hd _ _ _ _ _ P I). rewrite (cluster_plain _ _ _ P). cbn [cluster]. rewrite (arg_kind _ _ I). cbn [fst snd].
    destruct (getopt posix r). cbn [fst] in *. rewrite app_nil_r. apply upto_app. apply (upto_app [f a]), IH.
  - rewrite getopt_letters by apply (arg_hd _ _ _ _ _ P I). rewrite (cluster_plain _ _ _ P). cbn [cluster]. rewrite (arg_kind _ _ I). cbn [fst snd]. rewrite app_nil_r. left. reflexivity.
  - rewrite getopt_letters. 2:{ destruct l as [|c l]; [exact (C eq_refl)|apply (plain_hd _ _ P); discriminate]. }
    rewrite (cluster_plain _ _ _ P). cbn [cluster]. rewrite (other_kind _ A B). destruct (cluster m) as [os' [f|]]; cbn [fst snd].
    + destruct r as [|a r]; [|destruct (getopt posix r)]; cbn [fst]; rewrite <- app_assoc; cbn [app]; apply upto_bad.
    + destruct (getopt posix r). cbn [fst]. rewrite <- app_assoc. cbn [app]. apply upto_bad.
  - rewrite getopt_long_word by exact (proj1 S). cbn [fst]. rewrite (long_help _ S). apply (upto_app [Oh]), IH.
  - rewrite getopt_long_word by exact (proj1 S). cbn [fst]. rewrite (long_version _ S). apply (upto_app [OV]), IH.
  - rewrite getopt_long_word by exact N. cbn [fst]. rewrite (long_bad _ N A B). apply (upto_bad []).
  - rewrite (getopt_word posix w r D), E. left. reflexivity.
  - rewrite (getopt_word posix w r D), E. rewrite E in IH. exact IH.
Qed.

(** every command line is written somehow *)
Lemma letters_total s : (exists os, plain s os) \/ (exists l os ch f a, s = l ++ ch :: a /\ plain l os /\ In (ch, f) arg_letters) \/
  (exists l os ch m, s = l ++ ch :: m /\ plain l os /\ ~ In ch (map fst plain_letters) /\ ~ In ch (map fst arg_letters)).
Proof.
  induction s as [|c s IH]; [left; exists []; constructor|]. destruct (kind_cases c) as [(o & I)|[(f & I)|(A & B)]].
  - destruct IH as [(os & P)|[(l & os & ch & f & a & -> & P & J)|(l & os & ch & m & -> & P & A & B)]].
    + left. exists (o :: os). constructor; assumption.
    + right. left. exists (c :: l), (o :: os), ch, f, a. split; [reflexivity|]. split; [constructor; assumption|exact J].
    + right. right. exists (c :: l), (o :: os), ch, m. split; [reflexivity|]. split; [constructor; assumption|auto].
  - right. left. exists [], [], c, f, s. split; [reflexivity|]. split; [constructor|exact I].
  - right. right. exists [], [], c, s. split; [reflexivity|]. split; [constructor|auto].
Qed.
Lemma written_total posix ws : exists os, written posix ws os.
Proof.
  assert (G : forall n ws, (length ws <= n)%nat -> exists os, written posix ws os); [|apply (G (length ws)); lia].
  clear ws. induction n as [|n IH]; intros ws L; [destruct ws; [exists []; constructor|cbn in L; lia]|].
  destruct ws as [|w r]; [exists []; constructor|]. cbn [length] in L. destruct (IH r ltac:(lia)) as (os' & R).
  assert (WD : (w = [] \/ w = [45] \/ hd 0 w <> 45) -> exists os, written posix (w :: r) os).
  { intros D. destruct posix; [exists []; apply wr_word_ends; auto|exists os'; apply wr_word; auto]. }
  destruct w as [|c s]; [apply WD; auto|]. destruct (N.eq_dec c 45) as [->|NC]; [|apply WD; cbn; auto].
  destruct s as [|d s]; [apply WD; auto|]. destruct (N.eq_dec d 45) as [->|ND].
  - destruct s as [|x name]; [exists []; constructor|]. assert (N : x :: name <> []) by discriminate.
    destruct (leqb (x :: name) (firstn (length (x :: name)) (s2b "help"))) eqn:E1; [exists (Oh :: os'); apply wr_help; [apply shortens_b; auto|exact R]|].
    destruct (leqb (x :: name) (firstn (length (x :: name)) (s2b "version"))) eqn:E2; [exists (OV :: os'); apply wr_version; [apply shortens_b; auto|exact R]|].
    exists [Obad]. apply wr_long; [exact N| |]; intros H; apply shortens_b in H; auto; congruence.
  - destruct (letters_total (d :: s)) as [(os & P)|[(l & os & ch & f & a & E & P & I)|(l & os & ch & m & E & P & A & B)]].
    + exists (os ++ os'). apply wr_plain; [discriminate|exact P|exact R].
    + rewrite E. destruct a as [|a0 a].
      * destruct r as [|a r]; [exists (os ++ [Obad]); eapply wr_missing; eauto|]. cbn [length] in L. destruct (IH r ltac:(lia)) as (os2 & R2). exists (os ++ f a :: os2). eapply wr_next_word; eauto.
      * exists (os ++ f (a0 :: a) :: os'). eapply wr_same_word; eauto. discriminate.
    + rewrite E. exists (os ++ [Obad]). apply wr_unknown; auto. intros ->. cbn in E. congruence.
Qed.

(** ** C78: the command line *)
(** Every command line is written in one of the ways gmid(8) and getopt(3) describe,
    and what gmid goes by is what is written. *)
Theorem c78_command_line W args : (exists os, written (w_posix W) args os) /\
  forall os, written (w_posix W) args os ->
    take_all W (fst (getopt (w_posix W) args)) no_opts = take_all W os no_opts /\
    (~ In Obad os -> fst (getopt (w_posix W) args) = os).
Proof.
  split; [apply written_total|]. intros os H. apply reads in H. destruct H as [->|(os0 & tl & -> & ->)]; [auto|]. split; [apply take_bad|].
  intros N. exfalso. apply N, in_or_app. right. left. reflexivity.
Qed.
(** -vfc FILE --ver -P/x -- -h *)
Example c78_command_line_case : written true [s2b "-vfc"; s2b "a.conf"; s2b "--ver"; s2b "-P/x"; s2b "--"; s2b "-h"] [Ov; Of; Oc (s2b "a.conf"); OV; OP (s2b "/x")].
Proof.
  apply (wr_next_word true (s2b "vf") [Ov; Of] 99 Oc (s2b "a.conf") [s2b "--ver"; s2b "-P/x"; s2b "--"; s2b "-h"] [OV; OP (s2b "/x")]);
    [repeat (constructor; [cbn; tauto|]); constructor|cbn; tauto|].
  apply wr_version; [split; [discriminate|exists (s2b "sion"); reflexivity]|].
  apply (wr_same_word true [] [] 80 OP (s2b "/x") [s2b "--"; s2b "-h"] []); [constructor|cbn; tauto|discriminate|]. apply wr_dashes.
Qed.

Print Assumptions c78_command_line.
