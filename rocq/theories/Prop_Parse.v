(** C34, C39 and C53: macros, listening addresses, FastCGI applications. *)
From Verif Require Import Base BaseLemmas Compat Conf Fmt Parse.
Local Open Scope N_scope.

(** ** C34 *)
(** what happens to the macros: -D on the command line, an assignment in the
    file, the end of the file (it may be read again) *)
Inductive mdef := MCmd (n v : list N) | MSet (n v : list N) | MEnd.
Definition mdo (t : list sym) (d : mdef) : list sym :=
  match d with MCmd n v => symset n v true t | MSet n v => symset n v false t | MEnd => end_of_parse t end.
Definition mrun (h : list mdef) : list sym := fold_left mdo h [].

(** the value on the command line: the first one given *)
Definition cmd_value (h : list mdef) (n v : list N) : Prop :=
  exists a b, h = a ++ MCmd n v :: b /\ forall v', ~ In (MCmd n v') a.
(** the last value assigned since the file is being read *)
Definition set_value (h : list mdef) (n v : list N) : Prop :=
  exists a b, h = a ++ MSet n v :: b /\ ~ In MEnd b /\ forall v', ~ In (MSet n v') b.

Lemma symfind_app n a b : symfind n (a ++ b) = match symfind n a with Some s => Some s | None => symfind n b end.
Proof. unfold symfind. induction a as [|s a IH]; [reflexivity|]. cbn [app find]. destruct (leqb _ _); auto. Qed.
Lemma symfind_del n m t : n <> m -> symfind n (symdel m t) = symfind n t.
Proof.
  intros NE. induction t as [|s t IH]; [reflexivity|]. cbn [symdel]. destruct (leqb (y_name s) m) eqn:E.
  - apply leqb_eq in E. unfold symfind. cbn [find]. replace (leqb (y_name s) n) with false; [reflexivity|]. symmetry. destruct (leqb (y_name s) n) eqn:E2; [|reflexivity]. apply leqb_eq in E2. congruence.
  - unfold symfind in *. cbn [find]. rewrite IH. reflexivity.
Qed.
(** names are unique in the table *)
Definition uniq (t : list sym) : Prop := NoDup (map y_name t).
Lemma symfind_none n t : symfind n t = None <-> ~ In n (map y_name t).
Proof.
  split.
  - intros F I. apply in_map_iff in I. destruct I as (s & E & I). apply (find_none _ _ F) in I. rewrite E, leqb_refl in I. discriminate.
  - intros I. unfold symfind. destruct (find _ t) as [s|] eqn:F; [|reflexivity]. apply find_some in F. destruct F as [F E]. apply leqb_eq in E. exfalso. apply I. rewrite <- E. apply in_map, F.
Qed.
Lemma symdel_in n m t : In n (map y_name (symdel m t)) -> In n (map y_name t).
Proof. induction t as [|s t IH]; cbn [symdel]; [auto|]. destruct (leqb _ _); cbn [map In]; tauto. Qed.
Lemma symdel_uniq m t : uniq t -> uniq (symdel m t) /\ ~ In m (map y_name (symdel m t)).
Proof.
  unfold uniq. induction t as [|s t IH]; cbn [symdel map]; [auto|]. intros U. inversion U as [|x l NI ND]; subst. destruct (leqb (y_name s) m) eqn:E.
  - apply leqb_eq in E. subst m. auto.
  - destruct (IH ND) as [A B]. cbn [map]. split; [constructor; [intros X; apply NI; exact (symdel_in _ _ _ X)|exact A]|].
    intros [X|X]; [|exact (B X)]. rewrite X, leqb_refl in E. discriminate.
Qed.
Lemma nodup_snoc {A} (l : list A) x : NoDup l -> ~ In x l -> NoDup (l ++ [x]).
Proof. intros N I. apply NoDup_rev in N. rewrite <- (rev_involutive (l ++ [x])). apply NoDup_rev. rewrite rev_app_distr. cbn. constructor; [rewrite <- in_rev; exact I|exact N]. Qed.
Lemma symset_uniq n v p t : uniq t -> uniq (symset n v p t).
Proof.
  intros U. unfold symset. destruct (symfind n t) as [s|] eqn:F.
  - destruct (y_persist s); [exact U|]. destruct (symdel_uniq n t U) as [A B]. unfold uniq. rewrite map_app. apply nodup_snoc; auto.
  - apply symfind_none in F. unfold uniq. rewrite map_app. apply nodup_snoc; auto.
Qed.
Lemma symset_find n v p t m : uniq t -> symfind m (symset n v p t) =
  if leqb n m then match symfind n t with Some s => if y_persist s then Some s else Some (mkSym n v p) | None => Some (mkSym n v p) end else symfind m t.
Proof.
  intros U. unfold symset. destruct (leqb n m) eqn:E.
  - apply leqb_eq in E. subst m. destruct (symfind n t) as [s|] eqn:F.
    + destruct (y_persist s) eqn:P; [exact F|]. rewrite symfind_app. replace (symfind n (symdel n t)) with (@None sym); [|symmetry; apply symfind_none, symdel_uniq, U].
      unfold symfind. cbn [find y_name]. rewrite leqb_refl. reflexivity.
    + rewrite symfind_app, F. unfold symfind. cbn [find y_name]. rewrite leqb_refl. reflexivity.
  - assert (NE : m <> n) by (intros ->; rewrite leqb_refl in E; discriminate).
    assert (X : forall t', symfind m (t' ++ [mkSym n v p]) = symfind m t').
    { intros t'. rewrite symfind_app. destruct (symfind m t'); [reflexivity|]. unfold symfind. cbn [find y_name]. rewrite E. reflexivity. }
    destruct (symfind n t) as [s|]; [destruct (y_persist s); [reflexivity|]; rewrite X; apply symfind_del, NE|apply X].
Qed.
Lemma end_find t m : uniq t -> symfind m (end_of_parse t) = match symfind m t with Some s => if y_persist s then Some s else None | None => None end.
Proof.
  unfold uniq, end_of_parse. induction t as [|s t IH]; [reflexivity|]. cbn [map]. intros U. inversion U as [|x l NI ND]; subst. specialize (IH ND).
  unfold symfind in *. cbn [filter find]. destruct (leqb (y_name s) m) eqn:E.
  - apply leqb_eq in E. subst m. destruct (y_persist s) eqn:P.
    + cbn [find]. rewrite leqb_refl. reflexivity.
    + rewrite IH. destruct (find _ t) as [s'|] eqn:F; [|reflexivity]. apply find_some in F. destruct F as [F E]. apply leqb_eq in E. exfalso. apply NI. rewrite <- E. apply in_map, F.
  - destruct (y_persist s); [cbn [find]; rewrite E|]; exact IH.
Qed.
Lemma end_uniq t : uniq t -> uniq (end_of_parse t).
Proof.
  unfold uniq, end_of_parse. induction t as [|s t IH]; cbn [map filter]; [auto|]. intros U. inversion U as [|x l NI ND]; subst. destruct (y_persist s); [|auto].
  cbn [map]. constructor; [|auto]. intros X. apply NI. apply in_map_iff in X. destruct X as (s' & <- & X). apply filter_In in X. apply in_map, X.
Qed.
Lemma mrun_uniq h : uniq (mrun h).
Proof.
  unfold mrun. assert (X : forall t, uniq t -> uniq (fold_left mdo h t)); [|apply X; constructor].
  induction h as [|d h IH]; intros t U; [exact U|]. cbn [fold_left]. apply IH. destruct d; cbn [mdo]; [apply symset_uniq, U|apply symset_uniq, U|apply end_uniq, U].
Qed.
Lemma mrun_snoc h d : mrun (h ++ [d]) = mdo (mrun h) d.
Proof. unfold mrun. apply fold_left_app. Qed.

Definition has_cmd (h : list mdef) (n : list N) : Prop := exists v, In (MCmd n v) h.

Lemma cmd_has h n v : cmd_value h n v -> has_cmd h n.
Proof. intros (a & b & -> & _). exists v. apply in_or_app. right. left. reflexivity. Qed.
Lemma cmd_snoc h n v d : cmd_value h n v -> cmd_value (h ++ [d]) n v.
Proof. intros (a & b & -> & X). exists a, (b ++ [d]). split; [rewrite <- app_assoc; reflexivity|exact X]. Qed.

(** what the table says of a name *)
Lemma table_ok h n : match symfind n (mrun h) with
  | Some s => if y_persist s then cmd_value h n (y_val s) else ~ has_cmd h n /\ set_value h n (y_val s)
  | None => ~ has_cmd h n /\ forall v, ~ set_value h n v
  end.
Proof.
  induction h as [|d h IH] using rev_ind.
  - cbn. split; [intros (v & [])|]. intros v (a & b & E & _). destruct a; discriminate.
  - rewrite mrun_snoc. assert (U := mrun_uniq h).
    assert (OTHER : forall n' v' p, leqb n' n = false -> d = (if p : bool then MCmd n' v' else MSet n' v') ->
      match symfind n (mrun h) with
      | Some s => if y_persist s then cmd_value (h ++ [d]) n (y_val s) else ~ has_cmd (h ++ [d]) n /\ set_value (h ++ [d]) n (y_val s)
      | None => ~ has_cmd (h ++ [d]) n /\ forall v, ~ set_value (h ++ [d]) n v
      end).
    { intros n' v' p E D. assert (NE : n' <> n) by (intros ->; rewrite leqb_refl in E; discriminate).
      assert (HC : ~ has_cmd h n -> ~ has_cmd (h ++ [d]) n).
      { intros X (v & I). apply X. exists v. apply in_app_or in I. destruct I as [I|[I|[]]]; [exact I|]. subst d. destruct p; [injection I as -> _; congruence|discriminate]. }
      destruct (symfind n (mrun h)) as [s|].
      - destruct (y_persist s); [apply cmd_snoc, IH|]. destruct IH as [A (a & b & -> & B & C)]. split; [apply HC, A|]. exists a, (b ++ [d]). split; [rewrite <- app_assoc; reflexivity|].
        split; [intros I; apply in_app_or in I; destruct I as [I|[I|[]]]; [exact (B I)|subst d; destruct p; discriminate]|].
        intros v I. apply in_app_or in I. destruct I as [I|[I|[]]]; [exact (C v I)|]. subst d. destruct p; [discriminate|]. injection I as -> _. congruence.
      - destruct IH as [A B]. split; [apply HC, A|]. intros v (a & b & E2 & X & Y). destruct b as [|z b] using rev_ind.
        + apply app_inj_tail in E2. destruct E2 as [_ ->]. destruct p; [discriminate|]. injection D as -> _. congruence.
        + clear IHb. rewrite app_comm_cons, app_assoc in E2. apply app_inj_tail in E2. destruct E2 as [-> _]. apply (B v). exists a, b. split; [reflexivity|].
          split; [intros I; apply X, in_or_app; auto|]. intros v2 I. apply (Y v2), in_or_app. auto. }
    destruct d as [n' v'|n' v'|]; cbn [mdo].
    + rewrite (symset_find _ _ _ _ _ U). destruct (leqb n' n) eqn:E; [|exact (OTHER n' v' true E eq_refl)].
      apply leqb_eq in E. subst n'. destruct (symfind n (mrun h)) as [s|].
      * destruct (y_persist s) eqn:P; [rewrite P; apply cmd_snoc, IH|]. cbn [y_persist y_val]. exists h, []. split; [reflexivity|]. intros v I. apply (proj1 IH). exists v. exact I.
      * cbn [y_persist y_val]. exists h, []. split; [reflexivity|]. intros v I. apply (proj1 IH). exists v. exact I.
    + rewrite (symset_find _ _ _ _ _ U). destruct (leqb n' n) eqn:E; [|exact (OTHER n' v' false E eq_refl)].
      apply leqb_eq in E. subst n'.
      assert (HC : ~ has_cmd h n -> ~ has_cmd (h ++ [MSet n v']) n) by (intros X (v & I); apply X; exists v; apply in_app_or in I; destruct I as [I|[I|[]]]; [exact I|discriminate]).
      assert (SV : set_value (h ++ [MSet n v']) n v') by (exists h, []; split; [reflexivity|]; split; [intros []|intros v []]).
      destruct (symfind n (mrun h)) as [s|].
      * destruct (y_persist s) eqn:P; [rewrite P; apply cmd_snoc, IH|]. cbn [y_persist y_val]. split; [apply HC, IH|exact SV].
      * cbn [y_persist y_val]. split; [apply HC, IH|exact SV].
    + rewrite (end_find _ _ U).
      assert (HC : ~ has_cmd h n -> ~ has_cmd (h ++ [MEnd]) n) by (intros X (v & I); apply X; exists v; apply in_app_or in I; destruct I as [I|[I|[]]]; [exact I|discriminate]).
      assert (NS : forall v, ~ set_value (h ++ [MEnd]) n v).
      { intros v (a & b & E & X & _). destruct b as [|z b] using rev_ind; [apply app_inj_tail in E; destruct E as [_ E]; discriminate|].
        rewrite app_comm_cons, app_assoc in E. apply app_inj_tail in E. destruct E as [_ <-]. apply X, in_or_app. right. left. reflexivity. }
      destruct (symfind n (mrun h)) as [s|]; [destruct (y_persist s) eqn:P|].
      * rewrite P. apply cmd_snoc, IH.
      * split; [apply HC, IH|exact NS].
      * split; [apply HC, IH|exact NS].
Qed.

(** For every history: a macro has the value of the first -D that names it,
    whatever the file assigns before or after; without one, the last value
    assigned in the file being read; without one, it is not defined. *)
Theorem c34_macro_value h n v :
  symget n (mrun h) = Some v <-> cmd_value h n v \/ (~ has_cmd h n /\ set_value h n v).
Proof.
  assert (FC : forall v1 v2, cmd_value h n v1 -> cmd_value h n v2 -> v1 = v2).
  { intros v1 v2 (a & b & E & X) (a' & b' & E' & X'). rewrite E in E'. clear E. revert a' E' X'. induction a as [|y a IH]; intros [|y' a'] E' X'; cbn in E'.
    - injection E' as -> _. reflexivity.
    - injection E' as <- _. exfalso. apply (X' v1). left. reflexivity.
    - injection E' as -> _. exfalso. apply (X v2). left. reflexivity.
    - injection E' as <- E'. apply (IH ltac:(intros w I; apply (X w); right; exact I) a' E'). intros w I. apply (X' w). right. exact I. }
  assert (FS : forall v1 v2, set_value h n v1 -> set_value h n v2 -> v1 = v2).
  { intros v1 v2 (a & b & E & _ & X) (a' & b' & E' & _ & X'). rewrite E in E'. clear E. revert a' E'. induction a as [|y a IH]; intros [|y' a'] E'; cbn in E'.
    - injection E' as -> _. reflexivity.
    - injection E' as <- E'. exfalso. apply (X v2). rewrite E'. apply in_or_app. right. left. reflexivity.
    - injection E' as -> E'. exfalso. apply (X' v1). rewrite <- E'. apply in_or_app. right. left. reflexivity.
    - injection E' as <- E'. apply (IH a' E'). }
  pose proof (table_ok h n) as T. unfold symget. destruct (symfind n (mrun h)) as [s|]; cbn [option_map].
  - split.
    + intros E. injection E as <-. destruct (y_persist s); auto.
    + intros X. f_equal. destruct (y_persist s).
      * destruct X as [X|[X _]]; [exact (FC _ _ T X)|]. exfalso. exact (X (cmd_has _ _ _ T)).
      * destruct T as [T1 T2]. destruct X as [X|[_ X]]; [exfalso; exact (T1 (cmd_has _ _ _ X))|exact (FS _ _ T2 X)].
  - split; [discriminate|]. destruct T as [T1 T2]. intros [X|[_ X]]; [exfalso; exact (T1 (cmd_has _ _ _ X))|exfalso; exact (T2 _ X)].
Qed.

Example c34_case : let h := [MCmd (s2b "dir") (s2b "/srv"); MSet (s2b "dir") (s2b "/tmp"); MSet (s2b "p") (s2b "1"); MSet (s2b "p") (s2b "2")] in
  symget (s2b "dir") (mrun h) = Some (s2b "/srv") /\ symget (s2b "p") (mrun h) = Some (s2b "2") /\ symget (s2b "p") (mrun (h ++ [MEnd])) = None.
Proof. vm_compute. auto. Qed.

Lemma rsplit_spec c s : match rsplit c s with Some (a, b) => s = a ++ c :: b /\ ~ In c b | None => ~ In c s end.
Proof.
  induction s as [|x s IH]; [intros []|]. cbn [rsplit]. destruct (rsplit c s) as [[a b]|].
  - destruct IH as [-> IH]. auto.
  - destruct (N.eqb_spec x c) as [->|NE]; [auto|]. intros [X|X]; [congruence|exact (IH X)].
Qed.
(** -D name=value, for every value without '=' *)
Theorem c34_cmdline n v t : ~ In 61 v -> cmdline_symset (n ++ 61 :: v) t = Some (symset n v true t).
Proof.
  intros NI. unfold cmdline_symset. pose proof (rsplit_spec 61 (n ++ 61 :: v)) as R. destruct (rsplit 61 (n ++ 61 :: v)) as [[a b]|].
  - destruct R as [E NB]. assert (X : n = a /\ v = b); [|destruct X as [-> ->]; reflexivity].
    clear t. revert a E. induction n as [|x n IH]; intros [|y a] E; cbn in E.
    + injection E as ->. auto.
    + injection E as <- E. exfalso. apply NI. rewrite E. apply in_or_app. right. left. reflexivity.
    + injection E as -> E. exfalso. apply NB. rewrite <- E. apply in_or_app. right. left. reflexivity.
    + injection E as -> E. destruct (IH _ E) as [-> ->]. auto.
  - exfalso. apply R, in_or_app. right. left. reflexivity.
Qed.
(** A value with a '=' ends up in a macro no file can name. *)
Theorem c34_equals_refuted : exists t, cmdline_symset (s2b "args=a=b") [] = Some t /\ symget (s2b "args") t = None /\ symget (s2b "args=a") t = Some (s2b "b").
Proof. eexists. split; [vm_compute; reflexivity|]. vm_compute. auto. Qed.

(** ** C39 *)
(** the addresses all the directives resolved to, in order, and whether with
    proxy-v1 *)
Definition given_by (d : ldir) : list (ainfo * bool) := match d with LServer => [] | LListen l p => map (fun x => (fst x, p)) l end.
Definition given (ds : list ldir) : list (ainfo * bool) := flat_map given_by ds.
(** the same, server by server, the last server first *)
Definition per_server (ds : list ldir) : list (list ainfo) :=
  fold_left (fun gs d => match d, gs with
                         | LServer, _ => [] :: gs
                         | LListen l _, g :: gs => (g ++ map fst l) :: gs
                         | _, [] => []
                         end) ds [].
(** each once, in the order of their first occurrence *)
Definition firsts_of (l f : list ainfo) : Prop :=
  NoDup f /\ (forall x, In x f <-> In x l) /\
  forall a x b y c, f = a ++ x :: b ++ y :: c -> exists u v, l = u ++ x :: v /\ ~ In y u /\ ~ In x u.

Lemma ainfo_eqb_eq a b : ainfo_eqb a b = true <-> a = b.
Proof.
  unfold ainfo_eqb. split.
  - intros H. repeat (apply andb_true_iff in H; destruct H as [H ?]). destruct a, b; cbn in *.
    repeat match goal with X : (_ =? _) = true |- _ => apply N.eqb_eq in X end. match goal with X : leqb _ _ = true |- _ => apply leqb_eq in X end. subst. reflexivity.
  - intros ->. rewrite !N.eqb_refl, Nat.eqb_refl, leqb_refl. reflexivity.
Qed.

(** the queue: each address once, the latest new one first *)
Definition queued (l : list ainfo) (a : list address) : Prop := firsts_of l (rev (map a_ai a)).

Lemma firsts_snoc_old l f x : firsts_of l f -> In x l -> firsts_of (l ++ [x]) f.
Proof.
  intros (ND & IN & OR) I. split; [exact ND|]. split.
  - intros y. rewrite IN, in_app_iff. cbn. split; [auto|]. intros [H|[<-|[]]]; auto.
  - intros a y b z c E. destruct (OR a y b z c E) as (u & v & -> & Y & Z). exists u, (v ++ [x]). split; [rewrite <- app_assoc; reflexivity|auto].
Qed.
Lemma in_split_first (x : ainfo) l : In x l -> exists u v, l = u ++ x :: v /\ ~ In x u.
Proof.
  induction l as [|y l IH]; [intros []|]. intros I. destruct (ainfo_eqb y x) eqn:E; [apply ainfo_eqb_eq in E; subst; exists [], l; auto|].
  assert (NE : y <> x) by (intros ->; rewrite (proj2 (ainfo_eqb_eq x x) eq_refl) in E; discriminate).
  destruct I as [I|I]; [congruence|]. destruct (IH I) as (u & v & -> & X). exists (y :: u), v. split; [reflexivity|]. intros [Y|Y]; [congruence|exact (X Y)].
Qed.
Lemma firsts_snoc_new l f x : firsts_of l f -> ~ In x l -> firsts_of (l ++ [x]) (f ++ [x]).
Proof.
  intros (ND & IN & OR) NI. assert (NF : ~ In x f) by (rewrite IN; exact NI). split; [apply nodup_snoc; auto|]. split.
  - intros y. rewrite !in_app_iff, IN. reflexivity.
  - intros a y b z c E. destruct c as [|w c] using rev_ind.
    + replace (a ++ y :: b ++ [z]) with ((a ++ y :: b) ++ [z]) in E by (rewrite <- app_assoc; reflexivity). apply app_inj_tail in E. destruct E as [E <-].
      assert (IY : In y l) by (apply IN; rewrite E; apply in_or_app; right; left; reflexivity).
      destruct (in_split_first y l IY) as (u & v & EL & X). exists u, (v ++ [x]). split; [rewrite EL, <- app_assoc; reflexivity|]. split; [|exact X].
      intros I. apply NI. rewrite EL. apply in_or_app. auto.
    + clear IHc. replace (a ++ y :: b ++ z :: c ++ [w]) with ((a ++ y :: b ++ z :: c) ++ [w]) in E by (rewrite <- app_assoc; cbn [app]; rewrite <- app_assoc; reflexivity).
      apply app_inj_tail in E. destruct E as [E _]. destruct (OR a y b z c E) as (u & v & -> & Y & Z). exists u, (v ++ [x]). split; [rewrite <- app_assoc; reflexivity|auto].
Qed.

Lemma queue_step l a ai pp proxy a' e : queued l a -> add_to_addr_queue a ai pp proxy = Some (a', e) ->
  queued (l ++ [ai]) a' /\ (e = false -> exists x, In x a' /\ a_ai x = ai /\ a_proxy x = proxy) /\ (e = true -> exists x, In x a /\ a_ai x = ai /\ a_proxy x = negb proxy) /\
  (forall x, In x a -> In x a') /\ (forall x, In x a' -> In x a \/ (a_ai x = ai /\ a_proxy x = proxy /\ a_port x = int16 (256 * nth 2 (i_sa ai) 0 + nth 3 (i_sa ai) 0))).
Proof.
  intros Q. unfold add_to_addr_queue. destruct (_ <? _)%nat; [discriminate|]. destruct (find _ a) as [x|] eqn:F.
  - intros E. injection E as <- <-. apply find_some in F. destruct F as [F E]. apply ainfo_eqb_eq in E.
    split; [apply firsts_snoc_old; [exact Q|]; apply (proj1 (proj2 Q)); rewrite <- in_rev; rewrite <- E; apply in_map, F|].
    split; [intros X; exists x; split; [exact F|]; split; [exact E|]; apply Bool.eqb_prop; destruct (Bool.eqb _ _); [reflexivity|discriminate]|].
    split; [intros X; exists x; split; [exact F|]; split; [exact E|]; destruct (a_proxy x), proxy; cbn in *; congruence|]. auto.
  - destruct (_ || _); [|discriminate]. intros E. injection E as <- <-.
    assert (NI : ~ In ai (map a_ai a)). { intros I. apply in_map_iff in I. destruct I as (x & E & I). pose proof (find_none _ _ F _ I) as X. cbn beta in X. rewrite E, (proj2 (ainfo_eqb_eq ai ai) eq_refl) in X. discriminate. }
    split; [unfold queued; cbn [map rev a_ai]; apply firsts_snoc_new; [exact Q|]; intros I; apply (proj1 (proj2 Q)) in I; rewrite <- in_rev in I; exact (NI I)|].
    split; [intros _; eexists; split; [left; reflexivity|]; auto|]. split; [discriminate|]. split; [intros x I; right; exact I|].
    intros x [<-|I]; [right; auto|auto].
Qed.

(** what holds while the file is parsed: [g] what was given to each server *)
Definition linv (gs : list (list ainfo)) (g : list (ainfo * bool)) (s : lstate) : Prop :=
  Forall2 queued gs (s_hosts s) /\ queued (map fst g) (s_all s) /\
  (s_errors s = O -> forall ai p, In (ai, p) g -> exists x, In x (s_all s) /\ a_ai x = ai /\ a_proxy x = p) /\
  (forall x, In x (s_all s) \/ (exists h, In h (s_hosts s) /\ In x h) -> In (a_ai x, a_proxy x) g /\ a_port x = int16 (256 * nth 2 (i_sa (a_ai x)) 0 + nth 3 (i_sa (a_ai x)) 0)) /\
  (s_errors s <> O -> exists ai, In (ai, true) g /\ In (ai, false) g).

Lemma listen_inv l : forall p s s' g gs G, linv (g :: gs) G s -> listen_on l p s = Some s' ->
  linv ((g ++ map fst l) :: gs) (G ++ map (fun x => (fst x, p)) l) s'.
Proof.
  induction l as [|[ai pp] l IH]; intros p s s' g gs G I R.
  - injection R as <-. cbn [map]. rewrite !app_nil_r. exact I.
  - destruct I as (Q1 & Q2 & Q3 & Q4 & Q5). cbn [listen_on] in R. destruct (s_hosts s) as [|h hs] eqn:SH; [discriminate|]. inversion Q1 as [|? ? ? ? QH QT]; subst.
    destruct (add_to_addr_queue h ai pp p) as [[h' e1]|] eqn:A1; [|discriminate]. destruct (add_to_addr_queue (s_all s) ai pp p) as [[al e2]|] eqn:A2; [|discriminate].
    destruct (queue_step _ _ _ _ _ _ _ QH A1) as (B1 & B2 & B3 & B4 & B5). destruct (queue_step _ _ _ _ _ _ _ Q2 A2) as (C1 & C2 & C3 & C4 & C5).
    cbn [map fst]. replace (g ++ ai :: map fst l) with ((g ++ [ai]) ++ map fst l) by (rewrite <- app_assoc; reflexivity).
    replace (G ++ (ai, p) :: map (fun x => (fst x, p)) l) with ((G ++ [(ai, p)]) ++ map (fun x : ainfo * list N => (fst x, p)) l) by (rewrite <- app_assoc; reflexivity).
    apply (IH _ _ _ _ _ _) with (2 := R). split; [cbn [s_hosts]; constructor; auto|]. cbn [s_all s_hosts s_errors].
    split; [rewrite map_app; exact C1|]. split; [|split].
    + intros E. assert (E0 : s_errors s = O) by lia. assert (E2 : e2 = false) by (destruct e2; [lia|reflexivity]). intros ai' p' I. apply in_app_or in I. destruct I as [I|[I|[]]].
      * destruct (Q3 E0 _ _ I) as (x & X & Y). exists x. auto.
      * injection I as <- <-. exact (C2 E2).
    + intros x X. assert (M : In (a_ai x, a_proxy x) G \/ (a_ai x = ai /\ a_proxy x = p) -> In (a_ai x, a_proxy x) (G ++ [(ai, p)])) by (intros [Y|[-> ->]]; apply in_or_app; [auto|right; left; reflexivity]).
      assert (K : (In x (s_all s) \/ (exists h0, In h0 (h :: hs) /\ In x h0)) \/ (a_ai x = ai /\ a_proxy x = p /\ a_port x = int16 (256 * nth 2 (i_sa ai) 0 + nth 3 (i_sa ai) 0))).
      { destruct X as [X|(h0 & [<-|H0] & X)]; [destruct (C5 _ X) as [Y|Y]; auto|destruct (B5 _ X) as [Y|Y]; [left; right; exists h; split; [left; reflexivity|exact Y]|auto]|left; right; exists h0; split; [right; exact H0|exact X]]. }
      destruct K as [K|(K1 & K2 & K3)]; [destruct (Q4 _ K) as [Y1 Y2]; auto|]. split; [auto|]. rewrite K1. exact K3.
    + intros E. assert (J : s_errors s <> O \/ e1 = true \/ e2 = true) by (destruct e1, e2; auto; left; lia).
      assert (W : forall x, (In x (s_all s) \/ (exists h0, In h0 (h :: hs) /\ In x h0)) -> a_ai x = ai -> a_proxy x = negb p -> exists ai0, In (ai0, true) (G ++ [(ai, p)]) /\ In (ai0, false) (G ++ [(ai, p)])).
      { intros x X Y Z. destruct (Q4 _ X) as [T _]. exists ai. rewrite Y, Z in T. destruct p; cbn in T; split; apply in_or_app; auto; right; left; reflexivity. }
      destruct J as [J|[J|J]].
      * destruct (Q5 J) as (ai' & X & Y). exists ai'. split; apply in_or_app; auto.
      * destruct (B3 J) as (x & X & Y & Z). apply (W x); auto. right. exists h. split; [left; reflexivity|exact X].
      * destruct (C3 J) as (x & X & Y & Z). apply (W x); auto.
Qed.

Lemma lrun_inv ds : forall s s' gs G, linv gs G s -> lrun ds s = Some s' ->
  linv (fold_left (fun gs d => match d, gs with LServer, _ => [] :: gs | LListen l _, g :: gs => (g ++ map fst l) :: gs | _, [] => [] end) ds gs) (G ++ given ds) s'.
Proof.
  induction ds as [|d ds IH]; intros s s' gs G I R.
  - injection R as <-. cbn. rewrite app_nil_r. exact I.
  - cbn [lrun] in R. destruct (ldo d s) as [s1|] eqn:D; [|discriminate]. cbn [fold_left given flat_map]. rewrite app_assoc. apply (IH s1 s'); [|exact R].
    destruct d as [|l p]; cbn [ldo given_by] in *.
    + injection D as <-. rewrite app_nil_r. destruct I as (Q1 & Q2 & Q3 & Q4 & Q5). split; [cbn [s_hosts]; constructor; [|exact Q1]|].
      { split; [constructor|]. split; [intros x; cbn; tauto|]. intros a x b y c E. destruct a; discriminate. }
      split; [exact Q2|]. split; [exact Q3|]. split; [|exact Q5]. intros x [X|(h & [<-|H] & X)]; [apply Q4; auto|destruct X|apply Q4; right; exists h; auto].
    + destruct gs as [|g gs].
      * destruct I as (Q1 & Q2 & Q3 & Q4 & Q5). destruct (s_hosts s) as [|hh hs] eqn:SH; [|inversion Q1]. destruct l as [|[ai pp] l]; cbn [listen_on] in D; [|rewrite SH in D; discriminate].
        injection D as <-. cbn [map]. rewrite app_nil_r. split; [rewrite SH; constructor|]. rewrite SH. auto.
      * apply (listen_inv _ _ _ _ _ _ _ I D).
Qed.

(** For every sequence of servers and listen directives, however they resolve:
    each address is listened on once, those of all the directives and no other,
    the one given last first (a server process gets them in the order of the
    file, see C29); the same for the addresses of each server. *)
Theorem c39_once ds s : lrun ds lstart = Some s ->
  firsts_of (map fst (given ds)) (rev (map a_ai (s_all s))) /\
  Forall2 (fun g h => firsts_of g (rev (map a_ai h))) (per_server ds) (s_hosts s).
Proof.
  intros R. assert (I : linv [] [] lstart).
  { split; [constructor|]. split; [split; [constructor|]; split; [intros x; cbn; tauto|intros a x b y c E; destruct a; discriminate]|]. split; [intros _ ai p []|]. split; [intros x [[]|(h & [] & _)]|]. intros E. exfalso. apply E. reflexivity. }
  destruct (lrun_inv _ _ _ _ _ I R) as (Q1 & Q2 & _). split; [exact Q2|exact Q1].
Qed.
(** Unless an error is reported every address speaks the PROXY protocol exactly
    when its directives say so; the error is reported only if they disagree. *)
Theorem c39_proxy ds s : lrun ds lstart = Some s ->
  (s_errors s = O -> forall ai p, In (ai, p) (given ds) -> exists a, In a (s_all s) /\ a_ai a = ai /\ a_proxy a = p) /\
  (s_errors s <> O <-> exists ai, In (ai, true) (given ds) /\ In (ai, false) (given ds)).
Proof.
  intros R. assert (I : linv [] [] lstart).
  { split; [constructor|]. split; [split; [constructor|]; split; [intros x; cbn; tauto|intros a x b y c E; destruct a; discriminate]|]. split; [intros _ ai p []|]. split; [intros x [[]|(h & [] & _)]|]. intros E. exfalso. apply E. reflexivity. }
  destruct (lrun_inv _ _ _ _ _ I R) as (_ & Q2 & Q3 & Q4 & Q5). cbn [app] in *. split; [exact Q3|]. split; [exact Q5|].
  intros (ai & A & B) E. destruct (Q3 E _ _ A) as (x & X1 & X2 & X3). destruct (Q3 E _ _ B) as (y & Y1 & Y2 & Y3).
  assert (x = y); [|congruence]. destruct Q2 as [ND _]. apply NoDup_rev in ND. rewrite rev_involutive in ND. assert (EQ : a_ai x = a_ai y) by congruence. clear - ND X1 Y1 EQ.
  induction (s_all s) as [|z l IH]; [destruct X1|]. cbn in ND. inversion ND as [|? ? NI ND']; subst. destruct X1 as [<-|X1], Y1 as [<-|Y1]; auto.
  - exfalso. apply NI. rewrite EQ. apply in_map, Y1.
  - exfalso. apply NI. rewrite <- EQ. apply in_map, X1.
Qed.
(** the port is the one in the address, if it is below 32768 *)
Theorem c39_port ds s a : lrun ds lstart = Some s -> In a (s_all s) ->
  let port := 256 * nth 2 (i_sa (a_ai a)) 0 + nth 3 (i_sa (a_ai a)) 0 in port < 32768 -> a_port a = Z.of_N port.
Proof.
  intros R A port P. assert (I : linv [] [] lstart).
  { split; [constructor|]. split; [split; [constructor|]; split; [intros x; cbn; tauto|intros a' x b y c E; destruct a'; discriminate]|]. split; [intros _ ai p []|]. split; [intros x [[]|(h & [] & _)]|]. intros E. exfalso. apply E. reflexivity. }
  destruct (lrun_inv _ _ _ _ _ I R) as (_ & _ & _ & Q4 & _). destruct (Q4 a (or_introl A)) as [_ ->]. fold port. unfold int16. destruct (N.ltb_spec port 32768); [reflexivity|lia].
Qed.

Definition ex_ai (p : N) : ainfo := mkAi 1 2 1 6 [2; 0; p / 256; p mod 256; 127; 0; 0; 1].
Example c39_case :
  let ds := [LServer; LListen [(ex_ai 1965, s2b "127.0.0.1"); (ex_ai 300, s2b "127.0.0.1")] false; LServer; LListen [(ex_ai 1965, s2b "127.0.0.1")] false] in
  match lrun ds lstart with Some s => map a_ai (s_all s) = [ex_ai 300; ex_ai 1965] /\ map (map a_port) (s_hosts s) = [[1965%Z]; [300%Z; 1965%Z]] | None => False end.
Proof. vm_compute. auto. Qed.

(** ** C53: each location talks to the application it names *)
(** the applications named while a file is parsed, in order *)
Fixpoint apps (l : list (list N * option (list N))) (t : list fapp) : res (list nat * list fapp * nat) :=
  match l with
  | [] => OK ([], t, 0%nat)
  | (path, port) :: l =>
    let* (it, e) := fastcgi_conf path port t in let '(i, t) := (it : nat * list fapp) in
    let* (r, e') := apps l t in let '(is, t) := (r : list nat * list fapp) in OK (i :: is, t, (e + e')%nat)
  end.
Definition app_of (x : list N * option (list N)) : fapp := mkF (fst x) (match snd x with Some p => p | None => [] end).

Lemma fcgi_find_spec path port t : forall i r, fcgi_find path port t i = OK r ->
  match r with Some k => (i <= k)%nat /\ nth_error t (k - i) = Some (app_of (path, port))
  | None => ~ In (app_of (path, port)) t end.
Proof.
  unfold app_of. cbn [fst snd]. induction t as [|f t IH]; intros i r; cbn [fcgi_find].
  - intros E. apply OK_inj in E || injection E as <-. auto.
  - assert (NEXT : fcgi_find path port t (S i) = OK r -> f <> mkF path match port with Some p => p | None => [] end ->
      match r with Some k => (i <= k)%nat /\ nth_error (f :: t) (k - i) = Some (mkF path match port with Some p => p | None => [] end) | None => ~ In (mkF path match port with Some p => p | None => [] end) (f :: t) end).
    { intros E NE. specialize (IH _ _ E). destruct r as [k|].
      - destruct IH as [L N']. split; [lia|]. replace (k - i)%nat with (S (k - S i)) by lia. exact N'.
      - intros [X|X]; [exact (NE X)|exact (IH X)]. }
    destruct (leqb (f_path f) path) eqn:EP.
    + apply leqb_eq in EP. destruct port as [p|].
      * destruct (leqb (f_port f) p) eqn:EQ.
        -- apply leqb_eq in EQ. intros E. injection E as <-. rewrite Nat.sub_diag. cbn. destruct f; cbn in *; subst. auto.
        -- intros E. apply (NEXT E). intros ->. cbn in EQ. rewrite leqb_refl in EQ. discriminate.
      * destruct (f_port f) eqn:FP; cbn [isnil]; [|discriminate]. intros E. injection E as <-. rewrite Nat.sub_diag. cbn. destruct f; cbn in *; subst. auto.
    + intros E. apply (NEXT E). intros ->. cbn in EP. rewrite leqb_refl in EP. discriminate.
Qed.

Definition table_uniq (t : list fapp) : Prop := NoDup t.

(** For every list of applications named in a file that parses: each gets the
    number of the entry with its path and port, and no entry is there twice
    (so the same application always gets the same number). *)
Lemma apps_ok l : forall t is t' , NoDup t -> apps l t = OK (is, t', 0%nat) ->
  NoDup t' /\ (exists x, t' = t ++ x) /\ Forall2 (fun x i => nth_error t' i = Some (app_of x)) l is.
Proof.
  induction l as [|[path port] l IH]; intros t is t' ND E; cbn [apps] in E.
  - injection E as <- <-. split; [exact ND|]. split; [exists []; rewrite app_nil_r; reflexivity|constructor].
  - unfold fastcgi_conf in E. destruct (fcgi_find path port t 0) as [r| |] eqn:F; cbn [bind] in E; [|discriminate|discriminate].
    pose proof (fcgi_find_spec _ _ _ _ _ F) as FS. destruct r as [k|].
    + cbn [bind] in E. destruct (apps l t) as [[[is1 t1] e1]| |] eqn:A; cbn [bind] in E; try discriminate. injection E as <- <- Ez. cbn in Ez. subst e1.
      destruct (IH _ _ _ ND A) as (N1 & (x & ->) & F2). split; [exact N1|]. split; [exists x; reflexivity|]. constructor; [|exact F2].
      destruct FS as [_ FS]. rewrite Nat.sub_0_r in FS. rewrite nth_error_app1; [exact FS|]. apply nth_error_Some. congruence.
    + cbn [bind] in E. destruct (FCGI_PATH_MAX <=? length path)%nat eqn:L1; [destruct (apps l _) as [[[is1 t1] e1]| |]; discriminate|].
      set (p := match port with Some p => p | None => [] end) in *. destruct (FCGI_PORT_MAX <=? length p)%nat eqn:L2; [destruct (apps l _) as [[[is1 t1] e1]| |]; discriminate|].
      rewrite (firstn_all2 path) in E by (apply Nat.leb_gt in L1; lia). rewrite (firstn_all2 p) in E by (apply Nat.leb_gt in L2; lia).
      destruct (apps l (t ++ [mkF path p])) as [[[is1 t1] e1]| |] eqn:A; cbn [bind] in E; try discriminate. injection E as <- <- Ez. cbn in Ez. subst e1.
      destruct (IH _ _ _ ltac:(apply nodup_snoc; [exact ND|exact FS]) A) as (N1 & (x & ->) & F2). split; [exact N1|]. split; [exists ([mkF path p] ++ x); rewrite app_assoc; reflexivity|].
      constructor; [|exact F2]. rewrite <- app_assoc, nth_error_app2, Nat.sub_diag by lia. reflexivity.
Qed.
Theorem c53_right_application l is t : apps l [] = OK (is, t, 0%nat) ->
  NoDup t /\ Forall2 (fun x i => nth_error t i = Some (app_of x)) l is.
Proof. intros E. destruct (apps_ok l [] is t (NoDup_nil _) E) as (A & _ & B). auto. Qed.

(** no file is parsed with undefined behaviour if no path is also a host name
    with a port *)
Lemma apps_safe l : (forall path p, In (path, None) l -> In (path, Some p) l -> p = []) -> Forall (fun x => (length (fst x) < 4096)%nat) l -> forall t,
  (forall path f, In (path, None) l -> In f t -> f_path f = path -> f_port f = []) -> exists r, apps l t = OK r.
Proof.
  induction l as [|[path port] l IH]; intros CL SH t T; [eexists; reflexivity|]. inversion SH as [|? ? S1 S2]; subst. cbn [fst] in S1. cbn [apps]. unfold fastcgi_conf.
  assert (FO : forall t i, (forall f, In f t -> port = None -> f_path f = path -> f_port f = []) -> exists r, fcgi_find path port t i = OK r).
  { clear. induction t as [|f t IH]; intros i H; [eexists; reflexivity|]. cbn [fcgi_find].
    destruct (leqb (f_path f) path) eqn:E; [|apply IH; intros g G; apply H; right; exact G]. apply leqb_eq in E. destruct port as [p|].
    - destruct (leqb _ _); [eexists; reflexivity|]. apply IH. intros g G. discriminate.
    - rewrite (H f (or_introl eq_refl) eq_refl E). eexists. reflexivity. }
  destruct (FO t O) as (r & ->); [intros f I -> E; apply (T path f); auto; left; reflexivity|]. cbn [bind].
  assert (CL' : forall path p, In (path, None) l -> In (path, Some p) l -> p = []) by (intros q p A B; apply (CL q p); right; auto).
  destruct r as [k|]; cbn [bind].
  - destruct (IH CL' S2 t) as ([[is t1] e1] & ->); [intros q f A; apply T; right; exact A|]. eexists. reflexivity.
  - destruct (IH CL' S2 (t ++ [mkF (firstn (FCGI_PATH_MAX - 1) path) (firstn (FCGI_PORT_MAX - 1) match port with Some p => p | None => [] end)])) as ([[is t1] e1] & ->).
    + intros q f A I E. apply in_app_or in I. destruct I as [I|[<-|[]]]; [apply (T q); auto; right; exact A|]. cbn [f_path f_port] in *. rewrite firstn_all2 in E by (change (FCGI_PATH_MAX - 1)%nat with 4095%nat; lia).
      destruct port as [p|]; [|reflexivity]. rewrite (CL path p); [reflexivity|right; rewrite E; exact A|left; reflexivity].
    + eexists. reflexivity.
Qed.
Theorem c53_safe_partial l : (forall path p, In (path, None) l -> In (path, Some p) l -> p = []) -> Forall (fun x => (length (fst x) < 4096)%nat) l -> exists r, apps l [] = OK r.
Proof. intros A B. apply (apps_safe l A B). intros path f _ []. Qed.
Example c53_safe_case : exists r, apps [(s2b "/a.sock", None); (s2b "h", Some (s2b "9000"))] [] = OK r.
Proof. apply c53_safe_partial; [|repeat constructor; cbn; lia]. intros path p [X|[X|[]]] [Y|[Y|[]]]; try discriminate. injection X as <-. discriminate. Qed.
(** a path used both for a Unix socket and for a host crashes the parser *)
Theorem c53_null_port_refuted : apps [(s2b "localhost", Some (s2b "9000")); (s2b "localhost", None)] [] = UB.
Proof. vm_compute. reflexivity. Qed.
Example c53_case : match apps [(s2b "/a.sock", None); (s2b "h", Some (s2b "9000")); (s2b "h", Some (s2b "9001")); (s2b "/a.sock", None)] [] with
  OK (is, t, e) => is = [0; 1; 2; 0]%nat /\ length t = 3%nat /\ e = 0%nat | _ => False end.
Proof. vm_compute. auto. Qed.
