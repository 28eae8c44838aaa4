(** Proofs about gg.c; statements in Prop_Gg.v. *)
From Verif Require Import Base BaseLemmas Compat Compat_Proofs Prop_Compat Fmt Prop_Fmt Iri IriSpec IriObs IriOut IriOutSpec
  IriOut_Proofs Prop_IriOut Titan TitanSpec Titan_Proofs Gg GgSpec.
Local Open Scope N_scope.

(** ** -P *)
Lemma cut_at_spec c s : match cut_at c s with Some (a, b) => s = a ++ c :: b /\ ~ In c a | None => ~ In c s end.
Proof.
  induction s as [|x s IH]; cbn [cut_at]; [intros []|]. destruct (N.eqb_spec x c) as [->|Hx]; [split; [reflexivity|intros []]|].
  destruct (cut_at c s) as [[a b]|].
  - destruct IH as [-> IH]. split; [reflexivity|]. intros [Q|Q]; [congruence|]. auto.
  - intros [Q|Q]; [congruence|]. auto.
Qed.
Lemma cut_at_app c a b : ~ In c a -> cut_at c (a ++ c :: b) = Some (a, b).
Proof.
  induction a as [|x a IH]; intros H; cbn [cut_at app]. { rewrite N.eqb_refl. reflexivity. }
  destruct (N.eqb_spec x c) as [->|Hx]; [exfalso; apply H; left; reflexivity|]. rewrite IH; [reflexivity|]. intros Q. apply H. right. exact Q.
Qed.
Lemma cut_at_none c a : ~ In c a -> cut_at c a = None.
Proof.
  induction a as [|x a IH]; intros H; cbn [cut_at]; [reflexivity|].
  destruct (N.eqb_spec x c) as [->|Hx]; [exfalso; apply H; left; reflexivity|]. rewrite IH; [reflexivity|]. intros Q. apply H. right. exact Q.
Qed.
Lemma not91 {A} (s : list N) (x : list N -> A) (y : A) : hd 0 s <> 91 -> match s with 91 :: r => x r | _ => y end = y.
Proof.
  destruct s as [|c s]; [reflexivity|]. cbn [hd]. intros H. destruct c as [|p]; [reflexivity|].
  repeat (destruct p as [p|p|]; try reflexivity; try congruence).
Qed.
Lemma parse_proxy_iff a h p : parse_proxy a = Some (h, p) <-> proxy_arg a h p.
Proof.
  split.
  - destruct (N.eq_dec (hd 0 a) 91) as [E|E].
    + destruct a as [|c a]; [discriminate E|]. cbn [hd] in E. subst c. cbn [parse_proxy]. pose proof (cut_at_spec 93 a) as C.
      destruct (cut_at 93 a) as [[h' r]|]; [|discriminate]. destruct C as [-> C]. destruct r as [|d r].
      * intros H. inversion H; subst. apply (pa_ip6 h C).
      * intros H. assert (D : d = 58). { destruct d as [|q]; [discriminate|]. repeat (destruct q as [q|q|]; try discriminate H; try reflexivity). }
        subst d. inversion H; subst. apply (pa_ip6_port h p C).
    + unfold parse_proxy. rewrite not91 by exact E. pose proof (cut_at_spec 58 a) as C.
      destruct (cut_at 58 a) as [[h' r]|]; intros H; inversion H; subst.
      * destruct C as [-> C]. apply pa_port; [exact C|]. destruct h; [discriminate|exact E].
      * apply pa_host; assumption.
  - destruct 1 as [h C E|h p C E|h C|h p C].
    + unfold parse_proxy. rewrite not91 by exact E. rewrite cut_at_none by exact C. reflexivity.
    + unfold parse_proxy. rewrite not91; [rewrite cut_at_app by exact C; reflexivity|]. destruct h; [discriminate|exact E].
    + cbn [parse_proxy app]. rewrite cut_at_app by exact C. reflexivity.
    + cbn [parse_proxy app]. rewrite cut_at_app by exact C. reflexivity.
Qed.

(** ** the request *)
Lemma doreq_spec : forall s buf, let '(d, w) := doreq buf s in prefix w buf /\ (d = Ok -> w = buf) /\ (d = Dead -> In Werr s \/ In Wzero s).
Proof.
  induction s as [|x s IH]; intros buf.
  { destruct buf; cbn; (split; [eexists; reflexivity|split; [reflexivity || discriminate|discriminate]]). }
  destruct buf as [|c buf]; [cbn; split; [exists []; reflexivity|split; [reflexivity|discriminate]]|].
  cbn [doreq]. destruct x as [| | |n].
  - specialize (IH (c :: buf)). destruct (doreq (c :: buf) s) as [d w]. destruct IH as (I1 & I2 & I3). repeat split; auto.
    intros D. apply I3 in D. cbn. tauto.
  - split; [eexists; reflexivity|]. split; [discriminate|]. intros _. left. left. reflexivity.
  - split; [eexists; reflexivity|]. split; [discriminate|]. intros _. right. left. reflexivity.
  - specialize (IH (skipn (S n) (c :: buf))). destruct (doreq (skipn (S n) (c :: buf)) s) as [d w]. destruct IH as (I1 & I2 & I3).
    split; [|split].
    + rewrite <- (firstn_skipn (S n) (c :: buf)) at 2. apply prefix_cat. exact I1.
    + intros D. rewrite (I2 D). apply firstn_skipn.
    + intros D. apply I3 in D. cbn. tauto.
Qed.
Lemma doreq_all : forall s buf, ~ In Werr s -> ~ In Wzero s -> (length buf <= taken s)%nat -> doreq buf s = (Ok, buf).
Proof.
  induction s as [|x s IH]; intros buf N1 N2 T. { destruct buf; [reflexivity|cbn in T; lia]. }
  destruct buf as [|c buf]; [reflexivity|]. cbn [doreq]. destruct x as [| | |n].
  - apply IH; [intros Q; apply N1; right; exact Q|intros Q; apply N2; right; exact Q|exact T].
  - exfalso. apply N1. left. reflexivity.
  - exfalso. apply N2. left. reflexivity.
  - rewrite IH; [rewrite firstn_skipn; reflexivity|intros Q; apply N1; right; exact Q|intros Q; apply N2; right; exact Q|].
    rewrite skipn_length. cbn [length taken] in *. lia.
Qed.

(** ** the answer *)
Inductive endk := EEof | EErr | ENone.
(** what is delivered before the end, the first error, or where the schedule stops *)
Fixpoint strm (s : list rres) : list N * endk :=
  match s with
  | [] => ([], ENone)
  | Reof :: _ => ([], EEof)
  | Rerr :: _ => ([], EErr)
  | Rwant :: s => strm s
  | Rgot b bs :: s => let '(d, k) := strm s in ((b :: bs) ++ d, k)
  end.
Lemma sends_strm s rep : sends s rep <-> strm s = (rep, EEof).
Proof.
  split.
  - destruct 1 as [a b F]. induction F as [|r a (R1 & R2) F IH]; [reflexivity|].
    destruct r; cbn [app strm map concat gives]; [exact IH|congruence|congruence|]. rewrite IH. reflexivity.
  - revert rep. induction s as [|r s IH]; intros rep H; [discriminate|]. destruct r; cbn [strm] in H; [|discriminate| |].
    + apply IH in H. destruct H as [a b' F]. apply (snd_ (Rwant :: a) b'). constructor; [split; discriminate|exact F].
    + inversion H. apply (snd_ [] s). constructor.
    + destruct (strm s) as [d k]. inversion H; subst. specialize (IH d eq_refl). destruct IH as [a b' F].
      apply (snd_ (Rgot b bs :: a) b'). constructor; [split; discriminate|exact F].
Qed.

Lemma strm_comes s rep k : strm s = (rep, k) -> comes s rep.
Proof.
  revert rep. induction s as [|r s IH]; intros rep H.
  - inversion H. apply (comes_ [] []); [constructor|auto].
  - destruct r; cbn [strm] in H.
    + apply IH in H. destruct H as [a b F B]. apply (comes_ (Rwant :: a) b); [|exact B]. constructor; [split; discriminate|exact F].
    + inversion H. apply (comes_ [] (Rerr :: s)); [constructor|eauto].
    + inversion H. apply (comes_ [] (Reof :: s)); [constructor|eauto].
    + destruct (strm s) as [d k']. inversion H; subst. specialize (IH d eq_refl). destruct IH as [a b' F B].
      apply (comes_ (Rgot b bs :: a) b'); [|exact B]. constructor; [split; discriminate|exact F].
Qed.

Lemma dorep_spec : forall s len, let '(data, k) := strm s in
  if (len <=? length data)%nat then exists s', dorep len s = (Ok, firstn len data, s') /\ strm s' = (skipn len data, k)
  else match k with
       | EEof => exists s', dorep len s = (Ok, data, s') /\ strm s' = ([], EEof)
       | EErr => exists g s', dorep len s = (Dead, g, s')
       | ENone => exists g s', dorep len s = (Wait, g, s')
       end.
Proof.
  assert (Z0 : forall s, dorep 0 s = (Ok, [], s)) by (intros [|[] s]; reflexivity).
  induction s as [|r s IH]; intros len.
  { destruct len; cbn; eauto. }
  destruct len as [|len].
  { destruct (strm (r :: s)) as [d k] eqn:E. cbn [Nat.leb length]. exists (r :: s). rewrite Z0. cbn [firstn skipn]. auto. }
  destruct r as [| | |b bs]; cbn [strm dorep].
  - apply IH.
  - cbn. eauto.
  - cbn. eauto.
  - specialize (IH (S len - length (b :: bs))%nat). destruct (strm s) as [data k] eqn:Es.
    destruct (skipn (S len) (b :: bs)) as [|x r] eqn:K.
    + assert (L : (length (b :: bs) <= S len)%nat).
      { apply (f_equal (@length N)) in K. rewrite skipn_length in K. change (length (@nil N)) with 0%nat in K. lia. }
      set (hdl := b :: bs) in *. rewrite app_length.
      destruct (Nat.leb_spec (S len - length hdl) (length data)) as [L2|L2].
      * destruct (Nat.leb_spec (S len) (length hdl + length data)) as [_|Q]; [|lia].
        destruct IH as (s' & -> & I2). exists s'. split.
        -- f_equal. f_equal. rewrite firstn_app, (firstn_all2 hdl) by lia. reflexivity.
        -- rewrite I2. f_equal. rewrite skipn_app, (skipn_all2 hdl) by lia. reflexivity.
      * destruct (Nat.leb_spec (S len) (length hdl + length data)) as [Q|_]; [lia|].
        destruct k.
        -- destruct IH as (s' & -> & I2). eauto.
        -- destruct IH as (g & s' & ->). eauto.
        -- destruct IH as (g & s' & ->). eauto.
    + assert (L : (S len < length (b :: bs))%nat).
      { apply (f_equal (@length N)) in K. rewrite skipn_length in K. cbn [length] in K |- *. lia. }
      set (hdl := b :: bs) in *. rewrite app_length.
      destruct (Nat.leb_spec (S len) (length hdl + length data)) as [_|Q]; [|lia].
      exists (Rgot x r :: s). split.
      * f_equal. f_equal. rewrite firstn_app. replace (S len - length hdl)%nat with 0%nat by lia. cbn [firstn]. rewrite app_nil_r. reflexivity.
      * cbn [strm]. rewrite Es. f_equal. rewrite skipn_app. replace (S len - length hdl)%nat with 0%nat by lia. cbn [skipn]. rewrite <- K. reflexivity.
Qed.

Lemma fetch_body_spec : forall fuel s code data k, strm s = (data, k) -> (length data < fuel)%nat ->
  exists f o, fetch_body fuel code s = OK (f, o) /\ prefix o data /\
    match k with EEof => f = Code code /\ o = data | EErr => f = Fatal | ENone => f = Waiting end.
Proof.
  induction fuel as [|fuel IH]; intros s code data k E L; [lia|]. cbn [fetch_body].
  pose proof (dorep_spec s BUF) as D. rewrite E in D. destruct (Nat.leb_spec BUF (length data)) as [B|B].
  - destruct D as (s' & -> & E'). destruct (firstn BUF data) as [|g0 g] eqn:G.
    { exfalso. apply (f_equal (@length N)) in G. rewrite firstn_length in G. unfold BUF in *. cbn [length] in G. lia. }
    destruct (IH s' code (skipn BUF data) k E') as (f & o & -> & P & R). { rewrite skipn_length. unfold BUF in *. lia. }
    cbn [bind]. exists f, ((g0 :: g) ++ o). split; [reflexivity|]. rewrite <- G. split.
    + rewrite <- (firstn_skipn BUF data) at 2. apply prefix_cat. exact P.
    + destruct k; [|exact R|exact R]. destruct R as [-> ->]. split; [reflexivity|]. apply firstn_skipn.
  - destruct k.
    + destruct D as (s' & -> & E'). destruct data as [|g0 g]; [exists (Code code), []; repeat split; exists []; reflexivity|].
      destruct (IH s' code [] EEof E') as (f & o & -> & P & -> & ->). { cbn in *. lia. }
      cbn [bind]. exists (Code code), ((g0 :: g) ++ []). rewrite app_nil_r. repeat split. exists []. rewrite app_nil_r. reflexivity.
    + destruct D as (g & s' & ->). exists Fatal, []. repeat split. eexists; reflexivity.
    + destruct D as (g & s' & ->). exists Waiting, []. repeat split. eexists; reflexivity.
Qed.

(** the header *)
Lemma find_crlf g junk : bytes (g ++ junk) ->
  exists t, memmem (g ++ junk) (length g) [13; 10] = OK t /\
    match t with
    | Some t => exists h b, g = h ++ [13; 10] ++ b /\ t = length h /\ (forall x y, h ++ [13] <> x ++ [13; 10] ++ y)
    | None => forall a b, g <> a ++ [13; 10] ++ b
    end.
Proof.
  intros Hb.
  destruct (c40_memmem_first (g ++ junk) (length g) [13; 10] Hb ltac:(repeat constructor) ltac:(rewrite app_length; lia))
    as (r & R0 & R). exists r. split; [exact R0|]. rewrite firstn_app, Nat.sub_diag, firstn_all in R. cbn [firstn] in R. rewrite app_nil_r in R.
  destruct r as [i|]; [|exact R]. destruct R as [(h & b & E & Li) Fi]. exists h, b. split; [exact E|]. split; [symmetry; exact Li|].
  intros x y Q. specialize (Fi x). apply (f_equal (fun l => l ++ [10] ++ b)) in Q.
  rewrite <- !app_assoc in Q. cbn [app] in Q. specialize (Fi (y ++ 10 :: b)). rewrite E in Fi. cbn [app] in Fi. specialize (Fi Q).
  assert (Lx : (length h + 1 = length x + 2 + length y)%nat).
  { apply (f_equal (@length N)) in Q. rewrite !app_length in Q. cbn [length] in Q. rewrite app_length in Q. cbn [length] in Q. lia. }
  lia.
Qed.
Lemma cut_header h b junk : wr ((h ++ [13; 10] ++ b) ++ junk) (length h) 0 = OK (h ++ 0 :: 10 :: b ++ junk).
Proof.
  unfold wr. replace (Nat.ltb (length h) (length ((h ++ [13; 10] ++ b) ++ junk))) with true.
  2:{ symmetry. apply Nat.ltb_lt. rewrite !app_length. cbn [length]. lia. }
  rewrite <- !app_assoc. rewrite firstn_pre by reflexivity. cbn [app].
  rewrite (app_assoc h [13] (10 :: b ++ junk) : h ++ 13 :: 10 :: b ++ junk = _). rewrite skipn_pre by (rewrite app_length; cbn [length]; lia). reflexivity.
Qed.
Lemma text_cstr h r : exists t, cstr (h ++ 0 :: r) = Some t /\ text_of h t.
Proof.
  destruct (nul_at_first h) as [Nh|(x & y & -> & Nx)].
  - exists h. split; [apply cstr_nul; exact Nh|]. split; [exact Nh|left; reflexivity].
  - exists x. rewrite <- app_assoc. cbn [app]. split; [apply cstr_nul; exact Nx|]. split; [exact Nx|right]. exists y. rewrite <- app_assoc. reflexivity.
Qed.
Lemma text_of_fun s t t' : text_of s t -> text_of s t' -> t = t'.
Proof.
  assert (K : forall t, text_of s t -> cstr (s ++ [0]) = Some t).
  { intros a [Na [->|[r ->]]]; [apply cstr_nul; exact Na|]. rewrite <- !app_assoc. apply cstr_nul. exact Na. }
  intros A B. apply K in A. apply K in B. congruence.
Qed.

Lemma answer_fun rep h b h' b' : answer rep h b -> answer rep h' b' -> h = h' /\ b = b'.
Proof.
  intros H. destruct H as [h b F L]. intros H2. remember (h ++ [13;10] ++ b) as R2 eqn:E2. destruct H2 as [h' b' F' L'].
  assert (K : forall (h h' b b' : list N), h' ++ [13;10] ++ b' = h ++ [13;10] ++ b -> (forall x y, h' ++ [13] <> x ++ [13;10] ++ y) -> (length h' <= length h)%nat).
  { clear. intros h h' b b' E F. destruct (Nat.le_gt_cases (length h') (length h)) as [L|L]; [exact L|]. exfalso.
    revert h' E F L. induction h as [|c h IH]; intros h' E F L.
    - destruct h' as [|d [|e h']]; cbn in L; [lia| |].
      + cbn in E. inversion E; subst.
      + cbn in E. inversion E; subst. apply (F [] (h' ++ [13])). reflexivity.
    - destruct h' as [|d h']; [cbn in L; lia|]. cbn in E. inversion E; subst. apply (IH h' H1); [|cbn in L; lia].
      intros x y Q. apply (F (c :: x) y). cbn. f_equal. exact Q. }
  assert (Len : length h = length h').
  { apply Nat.le_antisymm; [eapply K; [symmetry; exact E2|exact F]|eapply K; [exact E2|exact F']]. }
  clear - E2 Len. revert h' E2 Len. induction h as [|c h IH]; intros [|d h'] E L; try discriminate.
  - cbn in E. inversion E. auto.
  - cbn in E. inversion E; subst. destruct (IH h') as [-> ->]; [assumption|cbn in L; lia|auto].
Qed.

(** printing of the text of the server *)
Lemma safeprint_clean mb ctl : forall fuel s, (length s <= fuel)%nat -> exists o, safeprint fuel mb ctl s = OK o /\ cleaned ctl o.
Proof.
  induction fuel as [|fuel IH]; intros s L.
  { destruct s; [|cbn in L; lia]. exists [10]. split; [reflexivity|constructor]. }
  destruct s as [|c r]; [exists [10]; split; [reflexivity|constructor]|]. cbn [safeprint]. cbn [length] in L.
  destruct (mb (c :: r)) as [n|].
  - destruct (IH (skipn (S n) (c :: r))) as (o & -> & C). { rewrite skipn_length. cbn [length]. lia. }
    cbn [bind]. destruct (ctl (firstn (S n) (c :: r))) eqn:E; [exists (63 :: o); split; [reflexivity|constructor; exact C]|].
    destruct (leqb (firstn (S n) (c :: r)) [10]) eqn:E2; [exists o; auto|]. eexists. split; [reflexivity|].
    apply cl_char; [exact E| |exact C]. intros Q. rewrite Q, leqb_refl in E2. discriminate.
  - destruct (IH r) as (o & -> & C); [lia|]. cbn [bind]. exists (63 :: o). split; [reflexivity|constructor; exact C].
Qed.

Lemma strm_fuel s data k : strm s = (data, k) ->
  (length data < S (length (concat (map (fun r => match r with Rgot b bs => b :: bs | _ => [] end) s))))%nat.
Proof.
  revert data k. induction s as [|r s IH]; intros data k E; cbn [strm] in E; [inversion E; cbn; lia|].
  destruct r as [| | |b bs]; cbn [map concat].
  - apply (IH _ _ E).
  - inversion E. cbn. lia.
  - inversion E. cbn. lia.
  - destruct (strm s) as [d k']. inversion E; subst. specialize (IH _ _ eq_refl). cbn [app length] in *. rewrite !app_length. lia.
Qed.
Lemma strm_bytes s data k : strm s = (data, k) -> Forall (fun r => bytes (gives r)) s -> bytes data.
Proof.
  revert data k. induction s as [|r s IH]; intros data k E F; cbn [strm] in E; [inversion E; constructor|]. inversion F; subst.
  destruct r as [| | |b bs]; [apply (IH _ _ E); assumption|inversion E; constructor|inversion E; constructor|].
  destruct (strm s) as [d k']. inversion E; subst. change (bytes ((b :: bs) ++ d)); apply bytes_app. split; [assumption|]. eapply IH; eauto.
Qed.
Lemma skipn_skipn' {A} a b (l : list A) : skipn a (skipn b l) = skipn (b + a) l.
Proof. revert l. induction b as [|b IH]; intros l; [reflexivity|]. destruct l; [rewrite !skipn_nil; reflexivity|]. cbn [skipn Nat.add]. apply IH. Qed.

(** a schedule whose stream of bytes is [data] *)
Definition quiet_or_fine (o : gopts) (ctl : list N -> bool) (code : N) (says : option (list N)) : Prop :=
  match says with
  | None => g_debug o <> DNone \/ g_quiet o = true \/ 20 <= code < 30
  | Some t => g_debug o = DNone /\ g_quiet o = false /\ (code < 20 \/ 30 <= code) /\ cleaned ctl t
  end.

Definition full (data : list N) (k : endk) : Prop := (2048 <= length data)%nat \/ k = EEof.
Lemma fetch_spec W o s data k : strm s = (data, k) -> bytes data -> bytes (gw_buf W) ->
  exists f out sy, fetch W o s = OK (f, out, sy) /\
   ((~ full data k /\ out = [] /\ sy = None /\ f = match k with EErr => Fatal | _ => Waiting end) \/
    (data = [] /\ k = EEof /\ f = Code (-1) /\ out = [] /\ sy = None) \/
    (data <> [] /\ full data k /\ out = [] /\ sy = None /\ f = Fatal /\ forall h body code meta, answer data h body -> ~ says h code meta) \/
    (full data k /\ exists h body code meta, answer data h body /\ says h code meta /\ quiet_or_fine o (gw_ctl W) code sy /\
       match g_debug o with
       | DNone | DAll =>
         let whole := match g_debug o with DAll => data | _ => body end in
         prefix out whole /\ match k with EEof => f = Code (Z.of_N code) /\ out = whole | EErr => f = Fatal | ENone => f = Waiting end
       | _ => f = Code (Z.of_N code) /\ shows (g_debug o) data h code meta body out
       end)).
Proof.
  intros E Hd Hw. unfold fetch. cbv zeta. set (fuel := S (length _)).
  pose proof (strm_fuel s data k E) as Lf. fold fuel in Lf.
  pose proof (dorep_spec s BUF) as D. rewrite E in D.
  assert (Main : forall g s', g = firstn 2048 data -> strm s' = (skipn 2048 data, k) -> full data k ->
     exists f out sy, match g with
       | [] => OK (Code (-1), [], None)
       | _ => let buf := g ++ skipn (length g) (gw_buf W) in
      let* t := memmem buf (length g) [13; 10] in
      match t with
      | None => OK (Fatal, [], None)
      | Some t =>
        let* a := rd buf 0 in
        if negb (is_digit a) then OK (Fatal, [], None) else
        let* b := rd buf 1 in
        if negb (is_digit b) then OK (Fatal, [], None) else
        let* c := rd buf 2 in
        if negb (c =? 32) then OK (Fatal, [], None) else
        let code := ((Z.of_N a - 48) * 10 + Z.of_N b - 48)%Z in
        match g_debug o with
        | DCode => OK (Code code, decz code ++ [10], None)
        | DHeader => let* m := wr buf t 0 in printed (cstr m) code
        | DMeta => let* m := wr buf t 0 in printed (cstr_at m 3) code
        | DAll => first (fetch_body fuel code s') g None
        | DNone =>
          let* says :=
            if ((code <? 20) || (30 <=? code))%Z then
              let* m := wr buf t 0 in
              if g_quiet o then OK None else
              match cstr_at m 3 with
              | None => UB
              | Some x => let* y := safeprint (length x) (gw_mb W) (gw_ctl W) x in OK (Some y)
              end
            else OK None in
          first (fetch_body fuel code s') (skipn (t + 2) g) says
        end
      end end = OK (f, out, sy) /\
   ((data = [] /\ k = EEof /\ f = Code (-1) /\ out = [] /\ sy = None) \/
    (data <> [] /\ out = [] /\ sy = None /\ f = Fatal /\ forall h body code meta, answer data h body -> ~ says h code meta) \/
    (exists h body code meta, answer data h body /\ says h code meta /\ quiet_or_fine o (gw_ctl W) code sy /\
       match g_debug o with
       | DNone | DAll =>
         let whole := match g_debug o with DAll => data | _ => body end in
         prefix out whole /\ match k with EEof => f = Code (Z.of_N code) /\ out = whole | EErr => f = Fatal | ENone => f = Waiting end
       | _ => f = Code (Z.of_N code) /\ shows (g_debug o) data h code meta body out
       end))).
  { clear D. intros g s' G Es' Fu. destruct g as [|g0 g].
    { assert (data = []). { destruct data; [reflexivity|]. discriminate G. } subst data.
      exists (Code (-1)), [], None. split; [reflexivity|]. left. repeat split; auto. destruct Fu as [Q|Q]; [cbn in Q; lia|exact Q]. }
    assert (ND : data <> []) by (intros ->; discriminate G).
    assert (Bg : bytes (g0 :: g)) by (rewrite G; apply bytes_firstn'; exact Hd).
    remember (g0 :: g) as gg eqn:Egg. clear Egg g0 g. rename gg into g.
    set (junk := skipn (length g) (gw_buf W)). cbv zeta.
    destruct (find_crlf g junk) as (t & -> & T). { apply bytes_app. split; [exact Bg|apply bytes_skipn; exact Hw]. }
    cbn [bind].
    assert (NA : (forall h b c m, g = h ++ [13; 10] ++ b -> (forall x y, h ++ [13] <> x ++ [13; 10] ++ y) -> ~ says h c m) ->
       forall h body code meta, answer data h body -> ~ says h code meta).
    { intros Q h body code meta A. destruct A as [h body F L]. apply (Q h (firstn (2048 - (length h + 2)) body)); [|exact F].
      rewrite G, !app_assoc, firstn_app. rewrite firstn_all2 by (rewrite app_length; cbn [length]; lia).
      rewrite app_length. reflexivity. }
    destruct t as [t|].
    2:{ exists Fatal, [], None. split; [reflexivity|]. right. left. repeat split; auto. apply NA. intros h b c m Q. destruct (T h b Q). }
    destruct T as (h & b & Eg & -> & Hh).
    set (body := b ++ skipn 2048 data).
    assert (Ed : data = h ++ [13; 10] ++ body). { unfold body. rewrite <- (firstn_skipn 2048 data) at 1. rewrite <- G, Eg, <- !app_assoc. reflexivity. }
    assert (A : answer data h body).
    { rewrite Ed. constructor; [exact Hh|]. apply (f_equal (@length N)) in Eg. rewrite G, firstn_length, !app_length in Eg. cbn [length] in Eg. lia. }
    assert (Bad : (forall c m, ~ says h c m) -> exists f out sy, OK (Fatal, @nil N, @None (list N)) = OK (f, out, sy) /\
       ((data = [] /\ k = EEof /\ f = Code (-1) /\ out = [] /\ sy = None) \/
        (data <> [] /\ out = [] /\ sy = None /\ f = Fatal /\ forall h body code meta, answer data h body -> ~ says h code meta) \/
        (exists h body code meta, answer data h body /\ says h code meta /\ quiet_or_fine o (gw_ctl W) code sy /\
       match g_debug o with
       | DNone | DAll =>
         let whole := match g_debug o with DAll => data | _ => body end in
         prefix out whole /\ match k with EEof => f = Code (Z.of_N code) /\ out = whole | EErr => f = Fatal | ENone => f = Waiting end
       | _ => f = Code (Z.of_N code) /\ shows (g_debug o) data h code meta body out
       end))).
    { intros Q. exists Fatal, [], None. split; [reflexivity|]. right. left. repeat split; auto. intros h' b' c m A'.
      destruct (answer_fun _ _ _ _ _ A A') as [<- _]. apply Q. }
    rewrite Eg. unfold rd at 1.
    destruct h as [|d1 h1].
    { cbn. apply Bad. intros c m (x & y & Q & _). discriminate. }
    cbn [app nth_error bind]. destruct (is_digit d1) eqn:D1; cbn [negb].
    2:{ apply Bad. intros c m (x & y & Q & ? & _). congruence. }
    unfold rd at 1. destruct h1 as [|d2 h1].
    { cbn. apply Bad. intros c m (x & y & Q & _). discriminate. }
    cbn [app nth_error bind]. destruct (is_digit d2) eqn:D2; cbn [negb].
    2:{ apply Bad. intros c m (x & y & Q & ? & ? & _). congruence. }
    unfold rd at 1. destruct h1 as [|d3 meta].
    { cbn. apply Bad. intros c m (x & y & Q & _). discriminate. }
    cbn [app nth_error bind]. destruct (N.eqb_spec d3 32) as [->|D3]; cbn [negb].
    2:{ apply Bad. intros c m (x & y & Q & ? & ? & _). congruence. }
    clear Bad NA.
    set (code := decimal [d1; d2]).
    assert (Sy : says (d1 :: d2 :: 32 :: meta) code meta) by (exists d1, d2; repeat split; auto).
    assert (Ec : ((Z.of_N d1 - 48) * 10 + Z.of_N d2 - 48)%Z = Z.of_N code).
    { unfold code, decimal. cbn [fold_left]. unfold is_digit in *. lia. }
    rewrite Ec.
    change (d1 :: d2 :: 32 :: meta ++ 13 :: 10 :: b) with ((d1 :: d2 :: 32 :: meta) ++ [13; 10] ++ b).
    change (d1 :: d2 :: 32 :: (meta ++ 13 :: 10 :: b) ++ junk) with (((d1 :: d2 :: 32 :: meta) ++ [13; 10] ++ b) ++ junk).
    rewrite cut_header. cbn [bind].
    assert (Meta : exists t, cstr_at ((d1 :: d2 :: 32 :: meta) ++ 0 :: 10 :: b ++ junk) 3 = Some t /\ text_of meta t).
    { unfold cstr_at. cbn [app skipn]. apply text_cstr. }
    assert (FB : forall pre, pre ++ skipn 2048 data = match g_debug o with DAll => data | _ => body end -> forall sy,
       exists f out, first (fetch_body fuel (Z.of_N code) s') pre sy = OK (f, out, sy) /\
       prefix out (match g_debug o with DAll => data | _ => body end) /\
       match k with EEof => f = Code (Z.of_N code) /\ out = match g_debug o with DAll => data | _ => body end | EErr => f = Fatal | ENone => f = Waiting end).
    { intros pre Hp sy. destruct (fetch_body_spec fuel s' (Z.of_N code) (skipn 2048 data) k Es') as (f & o' & Q & P & R).
      { rewrite skipn_length. lia. }
      unfold first. rewrite Q. cbn [bind]. exists f, (pre ++ o'). split; [reflexivity|]. rewrite <- Hp. split; [apply prefix_cat; exact P|].
      destruct k; auto. destruct R as [-> ->]. auto. }
    destruct (g_debug o) eqn:Edb.
    - (* none *)
      assert (Hpre : skipn (length (d1 :: d2 :: 32 :: meta) + 2) ((d1 :: d2 :: 32 :: meta) ++ [13; 10] ++ b) ++ skipn 2048 data = body).
      { rewrite app_assoc. rewrite skipn_pre by (rewrite app_length; reflexivity). reflexivity. }
      assert (SY : exists sy, (if ((Z.of_N code <? 20) || (30 <=? Z.of_N code))%Z then
              if g_quiet o then OK None else
              match cstr_at ((d1 :: d2 :: 32 :: meta) ++ 0 :: 10 :: b ++ junk) 3 with
              | None => UB
              | Some x => let* y := safeprint (length x) (gw_mb W) (gw_ctl W) x in OK (Some y)
              end
            else OK None) = OK sy /\ quiet_or_fine o (gw_ctl W) code sy).
      { destruct ((Z.of_N code <? 20) || (30 <=? Z.of_N code))%Z eqn:C.
        - destruct (g_quiet o) eqn:Q. { exists None. split; [reflexivity|]. cbn. auto. }
          destruct Meta as (x & -> & _). destruct (safeprint_clean (gw_mb W) (gw_ctl W) (length x) x ltac:(lia)) as (y & -> & Cl). cbn [bind].
          exists (Some y). split; [reflexivity|]. unfold quiet_or_fine. repeat split; auto. clearbody code. apply orb_true_iff in C. lia.
        - exists None. split; [reflexivity|]. unfold quiet_or_fine. right. right. clearbody code. apply orb_false_iff in C. lia. }
      destruct SY as (sy & -> & SY). cbn [bind].
      destruct (FB _ Hpre sy) as (f & out & Q & P & R). cbn [app] in Q |- *. rewrite Q. exists f, out, sy. split; [reflexivity|]. right. right.
      exists (d1 :: d2 :: 32 :: meta), body, code, meta. auto.
    - exists (Code (Z.of_N code)), (decz (Z.of_N code) ++ [10]), None. split; [reflexivity|]. right. right.
      exists (d1 :: d2 :: 32 :: meta), body, code, meta. split; [exact A|]. split; [exact Sy|]. split; [cbn; left; rewrite Edb; discriminate|].
      split; [reflexivity|]. constructor. unfold decz. destruct (Z.ltb_spec (Z.of_N code) 0); [lia|]. rewrite N2Z.id. apply dec_numeral.
    - destruct (text_cstr (d1 :: d2 :: 32 :: meta) (10 :: b ++ junk)) as (t & -> & Tt). unfold printed.
      eexists _, _, None. split; [reflexivity|]. right. right.
      exists (d1 :: d2 :: 32 :: meta), body, code, meta. split; [exact A|]. split; [exact Sy|]. split; [cbn; left; rewrite Edb; discriminate|].
      split; [reflexivity|]. constructor. exact Tt.
    - destruct Meta as (t & -> & Tt). unfold printed.
      eexists _, _, None. split; [reflexivity|]. right. right.
      exists (d1 :: d2 :: 32 :: meta), body, code, meta. split; [exact A|]. split; [exact Sy|]. split; [cbn; left; rewrite Edb; discriminate|].
      split; [reflexivity|]. constructor. exact Tt.
    - rewrite <- Eg. assert (Hpre : g ++ skipn 2048 data = data). { rewrite G. apply firstn_skipn. }
      destruct (FB g Hpre None) as (f & out & Q & P & R). rewrite Q. exists f, out, None. split; [reflexivity|]. right. right.
      exists (d1 :: d2 :: 32 :: meta), body, code, meta. split; [exact A|]. split; [exact Sy|]. split; [cbn; left; rewrite Edb; discriminate|]. auto. }
  change BUF with 2048%nat in D |- *.
  destruct (Nat.leb_spec 2048 (length data)) as [B|B].
  - destruct D as (s' & -> & E'). destruct (Main _ s' eq_refl E' (or_introl B)) as (f & out & sy & Q & R). exists f, out, sy. split; [exact Q|].
    assert (Fu : full data k) by (left; exact B). right. tauto.
  - destruct k.
    + destruct D as (s' & -> & E'). assert (Fu : full data EEof) by (right; reflexivity).
      destruct (Main data s') as (f & out & sy & Q & R); [symmetry; apply firstn_all2; lia|rewrite skipn_all2 by lia; exact E'|exact Fu|].
      exists f, out, sy. split; [exact Q|]. right. tauto.
    + destruct D as (g & s' & ->). exists Fatal, [], None. split; [reflexivity|]. left. repeat split. intros [Q|Q]; [lia|discriminate].
    + destruct D as (g & s' & ->). exists Waiting, [], None. split; [reflexivity|]. left. repeat split. intros [Q|Q]; [lia|discriminate].
Qed.

(** ** the whole program *)
Lemma gopts_run W o :
  (gopts_ok W o /\ exists proxy kp,
     match g_proxy o with Some a => match parse_proxy a with Some p => Some (Some p) | None => None end | None => Some None end = Some proxy /\
     match g_cert o, g_key o with Some c, Some k => Some (Some (c, k)) | None, None => Some None | _, _ => None end = Some kp /\
     kp = match g_cert o, g_key o with Some c, Some k => Some (c, k) | _, _ => None end /\
     match kp with Some (c, k) => gw_keypair W c k | None => true end = true /\ (g_2 o && g_3 o = false) /\
     match proxy with Some (h, p) => exists a, g_proxy o = Some a /\ proxy_arg a h p | None => g_proxy o = None end) \/
  (~ gopts_ok W o /\ 
   (match g_proxy o with Some a => match parse_proxy a with Some p => Some (Some p) | None => None end | None => Some None end = None \/
    (exists proxy, match g_proxy o with Some a => match parse_proxy a with Some p => Some (Some p) | None => None end | None => Some None end = Some proxy /\
      (g_2 o && g_3 o = true \/ (g_2 o && g_3 o = false /\
        (match g_cert o, g_key o with Some c, Some k => Some (Some (c, k)) | None, None => Some None | _, _ => None end = None \/
         exists kp, match g_cert o, g_key o with Some c, Some k => Some (Some (c, k)) | None, None => Some None | _, _ => None end = Some kp /\
           match kp with Some (c, k) => gw_keypair W c k | None => true end = false)))))).
Proof.
  unfold gopts_ok.
  assert (P : (exists proxy, match g_proxy o with Some a => match parse_proxy a with Some p => Some (Some p) | None => None end | None => Some None end = Some proxy /\
     match g_proxy o with Some a => exists h p, proxy_arg a h p | None => True end /\
     match proxy with Some (h, p) => exists a, g_proxy o = Some a /\ proxy_arg a h p | None => g_proxy o = None end) \/
     (match g_proxy o with Some a => match parse_proxy a with Some p => Some (Some p) | None => None end | None => Some None end = None /\
      ~ match g_proxy o with Some a => exists h p, proxy_arg a h p | None => True end)).
  { destruct (g_proxy o) as [a|]; [|left; exists None; auto]. destruct (parse_proxy a) as [[h p]|] eqn:E.
    - left. exists (Some (h, p)). apply parse_proxy_iff in E. split; [reflexivity|]. split; eauto.
    - right. split; [reflexivity|]. intros (h & p & Q). apply parse_proxy_iff in Q. congruence. }
  destruct P as [(proxy & -> & P1 & P2)|[-> P]]; [|right; split; [tauto|left; reflexivity]].
  destruct (g_2 o && g_3 o) eqn:E23.
  { right. split; [intros [Q _]; congruence|]. right. eauto. }
  destruct (g_cert o) as [c|], (g_key o) as [k|].
  - destruct (gw_keypair W c k) eqn:K.
    + left. split; [repeat split; auto|]. exists proxy, (Some (c, k)). repeat split; auto.
    + right. split; [intros (_ & Q & _); congruence|]. right. exists proxy. split; [reflexivity|]. right. split; [reflexivity|]. right. eauto.
  - right. split; [tauto|]. right. exists proxy. auto.
  - right. split; [tauto|]. right. exists proxy. auto.
  - left. split; [repeat split; auto|]. exists proxy, None. repeat split; auto.
Qed.

Definition stopped (o : gopts) (k : nat) : grun :=
  mkGR (Exit k) [] None None None None (negb (g_noname o || match g_proxy o with Some _ => true | None => false end)) (negb (g_3 o), negb (g_2 o)) [].

Lemma gg_run W o url : genv_ok W -> nonul url -> bytes url ->
  (gg W o url = OK (stopped o 1) /\ (~ gopts_ok W o \/ (1024 < length url)%nat \/ forall c, ~ accepts (gw_ip6 W) url c)) \/
  (gopts_ok W o /\ (length url <= 1024)%nat /\ exists c, accepts (gw_ip6 W) url c /\
   ((g_nop o = true /\ gg W o url = OK (stopped o 0)) \/
    (g_nop o = false /\ exists host port, target o c host port /\
       gg W o url = gsession W o (match g_cert o, g_key o with Some c, Some k => Some (c, k) | _, _ => None end)
         (negb (g_noname o || match g_proxy o with Some _ => true | None => false end)) (negb (g_3 o), negb (g_2 o)) host port (url ++ [13; 10])))).
Proof.
  intros (Li & _) Hn Hb. remember (gg W o url) as X eqn:HX. unfold gg in HX. cbv zeta in HX. fold (stopped o 0) in HX. fold (stopped o 1) in HX.
  destruct (gopts_run W o) as [(G & proxy & kp & E1 & E2 & E3 & E4 & E5 & T)|[G D]].
  2:{ left. split; [|left; exact G]. rewrite HX. destruct D as [->|(proxy & -> & [->|(-> & [->|(kp & -> & ->)])])]; reflexivity. }
  rewrite E1, E5, E2, E4 in HX. cbn [negb] in HX. unfold z in HX at 1.
  destruct (c37_strlcpy url [] (gw_iribuf W) GEMINI_URL_LEN Hn ltac:(unfold GEMINI_URL_LEN; lia)) as (b & A & B & _ & C). rewrite A in HX. cbn [bind] in HX.
  unfold GEMINI_URL_LEN in HX at 1. destruct (Nat.leb_spec 1027 (length url)) as [L|L]; [left; split; [exact HX|right; left; lia]|].
  unfold GEMINI_URL_LEN in HX at 1. destruct (Nat.leb_spec 1027 (length url + 2)) as [L'|L']; [left; split; [exact HX|right; left; lia]|].
  specialize (C ltac:(unfold GEMINI_URL_LEN; lia)). rewrite firstn_all2 in C by (unfold GEMINI_URL_LEN; lia).
  apply cstr_inv in C. destruct C as [_ [junk ->]].
  destruct (parse_junk (gw_ip6 W) url junk Hn Hb) as (ok & p & PE & P1 & P2). rewrite PE in HX. cbn [bind] in HX.
  destruct ok; cbn [negb] in HX; [|left; split; [exact HX|right; right; exact (P2 eq_refl)]].
  destruct (P1 eq_refl) as (c & Ec & Ac). rewrite Ec in HX. right. split; [exact G|]. split; [lia|]. exists c. split; [exact Ac|].
  destruct (g_nop o); [left; auto|right]. split; [reflexivity|]. subst kp.
  destruct proxy as [[h p0]|].
  - destruct T as (a & T1 & T2). exists h, p0. split; [exact (tg_proxy o c a h p0 T1 T2)|exact HX].
  - exists (c_host c), (default_port (c_port c)). split; [exact (tg_url o c T)|rewrite HX; unfold default_port; destruct (c_port c); reflexivity].
Qed.

(** the request has been sent *)
Lemma handshake_ok s : handshake s = Ok -> In Hdone s.
Proof. induction s as [|[] s IH]; cbn; intros; try discriminate; auto. Qed.
Lemma handshake_done s : ~ In Herr s -> In Hdone s -> handshake s = Ok.
Proof. induction s as [|[] s IH]; cbn; intros A B; [tauto|apply IH; [tauto|destruct B; [discriminate|assumption]]|exfalso; auto|reflexivity]. Qed.

Lemma gsession_run W o kp v pr host port req : genv_ok W ->
  exists r, gsession W o kp v pr host port req = OK r /\ gr_verify r = v /\ gr_protos r = pr /\ gr_pair r = kp /\
   ((gr_end r = Exit 1 /\ gr_out r = [] /\ gr_says r = None /\ gr_peer r = None /\ gr_wire r = [] /\ gw_dial W host port = false) \/
    (gr_peer r = Some (host, port) /\ gr_name r = Some (match g_sni o with Some n => n | None => host end) /\
     prefix (gr_wire r) req /\
     ((gr_end r = Running \/ gr_end r = Exit 1) /\ gr_out r = [] /\ gr_says r = None /\
        (gw_start W = true -> handshake (gw_shake W) = Ok -> fst (doreq req (gw_write W)) = Ok -> False) \/
      gr_wire r = req /\ exists f, fetch W o (gw_read W) = OK (f, gr_out r, gr_says r) /\
        gr_end r = match f with
               | Fatal => Exit 1
               | Waiting => Running
               | Code code => Exit (if ((20 <=? code) && (code <? 30))%Z then 0%nat else exit_status code)
               end))).
Proof.
  intros (_ & _ & Bb & Br). unfold gsession. destruct (gw_dial W host port); cbn [negb].
  2:{ eexists. split; [reflexivity|]. cbn. repeat (split; [reflexivity|]). left. repeat split. }
  assert (P0 : forall x, prefix [] x) by (intros x; exists x; reflexivity).
  destruct (gw_start W); cbn [negb].
  2:{ eexists. split; [reflexivity|]. cbn. repeat (split; [reflexivity|]). right. repeat (split; [reflexivity|]). split; [apply P0|]. left. repeat split; auto. discriminate. }
  destruct (handshake (gw_shake W)).
  2-3: eexists; (split; [reflexivity|]); cbn; repeat (split; [reflexivity|]); right; repeat (split; [reflexivity|]); (split; [apply P0|]); left; repeat split; auto; discriminate.
  pose proof (doreq_spec (gw_write W) req) as D. destruct (doreq req (gw_write W)) as [d w]. destruct D as (D1 & D2 & _). cbn [fst].
  destruct d.
  2-3: eexists; (split; [reflexivity|]); cbn; repeat (split; [reflexivity|]); right; repeat (split; [reflexivity|]); (split; [exact D1|]); left; repeat split; auto; discriminate.
  destruct (strm (gw_read W)) as [data k] eqn:E.
  destruct (fetch_spec W o (gw_read W) data k E (strm_bytes _ _ _ E Br) Bb) as (f & out & sy & -> & _). cbn [bind].
  eexists. split; [reflexivity|]. cbn [gr_verify gr_protos gr_pair gr_end gr_out gr_says gr_peer gr_wire gr_name]. repeat (split; [reflexivity|]). right. repeat (split; [reflexivity|]). split; [exact D1|].
  right. split; [apply D2; reflexivity|]. exists f. auto.
Qed.
