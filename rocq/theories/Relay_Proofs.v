(** The FastCGI relay as a machine that does not know about the client's
    buffers. *)
From Verif Require Import Base BaseLemmas Compat Iri IriSpec IriObs IriOut Puny Conf ConfSpec Mime Fmt Fcgi Server ServerSpec Iri_Last_Proofs Server_Proofs Decide_Proofs RequestSpec Request_Proofs HistorySpec Wiring_Proofs BodySpec Body_Proofs RelaySpec.
Local Open Scope N_scope.

Record st := mkSt { t_code : N; t_buf : list N; t_done : bool; t_str : list N }.

Section Machine.
Context (fm : list N -> list N).

Definition start (code : N) (meta : list N) (t : st) : st * bool :=
  if (length (fm meta) <=? 1024)%nat
  then (mkSt code (t_buf t) (if code =? 20 then t_done t else true) (t_str t ++ header code (fm meta)), true)
  else (mkSt 40 (t_buf t) true (header 40 (s2b "internal error")), false).
Definition fail42 (t : st) : st :=
  if t_code t =? 0 then mkSt 42 (t_buf t) true (t_str t ++ header 42 (s2b "CGI error")) else mkSt (t_code t) (t_buf t) true (t_str t).
Definition more (s : list N) (t : st) : st := mkSt (t_code t) (t_buf t) (t_done t) (t_str t ++ s).

Definition feed (s : list N) (t : st) : st :=
  if t_code t =? 0 then
    let l := Nat.min (length s) (SBUF - length (t_buf t)) in
    let b := t_buf t ++ firstn l s in
    let t := mkSt (t_code t) b (t_done t) (t_str t) in
    match readln b with
    | None => if (length b =? SBUF)%nat then fail42 t else t
    | Some (line, r) =>
      match status (N.eqb 32) line with
      | None => fail42 t
      | Some (code, meta) =>
        let '(t, ok) := start code meta t in
        if negb ok || (t_code t <? 20) || (29 <? t_code t) then fail42 t else more (r ++ skipn l s) t
      end
    end
  else more s t.

Fixpoint loop (fuel : nat) (s : list N) (t : st) : res (list N * st * bool) :=
  match fuel with
  | O => Fuel
  | S f =>
    if t_done t then OK (s, t, true) else
    match s with
    | v :: ty :: i1 :: i0 :: l1 :: l0 :: pad :: rsv :: body =>
      if negb (i0 + N.shiftl i1 8 =? 1) then OK (s, t, true) else
      let len := N.to_nat (l0 + N.shiftl l1 8) in
      if (length body <? len + N.to_nat pad)%nat then OK (s, t, false) else
      let content := firstn len body in
      let rest := skipn (len + N.to_nat pad) body in
      if ty =? FCGI_END_REQUEST then
        if negb (len =? 8)%nat then OK (body, t, true)
        else loop f rest (mkSt (t_code t) (t_buf t) true (t_str t))
      else if ty =? FCGI_STDERR then loop f rest t
      else if ty =? FCGI_STDOUT then loop f rest (feed content t)
      else OK (body, t, true)
    | _ => OK (s, t, false)
    end
  end.

Lemma loop_mono : forall f s t r, loop f s t = OK r -> forall g, (f <= g)%nat -> loop g s t = OK r.
Proof.
  induction f as [|f IH]; intros s t r; [discriminate|]. cbn [loop]. intros H g Hg. destruct g as [|g]; [lia|]. cbn [loop].
  destruct (t_done t); [exact H|].
  do 8 (destruct s as [|? s]; [exact H|]).
  destruct (negb _); [exact H|]. cbv zeta in H |- *. destruct (_ <? _)%nat; [exact H|].
  repeat match goal with |- context [if ?b then _ else _] => destruct b end; try exact H; eapply IH; eauto; lia.
Qed.
Lemma loop_total : forall f s t, (length s + (if t_done t then 0 else 1) < f)%nat -> exists r, loop f s t = OK r.
Proof.
  induction f as [|f IH]; intros s t Hf; [lia|]. cbn [loop].
  destruct (t_done t) eqn:D; [eauto|].
  do 8 (destruct s as [|? s]; [eauto|]).
  destruct (negb _); [eauto|]. cbv zeta. destruct (_ <? _)%nat; [eauto|].
  assert (L : forall k (u : st), (length (skipn k s) + (if t_done u then 0 else 1) < f)%nat).
  { intros k u. rewrite skipn_length. cbn [length] in Hf. destruct (t_done u); lia. }
  repeat match goal with |- context [if ?b then _ else _] => destruct b end; eauto.
Qed.

(** what comes later does not change what was done, and is then treated as if
    it had come at once *)
Lemma loop_app : forall f s t s1 t1 b, loop f s t = OK (s1, t1, b) -> forall x,
  if b then forall g, (f <= g)%nat -> loop g (s ++ x) t = OK (s1 ++ x, t1, true)
  else forall h r, loop h (s1 ++ x) t1 = OK r -> loop (f + h) (s ++ x) t = OK r.
Proof.
  induction f as [|f IH]; intros s t s1 t1 b; [discriminate|]. cbn [loop]. intros H x.
  assert (ST : forall sx, OK (sx, t, false) = OK (s1, t1, b) -> sx = s ->
    if b then forall g, (S f <= g)%nat -> loop g (s ++ x) t = OK (s1 ++ x, t1, true)
    else forall h r, loop h (s1 ++ x) t1 = OK r -> loop (S f + h) (s ++ x) t = OK r).
  { intros sx Q E. apply OK_inj in Q. injection Q as <- <- <-. subst sx. intros h r Hr. eapply loop_mono; [exact Hr|lia]. }
  destruct (t_done t) eqn:D.
  { apply OK_inj in H. injection H as <- <- <-. intros g Hg. destruct g as [|g]; [lia|]. cbn [loop]. rewrite D. reflexivity. }
  do 8 (destruct s as [|? s]; [eapply ST; [exact H|reflexivity]|]).
  cbn [app] in *.
  match type of H with (if ?b then _ else _) = _ => destruct b eqn:ID end.
  { apply OK_inj in H. injection H as <- <- <-. intros g Hg. destruct g as [|g]; [lia|]. cbn [loop app]. rewrite D, ID. reflexivity. }
  cbv zeta in H. set (len := N.to_nat (n4 + N.shiftl n3 8)) in *.
  destruct (Nat.ltb_spec (length s) (len + N.to_nat n5)) as [LT|GE].
  { eapply ST; [exact H|reflexivity]. }
  assert (F : firstn len (s ++ x) = firstn len s) by (rewrite firstn_app; replace (len - length s)%nat with 0%nat by lia; cbn [firstn]; apply app_nil_r).
  assert (K : skipn (len + N.to_nat n5) (s ++ x) = skipn (len + N.to_nat n5) s ++ x).
  { rewrite skipn_app. replace (len + N.to_nat n5 - length s)%nat with 0%nat by lia. reflexivity. }
  assert (NL : (length (s ++ x) <? len + N.to_nat n5)%nat = false) by (apply Nat.ltb_ge; rewrite app_length; lia).
  assert (UF : forall g, loop (S g) (n :: n0 :: n1 :: n2 :: n3 :: n4 :: n5 :: n6 :: s ++ x) t =
    if n0 =? FCGI_END_REQUEST then
        if negb (len =? 8)%nat then OK (s ++ x, t, true)
        else loop g (skipn (len + N.to_nat n5) s ++ x) (mkSt (t_code t) (t_buf t) true (t_str t))
      else if n0 =? FCGI_STDERR then loop g (skipn (len + N.to_nat n5) s ++ x) t
      else if n0 =? FCGI_STDOUT then loop g (skipn (len + N.to_nat n5) s ++ x) (feed (firstn len s) t)
      else OK (s ++ x, t, true)).
  { intros g. cbn [loop]. rewrite D, ID. cbv zeta. fold len. rewrite NL, F, K. reflexivity. }
  assert (GEN : forall u, loop f (skipn (len + N.to_nat n5) s) u = OK (s1, t1, b) ->
    (forall g, loop (S g) (n :: n0 :: n1 :: n2 :: n3 :: n4 :: n5 :: n6 :: s ++ x) t = loop g (skipn (len + N.to_nat n5) s ++ x) u) ->
    if b then forall g, (S f <= g)%nat -> loop g (n :: n0 :: n1 :: n2 :: n3 :: n4 :: n5 :: n6 :: s ++ x) t = OK (s1 ++ x, t1, true)
    else forall h r, loop h (s1 ++ x) t1 = OK r -> loop (S f + h) (n :: n0 :: n1 :: n2 :: n3 :: n4 :: n5 :: n6 :: s ++ x) t = OK r).
  { intros u Hu Gu. pose proof (IH _ _ _ _ _ Hu x) as G. destruct b.
    - intros g Hg. destruct g as [|g]; [lia|]. rewrite Gu. apply G. lia.
    - intros h r Hr. cbn [Nat.add]. rewrite Gu. apply G. exact Hr. }
  assert (ERR : OK (s, t, true) = OK (s1, t1, b) -> (forall g, loop (S g) (n :: n0 :: n1 :: n2 :: n3 :: n4 :: n5 :: n6 :: s ++ x) t = OK (s ++ x, t, true)) ->
    if b then forall g, (S f <= g)%nat -> loop g (n :: n0 :: n1 :: n2 :: n3 :: n4 :: n5 :: n6 :: s ++ x) t = OK (s1 ++ x, t1, true)
    else forall h r, loop h (s1 ++ x) t1 = OK r -> loop (S f + h) (n :: n0 :: n1 :: n2 :: n3 :: n4 :: n5 :: n6 :: s ++ x) t = OK r).
  { intros Q Gu. apply OK_inj in Q. injection Q as <- <- <-. intros g Hg. destruct g as [|g]; [lia|]. apply Gu. }
  destruct (n0 =? FCGI_END_REQUEST); [destruct (negb (len =? 8)%nat)|destruct (n0 =? FCGI_STDERR); [|destruct (n0 =? FCGI_STDOUT)]];
    first [apply ERR; [exact H|exact UF] | eapply GEN; [exact H|exact UF]].
Qed.

(** ** on whole records *)
Fixpoint feeds (rs : list (N * list N)) (t : st) : st :=
  match rs with
  | [] => t
  | (ty, content) :: r => if t_done t then t else feeds r (if ty =? 6 then feed content t else t)
  end.
Lemma loop_frames s rs : frames s rs -> outputs rs -> forall t x, exists k,
  forall h, (if t_done (feeds rs t) then exists s1, loop (k + S h) (s ++ x) t = OK (s1, feeds rs t, true)
             else loop (k + h) (s ++ x) t = loop h x (feeds rs t)).
Proof.
  induction 1 as [|ver ty l1 l0 pad rsv content padding s rs B1 B0 LC LP F IH]; intros O t x.
  - exists 0%nat. intros h. cbn [feeds app Nat.add]. destruct (t_done t) eqn:D; [|reflexivity]. exists x. cbn [loop]. rewrite D. reflexivity.
  - inversion O as [|? ? O1 O2]; subst. cbn [feeds]. destruct (t_done t) eqn:D.
    { exists 0%nat. intros h. rewrite D. eexists. cbn [Nat.add loop]. rewrite D. reflexivity. }
    destruct (IH O2 (if ty =? 6 then feed content t else t) x) as (k & Hk). exists (S k). intros h. specialize (Hk h).
    assert (LEN : N.to_nat (l0 + N.shiftl l1 8) = length content).
    { rewrite N.shiftl_mul_pow2. change (2 ^ 8) with 256. lia. }
    assert (UF : forall g, loop (S g) (([ver; ty; 0; 1; l1; l0; N.of_nat (length padding); rsv] ++ content ++ padding ++ s) ++ x) t =
       loop g (s ++ x) (if ty =? 6 then feed content t else t)).
    { intros g. cbn [app loop]. rewrite D. cbn [negb]. change (1 + N.shiftl 0 8 =? 1) with true. cbn [negb]. cbv zeta. rewrite LEN, Nat2N.id.
      rewrite <- !app_assoc. destruct (Nat.ltb_spec (length (content ++ padding ++ s ++ x)) (length content + length padding)) as [L|L];
        [rewrite !app_length in L; lia|].
      rewrite firstn_app, Nat.sub_diag, firstn_all. cbn [firstn]. rewrite app_nil_r.
      assert (SK : skipn (length content + length padding) (content ++ padding ++ s ++ x) = s ++ x).
      { rewrite app_assoc, <- app_length, skipn_app, Nat.sub_diag, skipn_all2 by lia. reflexivity. }
      rewrite SK. cbn in O1. destruct O1 as [-> | ->]; reflexivity. }
    destruct (t_done (feeds rs _)).
    + destruct Hk as (s1 & Hk). exists s1. cbn [Nat.add]. rewrite UF. exact Hk.
    + cbn [Nat.add]. rewrite UF. exact Hk.
Qed.

(** ** what the machine makes of a standard output *)
Definition before (t : st) : Prop := t_code t = 0 /\ t_done t = false /\ t_str t = [] /\ (length (t_buf t) < SBUF)%nat /\ ~ has_crlf (t_buf t).

Lemma feeds_body rs : outputs rs -> forall t, t_code t <> 0 -> t_done t = false -> feeds rs t = more (stdout rs) t.
Proof.
  intros O. induction O as [|[ty content] rs O1 _ IH]; intros t C D.
  - cbn. unfold more. rewrite app_nil_r. destruct t; reflexivity.
  - cbn [feeds]. rewrite D. unfold stdout in *. cbn [flat_map fst snd]. destruct (ty =? 6).
    + rewrite IH.
      * unfold feed. rewrite (proj2 (N.eqb_neq _ _) C). unfold more. cbn [t_code t_buf t_done t_str]. rewrite <- app_assoc. reflexivity.
      * unfold feed. rewrite (proj2 (N.eqb_neq _ _) C). exact C.
      * unfold feed. rewrite (proj2 (N.eqb_neq _ _) C). exact D.
    + cbn [app]. apply IH; assumption.
Qed.
Lemma feeds_done rs t : t_done t = true -> feeds rs t = t.
Proof. intros H. destruct rs as [|[ty c] rs]; [reflexivity|]. cbn [feeds]. rewrite H. reflexivity. Qed.

(** what a complete status line leads to; [extra] is what follows it in the same record *)
Definition answer (line extra b : list N) : st :=
  match status (N.eqb 32) line with
  | None => fail42 (mkSt 0 b false [])
  | Some (code, meta) =>
    let '(t, ok) := start code meta (mkSt 0 b false []) in
    if negb ok || (t_code t <? 20) || (29 <? t_code t) then fail42 t else more extra t
  end.

Lemma crlf_prefix a x : has_crlf a -> has_crlf (a ++ x).
Proof. intros (p & q & ->). exists p, (q ++ x). rewrite <- !app_assoc. reflexivity. Qed.
Lemma first_line_crlf s l r : first_line s l r -> has_crlf s.
Proof. intros (-> & _). exists l, r. reflexivity. Qed.

Lemma feed_before t s : before t ->
  let all := t_buf t ++ s in
  (exists line r, first_line all line r /\ (length line + 2 <= SBUF)%nat /\ exists b, feed s t = answer line r b) \/
  ((~ exists line r, first_line all line r /\ (length line + 2 <= SBUF)%nat) /\
   ((SBUF <= length all)%nat /\ (exists b, feed s t = mkSt 42 b true (header 42 (s2b "CGI error"))) \/
    before (feed s t) /\ t_buf (feed s t) = all)).
Proof.
  intros (C & D & S0 & L & NC) all. unfold feed. rewrite C, N.eqb_refl. cbv zeta. rewrite D, S0.
  set (l := Nat.min (length s) (SBUF - length (t_buf t))). set (b := t_buf t ++ firstn l s).
  assert (AL : all = b ++ skipn l s) by (unfold all, b; rewrite <- app_assoc, firstn_skipn; reflexivity).
  assert (LB : length b = Nat.min (length all) SBUF).
  { unfold b, all. rewrite !app_length, firstn_length. unfold l. lia. }
  destruct (readln b) as [[line r]|] eqn:RL.
  - left. apply readln_sound in RL. exists line, (r ++ skipn l s). split; [rewrite AL; apply first_line_app; exact RL|].
    destruct RL as [RL _]. split; [apply (f_equal (@length N)) in RL; rewrite !app_length in RL; cbn [length CRLF] in RL; lia|].
    exists b. unfold answer. destruct (status (N.eqb 32) line) as [[code meta]|]; reflexivity.
  - right. apply readln_none in RL. split.
    { intros (line & r & FL & LL). apply RL. destruct FL as [FL _]. rewrite AL in FL.
      assert (P : b = firstn (length b) (line ++ CRLF ++ r)) by (rewrite <- FL, firstn_app, Nat.sub_diag, firstn_all; cbn [firstn]; symmetry; apply app_nil_r).
      assert (LL' : (length line + 2 <= length b)%nat).
      { rewrite LB. apply Nat.min_glb; [|exact LL]. rewrite AL, FL. rewrite !app_length. cbn [length CRLF]. lia. }
      rewrite app_assoc, firstn_app in P. rewrite firstn_all2 in P by (rewrite app_length; cbn [length CRLF]; lia).
      rewrite P. exists line, (firstn (length b - length (line ++ CRLF)) r). rewrite <- app_assoc. reflexivity. }
    destruct (Nat.eqb_spec (length b) SBUF) as [E|E].
    + left. split; [lia|]. eexists. reflexivity.
    + right. assert (SN : skipn l s = []) by (apply skipn_all2; unfold l; rewrite LB in E; unfold all in E; rewrite app_length in E; lia).
      rewrite SN, app_nil_r in AL. split; [|cbn [t_buf]; symmetry; exact AL].
      unfold before. cbn [t_code t_done t_str t_buf]. repeat split; auto. rewrite LB in E |- *. lia.
Qed.

(** no status line (yet) *)
Definition no_line (s : list N) : Prop := ~ exists line r, first_line s line r /\ (length line + 2 <= SBUF)%nat.

Lemma first_line_pre a x line r : first_line (a ++ x) line r -> has_crlf a -> exists r', first_line a line r' /\ r = r' ++ x.
Proof.
  intros F H. destruct (crlf_first a H) as (l & t & F'). destruct (first_line_unique _ _ _ _ _ F (first_line_app _ _ _ x F')) as [-> ->]. eauto.
Qed.

Lemma feeds_line rs : outputs rs -> forall t line body, before t -> first_line (t_buf t ++ stdout rs) line body -> (length line + 2 <= SBUF)%nat ->
  exists b r rs', outputs rs' /\ body = r ++ stdout rs' /\ feeds rs t = feeds rs' (answer line r b).
Proof.
  intros O. induction O as [|[ty content] rs O1 O2 IH]; intros t line body HB FL LL.
  - exfalso. cbn in FL. rewrite app_nil_r in FL. destruct HB as (_ & _ & _ & _ & NC). apply NC. eapply first_line_crlf; eauto.
  - cbn [feeds]. pose proof HB as (C & D & S0 & L & NC). rewrite D. unfold stdout in FL. cbn [flat_map fst snd] in FL. fold (stdout rs) in FL.
    destruct (ty =? 6).
    + rewrite app_assoc in FL. destruct (feed_before t content HB) as [(l' & r & F' & _ & b & FE)|[NL [(LA & b & FE)|(HB' & BE)]]].
      * destruct (first_line_pre _ _ _ _ FL (first_line_crlf _ _ _ F')) as (r' & F2 & ->).
        destruct (first_line_unique _ _ _ _ _ F2 F') as [-> ->]. exists b, r, rs. split; [exact O2|]. split; [reflexivity|]. rewrite FE. reflexivity.
      * exfalso. apply NL. set (all := t_buf t ++ content) in *. destruct FL as [FL FN].
        assert (P : has_crlf all).
        { assert (Q : all = firstn (length all) (line ++ CRLF ++ body)) by (rewrite <- FL, firstn_app, Nat.sub_diag, firstn_all; cbn [firstn]; symmetry; apply app_nil_r).
          rewrite app_assoc, firstn_app in Q. rewrite firstn_all2 in Q by (rewrite app_length; cbn [length CRLF]; lia). rewrite Q. apply crlf_prefix. exists line, []. rewrite app_nil_r. reflexivity. }
        destruct (first_line_pre _ _ _ _ (conj FL FN) P) as (r' & F2 & _). exists line, r'. auto.
      * destruct (IH (feed content t) line body HB' ltac:(rewrite BE; exact FL) LL) as (b & r & rs' & A1 & A2 & A3). eauto 10.
    + cbn [app] in FL. exact (IH t line body HB FL LL).
Qed.

Lemma feeds_no_line rs : outputs rs -> forall t, before t -> no_line (t_buf t ++ stdout rs) ->
  (before (feeds rs t) /\ t_buf (feeds rs t) = t_buf t ++ stdout rs /\ (length (t_buf t ++ stdout rs) < SBUF)%nat) \/
  ((SBUF <= length (t_buf t ++ stdout rs))%nat /\ exists b, feeds rs t = mkSt 42 b true (header 42 (s2b "CGI error"))).
Proof.
  intros O. induction O as [|[ty content] rs O1 O2 IH]; intros t HB NL.
  - left. cbn. rewrite app_nil_r. split; [exact HB|]. split; [reflexivity|]. destruct HB as (_ & _ & _ & L & _). exact L.
  - cbn [feeds]. pose proof HB as (C & D & S0 & L & NC). rewrite D. unfold stdout in *. cbn [flat_map fst snd] in *. fold (stdout rs) in *.
    destruct (ty =? 6).
    + rewrite app_assoc in NL |- *. destruct (feed_before t content HB) as [(l' & r & F' & LL & b & FE)|[_ [(LA & b & FE)|(HB' & BE)]]].
      * exfalso. apply NL. exists l', (r ++ stdout rs). split; [apply first_line_app; exact F'|exact LL].
      * right. split; [rewrite app_length; lia|]. exists b. rewrite FE. rewrite feeds_done by reflexivity. reflexivity.
      * rewrite <- BE. apply IH; [exact HB'|]. rewrite BE. exact NL.
    + cbn [app] in *. apply IH; assumption.
Qed.
End Machine.
