From Verif Require Import Base BaseLemmas Utf8 Utf8Spec Utf8_Proofs Iri IriSpec PathClean_Proofs Canon_Proofs Iri_Proofs.
Local Open Scope N_scope.

Lemma shape_suffix m pre s E J : shape m pre s E J -> cstr_at m (length pre) = Some s.
Proof. intros ((junk & ->) & _ & _ & Hn & _). apply cstr_at_app; auto. Qed.

Lemma shape_end m pre s E J : shape m pre s E J -> cstr_at m E = Some [].
Proof. intros (_ & _ & Hsk & _). unfold cstr_at. rewrite Hsk. reflexivity. Qed.

Lemma shape_pre m pre x a s E J : pre = x ++ a ++ [0] -> nonul a ->
  shape m pre s E J -> cstr_at m (length x) = Some a.
Proof.
  intros -> Ha ((junk & ->) & _). rewrite <- !app_assoc. cbn [app]. apply cstr_at_app; auto.
Qed.

Definition dec_from (i : N) (ds : list N) : N := fold_left (fun v d => v * 10 + (d - 48)) ds i.

Lemma dec_from_ge ds : forall i, i <= dec_from i ds.
Proof.
  induction ds as [|d ds IH]; intros i; cbn; [lia|].
  specialize (IH (i * 10 + (d - 48))). unfold dec_from in IH. lia.
Qed.

Lemma port_loop_spec : forall s fuel pre p E J i,
  (length s < fuel)%nat -> shape (mem p) pre s E J -> pos p = length pre -> i <= 65535 ->
  exists o p', port_loop fuel p i = OK (o, p') /\ mem p' = mem p /\ parsed p' = parsed p /\
  let '(ds, r) := span is_digit s in
  if dec_from i ds <=? 65535
  then o = Some (dec_from i ds) /\ perr p' = perr p /\ pos p' = length (pre ++ ds)
  else o = None.
Proof.
  induction s as [|c s IH]; intros fuel pre p E J i Hf Hsh Hpos Hi;
    (destruct fuel as [|fuel]; [cbn in Hf; lia|]); cbn [port_loop];
    rewrite Hpos, (shape_rd _ _ _ _ _ Hsh); cbn [hd bind].
  - change (is_digit 0) with false. cbn iota. cbn [span dec_from fold_left].
    unfold dec_from; cbn [fold_left]. destruct (N.leb_spec i 65535); [|lia].
    eexists _, _. split; [reflexivity|]. rewrite app_nil_r. auto.
  - cbn [span]. destruct (is_digit c) eqn:Ec.
    + assert (Hc : 48 <= c <= 57) by (unfold is_digit in Ec; lia).
      assert (Hi' : (i * 10 + c - 48) mod 2^32 = i * 10 + (c - 48)).
      { change (2^32) with 4294967296. rewrite N.mod_small; lia. }
      rewrite Hi'.
      destruct (span is_digit s) as [ds r] eqn:Es.
      assert (Hd : dec_from i (c :: ds) = dec_from (i * 10 + (c - 48)) ds) by reflexivity.
      rewrite Hd. destruct (N.ltb_spec 65535 (i * 10 + (c - 48))) as [Hlt|Hge].
      * pose proof (dec_from_ge ds (i * 10 + (c - 48))).
        destruct (N.leb_spec (dec_from (i * 10 + (c - 48)) ds) 65535); [lia|].
        eexists _, _. split; [reflexivity|]. auto.
      * destruct (IH fuel (pre ++ [c]) (set_pos p (S (length pre))) E J (i * 10 + (c - 48)))
          as (o & p' & F1 & F2 & F3 & F4); try (cbn in *; lia).
        { cbn. apply shape_shift. exact Hsh. }
        { cbn. rewrite app_length. cbn. lia. }
        exists o, p'. split; [exact F1|]. split; [exact F2|]. split; [exact F3|].
        destruct (dec_from (i * 10 + (c - 48)) ds <=? 65535); [|exact F4].
        destruct F4 as (G1 & G2 & G3). split; [exact G1|]. split; [exact G2|].
        rewrite G3, <- app_assoc. reflexivity.
    + unfold dec_from; cbn [fold_left]. destruct (N.leb_spec i 65535); [|lia].
      eexists _, _. split; [reflexivity|]. rewrite app_nil_r. auto.
Qed.

Definition f_port (s : list N) : option (list N * N * list N) :=
  let '(ds, r) := span is_digit s in
  if dec_from 0 ds <=? 65535 then
    match r with
    | [] => Some (ds, dec_from 0 ds, [])
    | c :: r' => if c =? 47 then Some (ds, dec_from 0 ds, r') else None
    end
  else None.

(** a field read back as [v], and not to be touched by what follows *)
Definition fieldok (m pre r : list N) (E off : nat) (v : list N) : Prop :=
  cstr_at m off = Some v /\
  ((off + length v + 1 <= length pre)%nat \/ r = [] \/ (off = E /\ v = [])).

Lemma parse_port_spec p pre s E J :
  shape (mem p) pre s E J -> pos p = length pre -> perr p = false ->
  exists b p', parse_port p = OK (b, p') /\
  match f_port s with
  | Some (ds, v, r) =>
    b = true /\ perr p' = false /\
    parsed p' = (let i := parsed p in mkIri (i_schema i) (i_host i) (length pre) v (i_path i) (i_query i) (i_fragment i)) /\
    exists pre', (exists x, pre' = pre ++ x) /\ shape (mem p') pre' r E J /\ pos p' = length pre' /\
                 fieldok (mem p') pre' r E (length pre) ds
  | None => b = false
  end.
Proof.
  intros Hsh Hpos Herr. unfold parse_port, f_port. cbn [mem pos set_parsed parsed perr].
  match goal with |- context[port_loop _ ?q _] => set (p0 := q) end.
  destruct (port_loop_spec s (S (length (mem p))) pre p0 E J 0) as (o & p1 & F1 & F2 & F3 & F4);
    [|exact Hsh|exact Hpos|lia|].
  { apply shape_len in Hsh. lia. }
  rewrite F1. cbn [bind].
  destruct (span is_digit s) as [ds r] eqn:Es. destruct (span_app _ _ _ _ Es) as (Et & Hd & _).
  destruct (N.leb_spec (dec_from 0 ds) 65535) as [Hle|Hgt].
  2:{ subst o. eexists _, _. split; reflexivity. }
  destruct F4 as (-> & F4 & F5).
  assert (Hs1 : shape (mem p1) (pre ++ ds) r E J).
  { rewrite F2. apply shape_shift. rewrite <- Et. exact Hsh. }
  assert (Hnd : nonul ds). { rewrite Et in Hsh. destruct Hsh as (_ & _ & _ & Q & _). apply nonul_app in Q. tauto. }
  rewrite F5, (shape_rd _ _ _ _ _ Hs1). cbn [bind].
  rewrite N.mod_small by (change (2^16) with 65536; lia).
  destruct r as [|c r]; cbn [hd].
  - cbn [N.eqb negb andb]. change (0 =? 47) with false. change (0 =? 0) with true. cbn [negb andb].
    eexists _, _. split; [reflexivity|]. split; [reflexivity|]. split; [cbn; rewrite F4; exact Herr|].
    split. { cbn. rewrite F3. cbn. rewrite Hpos. reflexivity. }
    exists (pre ++ ds). split; [eauto|]. split; [exact Hs1|]. split; [exact F5|].
    split; [|right; left; reflexivity]. cbn [mem set_parsed].
    rewrite F2. change (mem p0) with (mem p). rewrite Et, app_nil_r in Hsh.
    eapply shape_suffix; eauto.
  - assert (Hc0 : c <> 0). { destruct Hs1 as (_ & _ & _ & Q & _). apply nonul_cons in Q. tauto. }
    rewrite (nz_eqb c) by auto. cbn [negb andb]. rewrite andb_true_r.
    destruct (c =? 47) eqn:Ec; cbn [negb].
    2:{ eexists _, _. split; reflexivity. }
    destruct (shape_cut _ _ _ _ _ _ Hs1) as (m' & W & Hs').
    unfold put. cbn [mem pos set_parsed]. rewrite F5, W. cbn [bind].
    eexists _, _. split; [reflexivity|]. split; [reflexivity|]. split; [cbn; rewrite F4; exact Herr|].
    split. { cbn. rewrite F3. cbn. rewrite Hpos. reflexivity. }
    exists ((pre ++ ds) ++ [0]). split; [exists (ds ++ [0]); rewrite app_assoc; reflexivity|].
    cbn [mem pos set_pos set_mem]. split; [exact Hs'|]. split; [cbn; rewrite F5, !app_length; cbn; lia|].
    split.
    + eapply shape_pre; [|exact Hnd|exact Hs']. rewrite <- app_assoc. reflexivity.
    + left. rewrite !app_length. cbn. lia.
Qed.

Lemma strchr_loop_spec : forall s fuel pre m E J c,
  c <> 0 -> (length s < fuel)%nat -> shape m pre s E J ->
  strchr_loop fuel m (length pre) c =
  let '(h, u) := span (fun x => negb (x =? c)) s in
  OK (match u with [] => None | _ => Some (length pre + length h)%nat end).
Proof.
  induction s as [|x s IH]; intros fuel pre m E J c Hc Hf Hsh;
    (destruct fuel as [|fuel]; [cbn in Hf; lia|]); cbn [strchr_loop];
    rewrite (shape_rd _ _ _ _ _ Hsh); cbn [hd bind span].
  - destruct (N.eqb_spec 0 c); [congruence|]. reflexivity.
  - assert (Hx : x <> 0). { destruct Hsh as (_ & _ & _ & Q & _). apply nonul_cons in Q. tauto. }
    destruct (N.eqb_spec x c); cbn [negb].
    + f_equal. f_equal. cbn. lia.
    + rewrite nz_eqb by auto.
      replace (S (length pre)) with (length (pre ++ [x])) by (rewrite app_length; cbn; lia).
      rewrite (IH fuel (pre ++ [x]) m E J c); auto; [| cbn in Hf; lia | apply shape_shift; exact Hsh].
      destruct (span _ s) as [h u]. destruct u; [reflexivity|]. rewrite app_length. cbn. f_equal. f_equal. lia.
Qed.

Definition f_host (ip6 : list N -> bool) (s : list N) : option (list N * list N) :=
  match s with
  | [] => Some ([], [])
  | c :: t =>
    if c =? 91 then
      let '(h, u) := span (fun x => negb (x =? 93)) t in
      match u with
      | _ :: r => if ip6 h then Some (h, r) else None
      | [] => None
      end
    else match fscan host_char true (S (length s)) s with
         | Some (o, r) => Some (map to_lower o, r)
         | None => None
         end
  end.

Definition f_auth (ip6 : list N -> bool) (s : list N) : option (list N * list N * N * list N) :=
  match f_host ip6 s with
  | None => None
  | Some (h, r) =>
    match r with
    | [] => Some (h, [], 1965, [])
    | c :: r' =>
      if c =? 58 then
        match f_port r' with Some (ds, v, r2) => Some (h, ds, v, r2) | None => None end
      else if c =? 47 then Some (h, [], 1965, r') else None
    end
  end.

Lemma goodcls_host : goodcls host_char.
Proof.
  intros c. unfold host_char, unreserved, sub_delimiters, is_alnum, is_alpha, is_upper, is_lower, is_digit. lia.
Qed.
Lemma goodcls_path : goodcls path_char.
Proof.
  intros c. unfold path_char, unreserved, sub_delimiters, is_alnum, is_alpha, is_upper, is_lower, is_digit. lia.
Qed.
Lemma goodcls_query : goodcls query_char.
Proof.
  intros c. unfold query_char, unreserved, sub_delimiters, is_alnum, is_alpha, is_upper, is_lower, is_digit. lia.
Qed.

Lemma map_lower_nonul o : nonul o -> bytes o -> nonul (map to_lower o).
Proof.
  intros H1 H2. apply Forall_map, Forall_forall. intros x Hx. apply to_lower_ok;
  [eapply Forall_forall in H1|eapply Forall_forall in H2]; eauto.
Qed.

(** decoded output of a scan is a C string *)
Lemma fscan_nonul ok n : forall s o r, goodcls ok -> nonul s -> bytes s ->
  fscan ok true n s = Some (o, r) -> nonul o /\ bytes o.
Proof.
  induction n as [|n IH]; intros s o r Hok Hn Hb H.
  { inversion H; subst. split; constructor. }
  rewrite fscan_S in H. unfold gstep in H. destruct s as [|c t].
  { inversion H; subst. split; constructor. }
  assert (Hn' := Hn). assert (Hb' := Hb). apply nonul_cons in Hn'. apply bytes_cons in Hb'.
  destruct (ok c).
  { destruct (fscan ok true n t) as [[o' r']|] eqn:E; [|discriminate]. inversion H; subst.
    destruct (IH t o' r Hok) as [A B]; try tauto.
    split; [apply nonul_cons|apply bytes_cons]; tauto. }
  destruct (c =? 37).
  { destruct t as [|a [|b t]]; try discriminate. destruct (okpct a b) eqn:Eo; [|discriminate].
    destruct (fscan ok true n t) as [[o' r']|] eqn:E; [|discriminate]. inversion H; subst.
    destruct Hn' as [_ Hn']. apply nonul_cons in Hn'. destruct Hn' as [_ Hn']. apply nonul_cons in Hn'.
    destruct Hb' as [_ Hb']. apply bytes_cons in Hb'. destruct Hb' as [_ Hb']. apply bytes_cons in Hb'.
    destruct (IH t o' r Hok) as [A B]; try tauto.
    unfold okpct in Eo. apply andb_true_iff in Eo. destruct Eo as [Eo Ez].
    apply andb_true_iff in Eo. destruct Eo as [Ea Eb]. apply negb_true_iff in Ez.
    destruct (xdigit_val a b Ea Eb Ez).
    split; [apply nonul_cons|apply bytes_cons]; tauto. }
  destruct (c <? 128).
  { inversion H; subst. split; constructor. }
  destruct (mb_len (c :: t)) as [k|] eqn:Em; [|discriminate].
  destruct (fscan ok true n (skipn k (c :: t))) as [[o' r']|] eqn:E; [|discriminate].
  inversion H; subst. rewrite <- (firstn_skipn k (c :: t)) in Hn, Hb.
  apply nonul_app in Hn. apply bytes_app in Hb.
  destruct (IH (skipn k (c :: t)) o' r Hok) as [A B]; try tauto.
  split; [apply nonul_app|apply bytes_app]; tauto.
Qed.

Definition set_host (i : iri) (h : nat) : iri :=
  mkIri (i_schema i) h (i_port i) (i_port_no i) (i_path i) (i_query i) (i_fragment i).

(** the host part of parse_authority, up to the delimiter *)
Definition auth_head (ip6 : list N -> bool) (p : pst) : res (bool * pst) :=
  let* c := rd (mem p) (pos p) in
    if c =? 91 then
      let p := set_pos p (S (pos p)) in
      let i := parsed p in
      let p := set_parsed p (mkIri (i_schema i) (pos p) (i_port i) (i_port_no i)
                                   (i_path i) (i_query i) (i_fragment i)) in
      let* e := strchr_loop (S (length (mem p))) (mem p) (pos p) 93 in
      match e with
      | None => OK (false, set_err p)
      | Some e =>
        let* m := wr (mem p) e 0 in
        let p := set_pos (set_mem p m) (S e) in
        match cstr_at (mem p) (i_host (parsed p)) with
        | None => UB
        | Some h => if ip6 h then OK (true, p) else OK (false, set_err p)
        end
      end
    else
      let i := parsed p in
      let p := set_parsed p (mkIri (i_schema i) (pos p) (i_port i) (i_port_no i)
                                   (i_path i) (i_query i) (i_fragment i)) in
      let* p1 := host_loop (S (length (mem p))) p in
      OK (negb (perr p1), p1).

Lemma parse_authority_head ip6 p :
  parse_authority ip6 p =
  let* (ok, p1) := auth_head ip6 p in
  if negb ok then OK (false, p1) else
  let* c := rd (mem p1) (pos p1) in
  if c =? 58 then
    let* p2 := put p1 0 in
    parse_port (set_pos p2 (S (pos p2)))
  else
    let i := parsed p1 in
    let p2 := set_parsed p1 (mkIri (i_schema i) (i_host i) (i_port i) 1965
                                   (i_path i) (i_query i) (i_fragment i)) in
    if c =? 47 then
      let* p3 := put p2 0 in OK (true, set_pos p3 (S (pos p3)))
    else if c =? 0 then OK (true, p2)
    else OK (false, set_err p2).
Proof.
  unfold parse_authority, auth_head. destruct (rd (mem p) (pos p)); reflexivity.
Qed.

Lemma auth_head_spec ip6 p pre s E J :
  shape (mem p) pre s E J -> pos p = length pre -> perr p = false ->
  exists b p', auth_head ip6 p = OK (b, p') /\
  match f_host ip6 s with
  | Some (h, r) => b = true /\ perr p' = false /\
     exists pre' hp, (exists x, pre' = pre ++ x) /\ shape (mem p') pre' r E J /\ pos p' = length pre' /\
       parsed p' = set_host (parsed p) hp /\ nonul h /\
       ((exists z, pre' = z ++ h /\ hp = length z) \/ (exists z, pre' = z ++ h ++ [0] /\ hp = length z))
  | None => b = false
  end.
Proof.
  intros Hsh Hpos Herr. unfold auth_head. rewrite Hpos, (shape_rd _ _ _ _ _ Hsh). cbn [bind].
  unfold f_host. destruct s as [|c t].
  { cbn [hd]. change (0 =? 91) with false. cbn iota. cbn [mem set_parsed].
    match goal with |- context[host_loop _ ?q] => set (p0 := q) end.
    destruct (host_loop_spec host_char 0 [] (S (length (mem p))) pre p0 E J) as (p1 & F1 & F2 & F3);
      auto; try exact goodcls_host.
    { apply shape_len in Hsh. lia. }
    rewrite F1. cbn [bind]. cbn in F3. destruct F3 as (G1 & G2 & G3). rewrite G1.
    rewrite app_nil_r in G2.
    eexists _, _. split; [reflexivity|]. split; [reflexivity|]. split; [exact G1|].
    exists pre, (length pre). split; [exists []; rewrite app_nil_r; reflexivity|]. split; [exact G2|].
    split; [lia|]. split; [rewrite F2; cbn; reflexivity|]. split; [constructor|].
    left. exists pre. rewrite app_nil_r. auto. }
  cbn [hd].
  destruct (c =? 91) eqn:Ec.
  { cbn [mem set_parsed set_pos parsed pos].
    assert (Hs1 : shape (mem p) (pre ++ [c]) t E J) by (apply shape_shift; exact Hsh).
    assert (L1 : S (length pre) = length (pre ++ [c])) by (rewrite app_length; cbn; lia).
    rewrite L1, (strchr_loop_spec t _ (pre ++ [c]) (mem p) E J 93); auto; try lia.
    2:{ apply shape_len in Hs1. lia. }
    destruct (span (fun x => negb (x =? 93)) t) as [h u] eqn:Es.
    destruct (span_app _ _ _ _ Es) as (Et & Hh & Hu). cbn [bind].
    destruct u as [|x r].
    { eexists _, _. split; reflexivity. }
    rewrite Et in Hs1. assert (Hs2 := shape_shift _ _ _ _ _ _ Hs1).
    destruct (shape_cut _ _ _ _ _ _ Hs2) as (m' & W & Hs').
    assert (Hnh : nonul h). { destruct Hs1 as (_ & _ & _ & Q & _). apply nonul_app in Q. tauto. }
    rewrite <- app_length, W. cbn [bind mem set_mem parsed set_pos set_parsed i_host].
    rewrite (shape_pre m' (((pre ++ [c]) ++ h) ++ [0]) (pre ++ [c]) h r E J);
      [|rewrite <- !app_assoc; reflexivity|exact Hnh|exact Hs'].
    destruct (ip6 h).
    2:{ eexists _, _. split; reflexivity. }
    eexists _, _. split; [reflexivity|]. split; [reflexivity|]. split; [exact Herr|].
    exists (((pre ++ [c]) ++ h) ++ [0]), (length (pre ++ [c])).
    split; [exists ([c] ++ h ++ [0]); rewrite <- !app_assoc; reflexivity|].
    split; [exact Hs'|]. split; [cbn; rewrite !app_length; cbn; lia|].
    split; [reflexivity|]. split; [exact Hnh|]. right. exists (pre ++ [c]). rewrite <- !app_assoc. auto. }
  cbn [mem set_parsed].
  match goal with |- context[host_loop _ ?q] => set (p0 := q) end.
  destruct (host_loop_spec host_char (length (c :: t)) (c :: t) (S (length (mem p))) pre p0 E J)
    as (p1 & F1 & F2 & F3); auto; try exact goodcls_host.
  { apply shape_len in Hsh. lia. }
  rewrite F1. cbn [bind].
  destruct (fscan host_char true (S (length (c :: t))) (c :: t)) as [[o r]|] eqn:Ef.
  2:{ rewrite F3. eexists _, _. split; reflexivity. }
  destruct F3 as (G1 & G2 & G3). rewrite G1.
  destruct (fscan_nonul _ _ _ _ _ goodcls_host (proj1 (proj2 (proj2 (proj2 Hsh))))
             (proj2 (proj2 (proj2 (proj2 Hsh)))) Ef) as [Q1 Q2].
  eexists _, _. split; [reflexivity|]. split; [reflexivity|]. split; [exact G1|].
  exists (pre ++ map to_lower o), (length pre). split; [eauto|]. split; [exact G2|].
  split; [rewrite app_length, map_length; exact G3|]. split; [rewrite F2; cbn; reflexivity|].
  split; [apply map_lower_nonul; auto|]. left. eauto.
Qed.

Lemma parse_authority_spec ip6 p pre s E J :
  shape (mem p) pre s E J -> pos p = length pre -> perr p = false -> i_port (parsed p) = E ->
  exists b p', parse_authority ip6 p = OK (b, p') /\
  match f_auth ip6 s with
  | Some (h, po, no, r) => b = true /\ perr p' = false /\
     exists pre' hp pp, (exists x, pre' = pre ++ x) /\ shape (mem p') pre' r E J /\ pos p' = length pre' /\
       parsed p' = (let i := parsed p in mkIri (i_schema i) hp pp no (i_path i) (i_query i) (i_fragment i)) /\
       fieldok (mem p') pre' r E hp h /\ fieldok (mem p') pre' r E pp po
  | None => b = false
  end.
Proof.
  intros Hsh Hpos Herr Hport. rewrite parse_authority_head.
  destruct (auth_head_spec ip6 p pre s E J Hsh Hpos Herr) as (b & p1 & E1 & H).
  rewrite E1. cbn [bind]. unfold f_auth. destruct (f_host ip6 s) as [[h r]|].
  2:{ subst b. eexists _, _. split; reflexivity. }
  destruct H as (-> & Herr1 & pre1 & hp & (x1 & Hx1) & Hs1 & Hpos1 & Hpar & Hnh & Hz). cbn [negb].
  rewrite Hpos1, (shape_rd _ _ _ _ _ Hs1). cbn [bind].
  assert (Hport1 : i_port (parsed p1) = E) by (rewrite Hpar; exact Hport).
  (* host as a field once a NUL follows *)
  assert (Hcut : forall m' r', shape m' (pre1 ++ [0]) r' E J -> fieldok m' (pre1 ++ [0]) r' E hp h).
  { intros m' r' Hm'. destruct Hz as [(z & -> & ->)|(z & -> & ->)]; split.
    - eapply shape_pre; [|exact Hnh|exact Hm']. rewrite <- app_assoc. reflexivity.
    - left. rewrite !app_length. cbn. lia.
    - destruct Hm' as ((junk & ->) & _). rewrite <- !app_assoc. cbn [app]. apply cstr_at_app; auto.
    - left. rewrite !app_length. cbn. lia. }
  assert (Hdef : forall m' r', shape m' (pre1 ++ [0]) r' E J -> fieldok m' (pre1 ++ [0]) r' E E []).
  { intros m' r' Hm'. split; [eapply shape_end; eauto|]. right; right; auto. }
  destruct r as [|c r]; cbn [hd].
  - change (0 =? 58) with false. change (0 =? 47) with false. change (0 =? 0) with true. cbn iota.
    eexists _, _. split; [reflexivity|]. split; [reflexivity|]. split; [exact Herr1|].
    exists pre1, hp, E. split; [eauto|]. split; [exact Hs1|]. split; [exact Hpos1|].
    split. { cbn. rewrite Hpar. cbn. rewrite Hport. reflexivity. }
    cbn [mem set_parsed]. split; split; try (right; left; reflexivity).
    + destruct Hz as [(z & -> & ->)|(z & -> & ->)].
      * destruct Hs1 as ((junk & ->) & _). rewrite <- app_assoc. cbn [app]. apply cstr_at_app; auto.
      * eapply shape_pre; [reflexivity|exact Hnh|exact Hs1].
    + eapply shape_end; eauto.
  - assert (Hc0 : c <> 0). { destruct Hs1 as (_ & _ & _ & Q & _). apply nonul_cons in Q. tauto. }
    destruct (c =? 58) eqn:Ec.
    + destruct (shape_cut _ _ _ _ _ _ Hs1) as (m' & W & Hs').
      unfold put. rewrite Hpos1, W. cbn [bind pos set_mem].
      match goal with |- context[parse_port ?q] => set (p2 := q) end.
      destruct (parse_port_spec p2 (pre1 ++ [0]) r E J) as (b & p3 & F1 & F2).
      { exact Hs'. } { cbn. rewrite Hpos1, app_length. cbn. lia. } { exact Herr1. }
      rewrite F1. eexists _, _. split; [reflexivity|].
      destruct (f_port r) as [[[ds v] r2]|]; [|exact F2].
      destruct F2 as (-> & G1 & G2 & pre3 & (x3 & Hx3) & G3 & G4 & G5).
      split; [reflexivity|]. split; [exact G1|].
      exists pre3, hp, (length (pre1 ++ [0])).
      split. { exists (x1 ++ [0] ++ x3). rewrite Hx3, Hx1, <- !app_assoc. reflexivity. }
      split; [exact G3|]. split; [exact G4|].
      split. { rewrite G2. cbn. rewrite Hpar. reflexivity. }
      split; [|exact G5].
      (* host field still intact: it lies in the prefix *)
      split.
      * destruct G3 as ((junk & ->) & _). rewrite Hx3.
        destruct Hz as [(z & -> & ->)|(z & -> & ->)]; rewrite <- !app_assoc; cbn [app]; apply cstr_at_app; auto.
      * left. rewrite Hx3. destruct Hz as [(z & -> & ->)|(z & -> & ->)]; rewrite !app_length; cbn; lia.
    + destruct (c =? 47) eqn:Ec2.
      * destruct (shape_cut _ _ _ _ _ _ Hs1) as (m' & W & Hs').
        unfold put. cbn [pos mem set_parsed]. rewrite Hpos1, W. cbn [bind].
        eexists _, _. split; [reflexivity|]. split; [reflexivity|]. split; [exact Herr1|].
        exists (pre1 ++ [0]), hp, E.
        split. { exists (x1 ++ [0]). rewrite Hx1, <- app_assoc. reflexivity. }
        split; [exact Hs'|]. split. { cbn. rewrite Hpos1, app_length. cbn. lia. }
        split. { cbn. rewrite Hpar. cbn. rewrite Hport. reflexivity. }
        split; [apply Hcut; exact Hs'|apply Hdef; exact Hs'].
      * rewrite nz_eqb by auto. eexists _, _. split; reflexivity.
Qed.
