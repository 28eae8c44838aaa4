From Verif Require Import Base BaseLemmas Compat Compat_Proofs Memmem_Proofs Prop_Compat RequestSpec Iri_Last_Proofs Fmt ProxyProto ProxyProtoSpec ProxyProto_Proofs.
Local Open Scope N_scope.

Lemma some_inj {A} (x y : A) : Some x = Some y -> x = y.
Proof. congruence. Qed.
Lemma memmem_has_crlf data len m : bytes data -> (len <= length data)%nat -> memmem data len [13; 10] = OK (Some m) -> has_crlf (firstn len data).
Proof.
  intros B L MM. destruct (c40_memmem_first data len [13; 10] B ltac:(repeat constructor; lia) L) as (r & R & X).
  rewrite MM in R. injection R as <-. destruct X as ((a & b & X & _) & _). exists a, b. exact X.
Qed.
Section Read.
Variable gai : N -> list N -> option (list N).
Variable gni : list N -> option (list N).
Variable junk : nat.
Variables host0 serv0 : list N.

Definition waiting (R G : list N) (q : pconn) : Prop :=
  G = [] /\ (length R <= 107)%nat /\ ~ has_crlf R /\ q = mkP true (mkBuf (R ++ repeat 0 (108 - length R)) (length R) 0 false) host0 serv0.
Definition named (h : list N) (q : pconn) : Prop :=
  exists src sport, lenient_v1 gai h src sport /\ (length h <= 107)%nat /\ gni src = Some (q_rhost q) /\ q_rserv q = dec sport.
Definition trailing (R G : list N) (q : pconn) : Prop :=
  exists h t, R = h ++ t /\ named h q /\ q_on q = true /\ b_tail (q_buf q) = true /\
    (b_pos (q_buf q) < b_len (q_buf q) < length (b_data (q_buf q)))%nat /\ G ++ held q = t.
Definition through (R G : list N) (q : pconn) : Prop :=
  exists h, R = h ++ G /\ named h q /\ q_on q = false.
Definition refusedc (R G : list N) (q : pconn) : Prop :=
  G = [] /\ held q = [] /\ forall h t src sport, lenient_v1 gai h src sport -> (length h <= 107)%nat -> R = h ++ t -> has_crlf R -> gni src = None.
Definition good (R G : list N) (q : pconn) : Prop := waiting R G q \/ trailing R G q \/ through R G q.

Lemma settle_good R G h t data rhost serv : (length h <= 107)%nat -> R = h ++ t -> G = [] -> (length R < length data)%nat ->
  firstn (length R - length h) (skipn (length h) data) = t ->
  named h (mkP true (mkBuf data (length R) (length h) true) rhost serv) -> good R G (settle (length h) data (length R) rhost serv).
Proof.
  intros LH E -> LD SK NM. unfold settle. destruct (Nat.ltb_spec (length h) (length R)) as [L|L].
  - right. left. exists h, t. split; [exact E|]. split; [exact NM|]. split; [reflexivity|]. split; [reflexivity|]. cbn [q_buf b_pos b_len b_data]. split; [lia|]. exact SK.
  - right. right. exists h. assert (t = []) by (rewrite E, app_length in L; destruct t; [reflexivity|cbn in L; lia]). split; [congruence|]. split; [exact NM|reflexivity].
Qed.

Lemma dropn {A} (a b : list A) : skipn (length a) (a ++ b) = b.
Proof. rewrite skipn_app, Nat.sub_diag, skipn_all. reflexivity. Qed.

Lemma read_cb_good R G q buflen a ret l q1 : bytes (R ++ l) -> good R G q -> read_cb gai gni junk q buflen a = Some (OK (ret, l, q1)) -> ~ unknown_v1 (R ++ l) ->
  match ret with
  | RcWant => good (R ++ l) G q1
  | RcData d => good (R ++ l) (G ++ d) q1
  | RcFail => good (R ++ l) G q1 \/ refusedc (R ++ l) G q1
  end.
Proof.
  intros BY HG. unfold read_cb. destruct HG as [(-> & LR & NC & ->)|[(h & t & E & NM & ON & TL & LP & HE)|(h & E & NM & ON)]].
  - cbn [q_on q_buf negb b_tail b_len b_data b_pos q_rhost q_rserv]. unfold BUFLAYER_MAX. intros RC NU.
    assert (SAME : good R [] (mkP true (mkBuf (R ++ repeat 0 (108 - length R)) (length R) 0 false) host0 serv0)) by (left; repeat split; auto).
    destruct (Nat.eqb_spec (108 - length R - 1) 0) as [Z|Z].
    { injection RC as <- <- <-. rewrite app_nil_r. left. exact SAME. }
    destruct a as [| |[|x l']]; try (injection RC as <- <- <-; rewrite app_nil_r; auto; fail).
    set (L := x :: l') in *. destruct (Nat.leb_spec (length L) (108 - length R - 1)) as [LL|LL]; [|discriminate]. cbn [negb] in RC.
    assert (DA : firstn (length R) (R ++ repeat 0 (108 - length R)) ++ L ++ skipn (length R + length L) (R ++ repeat 0 (108 - length R)) = (R ++ L) ++ repeat 0 (S (107 - length (R ++ L)))).
    { rewrite firstn_app, firstn_all, Nat.sub_diag, app_nil_r, <- app_assoc. f_equal. f_equal. rewrite skipn_app.
      rewrite skipn_all2 by lia. cbn [app]. replace (length R + length L - length R)%nat with (length L) by lia.
      rewrite app_length. replace (108 - length R)%nat with (length L + S (107 - (length R + length L)))%nat by lia.
      rewrite repeat_app. rewrite <- (repeat_length 0 (length L)) at 1. apply dropn. }
    rewrite DA in RC. assert (LN : (length R + length L = length (R ++ L))%nat) by (rewrite app_length; reflexivity). rewrite LN in RC.
    apply some_inj in RC.
    set (data := (R ++ L) ++ repeat 0 (S (107 - length (R ++ L)))) in *.
    assert (LE : l = L).
    { destruct (memmem data (length (R ++ L)) [13; 10]) as [[r|]| |]; try discriminate; cbn [bind] in RC.
      - destruct (proxy_proto_v1_parse gai data (length (R ++ L))) as [[| |w s1 s2 p1 p2 [dn rs]]| |]; try discriminate; cbn [bind] in RC; try (injection RC as _ <- _; reflexivity).
        destruct (gni s1); injection RC as _ <- _; reflexivity.
      - injection RC as _ <- _. reflexivity. }
    subst l. assert (BD : bytes data).
    { apply Forall_app. split; [exact BY|]. apply Forall_forall. intros y Y. apply repeat_spec in Y. lia. }
    destruct (crlf_memmem data (length (R ++ L)) BD ltac:(unfold data; rewrite (app_length (R ++ L)); lia)) as (m & MM & MS). rewrite MM in RC. cbn [bind] in RC.
    assert (FD : firstn (length (R ++ L)) data = R ++ L) by (unfold data; rewrite firstn_app, firstn_all, Nat.sub_diag, app_nil_r; reflexivity). rewrite FD in MS.
    assert (L107 : (length (R ++ L) <= 107)%nat) by lia.
    destruct m as [m|].
    + destruct (parse_spec gai (R ++ L) (107 - length (R ++ L)) BY) as (p & PP & P1 & P2 & P3 & P4). fold data in PP, P2. rewrite PP in RC. cbn [bind] in RC.
      destruct p as [| |w src dst sport dport [done rest]].
      * injection RC as <- <-. right. split; [reflexivity|]. split; [reflexivity|]. intros h t src sport LH _ E HC. exfalso.
        destruct (P4 _ _ _ _ LH E HC) as (w & dst & dp & dn & X). discriminate.
      * exfalso. apply NU. auto.
      * destruct (P2 _ _ _ _ _ _ _ eq_refl) as (h & t & LH & E & LD & ER).
        assert (LH7 : (length h <= 107)%nat) by (rewrite E, app_length in L107; lia).
        destruct (gni src) as [rh|] eqn:GN; injection RC as <- <-.
        -- rewrite LD. apply (settle_good (R ++ L) [] h t); auto.
           ++ rewrite E, ER. rewrite !app_length, repeat_length, LD. lia.
           ++ rewrite <- LD, dropn, ER, E, app_length. rewrite LD. replace (length h + length t - length h)%nat with (length t) by lia.
              rewrite firstn_app, firstn_all, Nat.sub_diag, app_nil_r. reflexivity.
           ++ exists src, sport. auto.
        -- right. split; [reflexivity|]. split; [reflexivity|]. intros h' t' src' sport' LH' _ E' HC.
           destruct (P4 _ _ _ _ LH' E' HC) as (w' & dst' & dp' & dn & X). injection X as _ <- _ _ _ _ _. exact GN.
    + injection RC as <- <-. left. split; [reflexivity|]. split; [exact L107|]. split; [apply MS; reflexivity|].
      unfold data. replace (S (107 - length (R ++ L)))%nat with (108 - length (R ++ L))%nat by lia. reflexivity.
  - rewrite ON, TL. cbn [negb]. intros RC NU. injection RC as <- <- <-. rewrite app_nil_r.
    assert (HL : held q = firstn (b_len (q_buf q) - b_pos (q_buf q)) (skipn (b_pos (q_buf q)) (b_data (q_buf q)))) by (unfold held; rewrite ON, TL; reflexivity).
    set (left := (b_len (q_buf q) - b_pos (q_buf q))%nat) in *. set (copy := Nat.min buflen left) in *.
    destruct (Nat.eqb_spec left copy) as [Q|Q]; cbn [negb].
    + right. right. exists h. split; [|split; [exact NM|reflexivity]]. rewrite <- Q, <- HL, HE. exact E.
    + right. left. exists h, t. split; [exact E|]. split; [exact NM|]. split; [reflexivity|]. split; [reflexivity|]. cbn [q_buf b_pos b_len b_data]. split; [lia|].
      rewrite <- HE, HL, <- app_assoc. f_equal. unfold held. cbn [q_on q_buf b_tail b_len b_pos b_data andb].
      replace left with (copy + (left - copy))%nat at 1 by lia. replace (b_len (q_buf q) - (b_pos (q_buf q) + copy))%nat with (left - copy)%nat by lia.
      set (Y := skipn (b_pos (q_buf q)) (b_data (q_buf q))). replace (skipn (b_pos (q_buf q) + copy) (b_data (q_buf q))) with (skipn copy Y).
      2:{ unfold Y. clearbody copy. clear. generalize (b_data (q_buf q)). induction (b_pos (q_buf q)) as [|m IH]; intros z; [reflexivity|]. destruct z; [cbn; apply skipn_nil|]. exact (IH z). }
      clearbody Y copy left. clear. revert Y. generalize (left - copy)%nat. induction copy as [|n IH]; intros k Y; [reflexivity|]. destruct Y as [|y Y]; [cbn; rewrite firstn_nil; reflexivity|].
      cbn [Nat.add firstn skipn app]. f_equal. apply IH.
  - rewrite ON. cbn [negb]. intros RC NU. destruct a as [| |d].
    + injection RC as <- <- <-. rewrite app_nil_r. right. right. exists h. auto.
    + injection RC as <- <- <-. rewrite app_nil_r. left. right. right. exists h. auto.
    + destruct (length d <=? buflen)%nat; [|discriminate]. injection RC as <- <- <-. right. right. exists h. split; [rewrite E, app_assoc; reflexivity|auto].
Qed.

(** why a connection is refused *)
Lemma read_cb_fail R G q buflen a l q1 : bytes (R ++ l) -> good R G q -> read_cb gai gni junk q buflen a = Some (OK (RcFail, l, q1)) ->
  a = RFail \/ (length R = 107%nat /\ l = [] /\ ~ has_crlf R) \/
  (has_crlf (R ++ l) /\ forall h t src sport, lenient_v1 gai h src sport -> R ++ l = h ++ t -> gni src = None).
Proof.
  intros BY HG. unfold read_cb. destruct HG as [(-> & LR & NC & ->)|[(h & t & E & NM & ON & TL & LP & HE)|(h & E & NM & ON)]].
  2:{ rewrite ON, TL. discriminate. }
  2:{ rewrite ON. cbn [negb]. destruct a; try discriminate; [auto|]. destruct (_ <=? _)%nat; discriminate. }
  cbn [q_on q_buf negb b_tail b_len b_data b_pos q_rhost q_rserv]. unfold BUFLAYER_MAX. intros RC.
  destruct (Nat.eqb_spec (108 - length R - 1) 0) as [Z|Z].
  { injection RC as <- <-. right. left. split; [lia|auto]. }
  destruct a as [| |[|x l']]; [discriminate|auto|discriminate|]. right. right.
  set (L := x :: l') in *. destruct (Nat.leb_spec (length L) (108 - length R - 1)) as [LL|LL]; [|discriminate]. cbn [negb] in RC.
  assert (DA : firstn (length R) (R ++ repeat 0 (108 - length R)) ++ L ++ skipn (length R + length L) (R ++ repeat 0 (108 - length R)) = (R ++ L) ++ repeat 0 (S (107 - length (R ++ L)))).
  { rewrite firstn_app, firstn_all, Nat.sub_diag, app_nil_r, <- app_assoc. f_equal. f_equal. rewrite skipn_app.
    rewrite skipn_all2 by lia. cbn [app]. replace (length R + length L - length R)%nat with (length L) by lia.
    rewrite app_length. replace (108 - length R)%nat with (length L + S (107 - (length R + length L)))%nat by lia.
    rewrite repeat_app. rewrite <- (repeat_length 0 (length L)) at 1. apply dropn. }
  rewrite DA in RC. assert (LN : (length R + length L = length (R ++ L))%nat) by (rewrite app_length; reflexivity). rewrite LN in RC.
  apply some_inj in RC.
  set (data := (R ++ L) ++ repeat 0 (S (107 - length (R ++ L)))) in *.
  assert (LE : l = L).
  { destruct (memmem data (length (R ++ L)) [13; 10]) as [[r|]| |]; try discriminate; cbn [bind] in RC.
    destruct (proxy_proto_v1_parse gai data (length (R ++ L))) as [[| |w s1 s2 p1 p2 [dn rs]]| |]; try discriminate; cbn [bind] in RC; try (injection RC as <- _; reflexivity).
    destruct (gni s1); [discriminate|]. injection RC as <- _; reflexivity. }
  subst l. assert (BD : bytes data).
  { apply Forall_app. split; [exact BY|]. apply Forall_forall. intros y Y. apply repeat_spec in Y. lia. }
  destruct (crlf_memmem data (length (R ++ L)) BD ltac:(unfold data; rewrite (app_length (R ++ L)); lia)) as (m & MM & MS). rewrite MM in RC. cbn [bind] in RC.
  assert (FD : firstn (length (R ++ L)) data = R ++ L) by (unfold data; rewrite firstn_app, firstn_all, Nat.sub_diag, app_nil_r; reflexivity). rewrite FD in MS.
  destruct m as [m|]; [|discriminate].
  destruct (parse_spec gai (R ++ L) (107 - length (R ++ L)) BY) as (p & PP & P1 & P2 & P3 & P4). fold data in PP, P2. rewrite PP in RC. cbn [bind] in RC.
  assert (HC : has_crlf (R ++ L)).
  { destruct (memmem_has_crlf data (length (R ++ L)) m BD ltac:(unfold data; rewrite (app_length (R ++ L)); lia) MM) as (u & v & X). rewrite FD in X. exists u, v. exact X. }
  split; [exact HC|]. intros h t src sport LH E.
  destruct (P4 _ _ _ _ LH E HC) as (w & dst & dp & dn & X). subst p. destruct (gni src); [discriminate|reflexivity].
Qed.

Lemma unknown_app R x : unknown_v1 R -> unknown_v1 (R ++ x).
Proof. intros [(t & ->)|(t & ->)]; [left|right]; exists (t ++ x); rewrite <- app_assoc; reflexivity. Qed.

Lemma calls_good q R G q' ok : calls gai gni junk q R G q' ok -> forall R0 G0, bytes (R0 ++ R) -> good R0 G0 q -> ~ unknown_v1 (R0 ++ R) ->
  good (R0 ++ R) (G0 ++ G) q' \/ (ok = false /\ refusedc (R0 ++ R) (G0 ++ G) q').
Proof.
  induction 1 as [q|q buflen a l q1 r g q2 ok RC CS IH|q buflen a d l q1 r g q2 ok RC CS IH|q buflen a l q1 RC]; intros R0 G0 BY HG NU.
  - rewrite !app_nil_r. left. exact HG.
  - rewrite app_assoc in BY, NU |- *. apply IH; auto.
    refine (read_cb_good R0 G0 q buflen a RcWant l q1 _ HG RC _); [apply Forall_app in BY; apply BY|intros X; apply NU, unknown_app, X].
  - rewrite app_assoc in BY, NU |- *. rewrite (app_assoc G0). apply IH; auto.
    refine (read_cb_good R0 G0 q buflen a (RcData d) l q1 _ HG RC _); [apply Forall_app in BY; apply BY|intros X; apply NU, unknown_app, X].
  - rewrite app_nil_r. destruct (read_cb_good R0 G0 q buflen a RcFail l q1 BY HG RC NU); auto.
Qed.
Lemma accepted_good : good [] [] (accepted true host0 serv0).
Proof. left. split; [reflexivity|]. split; [cbn; lia|]. split; [intros (a & b & X); destruct a; discriminate|]. reflexivity. Qed.

(** [read_cb] never does anything undefined *)
Lemma read_cb_safe R G q buflen a r : bytes (R ++ match a with RData l => l | _ => [] end) -> good R G q -> read_cb gai gni junk q buflen a = Some r -> exists x, r = OK x.
Proof.
  intros BY HG. unfold read_cb. destruct (q_on q) eqn:ON; cbn [negb].
  2:{ destruct a as [| |d]; intros X; try (injection X as <-; eexists; reflexivity). destruct (_ <=? _)%nat; [injection X as <-; eexists; reflexivity|discriminate]. }
  destruct (b_tail (q_buf q)) eqn:TL; [intros X; injection X as <-; eexists; reflexivity|].
  destruct HG as [(-> & LR & NC & ->)|[(h & t & E & NM & _ & TL' & _)|(h & E & NM & ON')]]; try congruence.
  cbn [q_buf b_len b_data q_rhost q_rserv b_pos]. destruct (_ =? 0)%nat; [intros X; injection X as <-; eexists; reflexivity|].
  destruct a as [| |[|x l']]; try (intros X; injection X as <-; eexists; reflexivity).
  set (L := x :: l') in *. unfold BUFLAYER_MAX in *. destruct (Nat.leb_spec (length L) (108 - length R - 1)) as [LL|LL]; [|discriminate]. cbn [negb].
  assert (DA : firstn (length R) (R ++ repeat 0 (108 - length R)) ++ L ++ skipn (length R + length L) (R ++ repeat 0 (108 - length R)) = (R ++ L) ++ repeat 0 (S (107 - length (R ++ L)))).
  { rewrite firstn_app, firstn_all, Nat.sub_diag, app_nil_r, <- app_assoc. f_equal. f_equal. rewrite skipn_app.
    rewrite skipn_all2 by lia. cbn [app]. replace (length R + length L - length R)%nat with (length L) by lia.
    rewrite app_length. replace (108 - length R)%nat with (length L + S (107 - (length R + length L)))%nat by lia.
    rewrite repeat_app. rewrite <- (repeat_length 0 (length L)) at 1. apply dropn. }
  rewrite DA. assert (LN : (length R + length L = length (R ++ L))%nat) by (rewrite app_length; reflexivity). rewrite LN.
  set (data := (R ++ L) ++ repeat 0 (S (107 - length (R ++ L)))) in *.
  assert (BD : bytes data). { apply Forall_app. split; [exact BY|]. apply Forall_forall. intros y Y. apply repeat_spec in Y. lia. }
  destruct (crlf_memmem data (length (R ++ L)) BD ltac:(unfold data; rewrite (app_length (R ++ L)); lia)) as (m & MM & _). rewrite MM. cbn [bind].
  intros X. injection X as <-. destruct m; [|eexists; reflexivity].
  destruct (parse_spec gai (R ++ L) (107 - length (R ++ L)) BY) as (p & PP & _). fold data in PP. rewrite PP. cbn [bind].
  destruct p as [| |w src dst sport dport [done rest]]; try (eexists; reflexivity). destruct (gni src); eexists; reflexivity.
Qed.

(** header lines are determined by the stream *)
Lemma lenient_unique h t src sp h' t' src' sp' k : bytes (h ++ t) -> has_crlf (h ++ t) -> lenient_v1 gai h src sp -> lenient_v1 gai h' src' sp' -> h ++ t = h' ++ t' ->
  k = O -> h = h' /\ src = src' /\ sp = sp'.
Proof.
  intros BY HC LH LH' E ->. destruct (parse_spec gai (h ++ t) 0 BY) as (p & _ & _ & _ & _ & P4).
  destruct (P4 _ _ _ _ LH eq_refl HC) as (w & dst & dp & dn & X). destruct (P4 _ _ _ _ LH' E HC) as (w' & dst' & dp' & dn' & X').
  rewrite X in X'. injection X' as _ -> _ -> _ _ TE. apply app_inv_tail in TE. subst t'. apply app_inv_tail in E. auto.
Qed.
End Read.
