(** Invariant of a channel (C32, C33). *)
From Verif Require Import Base BaseLemmas Imsg.
Local Open Scope nat_scope.

Definition u32 (n : N) : Prop := (n < 4294967296)%N.
Definition wf (m : imsg) : Prop :=
  u32 (i_type m) /\ u32 (i_id m) /\ u32 (i_pid m) /\ (N.of_nat (length (i_data m)) <= 16368)%N.

Definition enc (m : imsg) : list N :=
  le32 (i_type m) ++ le32 (16 + N.of_nat (length (i_data m))) ++ le32 (i_id m) ++ le32 (i_pid m) ++ i_data m.

Definition tb (b : wbuf) : sock := tag_first (snd b) (fst b).
Definition tenc (m : imsg) : sock := tag_first (i_fd m) (enc m).

Lemma un32_le32 n : u32 n -> un32 (le32 n) = n.
Proof.
  unfold u32, un32, le32. intros H.
  pose proof (N.div_mod n 256 ltac:(lia)). 
  pose proof (N.div_mod (n / 256) 256 ltac:(lia)).
  pose proof (N.div_mod (n / 256 / 256) 256 ltac:(lia)).
  replace (n / 65536)%N with (n / 256 / 256)%N by (rewrite N.div_div; [reflexivity|lia|lia]).
  replace (n / 16777216)%N with (n / 256 / 256 / 256)%N by (rewrite !N.div_div; [reflexivity|lia|lia|lia|lia]).
  rewrite (N.mod_small (n / 256 / 256 / 256)).
  2:{ rewrite !N.div_div by lia. apply N.div_lt_upper_bound; lia. }
  lia.
Qed.

Lemma enc_len m : length (enc m) = 16 + length (i_data m).
Proof. unfold enc, le32. cbn [app length]. lia. Qed.

Lemma get_enc m fd : wf m -> imsg_get (enc m, fd) = mkImsg (i_type m) (i_id m) (i_pid m) (i_data m) fd.
Proof.
  intros (A & B & C & D). unfold imsg_get, enc.
  assert (E : forall n, exists a b c d, le32 n = [a; b; c; d]) by (intros; unfold le32; eauto 6).
  destruct (E (i_type m)) as (?&?&?&?&E1), (E (16 + N.of_nat (length (i_data m)))%N) as (?&?&?&?&E2),
    (E (i_id m)) as (?&?&?&?&E3), (E (i_pid m)) as (?&?&?&?&E4).
  rewrite E1, E2, E3, E4. unfold IMSG_HEADER_SIZE. cbn [app firstn skipn].
  rewrite <- E1, <- E3, <- E4. rewrite !un32_le32; auto.
Qed.

Lemma hdr_enc m more : wf m -> forall buf, (exists y, buf ++ y = enc m ++ more) -> 16 <= length buf ->
  imsg_parse_hdr (firstn 16 buf) = Some (N.of_nat (length (enc m))).
Proof.
  intros W buf (y & Y) L.
  assert (E : firstn 16 buf = firstn 16 (enc m)).
  { transitivity (firstn 16 (buf ++ y)).
    - rewrite firstn_app. replace (16 - length buf) with 0 by lia. cbn [firstn]. now rewrite app_nil_r.
    - rewrite Y, firstn_app. rewrite enc_len. replace (16 - (16 + length (i_data m))) with 0 by lia.
      cbn [firstn]. now rewrite app_nil_r. }
  rewrite E. unfold imsg_parse_hdr.
  destruct W as (A & B & C & D).
  assert (F : forall n, exists a b c d, le32 n = [a; b; c; d]) by (intros; unfold le32; eauto 6).
  rewrite enc_len. unfold enc.
  destruct (F (i_type m)) as (?&?&?&?&E1), (F (16 + N.of_nat (length (i_data m)))%N) as (?&?&?&?&E2),
    (F (i_id m)) as (?&?&?&?&E3), (F (i_pid m)) as (?&?&?&?&E4).
  rewrite E1, E2, E3, E4. cbn [app firstn skipn]. rewrite <- E2.
  rewrite un32_le32 by (unfold u32; lia). unfold IMSG_HEADER_SIZE, MAX_IMSGSIZE.
  replace ((16 + N.of_nat (length (i_data m)) <? N.of_nat 16)%N) with false by lia.
  replace ((16384 <? 16 + N.of_nat (length (i_data m)))%N) with false by lia.
  cbn [orb]. f_equal. lia.
Qed.

(** ** The reader on a stream of encoded messages *)
Section Reader.
(** which descriptor a message may be delivered with *)
Variable good : imsg -> option N -> Prop.

(** the reader has [done] behind it and is inside [rest] *)
Definition rinv (dn rest : list imsg) (buf : list N) (pm : option (N * list N * option N))
    (q : list (list N * option N)) (more : list N) : Prop :=
  Forall2 (fun m b => fst b = enc m /\ good m (snd b)) dn q /\
  match pm with
  | None => buf ++ more = concat (map enc rest)
  | Some (sz, got, f) => got ++ buf ++ more = concat (map enc rest) /\ 16 <= length got /\
      exists m r, rest = m :: r /\ N.to_nat sz = length (enc m) /\ length got < length (enc m) /\ good m f
  end.

Definition settled (buf : list N) (pm : option (N * list N * option N)) : Prop :=
  match pm with None => length buf < 16 | Some _ => buf = [] end.

Lemma forall2_snoc {A B} (P : A -> B -> Prop) l1 l2 a b :
  Forall2 P l1 l2 -> P a b -> Forall2 P (l1 ++ [a]) (l2 ++ [b]).
Proof. induction 1; cbn; intros; auto. Qed.

(** all messages but the first are good without a descriptor as long as they
    start before the bytes of this read end *)
Definition started_ok (pm : option (N * list N * option N)) (fd : option N) (buf : list N) (rest : list imsg) : Prop :=
  match pm with
  | None =>
    match rest with
    | [] => True
    | m :: r => (16 <= length buf -> good m fd) /\
        forall a m' b, r = a ++ m' :: b -> length (concat (map enc (m :: a))) < length buf -> good m' None
    end
  | Some (_, got, _) =>
    match rest with
    | [] => True
    | m :: r => forall a m' b, r = a ++ m' :: b -> length (concat (map enc (m :: a))) < length got + length buf -> good m' None
    end
  end.

Lemma process_ok fuel : forall buf pm q closed fd dn rest more,
  length buf < fuel -> Forall wf rest ->
  (pm <> None -> fd = None) -> (pm <> None -> buf <> []) ->
  rinv dn rest buf pm q more ->
  started_ok pm fd buf rest ->
  exists r x rest',
    process fuel buf pm q closed fd = OK (Some r) /\ rest = x ++ rest' /\
    rinv (dn ++ x) rest' (r_buf r) (r_pmsg r) (r_q r) more /\ settled (r_buf r) (r_pmsg r).
Proof.
  induction fuel; intros buf pm q closed fd dn rest more L W Hfd Hb (D & I) G; [lia|].
  assert (Deliver : forall sz got f fd0 m r,
     buf <> [] -> fd0 = None -> (16 <= length got \/ (got = [] /\ 16 <= length buf)) ->
     got ++ buf ++ more = concat (map enc rest) -> rest = m :: r -> N.to_nat sz = length (enc m) ->
     length got < length (enc m) -> good m f ->
     (forall a m' b, r = a ++ m' :: b -> length (concat (map enc (m :: a))) < length got + length buf -> good m' None) ->
     exists rr x rest',
      (let left := (N.to_nat sz - length got)%nat in
        let n := if (left <=? length buf)%nat then left else length buf in
        let got := got ++ firstn n buf in
        let buf := skipn n buf in
        let '(pm, q) := if (N.to_nat sz <=? length got)%nat then (None, q ++ [(got, f)]) else (Some (sz, got, f), q) in
        if (0 <? length buf)%nat then process fuel buf pm q closed fd0
        else OK (Some (mkReader buf pm q closed))) = OK (Some rr) /\ rest = x ++ rest' /\
      rinv (dn ++ x) rest' (r_buf rr) (r_pmsg rr) (r_q rr) more /\ settled (r_buf rr) (r_pmsg rr)).
  { intros sz got f fd0 m r Bn F0 G16 E -> SZ LG GF NX. subst fd0. cbn [map concat] in E. rewrite SZ.
    cbv zeta.
    destruct (Nat.leb_spec (length (enc m) - length got) (length buf)) as [C|C].
    - (* the message is complete *)
      assert (EM : got ++ firstn (length (enc m) - length got) buf = enc m).
      { transitivity (firstn (length (enc m)) (got ++ buf ++ more)).
        - rewrite app_assoc, firstn_app, (firstn_app _ got buf).
          rewrite (firstn_all2 got) by lia. rewrite app_length.
          replace (length (enc m) - (length got + length buf)) with 0 by lia. cbn [firstn]. now rewrite app_nil_r.
        - rewrite E, firstn_app, Nat.sub_diag, firstn_all. cbn [firstn]. now rewrite app_nil_r. }
      assert (ER : skipn (length (enc m) - length got) buf ++ more = concat (map enc r)).
      { apply (app_inv_head (enc m)). rewrite <- E, <- EM at 1. rewrite <- app_assoc.
        f_equal. rewrite app_assoc, firstn_skipn. reflexivity. }
      rewrite EM. replace (length (enc m) <=? length (enc m)) with true by (symmetry; apply Nat.leb_le; lia).
      cbv iota.
      assert (I' : rinv (dn ++ [m]) r (skipn (length (enc m) - length got) buf) None (q ++ [(enc m, f)]) more).
      { split; [|exact ER]. apply forall2_snoc; auto. }
      destruct (Nat.ltb_spec 0 (length (skipn (length (enc m) - length got) buf))) as [P|P].
      + destruct (IHfuel (skipn (length (enc m) - length got) buf) None (q ++ [(enc m, f)]) closed None (dn ++ [m]) r more)
          as (rr & x & rest' & A1 & A2 & A3 & A4).
        * rewrite skipn_length in *. lia.
        * now inversion W.
        * congruence.
        * congruence.
        * exact I'.
        * unfold started_ok. destruct r as [|m' r']; auto. rewrite skipn_length in *. cbn [map concat] in *.
          split.
          -- intros Q. apply (NX [] m' r'); auto. cbn [map concat]. rewrite app_nil_r. clear - C P Q LG. lia.
          -- intros a m'' b -> Q. apply (NX (m' :: a) m'' b); auto. cbn [map concat]. rewrite !app_length in *. lia.
        * exists rr, (m :: x), rest'. rewrite <- app_assoc in A3. cbn [app] in *. rewrite A2. auto.
      + eexists _, [m], r. split; [reflexivity|]. cbn [r_buf r_pmsg r_q].
        split; [reflexivity|]. split; [exact I'|]. unfold settled. clear - P. lia.
    - (* it goes on *)
      rewrite firstn_all, skipn_all. rewrite app_length.
      replace (length (enc m) <=? length got + length buf) with false by (symmetry; apply Nat.leb_gt; lia).
      cbn [Nat.ltb Nat.leb length].
      eexists _, [], (m :: r). split; [reflexivity|]. cbn [r_buf r_pmsg r_q]. rewrite app_nil_r. split; auto. split; [|reflexivity].
      split; auto. rewrite <- app_assoc. split; [exact E|]. split.
      { rewrite app_length. destruct G16 as [|[_ ?]]; lia. }
      exists m, r. repeat split; auto. rewrite app_length. lia. }
  cbn [process]. destruct pm as [[[sz got] f]|].
  - destruct I as (I & GN & m & r & -> & SZ & LG & GF).
    apply (Deliver sz got f fd m r); auto. now apply Hb. apply Hfd; congruence.
  - destruct (Nat.ltb_spec (length buf) IMSG_HEADER_SIZE) as [C|C].
    + eexists _, [], rest. split; [reflexivity|]. cbn [r_buf r_pmsg r_q]. rewrite app_nil_r. repeat split; auto.
    + unfold IMSG_HEADER_SIZE in *. destruct rest as [|m r].
      { cbn in I. destruct buf; [cbn in C; lia|discriminate]. }
      cbn [map concat] in I.
      rewrite (hdr_enc m (concat (map enc r))) by (eauto || now inversion W).
      apply (Deliver (N.of_nat (length (enc m))) [] fd None m r); auto.
      * destruct buf; [cbn in C; lia|congruence].
      * lia.
      * rewrite enc_len. cbn. lia.
      * apply G; auto.
      * destruct G as (_ & G). cbn [length]. exact G.
Qed.
End Reader.

(** ** The writer: the tagged bytes never change *)
Lemma tag_first_none l : tag_first None l = map (fun b => (b, None)) l.
Proof. now destruct l. Qed.

Lemma tag_first_len fd l : length (tag_first fd l) = length l.
Proof. destruct l; cbn; auto. now rewrite map_length. Qed.

Lemma tag_first_fst fd l : map fst (tag_first fd l) = l.
Proof. destruct l; cbn; auto. f_equal. rewrite map_map. cbn. apply map_id. Qed.

Lemma tag_first_app fd a b : a <> [] -> tag_first fd (a ++ b) = tag_first fd a ++ map (fun b => (b, None)) b.
Proof. destruct a; [congruence|]. intros _. cbn. now rewrite map_app. Qed.

Lemma drain_tags n : forall q, Forall (fun b => fst b <> []) q ->
  Forall (fun b => fst b <> []) (drain n q).
Proof.
  intros q; revert n; induction q as [|[d fd] r IH]; intros n H; cbn [drain]; auto.
  inversion_clear H as [|? ? H1 H2].
  destruct (Nat.eqb_spec n 0); [now constructor|].
  destruct (Nat.leb_spec (length d) n); [now apply IH|]. constructor; auto. cbn.
  intros E. apply (f_equal (@length N)) in E. rewrite skipn_length in E. cbn in E. lia.
Qed.

(** draining buffers without descriptor *)
Lemma drain_none n : forall q g rest, q = g ++ rest -> Forall (fun b => snd b = None) g ->
  n <= length (concat (map fst g)) ->
  concat (map tb (drain n q)) = skipn n (concat (map tb q)).
Proof.
  intros q; revert n; induction q as [|[d fd] r IH]; intros n g rest E F L; cbn [drain]; [now rewrite skipn_nil|].
  destruct (Nat.eqb_spec n 0) as [->|NZ]; [reflexivity|].
  destruct g as [|[d' fd'] g']; [cbn in L; lia|].
  injection E as -> -> E. inversion_clear F as [|? ? F1 F2]. cbn [snd] in F1. subst fd'.
  cbn [map concat fst] in *. rewrite app_length in L.
  destruct (Nat.leb_spec (length d') n) as [C|C].
  - rewrite (IH (n - length d') g' rest E F2 ltac:(lia)). cbn [map concat]. change (tb (d', None)) with (tag_first None d').
    rewrite skipn_app, tag_first_len. rewrite (skipn_all2 (tag_first None d')) by (rewrite tag_first_len; lia). reflexivity.
  - cbn [map concat]. change (tb (skipn n d', None)) with (tag_first None (skipn n d')). change (tb (d', None)) with (tag_first None d'). rewrite skipn_app, tag_first_len.
    replace (n - length d') with 0 by lia. cbn [skipn]. f_equal.
    rewrite !tag_first_none, skipn_map. reflexivity.
Qed.

Lemma group_app iov_max : forall i q, exists rest, q = group iov_max i q ++ rest /\
  (0 < i -> Forall (fun b => snd b = None) (group iov_max i q)).
Proof.
  intros i q; revert i; induction q as [|[d fd] r IH]; intros i; cbn [group]; [exists []; auto|].
  destruct (iov_max <=? i); [exists ((d, fd) :: r); auto|].
  destruct (Nat.ltb_spec 0 i) as [P|P]; cbn [andb].
  - destruct fd; [exists ((d, Some n) :: r); auto|].
    destruct (IH (S i)) as (rest & E & F). exists rest. split; [cbn [app]; now f_equal|].
    intros _. constructor; auto.
  - destruct (IH (S i)) as (rest & E & F). exists rest. split; [cbn [app]; now f_equal|lia].
Qed.

Lemma write_ok iov_max q s n q' s' :
  Forall (fun b => fst b <> []) q ->
  n <= length (concat (map fst (group iov_max 0 q))) ->
  msgbuf_write iov_max q s n = (q', s') ->
  Forall (fun b => fst b <> []) q' /\
  s' ++ concat (map tb q') = s ++ concat (map tb q) /\ map fst s' ++ concat (map fst q') = map fst s ++ concat (map fst q).
Proof.
  intros NE L H.
  assert (R : Forall (fun b : wbuf => fst b <> []) q' /\ s' ++ concat (map tb q') = s ++ concat (map tb q)).
  { unfold msgbuf_write in H.
    destruct q as [|[d fd] r]; [injection H as <- <-; auto|].
    cbn [group] in *. destruct (iov_max <=? 0); [injection H as <- <-; auto|].
    cbn [Nat.ltb Nat.leb andb] in *.
    destruct (Nat.eqb_spec n 0) as [->|NZ]; [injection H as <- <-; auto|].
    destruct (group_app iov_max 1 r) as (rest & E & F). specialize (F ltac:(lia)).
    set (g := group iov_max 1 r) in *. clearbody g. subst r. cbn [map concat fst] in *.
    inversion_clear NE as [|? ? N1 N2]. cbn [fst] in N1.
    injection H as <- <-.
    split.
    { apply (drain_tags n (clear_fd ((d, fd) :: g ++ rest))). constructor; auto. }
    cbn [clear_fd].
    assert (DR := drain_none n ((d, None) :: g ++ rest) ((d, None) :: g) rest eq_refl (Forall_cons (d, None) eq_refl F) L).
    match goal with |- context [concat (map tb ?X)] =>
      replace (concat (map tb X)) with (skipn n (concat (map tb ((d, None) :: g ++ rest)))) by (symmetry; exact DR) end.
    rewrite <- app_assoc. f_equal. cbn [map concat]. rewrite map_app, concat_app.
    change (tb (d, None)) with (tag_first None d). change (tb (d, fd)) with (tag_first fd d).
    assert (G : concat (map tb g) = map (fun b => (b, None)) (concat (map fst g))).
    { clear -F. induction F as [|[d f] g H _ IH]; auto. cbn [map concat fst]. rewrite map_app, <- IH. f_equal.
      unfold tb. cbn in *. subst. apply tag_first_none. }
    rewrite G. rewrite tag_first_none.
    rewrite app_assoc, <- map_app. rewrite (app_assoc (tag_first fd d)).
    rewrite <- (tag_first_app fd d) by auto.
    rewrite skipn_app. rewrite map_length.
    replace (n - length (d ++ concat (map fst g))) with 0 by (rewrite app_length in *; lia). cbn [skipn].
    rewrite app_assoc. f_equal.
    rewrite skipn_map, <- tag_first_app.
    2:{ destruct n; [lia|]. destruct d; [congruence|]. cbn. congruence. }
    now rewrite firstn_skipn. }
  destruct R as [R1 R2]. repeat split; auto.
  apply (f_equal (map fst)) in R2. rewrite !map_app in R2.
  assert (Q : forall q, map fst (concat (map tb q)) = concat (map fst q)).
  { clear. induction q as [|[d f] q IH]; auto. cbn [map concat fst]. rewrite map_app, IH. f_equal. apply tag_first_fst. }
  rewrite !Q in R2. exact R2.
Qed.

(** ** The whole channel *)
Definition held (pm : option (N * list N * option N)) (buf : list N) : nat :=
  match pm with Some (_, got, _) => length got + length buf | None => length buf end.

Lemma tenc_fst m : map fst (tenc m) = enc m.
Proof. apply tag_first_fst. Qed.
Lemma tenc_len l : length (concat (map tenc l)) = length (concat (map enc l)).
Proof. induction l; auto. cbn [map concat]. rewrite !app_length, IHl. unfold tenc. now rewrite tag_first_len. Qed.
Lemma tenc_all_fst l : map fst (concat (map tenc l)) = concat (map enc l).
Proof. induction l; auto. cbn [map concat]. rewrite map_app, tenc_fst. now f_equal. Qed.

Lemma start_tag rest a m b : rest = a ++ m :: b ->
  exists c, nth_error (concat (map tenc rest)) (length (concat (map enc a))) = Some (c, i_fd m).
Proof.
  intros ->. rewrite map_app, concat_app. cbn [map concat].
  rewrite nth_error_app2 by (rewrite tenc_len; lia). rewrite tenc_len, Nat.sub_diag.
  unfold tenc at 1. destruct (enc m) as [|c l] eqn:E; [apply (f_equal (@length N)) in E; rewrite enc_len in E; discriminate|].
  exists c. reflexivity.
Qed.

Lemma start_taken rest a m b pre s tl n : rest = a ++ m :: b -> pre ++ s ++ tl = concat (map tenc rest) -> n <= length s ->
  length pre <= length (concat (map enc a)) < length pre + n ->
  exists c, nth_error (firstn n s) (length (concat (map enc a)) - length pre) = Some (c, i_fd m).
Proof.
  intros E T L P. destruct (start_tag rest a m b E) as (c & H). exists c.
  rewrite <- T in H. rewrite nth_error_app2 in H by lia. rewrite nth_error_app1 in H by lia.
  rewrite <- (firstn_skipn n s) in H. rewrite nth_error_app1 in H; [exact H|]. rewrite firstn_length. lia.
Qed.

Section Chan.
Variable good : imsg -> option N -> Prop.
Variable sem : sock -> option N -> Prop.
(** what is asked of the kernel *)
Hypothesis recv_good : forall pm buf rest pre s tl n fd,
  settled buf pm -> length pre = held pm buf ->
  match pm with Some (_, got, _) => 16 <= length got /\ match rest with m :: _ => length got < length (enc m) | [] => True end
  | None => match rest with m :: _ => buf <> [] -> good m None | [] => True end end ->
  pre ++ s ++ tl = concat (map tenc rest) -> 0 < n <= length s -> sem (firstn n s) fd ->
  started_ok good pm (match pm with Some _ => None | None => fd end) (buf ++ map fst (firstn n s)) rest /\
  (forall x m r (buf' : list N), rest = x ++ m :: r -> length (concat (map enc x)) + length buf' = held pm buf + n -> 0 < length buf' < 16 -> good m None).

Definition cinv (acc : list imsg) (c : chan) : Prop :=
  Forall wf acc /\ Forall (fun b => fst b <> []) (ch_q c) /\
  exists r dn rest pre, ch_rd c = Some r /\ acc = dn ++ rest /\
    rinv good dn rest (r_buf r) (r_pmsg r) (r_q r) (map fst (ch_sock c) ++ concat (map fst (ch_q c))) /\
    settled (r_buf r) (r_pmsg r) /\
    pre ++ ch_sock c ++ concat (map tb (ch_q c)) = concat (map tenc rest) /\ length pre = held (r_pmsg r) (r_buf r) /\
    match r_pmsg r with Some _ => True | None => match rest with m :: _ => r_buf r <> [] -> good m None | [] => True end end.

(** what one event adds to what was accepted *)
Definition accept (pid : N) (e : ev) : list imsg :=
  match e with
  | ECompose m => if (N.of_nat (length (i_data m)) <=? 16368)%N
                  then [mkImsg (i_type m) (i_id m) (if (i_pid m =? 0)%N then pid else i_pid m) (i_data m) (i_fd m)] else []
  | _ => []
  end.

Lemma rinv_more dn rest buf pm q more more' : rinv good dn rest buf pm q more -> more = more' -> rinv good dn rest buf pm q more'.
Proof. now intros ? <-. Qed.

Lemma rinv_add dn rest buf pm q more m : rinv good dn rest buf pm q more -> rinv good dn (rest ++ [m]) buf pm q (more ++ enc m).
Proof.
  intros (A & B). split; auto.
  assert (C : concat (map enc (rest ++ [m])) = concat (map enc rest) ++ enc m).
  { rewrite map_app, concat_app. cbn. now rewrite app_nil_r. }
  destruct pm as [[[sz got] f]|].
  - destruct B as (B & N1 & m0 & r & -> & B1 & B2 & B3). rewrite C, <- B. repeat rewrite <- app_assoc. split; auto. split; auto.
    exists m0, (r ++ [m]). auto.
  - rewrite C, <- B. now rewrite <- app_assoc.
Qed.

Lemma step_cinv pid iov_max acc c e : u32 pid -> cinv acc c -> possible sem iov_max c e ->
  cinv (acc ++ accept pid e) (exec pid iov_max c e).
Proof.
  intros PW (W & NE & r & dn & rest & pre & RD & EA & I & ST & T & LP & LO) P.
  destruct e as [m|n|n fd]; cbn [exec accept possible] in *.
  - unfold imsg_compose. unfold MAX_IMSGSIZE, IMSG_HEADER_SIZE.
    destruct (N.ltb_spec 16384 (N.of_nat 16 + N.of_nat (length (i_data m)))) as [C|C];
    destruct (N.leb_spec (N.of_nat (length (i_data m))) 16368) as [C'|C']; try lia.
    + rewrite app_nil_r. split; auto. split; auto. exists r, dn, rest, pre. auto 12.
    + set (m' := mkImsg _ _ _ _ _).
      assert (WM : wf m').
      { destruct P as (P1 & P2 & P3). repeat split; cbn; auto. destruct (i_pid m =? 0)%N; auto. }
      assert (EB : forall fd, tag_first fd (le32 (i_type m) ++ le32 (N.of_nat 16 + N.of_nat (length (i_data m))) ++ le32 (i_id m) ++ le32 (if (i_pid m =? 0)%N then pid else i_pid m) ++ i_data m)
                   = tag_first fd (enc m')) by reflexivity.
      cbn [ch_q ch_sock ch_rd].
      split; [apply Forall_app; auto|]. split.
      { apply Forall_app. split; auto. constructor; [|constructor]. unfold le32. cbn [app fst]. discriminate. }
      exists r, dn, (rest ++ [m']), pre. split; auto. cbn [ch_q ch_sock ch_rd].
      rewrite EA, app_assoc. split; auto.
      rewrite !map_app, !concat_app. split.
      { eapply rinv_more; [apply rinv_add, I|]. cbn [map concat fst]. rewrite app_nil_r, <- app_assoc. reflexivity. }
      split; auto. split.
      { cbn [map concat]. rewrite !app_nil_r. rewrite <- T. rewrite <- !app_assoc. do 3 f_equal. }
      split; auto. destruct (r_pmsg r); auto. destruct rest as [|m0 rest]; auto. cbn [app].
      intros NB. destruct I as (_ & I). destruct (r_buf r); [congruence|discriminate].
  - destruct (msgbuf_write iov_max (ch_q c) (ch_sock c) n) as [q' s'] eqn:E.
    destruct (write_ok _ _ _ _ _ _ NE P E) as (A1 & A2 & A3).
    rewrite app_nil_r. split; auto. split; auto. exists r, dn, rest, pre. cbn [ch_q ch_sock ch_rd].
    split; auto. split; auto. split. { eapply rinv_more; [exact I|]. now symmetry. }
    split; auto. split; [|auto]. now rewrite A2.
  - rewrite RD in *. destruct P as (P1 & P2 & P3 & P4).
    rewrite app_nil_r.
    destruct (recv_good (r_pmsg r) (r_buf r) rest pre (ch_sock c) (concat (map tb (ch_q c))) n fd) as (G1 & G2); auto.
    { destruct (r_pmsg r) as [[[sz got] f]|]; [|exact LO]. destruct I as (_ & _ & L0 & m & r0 & -> & _ & L & _). auto. }
    set (data := map fst (firstn n (ch_sock c))) in *.
    assert (DL : length data = n) by (unfold data; rewrite map_length, firstn_length; lia).
    assert (SP : map fst (ch_sock c) = data ++ map fst (skipn n (ch_sock c))).
    { unfold data. rewrite <- map_app, firstn_skipn. reflexivity. }
    split; auto. split; auto. cbn [ch_q ch_sock ch_rd].
    unfold ibuf_read_process.
    set (cf := match r_pmsg r with Some _ => (close_fd fd (r_closed r), None) | None => (r_closed r, fd) end).
    assert (CF : snd cf = match r_pmsg r with Some _ => None | None => fd end) by (unfold cf; destruct (r_pmsg r); reflexivity).
    destruct cf as [cl fd']. cbn [snd] in CF. subst fd'.
    destruct (process_ok good (S (length (r_buf r ++ data))) (r_buf r ++ data) (r_pmsg r) (r_q r) cl
       (match r_pmsg r with Some _ => None | None => fd end) dn rest
       (map fst (skipn n (ch_sock c)) ++ concat (map fst (ch_q c)))) as (r' & x & rest' & Q1 & Q2 & Q3 & Q4); auto.
    { apply Forall_app with (l1 := dn). now rewrite <- EA. }
    { destruct (r_pmsg r); congruence. }
    { intros _ Z. apply (f_equal (@length N)) in Z. rewrite app_length in Z. cbn in Z. lia. }
    { destruct I as (I1 & I2). split; auto. rewrite SP in I2.
      destruct (r_pmsg r) as [[[sz got] f]|].
      - destruct I2 as (I2 & I3). split; [|exact I3]. rewrite <- I2. now rewrite <- !app_assoc.
      - rewrite <- I2. now rewrite <- !app_assoc. }
    rewrite Q1.
    assert (H' : length (concat (map enc x)) + held (r_pmsg r') (r_buf r') = held (r_pmsg r) (r_buf r) + n).
    { assert (H1 : held (r_pmsg r) (r_buf r) + length (map fst (ch_sock c) ++ concat (map fst (ch_q c))) = length (concat (map enc rest))).
      { destruct I as (_ & I2). unfold held. destruct (r_pmsg r) as [[[sz got] f]|].
        - destruct I2 as (I2 & _). rewrite <- I2. rewrite !app_length. lia.
        - rewrite <- I2. rewrite !app_length. lia. }
      assert (H2 : held (r_pmsg r') (r_buf r') + length (map fst (skipn n (ch_sock c)) ++ concat (map fst (ch_q c))) = length (concat (map enc rest'))).
      { destruct Q3 as (_ & I2). unfold held. destruct (r_pmsg r') as [[[sz got] f]|].
        - destruct I2 as (I2 & _). rewrite <- I2. rewrite !app_length. lia.
        - rewrite <- I2. rewrite !app_length. lia. }
      rewrite Q2, map_app, concat_app, app_length in H1. rewrite SP in H1. rewrite !app_length in *. lia. }
    exists r', (dn ++ x), rest', (skipn (length (concat (map enc x))) (pre ++ firstn n (ch_sock c))).
    split; auto. split. { rewrite EA, Q2. now rewrite app_assoc. }
    split; auto. split; auto.
    assert (LL : length (pre ++ firstn n (ch_sock c)) = held (r_pmsg r) (r_buf r) + n).
    { rewrite app_length, firstn_length, LP. lia. }
    split.
    { assert (T' : (pre ++ firstn n (ch_sock c)) ++ skipn n (ch_sock c) ++ concat (map tb (ch_q c)) = concat (map tenc rest)).
      { rewrite <- T. rewrite <- !app_assoc. f_equal. rewrite app_assoc, firstn_skipn. reflexivity. }
      apply (f_equal (skipn (length (concat (map enc x))))) in T'.
      rewrite skipn_app in T'. replace (length (concat (map enc x)) - length (pre ++ firstn n (ch_sock c))) with 0 in T' by lia.
      cbn [skipn] in T'. rewrite T'. rewrite Q2, map_app, concat_app. apply skipn_pre. now rewrite tenc_len. }
    split. { rewrite skipn_length, LL. lia. }
    destruct (r_pmsg r') eqn:E'; auto. destruct rest' as [|m0 rest'']; auto. intros NB.
    apply (G2 x m0 rest'' (r_buf r') Q2).
    + unfold held at 1 in H'. exact H'.
    + cbn in Q4. destruct (r_buf r'); [congruence|]. cbn in *. lia.
Qed.

Fixpoint accepted (pid : N) (es : list ev) : list imsg :=
  match es with [] => [] | e :: r => accept pid e ++ accepted pid r end.

Lemma runs_cinv pid iov_max c es c' : u32 pid -> runs sem pid iov_max c es c' -> forall acc, cinv acc c -> cinv (acc ++ accepted pid es) c'.
Proof.
  intros U R. induction R as [c|c e es c' P R IH]; intros acc I; cbn [accepted]; [now rewrite app_nil_r|].
  rewrite app_assoc. apply IH, step_cinv; auto.
Qed.

Lemma new_cinv : cinv [] new_chan.
Proof.
  split; auto. split; [constructor|]. exists (mkReader [] None [] []), [], [], []. cbn. repeat split; auto; lia.
Qed.
End Chan.
