(** C27 and C52: the PROXY protocol, from the load balancer in front of gmid and
    towards the upstreams behind it. *)
From Verif Require Import Base BaseLemmas Compat Compat_Proofs RequestSpec Fmt ProxyProto ProxyProtoSpec ProxyProto_Proofs ProxyRead_Proofs.
Local Open Scope N_scope.

Lemma header_lenient gai h src sp : header_v1 gai h src sp -> lenient_v1 gai h src sp.
Proof.
  intros (v6 & s & d & p1 & p2 & dst & dp & -> & W1 & W2 & W3 & W4 & X). exists v6, s, d, p1, 32, p2, 13, dst, dp.
  split; [unfold CRLF; reflexivity|]. split; [auto|]. split; [auto|].
  assert (K : forall P : N -> Prop, (forall c, c <> 0 /\ c <> 32 /\ c <> 13 /\ c <> 10 -> P c) -> forall l, word l -> Forall P l).
  { intros P Q l. apply Forall_impl. exact Q. }
  split; [apply (K (fun c => c <> 0 /\ c <> 32)); [intros c (A & B & _); auto|exact W1]|].
  split; [apply (K (fun c => c <> 0 /\ c <> 32)); [intros c (A & B & _); auto|exact W2]|].
  split; [apply (K (fun c => c <> 0 /\ c <> 32 /\ c <> 13)); [intros c (A & B & D & _); auto|exact W3]|].
  split; [apply (K (fun c => c <> 0 /\ c <> 32 /\ c <> 13)); [intros c (A & B & D & _); auto|exact W4]|]. exact X.
Qed.
Lemma header_crlf gai h src sp : header_v1 gai h src sp -> exists b, h = b ++ CRLF /\ ~ In 10 b.
Proof.
  intros (v6 & s & d & p1 & p2 & dst & dp & -> & W1 & W2 & W3 & W4 & X).
  exists (s2b "PROXY TCP" ++ [if v6 then 54 else 52] ++ [32] ++ s ++ [32] ++ d ++ [32] ++ p1 ++ [32] ++ p2).
  split; [repeat rewrite <- app_assoc; reflexivity|].
  assert (K : forall l, word l -> ~ In 10 l).
  { intros l W I. unfold word in W. rewrite Forall_forall in W. destruct (W _ I) as (_ & _ & _ & N). congruence. }
  intros I. repeat rewrite in_app_iff in I. destruct I as [I|[I|[I|[I|[I|[I|[I|[I|[I|I]]]]]]]]]; try (eapply K; [|exact I]; assumption); try (destruct v6); cbn in I; repeat (destruct I as [I|I]; [discriminate|]); exact I.
Qed.
Lemma lenient_lf gai h src sp : lenient_v1 gai h src sp -> exists b, h = b ++ [10].
Proof. intros (v6 & s & d & p1 & e1 & p2 & e2 & dst & dp & -> & _). eexists. rewrite !app_assoc. change [e2; 10] with ([e2] ++ [10]). rewrite !app_assoc. reflexivity. Qed.

Lemma prefix_cut {A} (a b c d : list A) : a ++ b = c ++ d -> (length a <= length c)%nat -> exists e, c = a ++ e /\ b = e ++ d.
Proof.
  revert c. induction a as [|x a IH]; intros c E L; [exists c; auto|]. destruct c as [|y c]; [cbn in L; lia|]. injection E as -> E.
  destruct (IH c E) as (e & -> & ->); [cbn in L; lia|]. exists e. auto.
Qed.

(** the PROXY header of a stream that has one is the lenient one found in what was read *)
Lemma header_found gai h src sp x R t h' src' sp' t' : header_v1 gai h src sp -> bytes (h ++ x) -> h ++ x = R ++ t ->
  lenient_v1 gai h' src' sp' -> R = h' ++ t' -> h = h' /\ src = src' /\ sp = sp'.
Proof.
  intros H BY E L' ER. destruct (Nat.le_gt_cases (length h) (length R)) as [LE|GT].
  - destruct (prefix_cut _ _ _ _ E LE) as (e & E1 & _). apply (lenient_unique gai h e src sp h' t' src' sp' 0); auto.
    + rewrite E in BY. apply Forall_app in BY. rewrite <- E1. apply BY.
    + destruct (header_crlf _ _ _ _ H) as (b & -> & _). exists b, e. rewrite <- app_assoc. reflexivity.
    + apply header_lenient, H.
    + congruence.
  - exfalso. destruct (header_crlf _ _ _ _ H) as (b & EH & NB). destruct (lenient_lf _ _ _ _ L') as (b' & E'). subst R h'.
    symmetry in E. destruct (prefix_cut ((b' ++ [10]) ++ t') t h x E ltac:(lia)) as (e & EE & _).
    rewrite EE in EH. rewrite EE, !app_length in GT. cbn [length] in GT.
    assert (NE : e <> [] \/ True) by auto. clear NE.
    assert (Q : length (b ++ CRLF) = (length b' + 1 + length t' + length e)%nat) by (rewrite <- EH, !app_length; cbn [length]; lia).
    rewrite app_length in Q. cbn [length CRLF] in Q.
    (* the LF of the shorter one is not the last byte *)
    assert (I : In 10 (b ++ [13])).
    { assert (EQ : b ++ CRLF = (b ++ [13]) ++ [10]) by (rewrite <- app_assoc; reflexivity). rewrite EQ in EH.
      rewrite <- !app_assoc in EH. destruct (t' ++ e) as [|y z] eqn:TE; [apply (f_equal (@length N)) in TE; rewrite app_length in TE; cbn in TE; lia|].
      destruct (exists_last (l := y :: z) ltac:(discriminate)) as (z' & w & EZ). rewrite EZ in EH.
      replace (b' ++ [10] ++ z' ++ [w]) with ((b' ++ [10] ++ z') ++ [w]) in EH by (rewrite <- !app_assoc; reflexivity).
      rewrite (app_assoc b) in EH. apply app_inj_tail in EH. destruct EH as [<- _]. apply in_or_app. right. left. reflexivity. }
    apply in_app_or in I. destruct I as [I|[I|[]]]; [exact (NB I)|discriminate].
Qed.

Lemma header_known gai h src sp x : header_v1 gai h src sp -> forall R t, h ++ x = R ++ t -> ~ unknown_v1 R.
Proof.
  intros (v6 & s & d & p1 & p2 & dst & dp & -> & _) R t E. intros [(u & ->)|(u & ->)]; rewrite <- !app_assoc in E; cbn in E; destruct v6; discriminate.
Qed.

Section C27.
Variable gai : N -> list N -> option (list N).
Variable gni : list N -> option (list N).
(** what an uninitialised variable may hold *)
Variable junk : nat.
(** the address of whoever connected *)
Variables peer peer_port : list N.

(** However the stream is cut and however much libtls asks for: when it starts
    with a header line (of at most 107 bytes, the longest there is), libtls gets
    what follows the line and nothing else, in order, less what is still held
    back; and the client is known by the address and the port in the line. *)
Theorem c27_consumes h payload src sport host R G q ok rest :
  header_v1 gai h src sport -> (length h <= 107)%nat -> bytes (h ++ payload) -> gni src = Some host ->
  calls gai gni junk (accepted true peer peer_port) R G q ok -> h ++ payload = R ++ rest ->
  G ++ held q = skipn (length h) R /\
  ((length h <= length R)%nat -> q_rhost q = host /\ q_rserv q = dec sport).
Proof.
  intros H LH BY GN CS E.
  assert (BR : bytes R) by (rewrite E in BY; apply Forall_app in BY; apply BY).
  assert (NM : forall h' t', named gai gni h' q -> R = h' ++ t' -> h' = h /\ q_rhost q = host /\ q_rserv q = dec sport).
  { intros h' t' (src' & sp' & L' & _ & G' & S') ER. destruct (header_found gai h src sport payload R rest h' src' sp' t' H BY E L' ER) as (-> & <- & <-). rewrite GN in G'. injection G' as <-. auto. }
  assert (SH : (length h <= length R)%nat -> exists e, R = h ++ e) by (intros LE; destruct (prefix_cut _ _ _ _ E LE) as (e & -> & _); exists e; reflexivity).
  destruct (header_crlf _ _ _ _ H) as (b & EB & NB).
  destruct (calls_good gai gni junk peer peer_port _ _ _ _ _ CS [] [] BR (accepted_good gai gni peer peer_port)) as [[W|[T|T]]|[_ RF]]; cbn [app] in *.
  - exact (header_known _ _ _ _ _ H R rest E).
  - destruct W as (-> & LR & NC & ->).
    assert (SHORT : ~ (length h <= length R)%nat) by (intros LE; destruct (SH LE) as (e & ->); apply NC; exists b, e; rewrite EB, <- app_assoc; reflexivity).
    split; [|intros X; contradiction]. rewrite skipn_all2 by lia. reflexivity.
  - destruct T as (h' & t & ER & N' & _ & _ & _ & HE). destruct (NM h' t N' ER) as (-> & A & B). split; [|auto]. rewrite HE, ER. rewrite dropn. reflexivity.
  - destruct T as (h' & ER & N' & ON). destruct (NM h' G N' ER) as (-> & A & B). split; [|auto]. unfold held. rewrite ON. cbn [andb]. rewrite app_nil_r, ER at 1. rewrite dropn. reflexivity.
  - destruct RF as (-> & HE & RF).
    assert (SHORT : ~ (length h <= length R)%nat).
    { intros LE. destruct (SH LE) as (e & ER). assert (X : gni src = None); [|congruence].
      apply (RF h e src sport); auto; [apply header_lenient, H|]. rewrite ER. exists b, e. rewrite EB, <- app_assoc. reflexivity. }
    split; [|intros X; contradiction]. rewrite HE, skipn_all2 by lia. reflexivity.
Qed.

(** such a connection is never refused, unless the kernel reports an error *)
Theorem c27_accepts h payload src sport host R G q rest buflen a l q1 :
  header_v1 gai h src sport -> (length h <= 107)%nat -> bytes (h ++ payload) -> gni src = Some host ->
  calls gai gni junk (accepted true peer peer_port) R G q true ->
  read_cb gai gni junk q buflen a = Some (OK (RcFail, l, q1)) -> h ++ payload = R ++ l ++ rest -> a = RFail.
Proof.
  intros H LH BY GN CS RC E.
  assert (BR : bytes (R ++ l)) by (rewrite app_assoc in E; rewrite E in BY; apply Forall_app in BY; apply BY).
  assert (BR0 : bytes R) by (apply Forall_app in BR; apply BR).
  destruct (header_crlf _ _ _ _ H) as (b & EB & NB).
  assert (HC : forall r x, h ++ payload = r ++ x -> (length h <= length r)%nat -> has_crlf r).
  { intros r x E' LE. destruct (prefix_cut _ _ _ _ E' LE) as (e & -> & _). exists b, e. rewrite EB, <- app_assoc. reflexivity. }
  destruct (calls_good gai gni junk peer peer_port _ _ _ _ _ CS [] [] BR0 (accepted_good gai gni peer peer_port)) as [GD|[X _]]; cbn [app] in *; [exact (header_known _ _ _ _ _ H R _ E)| |discriminate].
  assert (E' := E). rewrite app_assoc in E'.
  destruct (read_cb_fail gai gni junk peer peer_port R G q buflen a l q1 BR GD RC) as [X|[(LR & -> & NC)|(CR & NO)]]; [exact X| |]; exfalso.
  - apply NC, (HC R ([] ++ rest)); [exact E|lia].
  - destruct (Nat.le_gt_cases (length h) (length (R ++ l))) as [LE|GT].
    + destruct (prefix_cut _ _ _ _ E' LE) as (e & EE & _). rewrite (NO h e src sport) in GN; [discriminate|apply header_lenient, H|exact EE].
    + destruct CR as (u & v & EU). rewrite EU in E'. rewrite EU in GT. symmetry in E'. destruct (prefix_cut _ _ _ _ E' ltac:(lia)) as (e & EH & _).
      assert (NE : v ++ e <> []) by (intros X; rewrite EH, <- !app_assoc, X in GT; apply app_eq_nil in X; destruct X as [-> ->]; rewrite !app_length in GT; cbn in GT; lia).
      rewrite EB in EH. destruct (exists_last NE) as (z' & w & EZ). change CRLF with ([13] ++ [10]) in EH. rewrite <- !app_assoc, EZ in EH.
      replace (b ++ [13] ++ [10]) with ((b ++ [13]) ++ [10]) in EH by (rewrite <- app_assoc; reflexivity).
      replace (u ++ [13] ++ [10] ++ z' ++ [w]) with ((u ++ [13; 10] ++ z') ++ [w]) in EH by (rewrite <- !app_assoc; reflexivity).
      apply app_inj_tail in EH. destruct EH as [EH _]. assert (I : In 10 (b ++ [13])) by (rewrite EH; apply in_or_app; right; right; left; reflexivity).
      apply in_app_or in I. destruct I as [I|[I|[]]]; [exact (NB I)|discriminate].
Qed.

(** Whatever the stream is (unless it says UNKNOWN): what libtls gets follows a
    line gmid takes for a header, and the client is known by it. *)
Theorem c27_delivered R G q ok : bytes R -> ~ unknown_v1 R ->
  calls gai gni junk (accepted true peer peer_port) R G q ok -> G <> [] ->
  exists h src sport, lenient_v1 gai h src sport /\ (length h <= 107)%nat /\ R = h ++ G ++ held q /\ gni src = Some (q_rhost q) /\ q_rserv q = dec sport.
Proof.
  intros BR NU CS NG.
  destruct (calls_good gai gni junk peer peer_port _ _ _ _ _ CS [] [] BR (accepted_good gai gni peer peer_port) NU) as [[W|[T|T]]|[_ RF]]; cbn [app] in *.
  - destruct W as (-> & _). contradiction.
  - destruct T as (h & t & ER & (src & sp & L & L7 & G1 & S1) & ON & TL & _ & HE). exists h, src, sp. rewrite HE. auto.
  - destruct T as (h & ER & (src & sp & L & L7 & G1 & S1) & ON). exists h, src, sp. unfold held. rewrite ON. cbn [andb]. rewrite app_nil_r. auto.
  - destruct RF as (-> & _). contradiction.
Qed.
(** so nothing of a stream without one, or whose line is longer than the 107
    bytes the protocol allows, gets to libtls *)
Theorem c27_refused R G q ok : bytes R -> ~ unknown_v1 R ->
  (forall h t src sport, R = h ++ t -> (length h <= 107)%nat -> ~ lenient_v1 gai h src sport) ->
  calls gai gni junk (accepted true peer peer_port) R G q ok -> G = [].
Proof.
  intros BR NU NO CS. destruct G as [|x G]; [reflexivity|]. exfalso.
  destruct (c27_delivered _ _ _ _ BR NU CS ltac:(discriminate)) as (h & src & sp & L & L7 & E & _). exact (NO _ _ _ _ E L7 L).
Qed.
(** nothing undefined ever happens while the header is read *)
Theorem c27_safe R G q buflen a r : bytes (R ++ match a with RData l => l | _ => [] end) -> ~ unknown_v1 R ->
  calls gai gni junk (accepted true peer peer_port) R G q true -> read_cb gai gni junk q buflen a = Some r -> exists x, r = OK x.
Proof.
  intros BY NU CS RC. assert (BR : bytes R) by (apply Forall_app in BY; apply BY).
  destruct (calls_good gai gni junk peer peer_port _ _ _ _ _ CS [] [] BR (accepted_good gai gni peer peer_port) NU) as [GD|[X _]]; [|discriminate].
  exact (read_cb_safe gai gni junk peer peer_port _ _ _ _ _ _ BY GD RC).
Qed.
End C27.

(** ** a concrete load balancer *)
Definition ex_gai (af : N) (s : list N) : option (list N) :=
  if leqb s (s2b "10.0.0.7") then if af =? 6 then None else Some [10; 0; 0; 7]
  else if leqb s (s2b "10.0.0.1") then if af =? 6 then None else Some [10; 0; 0; 1] else None.
Definition ex_gni (a : list N) : option (list N) := if leqb a [10; 0; 0; 7] then Some (s2b "10.0.0.7") else None.
Definition ex_line : list N := s2b "PROXY TCP4 10.0.0.7 10.0.0.1 4242 1965" ++ CRLF.

Lemma is_dec_port ds v : ds <> [] -> forallb is_digit ds = true -> fold_left (fun a d => a * 10 + Z.of_N (d - 48))%Z ds 0%Z = v -> is_dec ds v.
Proof. intros A B D. exists [], [], ds. split; [reflexivity|]. split; [reflexivity|]. split; [exact A|]. split; [exact B|]. left. auto. Qed.

Lemma word_b s : forallb (fun c => negb ((c =? 0) || (c =? 32) || (c =? 13) || (c =? 10))) s = true -> word s.
Proof. intros H. apply Forall_forall. rewrite forallb_forall in H. intros c I. specialize (H c I). lia. Qed.

Example ex_line_ok : header_v1 ex_gai ex_line [10; 0; 0; 7] 4242.
Proof.
  exists false, (s2b "10.0.0.7"), (s2b "10.0.0.1"), (s2b "4242"), (s2b "1965"), [10; 0; 0; 1], 1965.
  split; [reflexivity|]. repeat (split; [first [apply word_b; reflexivity|reflexivity|apply is_dec_port; [discriminate|reflexivity|reflexivity]|lia]|]). lia.
Qed.

(** the line arrives in two pieces, the second with the start of the TLS stream;
    libtls gets exactly that *)
Definition ex_bytes : list N := [22; 3; 1; 0; 5].
Example c27_example : exists q, calls ex_gai ex_gni 0 (accepted true (s2b "127.0.0.1") (s2b "55")) (ex_line ++ ex_bytes) ex_bytes q true /\ q_rhost q = s2b "10.0.0.7" /\ q_rserv q = s2b "4242" /\ q_on q = false.
Proof.
  eexists. split.
  - change (ex_line ++ ex_bytes) with (firstn 20 ex_line ++ (skipn 20 ex_line ++ ex_bytes) ++ [] ++ [] ++ []).
    eapply cs_want with (buflen := 1000%nat) (a := RData (firstn 20 ex_line)); [vm_compute; reflexivity|].
    eapply cs_want with (buflen := 1000%nat) (a := RData (skipn 20 ex_line ++ ex_bytes)); [vm_compute; reflexivity|].
    change ex_bytes with ([22; 3] ++ [1; 0; 5] ++ []).
    eapply cs_data with (buflen := 2%nat) (a := RAgain); [vm_compute; reflexivity|].
    eapply cs_data with (buflen := 2000%nat) (a := RAgain); [vm_compute; reflexivity|]. apply cs_nil.
  - vm_compute. auto.
Qed.

(** ** what is not true *)
(** Lines that are not PROXY headers are taken for one: here the source port is
    ended by a CR, carries a sign, and the line ends in " LF". *)
Definition odd_line : list N := s2b "PROXY TCP4 10.0.0.7 10.0.0.1 +42" ++ [13] ++ s2b "1965 " ++ [10].
Theorem c27_lenient_refuted :
  (forall src sport, ~ header_v1 ex_gai odd_line src sport) /\
  exists q, calls ex_gai ex_gni 0 (accepted true (s2b "127.0.0.1") (s2b "55")) (odd_line ++ CRLF ++ ex_bytes) (CRLF ++ ex_bytes) q true /\ q_rhost q = s2b "10.0.0.7" /\ q_rserv q = s2b "42".
Proof.
  split.
  - intros src sport H. destruct (header_crlf _ _ _ _ H) as (b & E & _). change odd_line with ((s2b "PROXY TCP4 10.0.0.7 10.0.0.1 +42" ++ [13] ++ s2b "1965") ++ [32] ++ [10]) in E.
    rewrite app_assoc in E. change CRLF with ([13] ++ [10]) in E. rewrite (app_assoc b) in E. apply app_inj_tail in E. destruct E as [E _]. apply app_inj_tail in E. destruct E as [_ E]. discriminate.
  - eexists. split.
    + change (odd_line ++ CRLF ++ ex_bytes) with ((odd_line ++ CRLF ++ ex_bytes) ++ [] ++ []). change (CRLF ++ ex_bytes) with ((CRLF ++ ex_bytes) ++ []) at 2.
      eapply cs_want with (buflen := 1000%nat) (a := RData (odd_line ++ CRLF ++ ex_bytes)); [vm_compute; reflexivity|].
      eapply cs_data with (buflen := 1000%nat) (a := RAgain); [vm_compute; reflexivity|]. apply cs_nil.
    + vm_compute. auto.
Qed.

(** "PROXY UNKNOWN" is a valid line, but how much of the stream it takes is never
    set: what libtls gets depends on the contents of an uninitialised variable —
    from the line itself to nothing at all. *)
Theorem c27_unknown_refuted : let s := s2b "PROXY UNKNOWN" ++ CRLF ++ ex_bytes in
  (exists q, calls ex_gai ex_gni 0 (accepted true (s2b "127.0.0.1") (s2b "55")) s s q true) /\
  (exists q, calls ex_gai ex_gni 30 (accepted true (s2b "127.0.0.1") (s2b "55")) s [] q true /\ q_on q = false).
Proof.
  cbv zeta. set (s := s2b "PROXY UNKNOWN" ++ CRLF ++ ex_bytes). split.
  - eexists. change s with (s ++ [] ++ []) at 1. change s with (s ++ []) at 2.
    eapply cs_want with (buflen := 1000%nat) (a := RData s); [vm_compute; reflexivity|].
    eapply cs_data with (buflen := 1000%nat) (a := RAgain); [vm_compute; reflexivity|]. apply cs_nil.
  - eexists. split.
    + change s with (s ++ []) at 1. eapply cs_want with (buflen := 1000%nat) (a := RData s); [vm_compute; reflexivity|]. apply cs_nil.
    + reflexivity.
Qed.

(** libtls is told to wait for the socket to become readable although what it
    wants has been read already: if the peer waits for an answer to it, nobody
    ever moves. *)
Theorem c27_wait_refuted : exists q, read_cb ex_gai ex_gni 0 (accepted true (s2b "127.0.0.1") (s2b "55")) 1000 (RData (ex_line ++ ex_bytes)) = Some (OK (RcWant, ex_line ++ ex_bytes, q)) /\ held q = ex_bytes.
Proof. eexists. split; vm_compute; reflexivity. Qed.

(** ** C52: what an upstream gets before the request *)
Section C52.
Variable gai : N -> list N -> option (list N).
Variable gni : list N -> option (list N).
Variable junk : nat.

Lemma plain_calls peer port q0 R G q ok : q0 = accepted false peer port -> calls gai gni junk q0 R G q ok -> q = q0 /\ (ok = true -> R = G).
Proof.
  intros E CS. induction CS as [q|q buflen a l q1 r g q2 ok RC CS IH|q buflen a d l q1 r g q2 ok RC CS IH|q buflen a l q1 RC]; subst q.
  - auto.
  - unfold read_cb in RC. cbn [q_on accepted negb] in RC. destruct a as [| |x]; try discriminate; [|destruct (_ <=? _)%nat; discriminate].
    injection RC as <- <-. destruct (IH eq_refl) as [-> X]. auto.
  - unfold read_cb in RC. cbn [q_on accepted negb] in RC. destruct a as [| |x]; try discriminate. destruct (_ <=? _)%nat; [|discriminate].
    injection RC as <- <- <-. destruct (IH eq_refl) as [-> X]. split; [reflexivity|]. intros O. rewrite (X O). reflexivity.
  - unfold read_cb in RC. cbn [q_on accepted negb] in RC. destruct a as [| |x]; try discriminate; [|destruct (_ <=? _)%nat; discriminate].
    injection RC as <- <-. split; [reflexivity|discriminate].
Qed.

Lemma socket_data v4 to port q : (length (proxy_header v4 (q_rhost q) to (q_rserv q) port) <= 107)%nat ->
  let h := proxy_header v4 (q_rhost q) to (q_rserv q) port in
  exists rest, b_data (q_buf (proxy_socket true v4 to port q)) = h ++ rest /\ b_len (q_buf (proxy_socket true v4 to port q)) = length h /\ b_pos (q_buf (proxy_socket true v4 to port q)) = b_pos (q_buf q).
Proof.
  intros L h. unfold proxy_socket. cbn [negb]. fold h. fold h in L. unfold BUFLAYER_MAX.
  destruct (Nat.leb_spec 108 (length h)) as [X|X]; [lia|]. cbn [q_buf b_data b_len b_pos]. eexists. split; [|auto].
  rewrite firstn_all2 by (change (108 - 1)%nat with 107%nat; lia). reflexivity.
Qed.

(** the line promised names the client *)
Lemma header_promised (v4 : bool) rhost to rserv port src dst sport dport :
  word rhost -> word to -> word rserv -> word port -> gai (if v4 then 4 else 6) rhost = Some src -> gai 0 to = Some dst ->
  is_dec rserv (Z.of_N sport) -> sport <= 65535 -> is_dec port (Z.of_N dport) -> dport <= 65535 ->
  header_v1 gai (proxy_header v4 rhost to rserv port) src sport.
Proof.
  intros. exists (negb v4), rhost, to, rserv, port, dst, dport. split; [unfold proxy_header; destruct v4; reflexivity|]. destruct v4; cbn [negb]; auto 12.
Qed.

(** On a listener without proxy-v1: an upstream with proxy-v1 is sent one header
    line that names the client, before anything else; another one is sent
    nothing.  [rhost], [rserv]: the client as getnameinfo(3) prints it. *)
Theorem c52_preamble_partial rhost rserv R G q ok (notls v4 : bool) to port src dst sport dport :
  word rhost -> word to -> word rserv -> word port -> gai (if v4 then 4 else 6) rhost = Some src -> gai 0 to = Some dst ->
  is_dec rserv (Z.of_N sport) -> sport <= 65535 -> is_dec port (Z.of_N dport) -> dport <= 65535 ->
  (length rhost + length to + length rserv + length port <= 91)%nat ->
  calls gai gni junk (accepted false rhost rserv) R G q ok ->
  (exists h, header_v1 gai h src sport /\ preamble notls true (proxy_socket true v4 to port q) = OK h) /\
  preamble notls false (proxy_socket false v4 to port q) = OK [].
Proof.
  intros W1 W2 W3 W4 G1 G2 D1 B1 D2 B2 LL CS. destruct (plain_calls rhost rserv _ _ _ _ _ eq_refl CS) as [-> _]. split.
  - exists (proxy_header v4 rhost to rserv port). split; [eapply header_promised; eauto|].
    assert (LH : (length (proxy_header v4 rhost to rserv port) <= 107)%nat) by (unfold proxy_header; rewrite !app_length; cbn [length s2b]; destruct v4; cbn; lia).
    destruct (socket_data v4 to port (accepted false rhost rserv) LH) as (rest & D & LN & PO). cbn [accepted q_rhost q_rserv q_buf b_pos] in D, LN, PO.
    unfold preamble. rewrite LN, PO, D. unfold slice. rewrite app_length.
    assert (F : firstn (length (proxy_header v4 rhost to rserv port)) (proxy_header v4 rhost to rserv port ++ rest) = proxy_header v4 rhost to rserv port) by (rewrite firstn_app, firstn_all, Nat.sub_diag; apply app_nil_r).
    destruct notls; [|cbn [Nat.ltb Nat.leb]; rewrite Nat.sub_0_r]; cbn [Nat.add skipn]; rewrite (proj2 (Nat.leb_le _ _)) by lia; rewrite F; reflexivity.
  - unfold preamble. destruct notls; reflexivity.
Qed.

(** An upstream spoken to without TLS: the same, on any listener. *)
Theorem c52_notls q v4 to port : (length (q_rhost q) + length to + length (q_rserv q) + length port <= 91)%nat ->
  preamble true true (proxy_socket true v4 to port q) = OK (proxy_header v4 (q_rhost q) to (q_rserv q) port) /\
  preamble true false (proxy_socket false v4 to port q) = OK [].
Proof.
  intros LL. split; [|reflexivity]. assert (LH : (length (proxy_header v4 (q_rhost q) to (q_rserv q) port) <= 107)%nat) by (unfold proxy_header; rewrite !app_length; cbn [length s2b]; destruct v4; cbn; lia).
  destruct (socket_data v4 to port q LH) as (rest & D & LN & PO). unfold preamble. rewrite LN, D. unfold slice. rewrite app_length. cbn [Nat.add skipn].
  rewrite (proj2 (Nat.leb_le _ _)) by lia. rewrite firstn_app, firstn_all, Nat.sub_diag, app_nil_r. reflexivity.
Qed.
End C52.

Example c52_example : preamble false true (proxy_socket true true (s2b "10.0.0.1") (s2b "1965") (accepted false (s2b "10.0.0.7") (s2b "4242"))) = OK ex_line.
Proof. vm_compute. reflexivity. Qed.

(** A client behind a load balancer whose header came alone: an upstream spoken
    to with TLS, and without proxy-v1, gets the load balancer's header, spaces
    replaced by NULs, in front of the TLS stream. *)
Theorem c52_garbage_refuted : exists q, calls ex_gai ex_gni 0 (accepted true (s2b "127.0.0.1") (s2b "55")) (ex_line ++ ex_bytes) ex_bytes q true /\
  exists g, preamble false false (proxy_socket false true (s2b "10.0.0.1") (s2b "1965") q) = OK g /\ firstn 20 g = s2b "PROXY TCP4 10.0.0.7" ++ [0].
Proof.
  eexists. split.
  - change (ex_line ++ ex_bytes) with (ex_line ++ ex_bytes ++ []). change ex_bytes with (ex_bytes ++ []) at 2.
    eapply cs_want with (buflen := 1000%nat) (a := RData ex_line); [vm_compute; reflexivity|].
    eapply cs_data with (buflen := 1000%nat) (a := RData ex_bytes); [vm_compute; reflexivity|]. apply cs_nil.
  - eexists. split; vm_compute; reflexivity.
Qed.

(** The header came with a good deal of the TLS stream, as it does in practice:
    an upstream with proxy-v1 and TLS is sent memory behind the buffer. *)
Theorem c52_leak_refuted : exists q, calls ex_gai ex_gni 0 (accepted true (s2b "127.0.0.1") (s2b "55")) (ex_line ++ repeat 22 60) (repeat 22 60) q true /\
  preamble false true (proxy_socket true true (s2b "10.0.0.1") (s2b "1965") q) = UB.
Proof.
  eexists. split.
  - change (ex_line ++ repeat 22 60) with ((ex_line ++ repeat 22 60) ++ [] ++ []). change (repeat 22 60) with (repeat 22 60 ++ []) at 2.
    eapply cs_want with (buflen := 1000%nat) (a := RData (ex_line ++ repeat 22 60)); [vm_compute; reflexivity|].
    eapply cs_data with (buflen := 1000%nat) (a := RAgain); [vm_compute; reflexivity|]. apply cs_nil.
  - vm_compute. reflexivity.
Qed.

(** A client and an upstream with long link-local addresses: no header at all. *)
Theorem c52_long_refuted : let a := s2b "fe80:1111:2222:3333:4444:5555:6666:7777%wlp0s20f3" in
  preamble true true (proxy_socket true false a (s2b "1965") (accepted false a (s2b "4242"))) = OK [].
Proof. vm_compute. reflexivity. Qed.
