(** Properties C08, C42, C44: IRIs the server writes.  Specification:
    IriOutSpec.v. *)
From Verif Require Import Base BaseLemmas Utf8Spec Compat Iri IriSpec IriObs IriOut IriOutSpec
  Canon_Proofs Iri_Proofs Iri_Grammar_Proofs Iri_Final_Proofs IriOut_Proofs.
Local Open Scope N_scope.

(** C08.  For every name and every non-empty output buffer, encode_path stays
    inside the buffer; it succeeds exactly when the encoded name and its NUL
    fit, leaving that string there, and otherwise leaves a terminated prefix. *)
Theorem c08_encode_path : forall p len, nonul p -> bytes p -> (0 < len)%nat ->
  exists r buf, encode_path len p = OK (r, buf) /\ length buf = len /\
    ((length (pct_encode p) < len)%nat -> r = 0%Z /\ cstr buf = Some (pct_encode p)) /\
    ((len <= length (pct_encode p))%nat -> r = (-1)%Z /\
       exists a b, pct_encode p = a ++ b /\ cstr buf = Some a).
Proof.
  intros p len Hn Hb Hl. pose proof (encode_loop_spec p [] len Hb Hn Hl) as E. cbn zeta in E. cbn [app length] in E.
  destruct (encode_bytes p Hn Hb) as [Nz _].
  assert (CR : forall a k, nonul a -> (0 < k)%nat -> cstr (a ++ repeat 0 k) = Some a).
  { intros a k Ha Hk. destruct k; [lia|]. cbn [repeat]. apply cstr_nul. exact Ha. }
  unfold encode_path. destruct (Nat.ltb_spec (length (pct_encode p)) len) as [L|L].
  - eexists _, _. split; [exact E|]. split; [rewrite app_length, repeat_length; lia|]. split; [|intros; lia].
    intros _. split; [reflexivity|]. apply CR; [auto|lia].
  - destruct E as (b & k & E1 & (r & E2) & E3 & E4). eexists _, _. split; [exact E1|].
    split; [rewrite app_length, repeat_length; lia|]. split; [intros; lia|].
    intros _. split; [reflexivity|]. exists b, r. split; [exact E2|]. apply CR; [|exact E4].
    rewrite E2 in Nz. apply nonul_app in Nz. tauto.
Qed.
Print Assumptions c08_encode_path.

(** ... and what it writes, requested back, names the same file: the encoding
    of [p] is accepted as a path and decodes to [p]. *)
Theorem c08_encode_roundtrip : forall ip6 p, nonul p -> bytes p ->
  accepts ip6 (s2b "gemini://h/" ++ pct_encode p)
          (mkC (s2b "gemini") (s2b "h") [] 1965 (canon p) [] []).
Proof.
  intros ip6 p Hn Hb. destruct (encode_bytes p Hn Hb) as [N1 B1].
  apply accepts_iff.
  - apply nonul_app. split; [repeat constructor; discriminate|exact N1].
  - apply bytes_app. split; [repeat constructor|exact B1].
  - change (s2b "gemini://h/" ++ pct_encode p) with
      ((103 :: s2b "emini") ++ s2b "://" ++ [104] ++ [] ++ (47 :: pct_encode p)).
    change (s2b "gemini") with (map to_lower (103 :: s2b "emini")).
    constructor; try reflexivity.
    + change (s2b "h") with (map to_lower [104]). constructor. apply items_plain. reflexivity.
    + constructor.
    + constructor. apply encode_items; assumption.
Qed.
Print Assumptions c08_encode_roundtrip.

Example c08_example :
  encode_path 12 (s2b "a b" ++ [255] ++ s2b "/~") = OK (0%Z, s2b "a%20b%FF/~" ++ [0; 0]) /\
  encode_path 6 (s2b "a b" ++ [255]) = OK ((-1)%Z, s2b "a%20b" ++ [0]).
Proof. split; vm_compute; reflexivity. Qed.

(** decoding of query arguments in place: stays in the string, never fails *)
Theorem c08_pct_decode_str : forall s junk, nonul s -> bytes s ->
  exists m', pct_decode_str (s ++ 0 :: junk) = OK m' /\ length m' = length (s ++ 0 :: junk) /\
    cstr m' = Some (url_decode s) /\ skipn (length s) m' = 0 :: junk.
Proof.
  intros s junk Hn Hb. unfold pct_decode_str.
  assert (Sh : shape (s ++ 0 :: junk) [] s (length s) junk).
  { repeat split; auto. - exists junk. reflexivity. - apply skipn_pre. reflexivity. }
  destruct (pct_decode_str_loop_spec (length s) s (S (length (s ++ 0 :: junk))) [] _ _ _ ltac:(lia) ltac:(rewrite app_length; lia) Sh)
    as (m' & A & B). cbn [length] in A. exists m'. split; [exact A|].
  destruct B as ((j & B1) & B2 & B3 & _). cbn [app] in *.
  assert (Len : length m' = length (s ++ 0 :: junk)).
  { rewrite <- (firstn_skipn (length s) m'), B3. rewrite !app_length, firstn_length.
    assert (length s < length m')%nat; [|lia]. apply Nat.nle_gt. intros Q. rewrite skipn_all2 in B3 by lia. discriminate. }
  split; [exact Len|]. split; [|exact B3].
  rewrite B1. apply cstr_nul.
  clear - Hn Hb. assert (K : forall n s, (length s <= n)%nat -> nonul s -> nonul (url_decode s)).
  { induction n as [|n IH]; intros t L Nt. { destruct t; [constructor|cbn in L; lia]. }
    destruct t as [|c t]; [constructor|]. apply nonul_cons in Nt. destruct Nt as [N0 Nt]. cbn [length] in L.
    assert (D : url_decode (c :: t) = (if c =? 43 then 32 else c) :: url_decode t \/
                exists a b r, t = a :: b :: r /\ c = 37 /\ is_xdigit a = true /\ is_xdigit b = true /\ (a =? 48) && (b =? 48) = false
                  /\ url_decode (c :: t) = (16 * hexval a + hexval b) :: url_decode r).
    { destruct (N.eqb_spec c 43) as [->|H43]; [left; reflexivity|]. destruct (N.eq_dec c 37) as [->|H37].
      - destruct t as [|a [|b r]]; [left; reflexivity|left; reflexivity|].
        change (url_decode (37 :: a :: b :: r)) with
          (if is_xdigit a && is_xdigit b && negb ((a =? 48) && (b =? 48))
           then (16 * hexval a + hexval b) :: url_decode r else 37 :: url_decode (a :: b :: r)).
        destruct (is_xdigit a && is_xdigit b && negb ((a =? 48) && (b =? 48))) eqn:K; [|left; reflexivity].
        right. apply andb_prop in K. destruct K as [K K3]. apply andb_prop in K. destruct K as [K1 K2]. apply negb_true_iff in K3.
        exists a, b, r. repeat split; auto.
      - left. cbn [url_decode]. destruct c as [|q]; [congruence|].
        repeat (destruct q as [q|q|]; try reflexivity; try congruence). }
    destruct D as [->|(a & b & r & -> & -> & X1 & X2 & X3 & ->)].
    - apply nonul_cons. split; [destruct (c =? 43); [discriminate|auto]|]. apply IH; auto; lia.
    - apply nonul_cons. apply nonul_cons in Nt. destruct Nt as [_ Nt]. apply nonul_cons in Nt. destruct Nt as [_ Nt].
      split; [apply (xdigit_val a b X1 X2 X3)|]. apply IH; auto. cbn [length] in L. lia. }
  apply (K (length s)); auto.
Qed.
Print Assumptions c08_pct_decode_str.

Example c08_example_decode :
  pct_decode_str (s2b "a+b%2b%zz%00%2" ++ [0]) = OK (s2b "a b+%zz%00%2" ++ [0; 50; 0]).
Proof. vm_compute. reflexivity. Qed.

(** ** C42: the request line sent upstream by the reverse proxy *)

Lemma canon_len p : nonul p -> (length (canon p) <= length p)%nat.
Proof.
  intros H. destruct (path_clean_spec [] p [] H) as (g & _ & L & _). cbn [app] in L. rewrite !app_length in L. cbn [length] in L. lia.
Qed.

Lemma items_len ok dec s s' : items ok dec s s' -> (length s' <= length s)%nat.
Proof. induction 1 as [|a a' s s' I _ IH]; [reflexivity|]. rewrite !app_length. destruct I; [cbn; lia|destruct dec; cbn; lia|lia]. Qed.

Lemma line_len ip6 s c : g_iri ip6 s c -> (length (request_line c) <= length s + 1)%nat.
Proof.
  destruct 1 as [c0 sch hsrc host psrc port no rest path query frag H1 H2 H3 H4 H5].
  unfold request_line. cbn [c_scheme c_host c_path c_query].
  assert (A : (length host <= length hsrc)%nat).
  { destruct H3 as [src out I|h]; [rewrite map_length; eapply items_len; eauto|]. rewrite !app_length. cbn. lia. }
  assert (B : (1 + length path + length (match query with [] => [] | q => s2b "?" ++ q end) <= length rest + 1)%nat).
  { destruct H5 as [|p p' I|p p' f I|p p' q I J|p p' q f I J]; cbn [length].
    - reflexivity.
    - pose proof (items_len _ _ _ _ I). pose proof (canon_len p' (items_nonul _ _ _ g_path_good I)). lia.
    - pose proof (items_len _ _ _ _ I). pose proof (canon_len p' (items_nonul _ _ _ g_path_good I)). rewrite app_length. lia.
    - pose proof (items_len _ _ _ _ I). pose proof (canon_len p' (items_nonul _ _ _ g_path_good I)). rewrite app_length. cbn [length].
      destruct q; cbn [length]; [lia|]. cbn. lia.
    - pose proof (items_len _ _ _ _ I). pose proof (canon_len p' (items_nonul _ _ _ g_path_good I)). rewrite !app_length. cbn [length]. rewrite app_length.
      destruct q; cbn [length]; [lia|]. cbn. lia. }
  rewrite !app_length, map_length. change (length (s2b "://")) with 3%nat. change (length (s2b "/")) with 1%nat. destruct query; cbv iota in *; lia.
Qed.

Lemma utf8_bytes_lo cp : scalar cp -> bytes (utf8_encode cp).
Proof.
  intros Hs. unfold utf8_encode. destruct (N.ltb_spec cp 128); [repeat constructor; lia|].
  assert (M : forall x, 128 + x mod 64 < 256) by (intros x; pose proof (N.mod_lt x 64); lia).
  destruct (N.ltb_spec cp 2048).
  { repeat constructor; auto. assert (cp / 64 < 32) by (apply N.div_lt_upper_bound; lia). lia. }
  destruct (N.ltb_spec cp 65536).
  { repeat constructor; auto. assert (cp / 4096 < 16) by (apply N.div_lt_upper_bound; lia). lia. }
  repeat constructor; auto. unfold scalar in Hs. assert (cp / 262144 < 5) by (apply N.div_lt_upper_bound; lia). lia.
Qed.

Lemma items_vis ok dec s s' : (forall c, ok c = true -> 33 <= c < 128) -> items ok dec s s' ->
  Forall (fun c => 33 <= c < 256) s.
Proof.
  intros Hok. induction 1 as [|a a' s s' I _ IH]; [constructor|]. apply Forall_app. split; [|exact IH].
  destruct I as [c Hc|a b Ha Hb|cp Hs Hc].
  - apply Hok in Hc. repeat constructor; lia.
  - unfold is_xdigit, is_digit in *. repeat constructor; lia.
  - apply Forall_forall. intros x Hx. pose proof (utf8_bytes_hi cp Hc x Hx).
    pose proof (utf8_bytes_lo cp Hs) as Hb. unfold bytes in Hb. rewrite Forall_forall in Hb. specialize (Hb x Hx). cbn in Hb. lia.
Qed.

Ltac vis := intros c; unfold g_host, g_path, g_query, g_scheme, g_unreserved, g_subdelim, is_alnum, is_alpha, is_upper, is_lower, is_digit;
  cbn [s2b existsb N_of_ascii N_of_digits]; rewrite ?orb_true_iff, ?andb_true_iff, ?N.leb_le; intros H;
  repeat match goal with H : _ \/ _ |- _ => destruct H end; cbv [N_of_ascii N_of_digits] in *;
  repeat match goal with H : (_ =? _) = true |- _ => apply N.eqb_eq in H end; try discriminate; lia.
Lemma vis_host c : g_host c = true -> 33 <= c < 128. Proof. revert c. vis. Qed.
Lemma vis_path c : g_path c = true -> 33 <= c < 128. Proof. revert c. vis. Qed.
Lemma vis_query c : g_query c = true -> 33 <= c < 128. Proof. revert c. vis. Qed.
Lemma vis_scheme c : g_scheme c = true -> 33 <= c < 128. Proof. revert c. vis. Qed.

Lemma lower_vis c : 33 <= c < 128 -> 33 <= to_lower c < 128.
Proof. unfold to_lower, is_upper. intros. destruct ((65 <=? c) && (c <=? 90)) eqn:E; lia. Qed.
Lemma lower_idem c : to_lower (to_lower c) = to_lower c.
Proof. unfold to_lower, is_upper. destruct ((65 <=? c) && (c <=? 90)) eqn:E; [|rewrite E; reflexivity].
  destruct ((65 <=? c + 32) && (c + 32 <=? 90)) eqn:E2; lia. Qed.
Lemma lower_scheme c : g_scheme c = true -> g_scheme (to_lower c) = true.
Proof.
  intros H. unfold to_lower. destruct (is_upper c) eqn:E; [|exact H]. unfold g_scheme, is_alnum, is_alpha, is_lower.
  unfold is_upper in E. assert (K : (97 <=? c + 32) && (c + 32 <=? 122) = true) by lia. rewrite K, orb_true_r. reflexivity.
Qed.
Lemma lower_alpha c : is_alpha c = true -> is_alpha (to_lower c) = true.
Proof. unfold to_lower. destruct (is_upper c) eqn:E; [|auto]. intros _. unfold is_alpha, is_upper, is_lower in *.
  assert (K : (97 <=? c + 32) && (c + 32 <=? 122) = true) by lia. rewrite K, orb_true_r. reflexivity. Qed.

Lemma items_no58 h h' : items g_host true h h' -> ~ In 58 h.
Proof.
  induction 1 as [|a a' s s' I _ IH]; [intros []|]. rewrite in_app_iff. intros [Hi|Hi]; [|auto].
  destruct I as [c Hc|a b Ha Hb|cp Hs Hc].
  - destruct Hi as [->|[]]. vm_compute in Hc. discriminate.
  - cbn in Hi. unfold is_xdigit, is_digit in *. destruct Hi as [Hi|[Hi|[Hi|[]]]]; lia.
  - apply utf8_bytes_hi in Hi; lia.
Qed.

(** Whatever the request (at most 1024 bytes, as client_read ensures), the
    line queued for the upstream is scheme://host/path[?query] of the DECODED
    components, complete, then CRLF. *)
Theorem c42_upstream_line : forall ip6 s c buf0, nonul s -> bytes s -> (length s <= 1024)%nat ->
  length buf0 = GEMINI_URL_LEN -> accepts ip6 s c ->
  proxy_request_line c buf0 = OK (request_line c ++ [13; 10]).
Proof.
  intros ip6 s c buf0 Hn Hb Hl Hbuf A.
  assert (NN : nonul (c_scheme c) /\ nonul (c_host c) /\ nonul (c_path c) /\ nonul (c_query c)).
  { destruct A as (p & _ & C). unfold comps_of, cstr_at in C.
    repeat match type of C with context [match cstr ?x with _ => _ end] => destruct (cstr x) as [?|] eqn:?; [|discriminate] end.
    repeat match goal with H : cstr _ = Some _ |- _ => apply cstr_inv in H; destruct H as [H _] end.
    inversion C; subst; cbn. auto. }
  destruct NN as (N1 & N2 & N3 & N4).
  apply accepts_iff in A; auto. pose proof (line_len _ _ _ A) as LL.
  unfold proxy_request_line.
  assert (LT : (length (request_line c) < GEMINI_URL_LEN)%nat).
  { apply Nat.le_lt_trans with (1025)%nat; [lia|]. unfold GEMINI_URL_LEN. lia. }
  destruct (serialize_fits c buf0 GEMINI_URL_LEN Hbuf N1 N2 N3 N4 LT) as (b & S1 & S2). rewrite S1. cbn [bind]. rewrite S2. reflexivity.
Qed.
Print Assumptions c42_upstream_line.

(** When nothing in the host or path had to be percent-encoded, the host is a
    name and the port is the default one, that line is one line and denotes the
    resource that was requested. Missing for the full property: exactly these
    three conditions — without them it is false, see below. *)
Theorem c42_same_resource_partial : forall ip6 s c,
  (forall h, ip6 h = true -> In 58 h) ->
  nonul s -> bytes s -> accepts ip6 s c ->
  c_port_no c = 1965 -> items g_host true (c_host c) (c_host c) -> items g_path true (c_path c) (c_path c) ->
  accepts ip6 (request_line c) (mkC (c_scheme c) (c_host c) [] 1965 (c_path c) (c_query c) []) /\
  ~ In 13 (request_line c) /\ ~ In 10 (request_line c).
Proof.
  intros ip6 s c Hip Hn Hb A Hport Hhost Hpath. apply accepts_iff in A; auto.
  destruct A as [c0 sch hsrc host psrc port no rest path query frag H1 H2 H3 H4 H5].
  unfold request_line. cbn [c_scheme c_host c_path c_query c_port_no] in *.
  assert (Hlow : map to_lower host = host).
  { destruct H3 as [src out I|h Hi Hh]. - rewrite map_map. apply map_ext. apply lower_idem.
    - exfalso. apply (items_no58 _ _ Hhost). apply Hip. exact Hh. }
  assert (Hq : items g_query false query query) by (destruct H5; auto; constructor).
  assert (Hcan : canon path = path) by (destruct H5; try reflexivity; apply canon_idem).
  set (line := map to_lower (c0 :: sch) ++ s2b "://" ++ host ++ s2b "/" ++ path ++ match query with [] => [] | n :: l => s2b "?" ++ n :: l end).
  assert (V : Forall (fun c => 33 <= c < 256) line).
  { unfold line. repeat (apply Forall_app; split).
    - cbn [map]. constructor. { assert (33 <= to_lower c0 < 128); [|lia]. apply lower_vis. unfold is_alpha, is_upper, is_lower in H1. lia. }
      apply Forall_forall. intros x Hx. apply in_map_iff in Hx. destruct Hx as (y & <- & Hy).
      rewrite forallb_forall in H2. specialize (H2 y Hy). apply vis_scheme in H2. apply lower_vis in H2. lia.
    - repeat constructor; discriminate.
    - eapply items_vis; [apply vis_host|exact Hhost].
    - repeat constructor; discriminate.
    - eapply items_vis; [apply vis_path|exact Hpath].
    - destruct query as [|q0 q]; [constructor|]. apply Forall_app. split; [repeat constructor; discriminate|].
      eapply items_vis; [apply vis_query|exact Hq]. }
  rewrite Forall_forall in V.
  split; [|split; intros Hi; apply V in Hi; lia].
  apply accepts_iff.
  - apply Forall_forall. intros x Hx. apply V in Hx. lia.
  - apply Forall_forall. intros x Hx. apply V in Hx. lia.
  - assert (RS : exists sch', map to_lower (c0 :: sch) = to_lower c0 :: sch' /\ forallb g_scheme sch' = true /\ map to_lower (to_lower c0 :: sch') = to_lower c0 :: sch').
    { exists (map to_lower sch). split; [reflexivity|]. split.
      - rewrite forallb_forall in *. intros x Hx. apply in_map_iff in Hx. destruct Hx as (y & <- & Hy). apply lower_scheme. auto.
      - change (to_lower c0 :: map to_lower sch) with (map to_lower (c0 :: sch)). rewrite map_map. apply map_ext. apply lower_idem. }
    destruct RS as (sch' & E1 & E2 & E3). unfold line. rewrite E1. rewrite <- E3 at 2. rewrite <- Hlow at 2. rewrite <- Hcan at 2.
    assert (RL : g_rest (s2b "/" ++ path ++ match query with [] => [] | n :: l => s2b "?" ++ n :: l end) (canon path) query []).
    { destruct query as [|q0 q].
      - rewrite app_nil_r. apply gr_path. exact Hpath.
      - apply (gr_path_query path path (q0 :: q)); assumption. }
    change (host ++ s2b "/" ++ path ++ match query with [] => [] | n :: l => s2b "?" ++ n :: l end)
      with (host ++ [] ++ (s2b "/" ++ path ++ match query with [] => [] | n :: l => s2b "?" ++ n :: l end)).
    constructor; auto.
    + apply lower_alpha. exact H1.
    + constructor. exact Hhost.
    + constructor.
Qed.
Print Assumptions c42_same_resource_partial.

Example c42_example :
  exists c, accepts (fun _ => false) (s2b "Gemini://Ex.org:1965/a/./b?q%20r#f") c /\
    c_port_no c = 1965 /\ items g_host true (c_host c) (c_host c) /\ items g_path true (c_path c) (c_path c) /\
    request_line c = s2b "gemini://ex.org/a/b?q%20r".
Proof.
  eexists. split; [eexists; split; vm_compute; reflexivity|]. cbn [c_host c_path c_port_no].
  split; [reflexivity|]. split; [apply items_plain; reflexivity|]. split; [apply items_plain; reflexivity|]. vm_compute. reflexivity.
Qed.

(** The property as stated is false: a request with an encoded CRLF makes the
    proxy send two lines, one with a port loses it, and an encoded '?' turns
    part of the path into a query. *)
Theorem c42_one_line_refuted : exists s c, nonul s /\ bytes s /\ (length s <= 1024)%nat /\
  accepts (fun _ => false) s c /\
  exists a b, request_line c = a ++ [13; 10] ++ b /\ b <> [].
Proof.
  exists (s2b "gemini://h/a%0D%0Agemini://x/"), (mkC (s2b "gemini") (s2b "h") [] 1965 (s2b "a" ++ [13; 10] ++ s2b "gemini:/x/") [] []).
  split; [repeat constructor; discriminate|]. split; [repeat constructor|]. split; [vm_compute; lia|].
  split; [eexists; split; vm_compute; reflexivity|].
  exists (s2b "gemini://h/a"), (s2b "gemini:/x/"). split; [vm_compute; reflexivity|discriminate].
Qed.
Print Assumptions c42_one_line_refuted.

Theorem c42_same_resource_refuted : exists s c d, accepts (fun _ => false) s c /\
  accepts (fun _ => false) (request_line c) d /\
  (c_port_no d <> c_port_no c /\ c_path d <> c_path c /\ c_query d <> c_query c).
Proof.
  exists (s2b "gemini://h:70/a%3Fb"). eexists _, _. split; [eexists; split; vm_compute; reflexivity|].
  split; [eexists; split; vm_compute; reflexivity|]. cbn. repeat split; discriminate.
Qed.
Print Assumptions c42_same_resource_refuted.

(** C44.  serialize_iri reports truncation through its result.  True whenever
    the caller's buffer suffices (result 1, exact text: c44_..._fits), but a
    truncated text may also be reported as success: *)
Theorem c44_serialize_fits_partial : forall c buf len, length buf = len ->
  nonul (c_scheme c) -> nonul (c_host c) -> nonul (c_path c) -> nonul (c_query c) ->
  (length (request_line c) < len)%nat ->
  exists b, serialize_iri c buf len = OK (true, b) /\ cstr b = Some (request_line c).
Proof. exact serialize_fits. Qed.
Print Assumptions c44_serialize_fits_partial.

Theorem c44_truncation_unreported_refuted : exists c buf b, 
  serialize_iri c buf (length buf) = OK (true, b) /\ cstr b <> Some (request_line c).
Proof.
  exists (mkC (s2b "gemini") (s2b "example.com") [] 1965 [] [] []), (repeat 7 12). eexists.
  split; vm_compute; [reflexivity|discriminate].
Qed.
Print Assumptions c44_truncation_unreported_refuted.
