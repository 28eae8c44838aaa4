(** C57: the lines of the access log; C58: one line per reply *)
From Verif Require Import Base BaseLemmas Compat Iri IriSpec IriObs IriOut Fmt Vis VisSpec Vis_Proofs Prop_Vis Log LogSpec
  Imsg Conf Server ServerSpec HistorySpec Prop_Server Prop_History Iri_Last_Proofs RequestSpec.
Local Open Scope N_scope.

Lemma firstn_cat n b s : (length b <= n - 1)%nat -> cat n b s = firstn (n - 1) (b ++ s).
Proof. intro H. unfold cat. rewrite firstn_app. rewrite (firstn_all2 (n := n - 1) b) by lia. reflexivity. Qed.

Lemma cat_firstn n a s : cat n (firstn (n - 1) a) s = firstn (n - 1) (a ++ s).
Proof.
  rewrite firstn_cat by (rewrite firstn_length; lia). rewrite !firstn_app, firstn_firstn, Nat.min_id, firstn_length.
  destruct (Nat.le_gt_cases (length a) (n - 1)).
  - rewrite Nat.min_r by lia. reflexivity.
  - rewrite Nat.min_l by lia. replace (n - 1 - length a)%nat with 0%nat by lia. rewrite Nat.sub_diag. reflexivity.
Qed.

Definition host_of (x : logctx) (i : comps) : list N := match g_domain x with [] => c_host i | d => d end.

Lemma log_url_iri x i : g_iri x = Some i -> log_url x = firstn 1026 (uri_of (host_of x i) i).
Proof.
  intro H. unfold log_url. rewrite H. change 1026%nat with (GEMINI_URL_LEN - 1)%nat. generalize GEMINI_URL_LEN. intro n.
  rewrite cat_firstn. unfold uri_of. fold (host_of x i). rewrite cat_firstn.
  set (h := (c_scheme i ++ s2b "://") ++ host_of x i).
  replace (match c_path i with 47 :: _ => firstn (n - 1) h | _ => cat n (firstn (n - 1) h) [47] end)
    with (firstn (n - 1) (h ++ match c_path i with 47 :: _ => [] | _ => [47] end)).
  2:{ rewrite cat_firstn. destruct (c_path i) as [|c p]; [reflexivity|].
      destruct c as [|c]; [reflexivity|]. repeat (destruct c as [c|c|]; try reflexivity). rewrite app_nil_r. reflexivity. }
  rewrite cat_firstn.
  replace ((h ++ match c_path i with 47 :: _ => [] | _ => [47] end) ++ c_path i)
    with (h ++ match c_path i with 47 :: _ => c_path i | p => 47 :: p end).
  2:{ rewrite <- app_assoc. f_equal. destruct (c_path i) as [|c p]; [reflexivity|].
      destruct c as [|c]; [reflexivity|]. repeat (destruct c as [c|c|]; try reflexivity). }
  destruct (c_query i) as [|q qs].
  - subst h. rewrite <- !app_assoc, app_nil_r. reflexivity.
  - rewrite !cat_firstn. subst h. rewrite <- !app_assoc. reflexivity.
Qed.

Lemma forall_firstn {A} (P : A -> Prop) n l : Forall P l -> Forall P (firstn n l).
Proof. intro H. rewrite <- (firstn_skipn n l) in H. apply Forall_app in H. tauto. Qed.
Lemma forall_skipn {A} (P : A -> Prop) n l : Forall P l -> Forall P (skipn n l).
Proof. intro H. rewrite <- (firstn_skipn n l) in H. apply Forall_app in H. tauto. Qed.

Lemma until_slash_pre s : exists r, s = until_slash s ++ r.
Proof. induction s as [|c s [r IH]]; [exists []; reflexivity|]. cbn [until_slash]. destruct (c =? 47); [eexists; reflexivity|]. exists r. cbn [app]. f_equal. exact IH. Qed.
Lemma forall_until {P : N -> Prop} s : Forall P s -> Forall P (until_slash s).
Proof. destruct (until_slash_pre s) as [r H]. intro X. rewrite H in X. apply Forall_app in X. tauto. Qed.

Lemma until_slash_firstn : forall name after n, ~ In 47 name -> after = [] \/ (exists r, after = 47 :: r) ->
  until_slash (firstn n (name ++ after)) = firstn n name.
Proof.
  induction name as [|c name IH]; intros after n H A.
  - cbn [app]. rewrite firstn_nil. destruct A as [->|[r ->]]; [rewrite firstn_nil; reflexivity|]. destruct n; reflexivity.
  - destruct n; [reflexivity|]. cbn [app firstn until_slash]. assert (c <> 47) by (intro; subst; apply H; left; reflexivity).
    replace (c =? 47) with false by lia. f_equal. apply IH; [intro; apply H; right; auto|exact A].
Qed.

(** what is shown of the certificate *)
Lemma log_cn_ok subj : (forall s, subj = Some s -> bytes s /\ nonul s) ->
  exists cn, log_cn subj = OK cn /\ Forall printing cn /\ (length cn <= 63)%nat /\
   (subj = None -> cn = [45]) /\
   forall s name, subj = Some s -> subject_is true s name ->
     exists k, decodes cn (firstn k name) /\ (k = length name \/ 60 <= length cn)%nat.
Proof.
  intros H. assert (DASH : Forall printing [45]) by (constructor; [unfold printing; lia|constructor]).
  destruct subj as [subj|]; [|exists [45]; repeat split; auto; [simpl; lia|discriminate]].
  unfold log_cn. destruct (has_cn subj) eqn:HC.
  - destruct (H subj eq_refl) as [HB HN]. set (t := until_slash (firstn 63 (skipn 4 subj))).
    assert (TB : bytes t) by (apply forall_until, forall_firstn, forall_skipn; exact HB).
    assert (TN : nonul t) by (apply forall_until, forall_firstn, forall_skipn; exact HN).
    destruct (c56_strnvis_partial t [] (45 :: repeat 0 63) 64 TB TN ltac:(cbn [length]; rewrite repeat_length; lia))
      as (ret & dst & out & full & k & Q & _ & _ & C & L & P & (D & _) & KL & _).
    rewrite Q. cbn [bind]. rewrite C. exists out. split; [reflexivity|]. split; [exact P|]. split; [lia|]. split; [discriminate|].
    intros s name E (before & after & S1 & S2 & S3 & S4). injection E as <-. rewrite (S4 eq_refl) in S1. cbn [app] in S1.
    assert (T : t = firstn 63 name). { subst t subj. change (skipn 4 (s2b "/CN=" ++ name ++ after)) with (name ++ after). apply until_slash_firstn; auto. }
    rewrite T in D, KL. rewrite firstn_firstn in D. exists (Nat.min k 63). split; [exact D|]. rewrite firstn_length in KL.
    assert (KN : (length (firstn (Nat.min k 63) name) <= length out)%nat).
    { clear - D. induction D as [|e b es bs DD DS IH]; [lia|]. rewrite app_length. apply denotes_ne in DD. destruct e; [congruence|]. simpl. lia. }
    rewrite firstn_length in KN. lia.
  - exists [45]. split; [reflexivity|]. split; [exact DASH|]. split; [simpl; lia|]. split; [discriminate|].
    intros s name E (before & after & S1 & _ & _ & S4). injection E as <-. rewrite (S4 eq_refl) in S1. subst subj. discriminate HC.
Qed.

(** ** C57 *)
(** Every line of the access log has the documented form: remote address,
    time, host, the request URI (cut after 1026 bytes), code, meta; the name of
    the certificate is shown quoted, a dash if there is none, provided the
    Common Name is the first component of the subject; both sizes are given as
    0. *)
Theorem c57_line_partial fmt x code meta : (forall s, g_subject x = Some s -> bytes s /\ nonul s) ->
  forall i, g_iri x = Some i ->
  let host := match g_domain x with [] => c_host i | d => d end in
  exists cn, log_request fmt x code meta =
      OK (line_of fmt (g_rhost x) (g_rserv x) (g_tstamp x) (g_rfc3339 x) host cn
            (firstn 1026 (uri_of host i)) (dec code) meta [48] [48]) /\
    Forall printing cn /\ (g_subject x = None -> cn = s2b "-") /\
    forall s name, g_subject x = Some s -> subject_is true s name ->
      exists k, decodes cn (firstn k name) /\ (k = length name \/ 60 <= length cn)%nat.
Proof.
  intros HS i HI host. destruct (log_cn_ok _ HS) as (cn & Q & P & _ & N & D). exists cn. split; [|auto].
  unfold log_request. rewrite Q, (log_url_iri x i HI). fold (host_of x i) in host. fold host. cbn [bind].
  assert (HH : log_host x = OK host). { unfold log_host, host, host_of. rewrite HI. destruct (g_domain x); reflexivity. }
  rewrite HH. cbn [bind]. destruct fmt; cbn [line_of words s2b app quoted bracketed]; unfold quoted, bracketed;
    cbn [N_of_ascii N_of_digits]; cbn [s2b app N_of_ascii]; f_equal; repeat (rewrite <- ?app_assoc; cbn [app]); reflexivity.
Qed.

Definition ex_iri : comps := mkC (s2b "gemini") (s2b "h") [] 1965 (s2b "a/b") (s2b "q") [].
Definition ex_log (subj : option (list N)) : logctx :=
  mkLog (s2b "::1") (s2b "4242") (s2b "04/May/2022:18:57:50 +0000") (s2b "2022-05-04T18:57:50+0000") subj (Some ex_iri) (s2b "h") None.
Example c57_example :
  log_request LF_COMBINED (ex_log (Some (s2b "/CN=Alice L/O=x"))) 20 (s2b "text/gemini") =
    OK (s2b "::1 - Alice\040L [04/May/2022:18:57:50 +0000] " ++ quoted (s2b "gemini://h/a/b?q") ++ s2b " 20 0 " ++ quoted (s2b "-") ++ s2b " " ++ quoted []) /\
  subject_is true (s2b "/CN=Alice L/O=x") (s2b "Alice L") /\
  log_request LF_LEGACY (ex_log None) 20 (s2b "text/gemini") = OK (s2b "::1:4242 GET gemini://h/a/b?q 20 text/gemini").
Proof.
  split; [vm_compute; reflexivity|]. split; [|vm_compute; reflexivity].
  exists [], (s2b "/O=x"). split; [reflexivity|]. split; [|split; [right; eexists; reflexivity|reflexivity]].
  intro H. repeat (destruct H as [H|H]; [discriminate H|]). exact H.
Qed.

(** False when other components come first: the name shown is not that of the
    certificate. *)
Theorem c57_cn_refuted : ~ (forall subj name, subject_is false subj name -> (length name <= 15)%nat ->
  exists cn, log_cn (Some subj) = OK cn /\ decodes cn name).
Proof.
  intro H. destruct (H (s2b "/C=IT/CN=alice") (s2b "alice")) as (cn & Q & D).
  - exists (s2b "/C=IT"), []. split; [reflexivity|]. split; [|split; [left; reflexivity|discriminate]].
    intro X. repeat (destruct X as [X|X]; [discriminate X|]). exact X.
  - simpl. lia.
  - vm_compute in Q. injection Q as <-. inversion D as [|e b es bs DE DS E1 E2]; subst. inversion DE; subst; try discriminate.
Qed.

(** False too of the first reply of all: a client whose server name indication
    cannot be decoded is refused and logged before there is a request; with the
    styles `common' and `condensed' a null pointer is printed. *)
Theorem c57_null_host_refuted : ~ (forall E es c code meta fmt x, conf_ok E -> polite_history E es c -> In (code, meta) (logs c) ->
  g_iri x = c_iri c -> g_domain x = c_domain c -> log_request fmt x code meta <> UB).
Proof.
  intro H. set (E := ex_env (ex_vhost plain_loc [] []) None).
  assert (X : exists c, step E (EvHandshake (Some (repeat 97 70))) fresh = Some (OK c) /\
     In (59, s2b "Wrong/malformed host") (logs c) /\ c_iri c = None /\ c_domain c = []).
  { eexists. split; [vm_compute; reflexivity|]. split; [left; reflexivity|split; reflexivity]. }
  destruct X as (c & R & I & CI & CD).
  refine (H E [EvHandshake (Some (repeat 97 70))] c _ _ LF_COMMON (mkLog (s2b "::1") [] [] [] None None [] None) _ _ I _ _ _).
  - repeat constructor.
  - change [EvHandshake (Some (repeat 97 70))] with ([] ++ [EvHandshake (Some (repeat 97 70))]).
    eapply p_step; [apply p_new|exact I0|exact R] || (eapply p_step; [apply p_new| |exact R]; exact Logic.I).
  - symmetry; exact CI.
  - symmetry; exact CD.
  - reflexivity.
Qed.

(** ** C58 *)
Definition nolf (s : list N) : Prop := ~ In 10 s.
(** the pieces of a line are C strings without newlines *)
Record tidy (x : logctx) (meta : list N) : Prop := mkTidy {
  ty_rhost : nonul (g_rhost x) /\ nolf (g_rhost x); ty_rserv : nonul (g_rserv x) /\ nolf (g_rserv x);
  ty_tstamp : nonul (g_tstamp x) /\ nolf (g_tstamp x); ty_rfc : nonul (g_rfc3339 x) /\ nolf (g_rfc3339 x);
  ty_subject : forall s, g_subject x = Some s -> bytes s /\ nonul s;
  ty_domain : nonul (g_domain x) /\ nolf (g_domain x);
  ty_iri : forall i, g_iri x = Some i -> (nonul (c_scheme i) /\ nolf (c_scheme i)) /\ (nonul (c_host i) /\ nolf (c_host i)) /\
    (nonul (c_path i) /\ nolf (c_path i)) /\ (nonul (c_query i) /\ nolf (c_query i));
  ty_req : forall r, g_req x = Some r -> nonul r /\ nolf r;
  ty_meta : nonul meta /\ nolf meta }.

Definition clean (s : list N) : Prop := Forall (fun c => c <> 0 /\ c <> 10) s.
Lemma clean_iff s : clean s <-> nonul s /\ nolf s.
Proof.
  unfold clean, nonul, nolf. rewrite !Forall_forall. split.
  - intro H. split; [intros; apply H; auto|intro X; apply (H 10 X); reflexivity].
  - intros [A B] c X. split; [auto|intro; subst; auto].
Qed.
Lemma clean_app a b : clean (a ++ b) <-> clean a /\ clean b.
Proof. apply Forall_app. Qed.
Lemma printing_clean s : Forall printing s -> clean s.
Proof. apply Forall_impl. unfold printing. intros; lia. Qed.

Lemma digits_clean f : forall n, clean (digits f n).
Proof.
  induction f as [|f IH]; intro n; cbn [digits]; [constructor|]. destruct (n <? 10) eqn:H.
  - constructor; [lia|constructor].
  - apply clean_app. split; [apply IH|]. constructor; [|constructor]. pose proof (N.mod_lt n 10). lia.
Qed.

Lemma clean_lit s : forallb (fun c => negb (c =? 0) && negb (c =? 10)) s = true -> clean s.
Proof. intro H. apply Forall_forall. intros c I. rewrite forallb_forall in H. specialize (H c I). lia. Qed.

Lemma log_url_clean x meta : tidy x meta -> clean (log_url x).
Proof.
  intro T. destruct T. destruct (g_iri x) as [i|] eqn:HI.
  - rewrite (log_url_iri x i HI). destruct (ty_iri0 i eq_refl) as (A & B & C & D). rewrite <- clean_iff in *.
    apply forall_firstn. unfold uri_of, host_of. repeat (apply clean_app; split); auto.
    + apply clean_lit; reflexivity.
    + destruct (g_domain x); auto.
    + destruct (c_path i) as [|c p]; [apply clean_lit; reflexivity|].
      assert (G : clean (47 :: c :: p)) by (constructor; [lia|exact C]).
      destruct c as [|c]; [exact G|]. repeat (destruct c as [c|c|]; try exact G). exact C.
    + destruct (c_query i); [constructor|]. constructor; [lia|exact D].
  - unfold log_url. rewrite HI. apply forall_firstn. destruct (g_req x) as [r|]; [|constructor]. apply clean_iff. auto.
Qed.

Lemma cstr_nonul s : nonul s -> cstr (s ++ [0]) = Some s.
Proof. intro. apply cstr_pre. auto. Qed.

Lemma removelast_snoc {A} (l : list A) x : removelast (l ++ [x]) = l.
Proof. rewrite removelast_app by discriminate. cbn. apply app_nil_r. Qed.

(** The line, sent with its NUL, becomes exactly one line of the log. *)
Theorem c58_one_line_partial fmt x code meta line : tidy x meta ->
  log_request fmt x code meta = OK line ->
  logger_write (line ++ [0]) = Some (line ++ [10]) /\ is_line (line ++ [10]).
Proof.
  intros T Q. pose proof (log_url_clean x meta T) as HU. destruct T.
  destruct (log_cn_ok _ ty_subject0) as (cn & QC & P & _). apply printing_clean in P.
  assert (HD : clean (dec code)) by apply digits_clean.
  assert (HH : forall h, log_host x = OK h -> clean h).
  { intros h X. unfold log_host in X. destruct (g_domain x) eqn:GD.
    - destruct (g_iri x) as [i|]; [|discriminate]. injection X as <-. destruct (ty_iri0 i eq_refl) as (_ & B & _). apply clean_iff. exact B.
    - injection X as <-. apply clean_iff. exact ty_domain0. }
  rewrite <- clean_iff in *.
  assert (CL : clean line).
  { unfold log_request in Q. rewrite QC in Q. cbn [bind] in Q.
    destruct fmt; try (destruct (log_host x) as [h| |] eqn:HHH; cbn [bind] in Q; try discriminate; pose proof (HH h eq_refl));
      apply OK_inj in Q; subst line; repeat (apply clean_app; split); auto; apply clean_lit; reflexivity. }
  apply clean_iff in CL. destruct CL as [CN CL]. split.
  - unfold logger_write. rewrite removelast_snoc, (cstr_nonul line CN). destruct line; reflexivity.
  - exists line. split; [reflexivity|exact CL].
Qed.

Lemma tidy_example : tidy (ex_log None) (s2b "text/gemini").
Proof.
  assert (L : forall s, forallb (fun c => negb (c =? 0) && negb (c =? 10)) s = true -> nonul s /\ nolf s) by (intros; apply clean_iff, clean_lit; assumption).
  constructor; try (apply L; reflexivity); try discriminate.
  intros i E. injection E as <-. repeat split; apply L; reflexivity.
Qed.
Example c58_example : exists line, tidy (ex_log None) (s2b "text/gemini") /\
  log_request LF_LEGACY (ex_log None) 20 (s2b "text/gemini") = OK line.
Proof. eexists. split; [exact tidy_example|vm_compute; reflexivity]. Qed.

(** The whole log: what the logger wrote for the replies of a connection. *)
Fixpoint access_log (fmt : log_format) (x : logctx) (ls : list (N * list N)) : res (list N) :=
  match ls with
  | [] => OK []
  | (code, meta) :: r =>
    let* line := log_request fmt x code meta in
    match logger_write (line ++ [0]) with
    | Some t => let* rest := access_log fmt x r in OK (t ++ rest)
    | None => UB
    end
  end.
Definition newlines (s : list N) : nat := count_occ N.eq_dec s 10.

Lemma newlines_app a b : newlines (a ++ b) = (newlines a + newlines b)%nat.
Proof. apply count_occ_app. Qed.

(** The log has as many lines as replies were sent and logging is on. *)
Theorem c58_lines_partial E es c fmt x : conf_ok E -> polite_history E es c ->
  g_iri x = c_iri c -> g_domain x = c_domain c ->
  (forall code meta, In (code, meta) (replies c) -> tidy x meta) -> (c_iri c <> None \/ c_domain c <> []) ->
  exists t, access_log fmt x (logs c) = OK t /\
    newlines t = if vhost_disable_log (e_fnm E) (c_vhost c) (path_of c) then 0%nat else length (replies c).
Proof.
  intros HO H GI GD HT HN. rewrite (c48_logged_partial E es c HO H).
  destruct (vhost_disable_log _ _ _); [exists []; split; reflexivity|].
  induction (replies c) as [|[code meta] r IH]; [exists []; split; reflexivity|].
  destruct IH as (t & Q & L). { intros; eapply HT; right; eauto. }
  assert (T : tidy x meta) by (eapply HT; left; reflexivity).
  assert (X : exists line, log_request fmt x code meta = OK line).
  { destruct (log_cn_ok (g_subject x) (ty_subject _ _ T)) as (cn & QC & _). unfold log_request. rewrite QC. cbn [bind].
    assert (HH : exists h, log_host x = OK h). { unfold log_host. rewrite GD, GI. destruct (c_domain c); [|eexists; reflexivity]. destruct (c_iri c); [eexists; reflexivity|]. destruct HN; congruence. }
    destruct HH as [h HH]. rewrite HH. cbn [bind]. destruct fmt; eexists; reflexivity. }
  destruct X as [line X]. destruct (c58_one_line_partial fmt x code meta line T X) as (W & (l & E1 & NL)).
  exists ((line ++ [10]) ++ t). cbn [access_log]. rewrite X. cbn [bind]. rewrite W, Q. split; [reflexivity|].
  rewrite newlines_app, L, E1, newlines_app. cbn [length]. unfold newlines at 1. apply (count_occ_not_In N.eq_dec) in NL. rewrite NL. reflexivity.
Qed.

Lemma digits_short : forall f n, n < 100 -> (length (digits f n) <= 2)%nat.
Proof.
  intros [|f] n H; cbn [digits]; [simpl; lia|]. destruct (n <? 10) eqn:A; [simpl; lia|].
  rewrite app_length. cbn [length]. destruct f as [|f]; cbn [digits]; [simpl; lia|].
  assert (n / 10 < 10) by (apply N.div_lt_upper_bound; lia). replace (n / 10 <? 10) with true by lia. simpl. lia.
Qed.

Lemma log_url_len x : (length (log_url x) <= 1026)%nat.
Proof.
  destruct (g_iri x) as [i|] eqn:HI; [rewrite (log_url_iri x i HI)|unfold log_url; rewrite HI; change (GEMINI_URL_LEN - 1)%nat with 1026%nat];
    apply firstn_le_length.
Qed.

(** The message always fits the channel to the logger (C32): what [start_reply]
    accepts as meta has at most 1024 bytes (C17), NI_MAXHOST is 1025, NI_MAXSERV
    32, the buffers of strftime(3) have 64 and 32 bytes, a request 1024. *)
Theorem c58_fits fmt x code meta line : code < 100 -> log_request fmt x code meta = OK line ->
  (length (g_rhost x) <= 1024)%nat -> (length (g_rserv x) <= 31)%nat -> (length (g_tstamp x) <= 63)%nat ->
  (length (g_rfc3339 x) <= 31)%nat -> (length (g_domain x) <= 253)%nat ->
  (forall i, g_iri x = Some i -> length (c_host i) <= 1024)%nat -> (length meta <= 1024)%nat ->
  (forall s, g_subject x = Some s -> bytes s /\ nonul s) ->
  forall type pid id q, imsg_compose pid q (mkImsg type id 0 (line ++ [0]) None) <> None.
Proof.
  intros HC Q L1 L2 L3 L4 L5 L6 L7 HS type pid id q.
  destruct (log_cn_ok _ HS) as (cn & QC & _ & LC & _). pose proof (log_url_len x) as LU.
  pose proof (digits_short (S (N.to_nat (N.log2 code))) code HC) as LD. fold (dec code) in LD.
  assert (HH : forall h, log_host x = OK h -> (length h <= 1024)%nat).
  { intros h X. unfold log_host in X. destruct (g_domain x) eqn:GD.
    - destruct (g_iri x) as [i|]; [|discriminate]. apply OK_inj in X. subst h. auto.
    - apply OK_inj in X. subst h. lia. }
  assert (LL : (length line <= 4900)%nat).
  { unfold log_request in Q. rewrite QC in Q. cbn [bind] in Q.
    destruct fmt; try (destruct (log_host x) as [h| |]; cbn [bind] in Q; try discriminate; pose proof (HH h eq_refl));
      apply OK_inj in Q; subst line; rewrite !app_length; cbn [s2b length]; lia. }
  unfold imsg_compose. cbn [i_data]. rewrite app_length. cbn [length]. unfold MAX_IMSGSIZE, IMSG_HEADER_SIZE.
  destruct (_ <? _) eqn:B; [|discriminate]. lia.
Qed.
Example c58_fits_example : exists line, log_request LF_COMMON (ex_log None) 20 (s2b "text/gemini") = OK line /\
  imsg_compose 1 [] (mkImsg 0 0 0 (line ++ [0]) None) <> None.
Proof. eexists. split; [vm_compute; reflexivity|]. vm_compute. discriminate. Qed.

(** False of paths that contain an encoded newline: the requester writes lines
    of its own into the log. *)
Theorem c58_forged_refuted : exists E es c x t,
  conf_ok E /\ polite_history E es c /\ g_iri x = c_iri c /\ g_domain x = c_domain c /\
  length (replies c) = 1%nat /\ access_log LF_LEGACY x (logs c) = OK t /\ newlines t = 2%nat /\
  t = s2b "::1:4242 GET gemini://h/x" ++ [10] ++ s2b "::1:99 GET /admin 20 text/gemini 51 not found" ++ [10].
Proof.
  set (E := ex_env (ex_vhost plain_loc [] []) None).
  set (es := [EvHandshake (Some (s2b "h")); EvRead (s2b "gemini://h/x%0A::1:99%20GET%20/admin%2020%20text/gemini" ++ CRLF) nofs]).
  assert (X : exists c, run E es fresh = Some (OK c) /\ polite_history E es c).
  { eexists. split; [vm_compute; reflexivity|].
    change es with (([] ++ [EvHandshake (Some (s2b "h"))]) ++ [EvRead (s2b "gemini://h/x%0A::1:99%20GET%20/admin%2020%20text/gemini" ++ CRLF) nofs]).
    eapply p_step; [eapply p_step; [apply p_new|exact I|vm_compute; reflexivity]| |vm_compute; reflexivity].
    intros _. reflexivity. }
  destruct X as (c & R & P).
  exists E, es, c, (mkLog (s2b "::1") (s2b "4242") [] [] None (c_iri c) (c_domain c) None).
  vm_compute in R. injection R as <-. eexists. split; [repeat constructor|]. split; [exact P|].
  repeat split; vm_compute; reflexivity.
Qed.
