(** Properties C23, C25 and C46: the FastCGI request. *)
From Verif Require Import Base BaseLemmas Compat Iri IriSpec IriOut IriOutSpec Prop_IriOut Conf Puny Fcgi FcgiSpec Fcgi_Proofs.
Local Open Scope N_scope.

(** ** C23 *)
(** For every list of parameters, each small enough for one record, the
    application decodes the bytes sent to exactly that list. *)
Theorem c23_params_roundtrip ps :
  Forall (fun p => N.of_nat (length (fst p)) + N.of_nat (length (snd p)) + 8 < 65536) ps ->
  app_decode (fcgi_begin_request ++ send_params ps ++ fcgi_end_param) = Some ps.
Proof. intros H. apply app_decode_ok. eapply Forall_impl; [|exact H]. intros p Hp. cbv beta in Hp. unfold fits16. lia. Qed.

(** every record is padded to a multiple of eight bytes *)
Theorem c23_padded name value : N.of_nat (length name) + N.of_nat (length value) + 8 < 65536 ->
  (Nat.modulo (length (fcgi_send_param name value)) 8 = 0)%nat.
Proof.
  intros H. destruct (send_param_eq (name, value)) as (pad & P1 & P2 & E); [unfold fits16; cbn [fst snd]; lia|].
  cbn [fst snd] in E. rewrite E, !app_length, repeat_length, header_len.
  replace (8 + (length (content (name, value)) + pad))%nat with (length (content (name, value)) + pad + 1 * 8)%nat by lia.
  rewrite Nat.mod_add by lia. exact P2.
Qed.

Example c23_case :
  app_decode (fcgi_begin_request ++ send_params [(s2b "PATH_INFO", s2b "/x"); (s2b "QUERY_STRING", []); (s2b "A", repeat 98 300)] ++ fcgi_end_param)
  = Some [(s2b "PATH_INFO", s2b "/x"); (s2b "QUERY_STRING", []); (s2b "A", repeat 98 300)].
Proof. vm_compute. reflexivity. Qed.

(** ** C25: larger parameters *)
(** the length field is the size modulo 65536, whatever the sizes *)
Theorem c25_length_field_partial name value :
  N.of_nat (length name) + N.of_nat (length value) + 8 < 2^32 ->
  exists l1 l0 r, fcgi_send_param name value = [1; 4; 0; 1; l1; l0] ++ r /\
    256 * l1 + l0 = (N.of_nat (length name) + N.of_nat (length value) + 8) mod 65536.
Proof.
  change (2^32) with 4294967296. intros H. unfold fcgi_send_param. change (2^32) with 4294967296.
  rewrite (N.mod_small (N.of_nat (length name))) by lia. rewrite (N.mod_small (N.of_nat (length value))) by lia.
  cbv zeta. rewrite (N.mod_small (_ + _ + 8)) by lia. unfold prepare_header. cbn [app].
  do 3 eexists. split; [reflexivity|]. set (n := _ + _ + 8). clearbody n.
  rewrite land255, N.shiftr_div_pow2. change (2^8) with 256.
  change 65536 with (256 * 256). rewrite N.mod_mul_r by lia. lia.
Qed.

(** The claim is false: a parameter of 65536 bytes is announced as an empty
    record, which ends the parameters. *)
Lemma firstn_more {A} (l : list A) n : (length l <= n)%nat -> firstn n l = l.
Proof. apply firstn_all2. Qed.

Theorem c25_any_length_refuted :
  ~ (forall name value, app_decode (fcgi_begin_request ++ send_params [(name, value)] ++ fcgi_end_param) = Some [(name, value)]).
Proof.
  intros H.
  assert (V : forall n, exists v : list N, N.of_nat (length v) = n) by (intros n; exists (repeat 97 (N.to_nat n)); rewrite repeat_length, N2Nat.id; reflexivity).
  destruct (V 65527) as (v & LV). clear V. specialize (H [97] v).
  assert (E : exists r, send_params [([97], v)] = [1; 4; 0; 1; 0; 0; 0; 0] ++ r).
  { unfold send_params. cbn [flat_map fst snd]. unfold fcgi_send_param. rewrite LV.
    change (N.of_nat (length [97])) with 1. change (65527 mod 2^32) with 65527. change (1 mod 2^32) with 1. cbv zeta.
    change ((1 + 65527 + 8) mod 2^32) with 65536. change (prepare_header FCGI_PARAMS 65536 (N.land (8 - N.land 65536 7) 7)) with [1; 4; 0; 1; 0; 0; 0; 0].
    eexists. rewrite <- app_assoc. reflexivity. }
  destruct E as (r & E). unfold app_decode in H. rewrite E in H.
  set (total := fcgi_begin_request ++ ([1; 4; 0; 1; 0; 0; 0; 0] ++ r) ++ fcgi_end_param) in *.
  assert (LT : exists f, length total = S (S f)) by (unfold total; rewrite !app_length; cbn; eauto).
  destruct LT as (f & LT). rewrite LT in H.
  assert (R : exists x, records (S (S f)) total = None \/ records (S (S f)) total =
     Some (mkRec 1 1 [0; 1; 1; 0; 0; 0; 0; 0] :: mkRec 4 1 [] :: x)).
  { unfold total. unfold fcgi_begin_request, prepare_header. cbn [app].
    cbn [records].
    change (N.to_nat (256 * (N.shiftr 8 8 mod 256) + N.land 8 255)) with 8%nat. change (N.to_nat (0 mod 256)) with 0%nat.
    cbn [N.eqb Pos.eqb andb Nat.add length Nat.leb skipn firstn].
    change (N.to_nat (256 * 0 + 0)) with 0%nat. change (N.to_nat 0) with 0%nat.
    cbn [N.eqb Pos.eqb andb Nat.add length Nat.leb skipn firstn].
    change (256 * 0 + 1) with 1. change (FCGI_BEGIN_REQUEST mod 256) with 1.
    destruct (records f (r ++ fcgi_end_param)) as [rs|]; [exists rs; right; reflexivity|exists []; left; reflexivity]. }
  destruct R as (x & [R|R]); rewrite R in H; [discriminate|].
  cbn [r_type r_id r_content leqb N.eqb Pos.eqb andb stream] in H.
  destruct (stream 5 x) as [[s rest]|]; [|discriminate].
  destruct s, rest; discriminate.
Qed.

(** ** C46: the parameters describe the request *)
Definition lookup (n : list N) (ps : list (list N * list N)) : option (list N) :=
  option_map snd (find (fun p => leqb (fst p) n) ps).

(** what the configuration gives as SCRIPT_NAME, without trailing slashes *)
Definition script_of (loc : location) : list N :=
  rtrim (match lookup (s2b "SCRIPT_NAME") (l_params loc) with Some s => s | None => [] end).

Lemma rtrim_prefix s : exists t, s = rtrim s ++ t /\ Forall (fun c => c = 47) t.
Proof.
  induction s as [|c s IH]; [exists []; auto|]. destruct IH as (t & E & F). cbn [rtrim].
  destruct (rtrim s) as [|d r] eqn:R.
  - destruct (N.eqb_spec c 47) as [->|Hc]; [exists (47 :: s); cbn in *; subst; auto|exists s; cbn in *; subst; auto].
  - exists t. rewrite E at 1. auto.
Qed.

(** [s] is a prefix of the path [p] ending at a component boundary *)
Definition leads (s p : list N) : Prop := exists i, p = s ++ i /\ (i = [] \/ exists r, i = 47 :: r).

Definition search_string (q : list N) : option (list N) :=
  if negb (isnil q) && negb (existsb (N.eqb 61) q) then Some (url_decode q) else None.

Lemma is_prefix_app s p : is_prefix s p = true -> exists i, p = s ++ i.
Proof.
  unfold is_prefix. intros H. apply leqb_eq in H. exists (skipn (length s) p).
  pose proof (firstn_skipn (length s) p) as E. rewrite <- H in E. congruence.
Qed.
Lemma prefix_is s i : is_prefix s (s ++ i) = true.
Proof. unfold is_prefix. rewrite firstn_app, Nat.sub_diag, firstn_O, app_nil_r, firstn_all. apply leqb_eq. reflexivity. Qed.

Lemma script_find loc :
  match find (fun p => is_script_name (fst p)) (l_params loc) with Some p => snd p | None => [] end =
  match lookup (s2b "SCRIPT_NAME") (l_params loc) with Some s => s | None => [] end.
Proof. unfold lookup, is_script_name. destruct (find _ _); reflexivity. Qed.

Lemma firstn_rtrim s : firstn (length (rtrim s)) s = rtrim s.
Proof.
  destruct (rtrim_prefix s) as (t & E & _). rewrite E at 2.
  rewrite firstn_app, Nat.sub_diag, firstn_O, app_nil_r, firstn_all. reflexivity.
Qed.

(** The path, when nothing is stripped: the configured script name leads the
    path of the request and the rest is the path info. *)
Definition route (c : comps) (loc : location) (pi sn : list N) : Prop :=
  (leads (script_of loc) (47 :: c_path c) /\ sn = script_of loc /\ sn ++ pi = 47 :: c_path c) \/
  (~ leads (script_of loc) (47 :: c_path c) /\ pi = c_path c /\
     sn = match lookup (s2b "SCRIPT_NAME") (l_params loc) with Some s => s | None => [] end).

Lemma split_ok c loc : l_fcgi_strip loc = 0%nat -> (length (c_path c) <= 1024)%nat -> hd 0 (c_path c) <> 47 ->
  forall pi sn tr, fcgi_split c loc = (pi, sn, tr) -> route c loc pi sn.
Proof.
  intros H0 HL Hd pi sn tr. unfold fcgi_split. cbv zeta. rewrite H0. cbn [strip_path].
  rewrite script_find.
  assert (EP : firstn (GEMINI_URL_LEN - 1) match c_path c with 47 :: _ => c_path c | _ => 47 :: c_path c end = 47 :: c_path c).
  { transitivity (firstn (GEMINI_URL_LEN - 1) (47 :: c_path c)).
    - f_equal. destruct (c_path c) as [|x p]; [reflexivity|]. cbn [hd] in Hd.
      destruct x as [|[[|q|]|[|q|]|]]; try reflexivity.
      all: repeat (match goal with |- context[match ?q with xI _ => _ | xO _ => _ | xH => _ end] => destruct q end; try reflexivity).
      all: exfalso; apply Hd; reflexivity.
    - apply firstn_all2. cbn [length]. change (GEMINI_URL_LEN - 1)%nat with 1026%nat. lia. }
  rewrite EP. set (raw := match lookup _ _ with Some s => s | None => [] end).
  rewrite firstn_rtrim. change (rtrim raw) with (script_of loc).
  set (sc := script_of loc). set (P := 47 :: c_path c).
  destruct (is_prefix sc P) eqn:IP.
  - apply is_prefix_app in IP. destruct IP as (i & Ei). rewrite Ei.
    rewrite skipn_app, skipn_all, Nat.sub_diag, skipn_O, firstn_app, Nat.sub_diag, firstn_O, app_nil_r, firstn_all.
    cbn [app andb].
    destruct i as [|x i].
    + intros E. inversion E; subst. left. split; [|rewrite app_nil_r in *; auto].
      exists []. fold P sc. auto.
    + destruct (N.eq_dec x 47) as [->|Hx].
      * intros E. inversion E; subst. left. split; [|auto]. exists (47 :: i). split; [exact Ei|eauto].
      * assert (B : match x with 47 => true | _ => false end = false).
        { destruct x as [|q]; [reflexivity|].
          repeat (match goal with |- context[match ?q with xI _ => _ | xO _ => _ | xH => _ end] => destruct q end; try reflexivity).
          exfalso; apply Hx; reflexivity. }
        rewrite B. intros E. inversion E; subst. right. split; [|auto].
        intros (j & Ej & D). fold P sc in Ej. rewrite Ei in Ej. apply app_inv_head in Ej. subst j.
        destruct D as [D|(r & D)]; [discriminate|]. inversion D. auto.
  - cbn [andb]. intros E. inversion E; subst. right. split; [|auto].
    intros (j & Ej & D). fold P sc in Ej. rewrite Ej, prefix_is in IP. discriminate.
Qed.

Lemma search_ok c : nonul (c_query c) -> bytes (c_query c) ->
  fcgi_search c = OK match search_string (c_query c) with Some q => [(s2b "GEMINI_SEARCH_STRING", q)] | None => [] end.
Proof.
  intros Hn Hb. unfold fcgi_search, search_string. destruct (_ && _); [|reflexivity].
  destruct (c08_pct_decode_str (c_query c) [] Hn Hb) as (m & E & L & C & _). unfold z. rewrite E. cbn [bind].
  rewrite C. reflexivity.
Qed.

Definition script (n : list N) : Prop := n = s2b "SCRIPT_NAME".

(** what the application is told of a client certificate and its connection *)
Definition cert_vars : list (list N * (peer -> list N)) :=
  [(s2b "REMOTE_USER", t_subject); (s2b "TLS_CLIENT_ISSUER", t_issuer); (s2b "TLS_CLIENT_HASH", t_hash);
   (s2b "TLS_VERSION", t_version); (s2b "TLS_CIPHER", t_cipher); (s2b "TLS_CIPHER_STRENGTH", t_strength);
   (s2b "TLS_CLIENT_NOT_BEFORE", t_notbefore); (s2b "TLS_CLIENT_NOT_AFTER", t_notafter)].

(** For every request whose query is a C string and every location, the bytes
    sent exist (no undefined behaviour), and if no parameter is oversized the
    application decodes an environment [env] in which: *)
Definition describes (c : comps) (loc : location) (rhost : list N) (cert : option peer) (env : list (list N * list N)) : Prop :=
  lookup (s2b "QUERY_STRING") env = Some (c_query c) /\
  lookup (s2b "SERVER_NAME") env = Some (c_host c) /\
  lookup (s2b "GEMINI_URL_PATH") env = Some (c_path c) /\
  lookup (s2b "REMOTE_ADDR") env = Some rhost /\ lookup (s2b "REMOTE_HOST") env = Some rhost /\
  lookup (s2b "GATEWAY_INTERFACE") env = Some (s2b "CGI/1.1") /\ lookup (s2b "REQUEST_METHOD") env = Some (s2b "GET") /\
  lookup (s2b "SERVER_PROTOCOL") env = Some (s2b "GEMINI") /\
  lookup (s2b "SERVER_PORT") env = Some (if isnil (c_port c) then s2b "1965" else c_port c) /\
  (* the search string, unless the configuration names a parameter so *)
  (lookup (s2b "GEMINI_SEARCH_STRING") (l_params loc) = None ->
   lookup (s2b "GEMINI_SEARCH_STRING") env = search_string (c_query c)) /\
  (* the certificate *)
  (lookup (s2b "AUTH_TYPE") (l_params loc) = None ->
   lookup (s2b "AUTH_TYPE") env = Some (match cert with Some _ => s2b "CERTIFICATE" | None => [] end)) /\
  (forall n f, In (n, f) cert_vars -> lookup n (l_params loc) = None ->
     lookup n env = match cert with Some t => Some (f t) | None => None end) /\
  (* every configured parameter, in order, and SCRIPT_NAME once *)
  (exists pre post, env = pre ++ filter (fun p => negb (leqb (fst p) (s2b "SCRIPT_NAME"))) (l_params loc) ++ post) /\
  length (filter (fun p => leqb (fst p) (s2b "SCRIPT_NAME")) env) = 1%nat /\
  (l_fcgi_strip loc = 0%nat -> (length (c_path c) <= 1024)%nat -> hd 0 (c_path c) <> 47 ->
     exists pi sn, lookup (s2b "PATH_INFO") env = Some pi /\ lookup (s2b "SCRIPT_NAME") env = Some sn /\ route c loc pi sn).

Lemma lookup_app n a b : lookup n (a ++ b) = match lookup n a with Some x => Some x | None => lookup n b end.
Proof.
  unfold lookup. induction a as [|p a IH]; cbn [find app]; [reflexivity|].
  destruct (leqb (fst p) n); [reflexivity|exact IH].
Qed.
Lemma lookup_filter n ps : n <> s2b "SCRIPT_NAME" ->
  lookup n (filter (fun p => negb (is_script_name (fst p))) ps) = lookup n ps.
Proof.
  intros Hn. unfold lookup. induction ps as [|p ps IH]; [reflexivity|]. cbn [filter find]. unfold is_script_name at 1.
  destruct (leqb (fst p) (s2b "SCRIPT_NAME")) eqn:E; cbn [negb].
  - rewrite IH. apply leqb_eq in E. destruct (leqb (fst p) n) eqn:E2; [|reflexivity].
    apply leqb_eq in E2. congruence.
  - cbn [find]. destruct (leqb (fst p) n); [reflexivity|exact IH].
Qed.

Theorem c46_request_described c loc rloc rhost version cert :
  nonul (c_query c) -> bytes (c_query c) ->
  exists env, fcgi_params c loc rloc rhost version cert = OK env /\ describes c loc rhost cert env /\
    exists sent, fcgi_req c loc rloc rhost version cert = OK sent /\
      (Forall (fun p => N.of_nat (length (fst p)) + N.of_nat (length (snd p)) + 8 < 65536) env ->
       app_decode sent = Some env).
Proof.
  intros Hn Hb. unfold fcgi_req, fcgi_params. destruct (fcgi_split c loc) as [[pi sn] tr] eqn:SP.
  rewrite (search_ok c Hn Hb). cbn [bind].
  eexists. split; [reflexivity|]. split; [|eexists; split; [reflexivity|apply c23_params_roundtrip]].
  unfold describes.
  do 9 (split; [reflexivity|]).
  split; [|split; [|split; [|split; [|split]]]].
  - intros H. rewrite !lookup_app. rewrite lookup_filter by discriminate. rewrite H.
    destruct (search_string (c_query c)); cbn; destruct cert; reflexivity.
  - intros H. rewrite !lookup_app. rewrite lookup_filter by discriminate. rewrite H.
    destruct (search_string (c_query c)); cbn; destruct cert; reflexivity.
  - intros n f IN H. rewrite !lookup_app. rewrite lookup_filter.
    + rewrite H. cbn [In cert_vars] in IN.
      repeat (destruct IN as [IN|IN]; [injection IN as <- <-; destruct (search_string (c_query c)); destruct cert; reflexivity|]).
      destruct IN.
    + intros ->. cbn [In cert_vars] in IN. repeat (destruct IN as [IN|IN]; [discriminate (f_equal fst IN)|]). destruct IN.
  - eexists. eexists. rewrite app_assoc. reflexivity.
  - assert (F : filter (fun p : list N * list N => leqb (fst p) (s2b "SCRIPT_NAME"))
       (filter (fun p => negb (is_script_name (fst p))) (l_params loc)) = []).
    { induction (l_params loc) as [|p ps IH]; [reflexivity|]. cbn [filter].
      destruct (is_script_name (fst p)) eqn:E; cbn [negb]; [exact IH|]. cbn [filter].
      unfold is_script_name in E. rewrite E. exact IH. }
    rewrite !filter_app, F.
    assert (G : forall n v l, leqb n (s2b "SCRIPT_NAME") = false ->
       filter (fun p : list N * list N => leqb (fst p) (s2b "SCRIPT_NAME")) ((n, v) :: l) =
       filter (fun p : list N * list N => leqb (fst p) (s2b "SCRIPT_NAME")) l).
    { intros n v l E. cbn [filter fst]. rewrite E. reflexivity. }
    assert (G1 : forall v l, filter (fun p : list N * list N => leqb (fst p) (s2b "SCRIPT_NAME")) ((s2b "SCRIPT_NAME", v) :: l) =
       (s2b "SCRIPT_NAME", v) :: filter (fun p : list N * list N => leqb (fst p) (s2b "SCRIPT_NAME")) l) by reflexivity.
    rewrite G by reflexivity. rewrite G1. repeat rewrite G by reflexivity.
    unfold fcgi_cert. destruct cert; destruct (search_string (c_query c)); repeat rewrite G by reflexivity; reflexivity.
  - intros H0 HL Hd. exists pi, sn. split; [reflexivity|]. split; [reflexivity|]. eapply split_ok; eauto.
Qed.

(** the environment of gemini://h/cgi/app/x?a%20b with SCRIPT_NAME /cgi/app/ *)
Definition demo_loc : location :=
  mkLoc (s2b "*") [] [] [] 0 0 [] 0 None false (Some 0%nat) false 0
    [(s2b "SCRIPT_NAME", s2b "/cgi/app/"); (s2b "K", s2b "v")] (s2b "/srv") None.
Definition demo_comps : comps := mkC (s2b "gemini") (s2b "h") [] 1965 (s2b "cgi/app/x") (s2b "a%20b") [].
Example c46_case :
  leads (script_of demo_loc) (47 :: c_path demo_comps) /\
  match fcgi_req demo_comps demo_loc demo_loc (s2b "::1") (s2b "gmid/2") None with
  | OK sent =>
    match app_decode sent with
    | Some env => lookup (s2b "SCRIPT_NAME") env = Some (s2b "/cgi/app") /\ lookup (s2b "PATH_INFO") env = Some (s2b "/x")
        /\ lookup (s2b "GEMINI_SEARCH_STRING") env = Some (s2b "a b") /\ lookup (s2b "K") env = Some (s2b "v")
        /\ lookup (s2b "PATH_TRANSLATED") env = Some (s2b "/srv/x")
    | None => False end
  | _ => False end.
Proof. split; [exists (s2b "/x"); split; [reflexivity|right; eexists; reflexivity]|vm_compute; repeat split; reflexivity]. Qed.

(** The path info does not start with a slash when the script name does not
    lead the path (fcgi.c:441 sends the path without the slash). *)
Theorem c46_pathinfo_relative_refuted :
  ~ (forall c loc rloc rhost version cert env, fcgi_params c loc rloc rhost version cert = OK env ->
     forall pi, lookup (s2b "PATH_INFO") env = Some pi -> pi = [] \/ hd 0 pi = 47).
Proof.
  intros H.
  specialize (H (mkC (s2b "gemini") (s2b "h") [] 1965 (s2b "foo") [] []) demo_loc demo_loc [] [] None _ eq_refl _ eq_refl).
  destruct H as [H|H]; discriminate.
Qed.

(** ** PATH_TRANSLATED *)
(** [t] is PATH_INFO [pi] below the directory [root], one slash between them *)
Definition below (root pi t : list N) : Prop :=
  exists slashes rel r0, pi = slashes ++ rel /\ Forall (fun c => c = 47) slashes /\ hd 0 rel <> 47 /\
    (root = r0 ++ [47] \/ root = r0 /\ last root 0 <> 47) /\ t = r0 ++ [47] ++ rel.

Lemma skip_slashes_spec p : exists sl, p = sl ++ skip_slashes p /\ Forall (fun c => c = 47) sl /\ hd 0 (skip_slashes p) <> 47.
Proof.
  induction p as [|c p IH]; [exists []; repeat split; [constructor|discriminate]|]. cbn [skip_slashes]. destruct (N.eqb_spec c 47) as [->|Hc].
  - destruct IH as (sl & E & F & H). exists (47 :: sl). rewrite E at 1. auto.
  - exists []. auto.
Qed.

(** For every request: with neither the location nor the server having a root,
    PATH_TRANSLATED is empty; otherwise it is the path info below the root of the
    location, or else of the server, cut to the 4095 bytes that fit PATH_MAX. *)
Theorem c46_translated c loc rloc rhost version cert env : fcgi_params c loc rloc rhost version cert = OK env ->
  exists pi t, lookup (s2b "PATH_INFO") env = Some pi /\ lookup (s2b "PATH_TRANSLATED") env = Some t /\
    (l_dir loc = [] -> l_dir rloc = [] -> t = []) /\
    (forall root, root <> [] -> l_dir loc = root \/ (l_dir loc = [] /\ l_dir rloc = root) ->
       exists full, below root pi full /\ ((length full <= 4095)%nat -> t = full) /\ t = firstn 4095 full).
Proof.
  unfold fcgi_params. destruct (fcgi_split c loc) as [[pi sn] tr] eqn:SP. destruct (fcgi_search c) as [se| |]; [|discriminate|discriminate]. cbn [bind].
  intros E. injection E as <-. exists pi, (path_translate tr loc rloc PATH_MAX). split; [reflexivity|]. split; [reflexivity|].
  assert (tr = pi) as ->. { unfold fcgi_split in SP. destruct (_ && _); injection SP as <- _ <-; reflexivity. }
  unfold path_translate. split; [intros -> ->; reflexivity|]. intros root NR RT.
  assert (R1 : (if negb (isnil (l_dir loc)) then l_dir loc else l_dir rloc) = root).
  { destruct RT as [<-|[-> <-]]; [destruct (l_dir loc); [congruence|reflexivity]|reflexivity]. }
  rewrite R1. replace (isnil root) with false by (destruct root; [congruence|reflexivity]). change (PATH_MAX - 1)%nat with 4095%nat.
  exists (root ++ (if last root 0 =? 47 then [] else [47]) ++ skip_slashes pi). split; [|split; [intros L; rewrite firstn_all2 by exact L; reflexivity|reflexivity]].
  destruct (skip_slashes_spec pi) as (sl & EP & F & H). destruct (N.eqb_spec (last root 0) 47) as [L|L].
  - destruct (exists_last NR) as (r0 & x & ->). rewrite last_last in L. subst x. exists sl, (skip_slashes pi), r0.
    split; [exact EP|]. split; [exact F|]. split; [exact H|]. split; [left; reflexivity|]. rewrite <- app_assoc. reflexivity.
  - exists sl, (skip_slashes pi), root. split; [exact EP|]. split; [exact F|]. split; [exact H|]. split; [right; auto|reflexivity].
Qed.
Example c46_translated_case : below (s2b "/srv") (s2b "/x") (s2b "/srv/x").
Proof. exists [47], (s2b "x"), (s2b "/srv"). repeat split; [repeat constructor|discriminate|right; split; [reflexivity|discriminate]]. Qed.

Print Assumptions c23_params_roundtrip.
Print Assumptions c25_any_length_refuted.
Print Assumptions c46_request_described.
