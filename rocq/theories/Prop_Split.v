(** C18, the part that holds: without %0A or %0D in the request line, the header
    is one line. *)
From Coq Require Import Lia.
From Verif Require Import Base BaseLemmas Compat Iri IriSpec IriObs IriOut Puny Conf ConfSpec Mime Fmt FmtSpec Fcgi Server ServerSpec RequestSpec Utf8Spec Canon_Proofs Iri_Final_Proofs Iri_Last_Proofs Prop_IriOut Prop_Iri Decide_Proofs Prop_Server.
Local Open Scope N_scope.

(** ** what it says *)
Definition nocrlf (s : list N) : Prop := Forall (fun c => c <> 13 /\ c <> 10) s.
(** the line has an escaped CR or LF *)
Definition smuggles (line : list N) : Prop := exists a x b, line = a ++ [37; 48; x] ++ b /\ In x (s2b "aAdD").
(** the texts of the configuration that end up in headers *)
Definition tidy_loc (l : location) : Prop := nocrlf (l_lang l) /\ nocrlf (l_default_mime l) /\ nocrlf (l_block_fmt l).
Definition tidy_texts (E : env) (v : vhost) : Prop :=
  Forall tidy_loc (v_loc0 v :: v_locs v) /\ Forall (fun e => nocrlf (fst e)) (c_mime (e_conf E)).

(** ** the parts of a request *)
Lemma nocrlf_app a b : nocrlf (a ++ b) <-> nocrlf a /\ nocrlf b. Proof. apply Forall_app. Qed.
Lemma nocrlf_lit s : forallb (fun c => negb (c =? 13) && negb (c =? 10)) s = true -> nocrlf s.
Proof. intros H. apply Forall_forall. intros c I. rewrite forallb_forall in H. apply H in I. apply andb_true_iff in I as [A B]. apply negb_true_iff, N.eqb_neq in A. apply negb_true_iff, N.eqb_neq in B. auto. Qed.
Lemma nocrlf_firstn n s : nocrlf s -> nocrlf (firstn n s).
Proof. intros H. apply Forall_forall. intros c I. unfold nocrlf in H. rewrite Forall_forall in H. apply H. rewrite <- (firstn_skipn n s). apply in_or_app. auto. Qed.

Lemma hex_crlf a b : is_xdigit a = true -> is_xdigit b = true -> 16 * hexval a + hexval b = 13 \/ 16 * hexval a + hexval b = 10 -> a = 48 /\ In b (s2b "aAdD").
Proof.
  assert (HV : forall x, is_xdigit x = true -> (48 <= x <= 57 /\ hexval x = x - 48) \/ (65 <= x <= 70 /\ hexval x = x - 55) \/ (97 <= x <= 102 /\ hexval x = x - 87)).
  { intros x. unfold is_xdigit, hexval, is_digit. destruct ((48 <=? x) && (x <=? 57)) eqn:A; [left; lia|]. destruct ((65 <=? x) && (x <=? 70)) eqn:B; [right; left; lia|].
    destruct ((97 <=? x) && (x <=? 102)) eqn:C; [right; right; lia|discriminate]. }
  intros A B H. apply HV in A. apply HV in B. assert (a = 48) by lia. split; [assumption|]. subst a. cbn [s2b In].
  assert (b = 97 \/ b = 65 \/ b = 100 \/ b = 68) by lia. cbv [N_of_ascii N_of_digits]. intuition lia.
Qed.
Lemma items_smuggle ok src out : (forall c, ok c = true -> 33 <= c < 128) -> items ok true src out -> forall c, In c out -> c = 13 \/ c = 10 -> smuggles src.
Proof.
  intros Hok. induction 1 as [|a a' s s' I _ IH]; intros c IC HC; [destruct IC|]. apply in_app_or in IC as [IC|IC].
  - destruct I as [x Hx|x y Hx Hy _|cp Hs Hc].
    + apply Hok in Hx. destruct IC as [<-|[]]. lia.
    + cbn in IC. destruct IC as [<-|[]]. destruct (hex_crlf x y Hx Hy HC) as [-> Iy]. exists [], y, s. auto.
    + pose proof (utf8_bytes_hi cp Hc c IC). lia.
  - destruct (IH c IC HC) as (p & x & q & -> & Ix). exists (a ++ p), x, q. split; [rewrite <- app_assoc; reflexivity|exact Ix].
Qed.
Lemma smuggles_in a s b : smuggles s -> smuggles (a ++ s ++ b).
Proof. intros (p & x & q & -> & I). exists (a ++ p), x, (q ++ b). split; [rewrite <- !app_assoc; reflexivity|exact I]. Qed.
Lemma vis_nocrlf s : Forall (fun c => 33 <= c < 256) s -> nocrlf s.
Proof. intros H. eapply Forall_impl; [|exact H]. cbn. intros. lia. Qed.

Lemma rest_clean rest path query frag : g_rest rest path query frag -> ~ smuggles rest -> nocrlf path /\ nocrlf query.
Proof.
  assert (P : forall p p' post, items g_path true p p' -> ~ smuggles (47 :: p ++ post) -> nocrlf (canon p')).
  { intros p p' post I N. apply Forall_forall. intros c Hc. assert (Q : ~ (c = 13 \/ c = 10)); [|lia]. intros X.
    apply canon_sub in Hc as [Hc| ->]; [|lia]. apply N. apply (smuggles_in [47] p post). eapply items_smuggle; eauto. apply vis_path. }
  intros G N. destruct G as [|p p' I|p p' f I|p p' q I J|p p' q f I J].
  - split; constructor.
  - split; [|constructor]. eapply P; [exact I|]. rewrite app_nil_r. exact N.
  - split; [|constructor]. eapply P; eauto.
  - split; [eapply P; eauto|]. apply vis_nocrlf. exact (items_vis _ _ _ _ vis_query J).
  - split; [eapply P; eauto|]. apply vis_nocrlf. exact (items_vis _ _ _ _ vis_query J).
Qed.
Lemma iri_clean ip6 s i : g_iri ip6 s i -> ~ smuggles s -> nocrlf (c_path i) /\ nocrlf (c_query i).
Proof.
  intros [c sch hsrc host psrc port no rest path query frag A B C D G] N. cbn. eapply rest_clean; [exact G|]. intros X. apply N.
  replace ((c :: sch) ++ s2b "://" ++ hsrc ++ psrc ++ rest) with (((c :: sch) ++ s2b "://" ++ hsrc ++ psrc) ++ rest ++ []) by (rewrite app_nil_r, <- !app_assoc; reflexivity).
  apply smuggles_in. exact X.
Qed.

(** ** the texts *)
Lemma strip_clean p n : nocrlf p -> nocrlf (strip_path p n).
Proof.
  revert p. induction n as [|n IH]; intros p H; cbn [strip_path]; [exact H|].
  destruct (from_slash p) as [t|] eqn:F; [|constructor]. apply IH. clear IH.
  revert t F. induction p as [|c p IHp]; cbn; [discriminate|]. intros t. inversion H; subst. destruct (c =? 47); [intros X; injection X as <-; auto|auto].
Qed.
Lemma cat_clean len a b : nocrlf a -> nocrlf b -> nocrlf (cat len a b).
Proof. intros A B. apply nocrlf_app. split; [exact A|]. apply nocrlf_firstn. exact B. Qed.
Lemma digits_nocrlf f : forall n, nocrlf (digits f n).
Proof.
  induction f as [|f IH]; intros n; cbn [digits]; [constructor|]. destruct (N.ltb_spec n 10).
  - constructor; [lia|constructor].
  - apply nocrlf_app. split; [apply IH|]. constructor; [|constructor]. lia.
Qed.
Lemma decz_clean z : nocrlf (decz z).
Proof. unfold decz. destruct (z <? 0)%Z; [constructor; [lia|]|]; apply digits_nocrlf. Qed.
Lemma fmt_clean x len : nocrlf (x_path x) -> nocrlf (x_query x) -> nocrlf (x_name x) -> forall n fmt buf t out, (length fmt <= n)%nat ->
  nocrlf fmt -> nocrlf buf -> nocrlf t -> fmt_loop x len fmt buf t = OK out -> nocrlf out.
Proof.
  intros HP HQ HN. induction n as [|n IH]; intros fmt buf t out L F B T H.
  - destruct fmt; [|cbn in L; lia]. cbn in H. apply OK_inj in H. subst out. destruct t; [exact B|apply cat_clean; assumption].
  - destruct fmt as [|c r]; [cbn in H; apply OK_inj in H; subst out; destruct t; [exact B|apply cat_clean; assumption]|].
    cbn [fmt_loop] in H. cbv zeta in H. inversion F as [|? ? Fc Fr]; subst. cbn [length] in L.
    set (fl := (length t =? 31)%nat || (c =? 37)) in *.
    assert (B2 : nocrlf (if fl then cat len buf t else buf)) by (destruct fl; [apply cat_clean|]; assumption).
    assert (T2 : nocrlf (if fl then [] else t)) by (destruct fl; [constructor|assumption]).
    set (buf2 := if fl then _ else buf) in *. set (t2 := if fl then [] else t) in *. clearbody buf2 t2 fl.
    destruct (negb (c =? 37)).
    + eapply IH; [| | | |exact H]; auto; [lia|]. apply nocrlf_app. split; [exact T2|constructor; auto].
    + destruct r as [|d r]; [discriminate|]. inversion Fr as [|? ? Fd Fr']; subst. cbn [length] in L.
      assert (LIT : forall k, k <> 13 -> k <> 10 -> nocrlf [k]) by (intros; constructor; [lia|constructor]).
      destruct (d =? 37); [eapply IH; [| | | |exact H]; auto; [lia|apply cat_clean; auto; apply LIT; lia]|].
      destruct (d =? 112).
      { eapply IH; [| | | |exact H]; auto; [lia|]. apply cat_clean; auto. destruct (x_path x) as [|y p]; [apply cat_clean; auto; apply LIT; lia|].
        destruct y as [|y]; [apply cat_clean; auto; apply LIT; lia|].
        repeat (match goal with |- nocrlf (match ?y with _ => _ end) => destruct y end); try assumption; apply cat_clean; auto; apply LIT; lia. }
      destruct (d =? 113); [eapply IH; [| | | |exact H]; auto; [lia|apply cat_clean; auto]|].
      destruct (d =? 80); [eapply IH; [| | | |exact H]; auto; [lia|apply cat_clean; auto; apply nocrlf_firstn, decz_clean]|].
      destruct (d =? 78); [eapply IH; [| | | |exact H]; auto; [lia|apply cat_clean; auto]|].
      eapply IH; [| | | |exact H]; auto; lia.
Qed.
Lemma bsearch_in ext t : forall fuel lo hi e, bsearch fuel ext t lo hi = OK (Some e) -> In e t.
Proof.
  induction fuel as [|f IH]; intros lo hi e; cbn [bsearch]; [discriminate|]. destruct (hi <=? lo)%nat; [discriminate|].
  destruct (nth_error t ((lo + hi) / 2)) as [x|] eqn:N; [|discriminate]. destruct (strcmp ext (snd x)); eauto. intros H. apply OK_inj in H. injection H as <-. eapply nth_error_In; eauto.
Qed.
Lemma scan_in fnm sets path ls l : scan_locs fnm sets path ls = Some l -> In l ls.
Proof. induction ls as [|x r IH]; cbn; [discriminate|]. destruct (sets x); [|auto]. destruct (matches fnm (l_match x) path); [intros H; injection H as <-; auto|auto]. Qed.
Lemma mime_clean E v path ty : tidy_texts E v -> mime (e_fnm E) (c_mime (e_conf E)) (Some v) path = OK ty -> nocrlf ty.
Proof.
  intros (TL & TM) H. unfold mime in H. cbv zeta in H.
  assert (D : nocrlf (vhost_default_mime (e_fnm E) (Some v) (Some path))).
  { unfold vhost_default_mime. rewrite Forall_forall in TL. destruct (scan_locs _ _ _ _) as [l|] eqn:S.
    - apply scan_in in S. apply (TL l). right. exact S.
    - destruct (isnil _); [apply nocrlf_lit; reflexivity|]. apply (TL (v_loc0 v)). left. reflexivity. }
  destruct (path_ext path) as [[ext|]| |]; cbn [bind] in H; try discriminate; [|apply OK_inj in H; subst; exact D].
  destruct (bsearch _ ext _ _ _) as [[e|]| |] eqn:B; cbn [bind] in H; try discriminate.
  - apply OK_inj in H. subst. apply bsearch_in in B. rewrite Forall_forall in TM. apply TM. exact B.
  - destruct (_ || _) in H; apply OK_inj in H; subst; [apply nocrlf_lit; reflexivity|exact D].
Qed.
Lemma governs_in fnm path sets v l : governs fnm path sets v l -> In l (v_loc0 v :: v_locs v).
Proof. intros [(a & b & -> & _)|(-> & _)]; [right; apply in_or_app; right; left; reflexivity|left; reflexivity]. Qed.
Lemma governs_tidy E v fnm path sets l : tidy_texts E v -> governs fnm path sets v l -> tidy_loc l.
Proof. intros (TL & _) G. rewrite Forall_forall in TL. apply TL. eapply governs_in; eauto. Qed.

(** the metas of a decision *)
Definition meta_of (w : what) : option (list N) :=
  match w with WReply _ m => Some m | WBody ty _ => Some ty | WList _ _ => Some (s2b "text/gemini") | _ => None end.
Ltac lit := apply nocrlf_lit; reflexivity.
Ltac gotm := match goal with H : meta_of _ = Some _ |- _ => cbn in H; try discriminate; injection H as <- end; try lit.
Lemma refused_clean E ca w m : refused E ca w -> meta_of w = Some m -> nocrlf m.
Proof. intros R H. destruct R; gotm. Qed.
Lemma decides_clean E fs v i sni asked d m : tidy_texts E v -> nocrlf (c_path i) -> nocrlf (c_query i) -> nocrlf sni ->
  decides E fs v i sni asked d -> meta_of (d_what d) = Some m -> nocrlf m.
Proof.
  intros T P Q N D H. destruct D as [p w _ R|_ _|ca w _ _ _ R|ca d _ _ _ _ A]; cbn [d_what] in H.
  - destruct R as [w R| | |]; try gotm. eapply refused_clean; eauto.
  - gotm.
  - eapply refused_clean; eauto.
  - destruct A as [l n meta G _ _ F|k l _ _ _|k l _ _ _|_ _ _|fd n w _ _ _ _ F]; cbn [d_what] in H; try gotm.
    + unfold fmtbuf in F. destruct (governs_tidy _ _ _ _ _ _ T G) as (_ & _ & TB).
      eapply (fmt_clean _ _ _ _ _ _ (l_block_fmt l) [] []); [| | | |exact F]; auto; try constructor.
      Unshelve. all: cbn; auto. apply strip_clean. exact P.
    + destruct F as [| |b content ty M|look entries w W]; try gotm; [eapply mime_clean; eauto|].
      destruct W as [A B|A B|x idx content ty _ _ _ _ M|x idx _ _ _ _|x idx w _ _ _ _ L]; try gotm.
      * constructor; [lia|]. apply nocrlf_app. split; [exact P|constructor; [lia|constructor]].
      * eapply mime_clean; eauto.
      * destruct L; gotm.
Qed.
Lemma sent_clean E v i meta m : tidy_texts E v -> meta_sent E v i meta m -> nocrlf meta -> nocrlf m.
Proof.
  intros T [[_ ->]|[-> (lg & (l & G & <-) & ->)]] M; [exact M|]. destruct (governs_tidy _ _ _ _ _ _ T G) as (TL & _).
  destruct (l_lang l) as [|x lg] eqn:L; [exact M|]. apply nocrlf_app. split; [exact M|]. apply nocrlf_app. split; [lit|exact TL].
Qed.
Lemma wire_clean E v i code meta h : tidy_texts E v -> wire E v i code meta h -> nocrlf meta -> exists code' m, h = header code' m /\ nocrlf m.
Proof.
  intros T (m & S & ->) M. pose proof (sent_clean _ _ _ _ _ T S M). destruct (length m <=? 1024)%nat; eexists; eexists; (split; [reflexivity|]); [assumption|lit].
Qed.

(** Whatever the request, if it has no escaped CR or LF: all that is queued for
    the client is nothing yet, or a header with a meta free of CR and LF and, for
    a listing, its title. *)
Theorem c18_one_line_partial E fs v c line i asked chunks c' :
  waiting v c -> c_in c = [] -> sort_ok E -> codes_ok v ->
  (length line <= 1024)%nat -> ~ has_crlf (line ++ [13]) -> understood E line i asked -> pieces (line ++ CRLF) chunks ->
  run E (reads fs chunks) c = Some (OK c') ->
  tidy_texts E v -> nocrlf (c_domain c) -> ~ smuggles line ->
  c_out c' = [] \/ exists code m rest, c_out c' = header code m ++ rest /\ nocrlf m /\ (rest = [] \/ exists t, rest = s2b "# Index of /" ++ t).
Proof.
  intros W HI HS HC HL HN HU HP HR T ND NS. destruct (c15_decision _ _ _ _ _ _ _ _ _ W HI HS HC HL HN HU HP HR) as (d & D & P).
  destruct HU as (U1 & U2 & U3 & _). apply (c04_accepts_iff_grammar _ _ _ U1 U2) in U3. destruct (iri_clean _ _ _ U3 NS) as (CP & CQ).
  pose proof (fun m => decides_clean _ _ _ _ _ _ _ m T CP CQ ND D) as K. destruct P as (new & _ & _ & _ & _ & P). cbv zeta in P.
  destruct (d_what d) as [code meta|ty content|path entries|p|k loc] eqn:DW.
  - destruct P as (h & Wi & O & _). destruct (wire_clean _ _ _ _ _ _ T Wi (K _ eq_refl)) as (code' & m & -> & M). right. exists code', m, []. rewrite app_nil_r. auto.
  - destruct P as (h & Wi & O & _). destruct (wire_clean _ _ _ _ _ _ T Wi (K _ eq_refl)) as (code' & m & -> & M). right. exists code', m, []. rewrite app_nil_r. auto.
  - destruct P as (h & Wi & O & _). destruct (wire_clean _ _ _ _ _ _ T Wi (K _ eq_refl)) as (code' & m & -> & M). right. exists code', m. eexists. split; [exact O|]. split; [exact M|]. right. eexists. reflexivity.
  - left. apply P.
  - left. apply P.
Qed.

(** the hypotheses are met: a redirect with the path in it *)
Example c18_case : let v := ex_vhost (block_loc (s2b "gemini://%N%p?%q")) [] [] in let E := ex_env v None in
  exists c c', connected E = Some (OK c) /\ waiting v c /\ tidy_texts E v /\ nocrlf (c_domain c) /\ ~ smuggles (s2b "gemini://h/a%20b?c") /\
    run E (reads ex_fs [s2b "gemini://h/a%20b?c" ++ CRLF]) c = Some (OK c') /\ c_out c' = header 31 (s2b "gemini://h/a b?c").
Proof.
  cbv zeta. set (v := ex_vhost _ _ _). set (E := ex_env v None).
  assert (X : exists c c', connected E = Some (OK c) /\ waiting v c /\ c_domain c = s2b "h" /\
     run E (reads ex_fs [s2b "gemini://h/a%20b?c" ++ CRLF]) c = Some (OK c') /\ c_out c' = header 31 (s2b "gemini://h/a b?c")).
  { eexists. eexists. split; [vm_compute; reflexivity|]. split; [repeat split|]. split; [reflexivity|]. split; [vm_compute; reflexivity|]. reflexivity. }
  destruct X as (c & c' & H1 & H2 & H3 & H4 & H5). exists c, c'. split; [exact H1|]. split; [exact H2|].
  split. { split; [constructor; [split; [lit|split; lit]|constructor]|]. apply Forall_forall. intros e I. revert e I. apply Forall_forall. vm_compute. repeat constructor; discriminate. }
  split; [rewrite H3; lit|]. split; [|auto].
  intros (a & x & b & Q & I). assert (Y : In x (s2b "aAdD") -> forall n, firstn 3 (skipn n (s2b "gemini://h/a%20b?c")) <> [37; 48; x]).
  { intros J n. do 20 (destruct n as [|n]; [vm_compute; discriminate|]). vm_compute. destruct n; discriminate. }
  apply (Y I (length a)). rewrite Q, skipn_app, skipn_all, Nat.sub_diag. reflexivity.
Qed.

Print Assumptions c18_one_line_partial.
