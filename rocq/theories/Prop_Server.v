(** C12, C14, C15, C16, C18, C20: what a connection does with a request,
    however the bytes of the request arrive. *)
From Coq Require Import Permutation Sorting.Sorted.
From Verif Require Import Base BaseLemmas Compat Iri IriSpec IriObs IriSafeSpec Prop_Iri Puny Conf ConfSpec Mime Prop_Conf Fmt FmtSpec Prop_Fmt Fcgi Server ServerSpec Iri_Last_Proofs Server_Proofs Decide_Proofs RequestSpec Request_Proofs.
Local Open Scope N_scope.

(** ** C15 *)

(** One request line, in any pieces: one row of the decision table is applied. *)
Theorem c15_decision E fs v c line i asked chunks c' :
  waiting v c -> c_in c = [] -> sort_ok E -> codes_ok v ->
  (length line <= 1024)%nat -> ~ has_crlf (line ++ [13]) -> understood E line i asked -> pieces (line ++ CRLF) chunks ->
  run E (reads fs chunks) c = Some (OK c') ->
  exists d, decides E fs v i (c_domain c) asked d /\ performed E v i d c c'.
Proof.
  intros (H1 & H2 & H3 & H4 & H5 & H6 & H7) HI HS HC HL HN HU HP HR.
  rewrite (reads_line E fs line chunks c H1 H2 H3 HI HL HN HP) in HR. injection HR as HR.
  set (c0 := set_in (line ++ CRLF) c) in *.
  assert (F : first_line (c_in c0) line []) by (split; [reflexivity|exact HN]).
  rewrite (client_read_understood E fs c0 line [] i asked v) in HR; auto.
  2:{ split; [exact H3|]. cbn. rewrite app_length. cbn. lia. }
  set (c1 := set_iri (Some i) (set_in [] c0)) in *.
  assert (M : midway i v c1 c1 []).
  { unfold midway. rewrite app_nil_r. repeat split; try reflexivity; cbn; try assumption. rewrite H3. reflexivity. }
  destruct (dispatch_performs E fs v i asked c1 c1 [] c' HS HC M eq_refl eq_refl eq_refl HR) as (d & D & P).
  exists d. split; [exact D|exact P].
Qed.

(** The table has one row per request: two decisions for the same request
    differ at most in the order of equal names of a listing. *)
Definition same_what (a b : what) : Prop :=
  a = b \/ exists p l l', a = WList p l /\ b = WList p l' /\ Permutation l l'.

Lemma governs_unique fnm path (P : location -> Prop) v l l' : governs fnm path P v l -> governs fnm path P v l' -> l = l'.
Proof.
  intros [(b & a & E & H & F)|(E & F)] [(b' & a' & E' & H' & F')|(E' & F')].
  - rewrite E in E'. eapply (first_unique (fun l => P l /\ fnm (l_match l) (unrooted path) = true)); eauto.
  - exfalso. rewrite E in F'. eapply (first_none (fun l => P l /\ fnm (l_match l) (unrooted path) = true)); eauto.
  - exfalso. rewrite E' in F. eapply (first_none (fun l => P l /\ fnm (l_match l) (unrooted path) = true)); eauto.
  - congruence.
Qed.

Lemma option_is_unique {A} E v i (f : location -> A) set x y : option_is E v i f set x -> option_is E v i f set y -> x = y.
Proof. intros (l & G & <-) (l' & G' & <-). rewrite (governs_unique _ _ _ _ _ _ G G'). reflexivity. Qed.

Lemma proxies_unique fnm ps s d p r r' : proxies_to fnm ps s d p r -> proxies_to fnm ps s d p r' -> r = r'.
Proof.
  intros H H'. destruct r as [q|], r' as [q'|]; cbn [proxies_to] in *; auto.
  - destruct H as (b & a & E & K & F), H' as (b' & a' & E' & K' & F'). rewrite E in E'.
    f_equal. eapply (first_unique (proxy_hit fnm s d p)); eauto.
  - exfalso. destruct H as (b & a & E & K & F). rewrite E in H'. eapply (first_none (proxy_hit fnm s d p)); eauto.
  - exfalso. destruct H' as (b & a & E & K & F). rewrite E in H. eapply (first_none (proxy_hit fnm s d p)); eauto.
Qed.

Lemma refused_unique E ca w w' : refused E ca w -> refused E ca w' -> w = w'.
Proof. intros H H'. inversion H; subst; inversion H'; subst; congruence. Qed.
Lemma refused_admitted E ca w : refused E ca w -> admitted E ca -> False.
Proof. intros H A. inversion H; subst; destruct (A a eq_refl); congruence. Qed.

Lemma relays_unique E p w w' : relays E p w -> relays E p w' -> w = w'.
Proof.
  intros H H'. inversion H; subst; inversion H'; subst; auto;
    try (exfalso; eapply refused_admitted; eauto; fail); try (eapply refused_unique; eauto; fail);
    exfalso; repeat match goal with K : _ \/ _ |- _ => destruct K end; congruence.
Qed.

Lemma lists_unique E v i en w w' : lists E v i en w -> lists E v i en w' -> same_what w w'.
Proof.
  intros H H'. inversion H; subst; inversion H'; subst;
    try (left; reflexivity);
    try (exfalso; match goal with A : option_is E v i l_auto_index _ _, B : option_is E v i l_auto_index _ _ |- _ =>
       pose proof (option_is_unique _ _ _ _ _ _ _ A B); congruence end);
    try discriminate.
  match goal with K : Some _ = Some _ |- _ => injection K as -> end.
  match goal with A : shown _ _ ?x, B : shown _ _ ?y |- same_what (WList _ ?x) (WList _ ?y) =>
    destruct A as [P1 _], B as [P2 _]; right; exists (c_path i), x, y end. split; [reflexivity|]. split; [reflexivity|].
  eapply Permutation_trans; [exact P1|apply Permutation_sym; exact P2].
Qed.

Lemma directory_unique E v i lk en w w' : directory E v i lk en w -> directory E v i lk en w' -> same_what w w'.
Proof.
  intros H H'. destruct H; destruct H';
    try (left; reflexivity); try contradiction; try lia;
    repeat match goal with A : option_is E v i l_index _ ?x, B : option_is E v i l_index _ ?y |- _ =>
       pose proof (option_is_unique _ _ _ _ _ _ _ A B); subst y; clear B end; subst;
    repeat match goal with K : _ \/ _ |- _ => destruct K | K : exists _, _ |- _ => destruct K end;
    try congruence;
    try (eapply lists_unique; eauto; fail);
    left; repeat match goal with A : lk _ = _, B : lk _ = _ |- _ => rewrite A in B; injection B as B end; congruence.
Qed.

Lemma found_unique E v i p n w w' : found E v i p n w -> found E v i p n w' -> same_what w w'.
Proof.
  intros H H'. inversion H; subst; inversion H'; subst; try (left; reflexivity).
  - left. congruence.
  - eapply directory_unique; eauto.
Qed.

Lemma application_unique E v i k k' : application E v i k -> application E v i k' -> k = k'.
Proof.
  intros (l & G & H) (l' & G' & H'). pose proof (governs_unique _ _ _ _ _ _ G G') as Q. subst l'. clear G G'.
  destruct k as [[n l1]|], k' as [[n' l2]|]; auto.
  - destruct H as (-> & H & _), H' as (-> & H' & _). congruence.
  - destruct H as (-> & H & X). exfalso. apply X. auto.
  - destruct H' as (-> & H' & X). exfalso. apply X. auto.
Qed.

Lemma admitted_to_unique E fs v i sni d d' : admitted_to E fs v i sni d -> admitted_to E fs v i sni d' ->
  d_open d = d_open d' /\ same_what (d_what d) (d_what d').
Proof.
  intros H H'. destruct H; destruct H';
   repeat match goal with
   | A : option_is ?E ?v ?i ?f ?s ?x, B : option_is ?E ?v ?i ?f ?s ?y |- _ =>
       pose proof (option_is_unique _ _ _ _ _ _ _ A B); first [subst y|subst x|discriminate|idtac]; clear B
   | A : application ?E ?v ?i ?x, B : application ?E ?v ?i ?y |- _ =>
       let Q := fresh in pose proof (application_unique _ _ _ _ _ A B) as Q; clear B; try discriminate; try (injection Q as -> ->)
   | A : governs ?f ?p ?P ?v ?x, B : governs ?f ?p ?P ?v ?y |- _ =>
       pose proof (governs_unique _ _ _ _ _ _ A B); subst y; clear B
   | A : governs _ _ (fun l => l_block_code l <> 0) _ ?x, B : option_is _ _ _ l_block_code _ 0 |- _ =>
       exfalso; let l := fresh in let G := fresh in let Z := fresh in destruct B as (l & G & Z);
       pose proof (governs_unique _ _ _ _ _ _ A G); subst l; congruence
   end; cbn [d_open d_what]; try congruence; try (split; [reflexivity|left; reflexivity]).
  - split; [reflexivity|]. left. congruence.
  - match goal with Q : Some _ = Some _ |- _ => injection Q as -> end. split; [reflexivity|]. eapply found_unique; eauto.
Qed.

Theorem c15_exactly_one E fs v i sni asked d d' :
  decides E fs v i sni asked d -> decides E fs v i sni asked d' -> d_open d = d_open d' /\ same_what (d_what d) (d_what d').
Proof.
  intros H H'. destruct H as [p w P R|P O|ca w P O C R|ca d P O C A D]; destruct H' as [p' w' P' R'|P' O'|ca' w' P' O' C' R'|ca' d' P' O' C' A' D'];
    pose proof (proxies_unique _ _ _ _ _ _ _ P P') as Q; try discriminate; try contradiction; cbn [d_open d_what];
    try (pose proof (option_is_unique _ _ _ _ _ _ _ C C') as QC; subst ca').
  - injection Q as ->. split; [reflexivity|left; eapply relays_unique; eauto].
  - split; [reflexivity|left; reflexivity].
  - split; [reflexivity|left; eapply refused_unique; eauto].
  - exfalso. eapply refused_admitted; eauto.
  - exfalso. eapply refused_admitted; eauto.
  - eapply admitted_to_unique; eauto.
Qed.

(** Non-vacuity: a configuration with one server, two applications of the
    table.  [lit] is a function matching by equality, "*" matching all. *)
Definition lit (p s : list N) : bool := leqb p (s2b "*") || leqb p s.
Definition plain_loc : location := mkLoc (s2b "*") [] [] [] 0 0 [] 0 None false None false 0 [] [] (Some 3).
Definition ex_vhost (l0 : location) (ls : list location) (ps : list proxy) : vhost := mkVhost (s2b "h") [] l0 ls ps.
(** a sort, for [e_sort] *)
Fixpoint name_leb (a b : list N) : bool :=
  match a, b with
  | [], _ => true
  | _ :: _, [] => false
  | x :: a, y :: b => (x <? y) || ((x =? y) && name_leb a b)
  end.
Lemma name_leb_le a : forall b, name_leb a b = true <-> name_le a b.
Proof.
  induction a as [|x a IH]; intros b; [cbn; tauto|]. destruct b as [|y b]; cbn [name_leb name_le]; [split; [discriminate|tauto]|].
  rewrite <- IH. destruct (N.ltb_spec x y), (N.eqb_spec x y); cbn; split; intros Q; try lia; auto; try tauto; try (right; split; assumption); destruct Q as [?|[? ?]]; try lia; auto.
Qed.
Lemma name_le_total a : forall b, name_leb a b = false -> name_le b a.
Proof.
  induction a as [|x a IH]; intros b; [discriminate|]. destruct b as [|y b]; cbn [name_leb name_le]; [auto|].
  destruct (N.ltb_spec x y), (N.eqb_spec x y); cbn; intros Q; try discriminate; [right; auto|left; lia].
Qed.
Lemma name_le_trans a : forall b c, name_le a b -> name_le b c -> name_le a c.
Proof.
  induction a as [|x a IH]; intros b c; [cbn; auto|]. destruct b as [|y b]; [intros []|]. destruct c as [|z c]; [cbn; auto|]. cbn [name_le].
  intros [A|[-> A]] [B|[-> B]]; [left; lia|left; lia|left; lia|right; split; [reflexivity|eauto]].
Qed.
Fixpoint ins (d : list N * bool) (l : list (list N * bool)) : list (list N * bool) :=
  match l with [] => [d] | x :: r => if name_leb (fst d) (fst x) then d :: l else x :: ins d r end.
Definition isort (l : list (list N * bool)) : list (list N * bool) := fold_right ins [] l.
Lemma ins_perm d l : Permutation (ins d l) (d :: l).
Proof.
  induction l as [|x l IH]; cbn [ins]; [reflexivity|]. destruct (name_leb _ _); [reflexivity|].
  eapply perm_trans; [apply perm_skip; exact IH|apply perm_swap].
Qed.
Lemma ins_sorted d l : StronglySorted (fun a b : list N * bool => name_le (fst a) (fst b)) l -> StronglySorted (fun a b : list N * bool => name_le (fst a) (fst b)) (ins d l).
Proof.
  induction 1 as [|x l S IH F]; cbn [ins]; [repeat constructor|]. destruct (name_leb (fst d) (fst x)) eqn:B.
  - apply name_leb_le in B. constructor; [constructor; assumption|]. constructor; [exact B|].
    eapply Forall_impl; [|exact F]. intros a Q. cbv beta in Q. eapply name_le_trans; eauto.
  - constructor; [exact IH|]. apply name_le_total in B. rewrite Forall_forall in *. intros y IN.
    apply (Permutation_in _ (ins_perm d l)) in IN. destruct IN as [<-|IN]; [exact B|auto].
Qed.
Lemma isort_ok l : Permutation (isort l) l /\ StronglySorted (fun a b : list N * bool => name_le (fst a) (fst b)) (isort l).
Proof.
  induction l as [|d l [P S]]; cbn [isort fold_right]; [split; constructor|]. fold (isort l). split; [|apply ins_sorted; exact S].
  eapply perm_trans; [apply ins_perm|apply perm_skip; exact P].
Qed.

Definition ex_env (v : vhost) (cert : option peer) : env :=
  mkEnv (mkConf [] [] [v]) lit (fun _ => false) cert (fun _ => false) 1965 (s2b "::1") (s2b "::1") (s2b "gmid")
    (fun _ => true) (fun _ => true) (fun _ => true) isort (repeat 0 1027).
Definition connected (E : env) : option (res client) := run E [EvHandshake (Some (s2b "h"))] fresh.
Definition ex_fs (fd : N) (p : list N) : node :=
  if leqb p (s2b "f.gmi") then NFile true (s2b "hello") else if leqb p (s2b "d") then NDir (fun _ => NMissing) (Some []) else NMissing.

Example ex_waiting : let v := ex_vhost plain_loc [] [] in
  exists c, connected (ex_env v None) = Some (OK c) /\ waiting v c /\ c_in c = [] /\ sort_ok (ex_env v None) /\ codes_ok v /\
    understood (ex_env v None) (s2b "gemini://h/f.gmi") (mkC (s2b "gemini") (s2b "h") [] 1965 (s2b "f.gmi") [] []) (s2b "h").
Proof.
  cbv zeta. eexists. split; [vm_compute; reflexivity|]. split; [repeat split|]. split; [reflexivity|]. split; [exact isort_ok|]. split; [repeat constructor|].
  split; [repeat constructor; discriminate|]. split; [repeat constructor|]. split; [eexists; split; vm_compute; reflexivity|].
  eexists. split; [vm_compute; reflexivity|]. vm_compute. reflexivity.
Qed.

Example ex_served : let v := ex_vhost plain_loc [] [] in
  exists c c', connected (ex_env v None) = Some (OK c) /\
    run (ex_env v None) (reads ex_fs [s2b "gemini:/"; s2b "/h/f.gmi" ++ [13]; [10]]) c = Some (OK c') /\
    c_out c' = s2b "20 text/gemini" ++ [13; 10] /\ c_pfd c' = PFile (s2b "hello").
Proof. cbv zeta. eexists. eexists. split; [vm_compute; reflexivity|]. split; [vm_compute; reflexivity|]. split; vm_compute; reflexivity. Qed.

(** ** C14 *)
Lemma performed_fixed E v i os code meta c c' : performed E v i (mkD os (WReply code meta)) c c' ->
  meta <> s2b "text/gemini" -> (length meta <= 1024)%nat -> header code meta <> header 40 (s2b "internal error") ->
  c_out c' = header code meta /\ c_type c' = DONE /\
  exists new, c_acts c' = c_acts c ++ new /\ filter visible new = map (fun o => AOpen (fst o) (snd o)) os ++ [AReply code meta].
Proof.
  intros (new & A & _ & _ & _ & P) NT NL NH. cbn [d_what d_open] in P.
  destruct P as (h & (m & MS & Hh) & O & T & C & code' & meta' & D & K).
  assert (m = meta) by (destruct MS as [[_ ->]|[MS _]]; [reflexivity|contradiction]). subst m.
  destruct (Nat.leb_spec (length meta) 1024); [|lia]. rewrite O, Hh. split; [reflexivity|]. split; [exact T|].
  exists new. split; [exact A|]. destruct K as [K|K]; [injection K as -> ->; exact D|congruence].
Qed.

(** A location that wants a client certificate: without one the client gets 60,
    with a wrong one 61, and that is all: nothing is opened, no application is
    asked, nothing is sent upstream. *)
Theorem c14_protected E fs v c line i asked chunks c' a :
  waiting v c -> c_in c = [] -> sort_ok E -> codes_ok v ->
  (length line <= 1024)%nat -> ~ has_crlf (line ++ [13]) -> understood E line i asked -> pieces (line ++ CRLF) chunks ->
  run E (reads fs chunks) c = Some (OK c') ->
  proxies_to (e_fnm E) (v_proxies v) (c_scheme i) (c_domain c) (c_port i) None -> ours i (c_domain c) asked ->
  option_is E v i l_reqca (fun x => x <> None) (Some a) ->
  (e_cert E = None ->
     c_out c' = header 60 (s2b "client certificate required") /\ c_type c' = DONE /\
     exists new, c_acts c' = c_acts c ++ new /\ filter visible new = [AReply 60 (s2b "client certificate required")]) /\
  (e_cert E <> None -> e_valid E a = false ->
     c_out c' = header 61 (s2b "certificate not authorised") /\ c_type c' = DONE /\
     exists new, c_acts c' = c_acts c ++ new /\ filter visible new = [AReply 61 (s2b "certificate not authorised")]).
Proof.
  intros W HI HS HC HL HN HU HP HR PX OU CA.
  destruct (c15_decision E fs v c line i asked chunks c' W HI HS HC HL HN HU HP HR) as (d & D & P).
  split; [intros NC|intros NC NV].
  - pose proof (d_refused E fs v i (c_domain c) asked (Some a) _ PX OU CA (rf_none E a NC)) as D2.
    destruct (c15_exactly_one _ _ _ _ _ _ _ _ D D2) as [O [Q|(? & ? & ? & _ & Q & _)]]; [|discriminate].
    cbn [d_open d_what] in O, Q. destruct d as [os w]. cbn in O, Q. subst.
    apply (performed_fixed _ _ _ _ _ _ _ _ P); [discriminate|cbn; lia|discriminate].
  - pose proof (d_refused E fs v i (c_domain c) asked (Some a) _ PX OU CA (rf_bad E a NC NV)) as D2.
    destruct (c15_exactly_one _ _ _ _ _ _ _ _ D D2) as [O [Q|(? & ? & ? & _ & Q & _)]]; [|discriminate].
    cbn [d_open d_what] in O, Q. destruct d as [os w]. cbn in O, Q. subst.
    apply (performed_fixed _ _ _ _ _ _ _ _ P); [discriminate|cbn; lia|discriminate].
Qed.

Definition secret_loc : location := mkLoc (s2b "f.gmi") [] [] [] 0 0 [] 0 (Some 7) false None false 0 [] [] None.
Example c14_example : let v := ex_vhost plain_loc [secret_loc] [] in
  exists c c', connected (ex_env v None) = Some (OK c) /\
    run (ex_env v None) (reads ex_fs [s2b "gemini://h/x/..%2f" ++ s2b "f.gmi" ++ CRLF]) c = Some (OK c') /\
    c_out c' = s2b "60 client certificate required" ++ [13; 10].
Proof. cbv zeta. eexists. eexists. split; [vm_compute; reflexivity|]. split; vm_compute; reflexivity. Qed.

(** ** C20 *)
Theorem c20_redirect E fs v c line i asked chunks c' ca fd n look entries :
  waiting v c -> c_in c = [] -> sort_ok E -> codes_ok v ->
  (length line <= 1024)%nat -> ~ has_crlf (line ++ [13]) -> understood E line i asked -> pieces (line ++ CRLF) chunks ->
  run E (reads fs chunks) c = Some (OK c') ->
  proxies_to (e_fnm E) (v_proxies v) (c_scheme i) (c_domain c) (c_port i) None -> ours i (c_domain c) asked ->
  option_is E v i l_reqca (fun x => x <> None) ca -> admitted E ca ->
  option_is E v i l_block_code (fun x => x <> 0) 0 -> application E v i None ->
  option_is E v i l_dirfd (fun x => x <> None) (Some fd) -> option_is E v i l_strip (fun x => x <> 0%nat) n ->
  fs fd (below i n) = NDir look entries ->
  (* a directory asked for without its slash *)
  (c_path i <> [] -> last (c_path i) 0 <> 47 -> (length (c_path i) <= 1022)%nat ->
     c_out c' = header 30 ([47] ++ c_path i ++ [47]) /\ c_type c' = DONE) /\
  (* a directory with an index *)
  (forall x content ty h, (c_path i = [] \/ last (c_path i) 0 = 47) -> option_is E v i l_index (fun x => x <> []) x ->
     let idx := match x with [] => s2b "index.gmi" | _ => x end in
     look idx = NFile true content ->
     mime (e_fnm E) (c_mime (e_conf E)) (Some v) (firstn 4095 (c_path i ++ idx)) = OK ty ->
     meta_sent E v i ty h -> (length h <= 1024)%nat -> header 20 h <> header 40 (s2b "internal error") ->
     c_out c' = header 20 h /\ c_type c' = RFILE /\ c_pfd c' = PFile content).
Proof.
  intros W HI HS HC HL HN HU HP HR PX OU CA AD BL AP DF ST FS.
  destruct (c15_decision E fs v c line i asked chunks c' W HI HS HC HL HN HU HP HR) as (d & D & P).
  assert (K : forall w, directory E v i look entries w -> d_open d = [(fd, below i n)] /\ same_what (d_what d) w).
  { intros w Hw. assert (D2 : decides E fs v i (c_domain c) asked (mkD [(fd, below i n)] w)).
    { eapply d_admitted; eauto. eapply a_file; eauto. rewrite FS. constructor. exact Hw. }
    exact (c15_exactly_one _ _ _ _ _ _ _ _ D D2). }
  split.
  - intros NE NS L. destruct (K (WReply 30 ([47] ++ c_path i ++ [47]))) as [O [Q|(? & ? & ? & _ & Q & _)]]; [|idtac|discriminate].
    { apply dr_slash; [unfold dir_style; tauto|lia]. }
    destruct d as [os w]. cbn [d_open d_what] in O, Q. subst.
    destruct (performed_fixed _ _ _ _ _ _ _ _ P) as (X & Y & _).
    + intros H. apply (f_equal (hd 0)) in H. discriminate H.
    + rewrite !app_length. cbn. lia.
    + discriminate.
    + auto.
  - intros x content ty h DS IX idx LK MI MS L NH. destruct (K (WBody ty content)) as [O [Q|(? & ? & ? & _ & Q & _)]]; [|idtac|discriminate].
    { eapply dr_index; eauto. }
    destruct d as [os w]. cbn [d_open d_what] in O, Q. subst.
    destruct P as (new & A & _ & _ & _ & P). cbn [d_what d_open] in P. destruct P as (h' & (m & MS' & Hh) & Oo & R).
    assert (m = h).
    { destruct MS as [[N1 ->]|[N1 (lg & L1 & ->)]], MS' as [[N2 ->]|[N2 (lg' & L2 & ->)]]; try congruence.
      rewrite (option_is_unique _ _ _ _ _ _ _ L1 L2). reflexivity. }
    subst m. destruct (Nat.leb_spec (length h) 1024); [|lia]. subst h'.
    rewrite Oo. split; [reflexivity|]. destruct R as [(_ & R1 & R2)|R]; [auto|congruence].
Qed.

Example c20_example : let v := ex_vhost plain_loc [] [] in
  exists c c', connected (ex_env v None) = Some (OK c) /\
    run (ex_env v None) (reads ex_fs [s2b "gemini://h/d" ++ CRLF]) c = Some (OK c') /\ c_out c' = s2b "30 /d/" ++ [13; 10].
Proof. cbv zeta. eexists. eexists. split; [vm_compute; reflexivity|]. split; vm_compute; reflexivity. Qed.

(** Following the redirect does not always lead to the directory: the path is
    sent decoded.  Asking for the directory named "%41" (as %2541) redirects to
    one named "A". *)
Theorem c20_target_refuted :
  ~ (forall E fs v c line i c', connected E = Some (OK c) -> waiting v c -> accepts (e_ip6 E) line i ->
       run E (reads fs [line ++ CRLF]) c = Some (OK c') ->
       forall meta i', c_out c' = header 30 meta -> accepts (e_ip6 E) (s2b "gemini://h" ++ meta) i' -> c_path i' = c_path i ++ [47]).
Proof.
  intros H. set (v := ex_vhost plain_loc [] []). set (fs := fun (fd : N) (p : list N) => NDir (fun _ => NMissing) (Some [])).
  set (E := ex_env v None).
  assert (X : exists c c', connected E = Some (OK c) /\ waiting v c /\
     run E (reads fs [s2b "gemini://h/%2541" ++ CRLF]) c = Some (OK c') /\ c_out c' = header 30 (s2b "/%41/")).
  { eexists. eexists. split; [vm_compute; reflexivity|]. split; [repeat split|]. split; vm_compute; reflexivity. }
  destruct X as (c & c' & H1 & H2 & H3 & H4).
  specialize (H E fs v c (s2b "gemini://h/%2541") (mkC (s2b "gemini") (s2b "h") [] 1965 (s2b "%41") [] []) c' H1 H2).
  specialize (H ltac:(eexists; split; vm_compute; reflexivity) H3 (s2b "/%41/") (mkC (s2b "gemini") (s2b "h") [] 1965 (s2b "A/") [] []) H4).
  specialize (H ltac:(eexists; split; vm_compute; reflexivity)). discriminate H.
Qed.

(** ** C16 *)
Definition bad_request : list N := s2b "bad request".
Definition refused_with_59 (E : env) (c c' : client) : Prop :=
  c_out c' = header 59 bad_request /\ c_sent c' = [] /\ c_type c' = DONE /\ c_closed c' = false /\
  exists new, c_acts c' = c_acts c ++ new /\ filter visible new = [AReply 59 bad_request].

Lemma reply_59 E c c1 : refreshed c c1 -> c_out c = [] -> c_sent c = [] -> c_closed c = false ->
  refused_with_59 E c (reply E 59 bad_request c1).
Proof.
  intros (R1 & R2 & R3 & _ & R5 & _) O S C. unfold refused_with_59.
  pose proof (reply_spec E 59 bad_request c1 ltac:(lia) ltac:(lia)) as R. cbv zeta in R. destruct R as (Sm & _ & R).
  destruct Sm as (_ & Sc & _ & Ss & _).
  assert (F : full_meta E c1 bad_request = bad_request).
  { unfold full_meta. replace (leqb bad_request (s2b "text/gemini")) with false by reflexivity. rewrite andb_false_r. apply app_nil_r. }
  unfold fits in R. rewrite F in R.
  assert (L : (length bad_request <=? 1024)%nat = true) by reflexivity. rewrite L in R. destruct R as (Ro & _ & Rt & Ra).
  rewrite Ro, R1, O, Ss, R2, S, Rt, Sc, R3, C, Ra, R5. repeat split.
  eexists. split; [reflexivity|]. rewrite filter_app, logged_invisible. reflexivity.
Qed.

(** A malformed line, in any pieces *)
Theorem c16_malformed E fs v c line chunks :
  waiting v c -> c_in c = [] -> (length line <= 1024)%nat -> ~ has_crlf (line ++ [13]) -> malformed E line -> pieces (line ++ CRLF) chunks ->
  exists c', run E (reads fs chunks) c = Some (OK c') /\ refused_with_59 E c c'.
Proof.
  intros (H1 & H2 & H3 & H4 & H5 & H6 & H7) HI HL HN HM HP.
  rewrite (reads_line E fs line chunks c H1 H2 H3 HI HL HN HP).
  set (c0 := set_in (line ++ CRLF) c) in *.
  assert (F : first_line (c_in c0) line []) by (split; [reflexivity|exact HN]).
  destruct (client_read_malformed E fs c0 line []) as (c1 & RF & ->); auto.
  { split; [exact H3|]. cbn. rewrite app_length. cbn. lia. }
  eexists. split; [reflexivity|]. apply reply_59; auto.
Qed.

(** Anything that has no end of line in its first 1026 bytes, in any pieces;
    in particular a line of more than 1024 bytes whatever follows it *)
Theorem c16_oversize E fs v c s chunks :
  waiting v c -> c_in c = [] -> (1026 < length s)%nat -> ~ has_crlf (firstn 1026 s) -> pieces s chunks ->
  exists c', run E (reads fs chunks) c = Some (OK c') /\ refused_with_59 E c c'.
Proof.
  intros (H1 & H2 & H3 & H4 & H5 & H6 & H7) HI HL HN HP.
  destruct (reads_oversize E fs s chunks c H1 H2 H3 HI HL HN HP) as (c1 & c2 & RF & -> & ->).
  eexists. split; [reflexivity|]. exact (reply_59 E c c1 RF H6 H7 H2).
Qed.

Theorem c16_long_line E fs v c line rest chunks :
  waiting v c -> c_in c = [] -> (1024 < length line)%nat -> ~ has_crlf (line ++ [13]) -> pieces (line ++ CRLF ++ rest) chunks ->
  exists c', run E (reads fs chunks) c = Some (OK c') /\ refused_with_59 E c c'.
Proof.
  intros W HI HL HN HP. eapply c16_oversize; eauto.
  - rewrite !app_length. change (length CRLF) with 2%nat. lia.
  - intros (a & b & H). apply HN.
    assert (E1 : firstn 1026 (line ++ CRLF ++ rest) = firstn 1026 (line ++ [13] ++ 10 :: rest)) by reflexivity.
    rewrite E1, app_assoc, firstn_app in H.
    replace (1026 - length (line ++ [13%N]))%nat with 0%nat in H by (rewrite app_length; cbn [length]; lia).
    rewrite firstn_O, app_nil_r in H.
    exists a, (b ++ skipn 1026 (line ++ [13])).
    pose proof (firstn_skipn 1026 (line ++ [13])) as Q. rewrite H, <- !app_assoc in Q. rewrite Q at 1. reflexivity.
Qed.

(** Until the line is complete nothing happens; once it was refused, nothing more. *)
Theorem c16_waits E fs v c s chunks : waiting v c -> c_in c = [] -> (length s <= 1026)%nat -> ~ has_crlf s -> pieces s chunks ->
  exists c', run E (reads fs chunks) c = Some (OK c') /\ waiting v c' /\ c_acts c' = c_acts c.
Proof.
  intros (H1 & H2 & H3 & H4 & H5 & H6 & H7) HI HL HN [HP HF]. subst s.
  rewrite reads_incomplete; auto; try (rewrite HI; assumption).
  eexists. split; [reflexivity|]. split; [repeat split; assumption|reflexivity].
Qed.

Theorem c16_no_second_reply E fs c c' chunks : c_hs c = true -> refused_with_59 E c c' -> c_hs c' = true -> Forall (fun x => x <> []) chunks ->
  exists c2, run E (reads fs chunks) c' = Some (OK c2) /\ c_acts c2 = c_acts c' /\ c_out c2 = c_out c'.
Proof.
  intros _ (_ & _ & T & Cl & _) H HF. rewrite reads_done; auto; [|rewrite T; discriminate].
  eexists. split; [reflexivity|]. split; reflexivity.
Qed.

Example c16_example : let v := ex_vhost plain_loc [] [] in
  malformed (ex_env v None) (s2b "gemini://h/%00") /\ malformed (ex_env v None) [103; 0; 104].
Proof.
  cbv zeta. split.
  - right. right. left. split; [repeat constructor; discriminate|]. split; [repeat constructor|]. eexists. vm_compute. reflexivity.
  - right. left. right. left. reflexivity.
Qed.

(** ** C18: the requester can split the header *)
Definition block_loc (fmt : list N) : location := mkLoc (s2b "*") [] [] [] 0 31 fmt 0 None false None false 0 [] [] (Some 3).
Definition one_line (h : list N) : Prop := forall a b, h = a ++ CRLF ++ b -> b = [].

Theorem c18_refuted :
  ~ (forall E fs v c line c', connected E = Some (OK c) -> waiting v c -> nonul line -> bytes line -> ~ has_crlf (line ++ [13]) ->
       run E (reads fs [line ++ CRLF]) c = Some (OK c') -> c_type c' = DONE -> one_line (c_out c')).
Proof.
  intros H. set (v := ex_vhost (block_loc (s2b "%p")) [] []). set (E := ex_env v None).
  assert (X : exists c c', connected E = Some (OK c) /\ waiting v c /\
     run E (reads ex_fs [s2b "gemini://h/a%0D%0Ab" ++ CRLF]) c = Some (OK c') /\ c_type c' = DONE /\
     c_out c' = s2b "31 /a" ++ CRLF ++ s2b "b" ++ CRLF).
  { eexists. eexists. split; [vm_compute; reflexivity|]. split; [repeat split|]. split; [vm_compute; reflexivity|]. split; reflexivity. }
  destruct X as (c & c' & H1 & H2 & H3 & H4 & H5).
  specialize (H E ex_fs v c (s2b "gemini://h/a%0D%0Ab") c' H1 H2).
  specialize (H ltac:(repeat constructor; discriminate) ltac:(repeat constructor)
    ltac:(apply readln_none; vm_compute; reflexivity) H3 H4).
  rewrite H5 in H. specialize (H (s2b "31 /a") (s2b "b" ++ CRLF) eq_refl). discriminate H.
Qed.

(** also through the redirect of a directory *)
Theorem c18_redirect_refuted :
  ~ (forall E fs v c line c', connected E = Some (OK c) -> waiting v c -> nonul line -> bytes line -> ~ has_crlf (line ++ [13]) ->
       v_loc0 v = plain_loc -> run E (reads fs [line ++ CRLF]) c = Some (OK c') -> c_type c' = DONE -> one_line (c_out c')).
Proof.
  intros H. set (v := ex_vhost plain_loc [] []). set (E := ex_env v None).
  set (fs := fun (fd : N) (p : list N) => NDir (fun _ => NMissing) (Some [])).
  assert (X : exists c c', connected E = Some (OK c) /\ waiting v c /\
     run E (reads fs [s2b "gemini://h/a%0D%0Ab" ++ CRLF]) c = Some (OK c') /\ c_type c' = DONE /\
     c_out c' = s2b "30 /a" ++ CRLF ++ s2b "b/" ++ CRLF).
  { eexists. eexists. split; [vm_compute; reflexivity|]. split; [repeat split|]. split; [vm_compute; reflexivity|]. split; reflexivity. }
  destruct X as (c & c' & H1 & H2 & H3 & H4 & H5).
  specialize (H E fs v c (s2b "gemini://h/a%0D%0Ab") c' H1 H2).
  specialize (H ltac:(repeat constructor; discriminate) ltac:(repeat constructor)
    ltac:(apply readln_none; vm_compute; reflexivity) eq_refl H3 H4).
  rewrite H5 in H. specialize (H (s2b "30 /a") (s2b "b/" ++ CRLF) eq_refl). discriminate H.
Qed.
