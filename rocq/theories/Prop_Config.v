(** C29 and C30: handing the configuration over. *)
From Coq Require Import Lia.
From Verif Require Import Base BaseLemmas Conf Config.
Local Open Scope N_scope.

(** ** Specification *)
Section Spec.
Variable fs : list N -> option (list N).
Variable supported : addr -> bool.
Variable load_ca : list N -> option N.
Variable pubkey_hash : list N -> option (list N).
Variable load_pkey : list N -> option N.

(** the CA a location or a proxy asks for, loaded from its file *)
Definition loaded (path : option (list N)) (store : option N) : Prop :=
  match path with
  | None => store = None
  | Some p => exists d, fs p = Some d /\ load_ca d = store /\ store <> None
  end.
(** a file that was read, if it was asked for *)
Definition read_from (path : option (list N)) (data : option (list N)) : Prop :=
  match path with None => data = None | Some p => data <> None /\ fs p = data end.

Definition same_loc (l : ploc) (k : location) : Prop :=
  l_match k = l_match (pl l) /\ l_lang k = l_lang (pl l) /\ l_default_mime k = l_default_mime (pl l) /\
  l_index k = l_index (pl l) /\ l_auto_index k = l_auto_index (pl l) /\ l_block_code k = l_block_code (pl l) /\
  l_block_fmt k = l_block_fmt (pl l) /\ l_strip k = l_strip (pl l) /\ l_disable_log k = l_disable_log (pl l) /\
  l_fcgi k = l_fcgi (pl l) /\ l_nofcgi k = l_nofcgi (pl l) /\ l_fcgi_strip k = l_fcgi_strip (pl l) /\
  l_params k = l_params (pl l) /\ l_dir k = l_dir (pl l) /\ l_dirfd k = None /\ loaded (pl_ca l) (l_reqca k).

Definition same_proxy (p : pproxy) (k : cproxy) : Prop :=
  p_match_proto (cx k) = p_match_proto (px p) /\ p_match_host (cx k) = p_match_host (px p) /\
  p_match_port (cx k) = p_match_port (px p) /\ p_host (cx k) = p_host (px p) /\ p_port (cx k) = p_port (px p) /\
  p_notls (cx k) = p_notls (px p) /\ p_proxy (cx k) = p_proxy (px p) /\ cx_sni k = px_sni p /\
  cx_protos k = px_protos p /\ cx_noverify k = px_noverify p /\ loaded (px_ca p) (p_reqca (cx k)) /\
  (px_cert p <> None -> px_key p <> None -> read_from (px_cert p) (cx_cert k) /\ read_from (px_key p) (cx_key k)) /\
  (px_cert p = None \/ px_key p = None -> cx_cert k = None /\ cx_key k = None).

Definition same_host (keys : bool) (h : phost) (k : chost) : Prop :=
  ch_domain k = ph_domain h /\ read_from (Some (ph_cert h)) (ch_cert k) /\
  (if keys then read_from (Some (ph_key h)) (ch_key k) else ch_key k = None) /\
  read_from (ph_ocsp h) (ch_ocsp k) /\ ch_addrs k = ph_addrs h /\ Forall2 same_loc (ph_locs h) (ch_locs k) /\
  ch_aliases k = ph_aliases h /\ Forall2 same_proxy (ph_proxies h) (ch_proxies k).

(** the sockets are in the opposite order: the main process keeps its list
    latest first, so this is the order of the file *)
Definition same_conf (c : pconf) (k : cconf) : Prop :=
  cc_logfmt k = pc_logfmt c /\ cc_mime k = pc_mime c /\ cc_protos k = pc_protos c /\
  cc_addrs k = rev (filter supported (pc_addrs c)) /\ cc_fcgi k = pc_fcgi c /\
  Forall2 (same_host (negb (pc_privsep_crypto c))) (pc_hosts c) (cc_hosts k).

(** every CA file named in the configuration can be loaded *)
Definition cas_load (c : pconf) : Prop :=
  forall h p d, In h (pc_hosts c) -> (exists l, In l (ph_locs h) /\ pl_ca l = Some p) \/ (exists x, In x (ph_proxies h) /\ px_ca x = Some p) ->
  fs p = Some d -> load_ca d <> None.
End Spec.

(** ** What is sent *)
Definition sends (l : list act) : list (target * nat * msg) :=
  flat_map (fun a => match a with ASend t n m => [(t, n, m)] | _ => [] end) l.
Definition opens (l : list act) : list (list N) := flat_map (fun a => match a with AOpen p => [p] | _ => [] end) l.

Lemma perform_done fs ok l : forall i ms, perform fs ok i l = (ms, Done) -> ms = sends l /\ forall p, In p (opens l) -> fs p <> None.
Proof.
  induction l as [|a l IH]; intros i ms E; cbn [perform] in E.
  - injection E as <-. split; [reflexivity|intros p []].
  - destruct a as [t n m|t|p].
    + destruct (ok i); [|discriminate]. destruct (perform fs ok (S i) l) as [ms' o] eqn:P. injection E as <- ->. destruct (IH _ _ P) as [-> X]. split; [reflexivity|exact X].
    + destruct (ok i); [|discriminate]. apply (IH _ _ E).
    + destruct (fs p) eqn:F; [|discriminate]. destruct (IH _ _ E) as [-> X]. split; [reflexivity|]. intros q [<-|Q]; [congruence|apply (X q Q)].
Qed.
(** whatever fails, what was sent is the beginning of all there is to send *)
Lemma perform_prefix fs ok l : forall i, exists r, sends l = fst (perform fs ok i l) ++ r.
Proof.
  induction l as [|a l IH]; intros i; cbn [perform]; [exists []; reflexivity|]. destruct a as [t n m|t|p]; cbn [sends flat_map]; fold (sends l).
  - destruct (ok i); [|eexists; reflexivity]. destruct (IH (S i)) as [r E]. destruct (perform fs ok (S i) l). exists r. cbn in *. rewrite E. reflexivity.
  - destruct (ok i); [|eexists; reflexivity]. apply IH.
  - destruct (fs p); [|eexists; reflexivity]. apply IH.
Qed.
Lemma sends_app a b : sends (a ++ b) = sends a ++ sends b.
Proof. apply flat_map_app. Qed.
Lemma opens_app a b : opens (a ++ b) = opens a ++ opens b.
Proof. apply flat_map_app. Qed.
Lemma opens_open p l : opens (AOpen p :: l) = p :: opens l.
Proof. reflexivity. Qed.
Lemma sent_app t n a b : sent_to t n (a ++ b) = sent_to t n a ++ sent_to t n b.
Proof. apply flat_map_app. Qed.

(** the messages for one process *)
Definition for_ (t : target) (n : nat) (l : list act) : list msg := sent_to t n (sends l).
Lemma for_app t n a b : for_ t n (a ++ b) = for_ t n a ++ for_ t n b.
Proof. unfold for_. rewrite sends_app. apply sent_app. Qed.
Lemma for_flat {A} t n (f : A -> list act) l : for_ t n (flat_map f l) = flat_map (fun x => for_ t n (f x)) l.
Proof. induction l as [|x l IH]; [reflexivity|]. cbn [flat_map]. rewrite for_app, IH. reflexivity. Qed.

Definition teqb (a b : target) : bool := match a, b with TServer, TServer | TCrypto, TCrypto => true | _, _ => false end.
Lemma for_compose pf t n t' m : for_ t n (compose pf t' m) = if teqb t t' && (n <? instances pf t')%nat then [m] else [].
Proof.
  unfold for_, compose. set (k := instances pf t'). assert (G : forall k a, sent_to t n (sends (map (fun n0 => ASend t' n0 m) (seq a k))) = if teqb t t' && (a <=? n)%nat && (n <? a + k)%nat then [m] else []).
  { clear. induction k as [|k IH]; intros a.
    - cbn [seq map sends flat_map sent_to]. destruct (Nat.leb_spec a n), (Nat.ltb_spec n (a + 0)); try lia; rewrite ?andb_false_r; reflexivity.
    - cbn [seq map sends flat_map]. change (sent_to t n (_ :: ?l)) with ((if teqb t t' && Nat.eqb n a then [m] else []) ++ sent_to t n l).
      rewrite sent_app. fold (sends (map (fun n0 => ASend t' n0 m) (seq (S a) k))). rewrite IH. cbn [sent_to flat_map].
      change (match t with TServer => match t' with TServer => true | TCrypto => false end | TCrypto => match t' with TServer => false | TCrypto => true end end) with (teqb t t').
      destruct (teqb t t'); [|reflexivity]. cbn [andb].
      destruct (Nat.eqb_spec n a); destruct (Nat.leb_spec (S a) n), (Nat.leb_spec a n), (Nat.ltb_spec n (S a + k)), (Nat.ltb_spec n (a + S k)); try lia; reflexivity. }
  rewrite G. cbn [Nat.leb]. rewrite andb_true_r. reflexivity.
Qed.

Section Proofs.
Variable fs : list N -> option (list N).
Variable supported : addr -> bool.
Variable load_ca : list N -> option N.
Variable pubkey_hash : list N -> option (list N).
Variable load_pkey : list N -> option N.
Variable prefork : nat.

Notation contents := (contents fs).
(** what a server is sent for ... *)
Definition loc_msgs (l : ploc) : list msg := MLoc (lcopy (pl l)) (file_opt fs (pl_ca l)) :: map MEnv (l_params (pl l)).
Definition proxy_msgs (p : pproxy) : list msg :=
  MProxy (pcopy (px p)) (px_sni p) (px_protos p) (px_noverify p) (file_opt fs (px_ca p)) ::
  match px_cert p, px_key p with Some c, Some k => [MProxyCert (contents c); MProxyKey (contents k)] | _, _ => [] end.
Definition host_msgs (b : bool) (h : phost) : list msg :=
  MHost (ph_domain h) :: MCert (contents (ph_cert h)) :: (if b then [] else [MKey (contents (ph_key h))]) ++
  match ph_ocsp h with Some o => [MOcsp (contents o)] | None => [] end ++
  map MHostAddr (ph_addrs h) ++ flat_map loc_msgs (ph_locs h) ++ map MAlias (ph_aliases h) ++ flat_map proxy_msgs (ph_proxies h).
Definition conf_msgs (c : pconf) : list msg :=
  MStart :: MLogFmt (pc_logfmt c) :: map MMime (pc_mime c) ++ [MProtos (pc_protos c)] ++
  map MSock (filter supported (pc_addrs c)) ++ map MFcgi (pc_fcgi c) ++ flat_map (host_msgs (pc_privsep_crypto c)) (pc_hosts c) ++ [MEnd].
(** and the crypto process *)
Definition key_msgs (c : pconf) : list msg :=
  if pc_privsep_crypto c then flat_map (fun h => [MCert (contents (ph_cert h)); MKey (contents (ph_key h))]) (pc_hosts c) else [].

Lemma for_none t n l : sends l = [] -> for_ t n l = [].
Proof. intros E. unfold for_. rewrite E. reflexivity. Qed.
Lemma for_send_file t n t' m : for_ t n (config_send_file prefork t' m) = if teqb t t' && (n <? instances prefork t')%nat then [m] else [].
Proof. unfold config_send_file. rewrite for_app, for_compose. change (for_ t n [AFlush t']) with (@nil msg). apply app_nil_r. Qed.
Lemma for_cons_open t n p l : for_ t n (AOpen p :: l) = for_ t n l. Proof. reflexivity. Qed.
Lemma for_cons_flush t n p l : for_ t n (AFlush p :: l) = for_ t n l. Proof. reflexivity. Qed.
Lemma flat_map_single {A B} (f : A -> B) l : flat_map (fun x => [f x]) l = map f l.
Proof. induction l as [|x l IH]; [reflexivity|]. cbn. rewrite IH. reflexivity. Qed.
Lemma flat_map_nil {A B} (l : list A) : flat_map (fun _ => @nil B) l = [].
Proof. induction l; auto. Qed.
Lemma flat_map_ext' {A B} (f g : A -> list B) l : (forall x, f x = g x) -> flat_map f l = flat_map g l.
Proof. intros E. induction l as [|x l IH]; [reflexivity|]. cbn. rewrite E, IH. reflexivity. Qed.

Lemma for_server n c : (n < prefork)%nat -> for_ TServer n (main_configure fs supported prefork c) = conf_msgs c.
Proof.
  intros L. apply Nat.ltb_lt in L.
  assert (CS : forall m, for_ TServer n (compose prefork TServer m) = [m]) by (intros; rewrite for_compose; cbn [teqb andb instances]; rewrite L; reflexivity).
  assert (FS : forall m, for_ TServer n (config_send_file prefork TServer m) = [m]) by (intros; rewrite for_send_file; cbn [teqb andb instances]; rewrite L; reflexivity).
  assert (CC : forall m, for_ TServer n (compose prefork TCrypto m) = []) by (intros; rewrite for_compose; reflexivity).
  assert (FC : forall m, for_ TServer n (config_send_file prefork TCrypto m) = []) by (intros; rewrite for_send_file; reflexivity).
  unfold main_configure, config_send, conf_msgs. rewrite !for_app, !CS, !CC. cbn [app]. f_equal. f_equal. rewrite for_flat, (flat_map_ext' _ (fun e => [MMime e])), flat_map_single by (intros; apply CS). rewrite <- app_assoc. f_equal.
  cbn [app]. f_equal. rewrite <- !app_assoc. f_equal.
  { unfold config_send_socks. induction (pc_addrs c) as [|a l IH]; [reflexivity|]. cbn [flat_map filter]. rewrite for_app, IH. destruct (supported a); [rewrite FS|]; reflexivity. }
  f_equal. { rewrite for_flat, (flat_map_ext' _ (fun e => [MFcgi e])), flat_map_single by (intros; apply CS). reflexivity. }
  f_equal. rewrite for_flat. apply flat_map_ext'. intros h. unfold send_host, host_msgs. rewrite !for_app, CS. cbn [app]. f_equal.
  unfold config_send_kp. rewrite for_cons_open, !for_app, FS. cbn [app]. f_equal. rewrite <- !app_assoc. unfold config_open_send.
  replace (for_ TServer n (if pc_privsep_crypto c then config_send_file prefork TCrypto (MCert (contents (ph_cert h))) else [])) with (@nil msg) by (destruct (pc_privsep_crypto c); [rewrite FC|]; reflexivity).
  rewrite for_cons_open. cbn [app]. f_equal. { destruct (pc_privsep_crypto c); [apply FC|apply FS]. }
  f_equal. { destruct (ph_ocsp h); [rewrite for_cons_open; apply FS|reflexivity]. }
  f_equal. { rewrite for_flat, (flat_map_ext' _ (fun e => [MHostAddr e])), flat_map_single by (intros; apply CS). reflexivity. }
  change (for_ TServer n [AFlush TServer]) with (@nil msg). cbn [app]. f_equal.
  { rewrite for_flat. apply flat_map_ext'. intros l. unfold send_loc, loc_msgs. rewrite !for_app, FS.
    replace (for_ TServer n (open_opt (pl_ca l))) with (@nil msg) by (destruct (pl_ca l); reflexivity). cbn [app]. f_equal.
    rewrite for_flat, (flat_map_ext' _ (fun e => [MEnv e])), flat_map_single by (intros; apply CS). reflexivity. }
  f_equal. { rewrite for_flat, (flat_map_ext' _ (fun e => [MAlias e])), flat_map_single by (intros; apply CS). reflexivity. }
  rewrite for_flat. apply flat_map_ext'. intros p. unfold send_proxy, proxy_msgs. rewrite !for_app, FS.
  replace (for_ TServer n (open_opt (px_ca p))) with (@nil msg) by (destruct (px_ca p); reflexivity). cbn [app]. f_equal.
  unfold config_open_send. destruct (px_cert p); [|reflexivity]. destruct (px_key p); [|reflexivity]. rewrite for_app, !for_cons_open, !FS. reflexivity.
Qed.

Lemma for_crypto n c : for_ TCrypto n (main_configure fs supported prefork c) =
  if (n =? 0)%nat then MStart :: key_msgs c ++ [MEnd] else [].
Proof.
  assert (CC : forall m, for_ TCrypto n (compose prefork TCrypto m) = if (n =? 0)%nat then [m] else []) by (intros; rewrite for_compose; destruct n; reflexivity).
  assert (FC : forall m, for_ TCrypto n (config_send_file prefork TCrypto m) = if (n =? 0)%nat then [m] else []) by (intros; rewrite for_send_file; destruct n; reflexivity).
  assert (CS : forall m, for_ TCrypto n (compose prefork TServer m) = []) by (intros; rewrite for_compose; reflexivity).
  assert (FS : forall m, for_ TCrypto n (config_send_file prefork TServer m) = []) by (intros; rewrite for_send_file; reflexivity).
  unfold main_configure, config_send, config_send_socks. rewrite !for_app, !CS, !CC.
  rewrite for_flat, (flat_map_ext' _ (fun _ => [])), flat_map_nil by (intros; apply CS).
  rewrite for_flat, (flat_map_ext' (fun x => for_ TCrypto n (if supported x then config_send_file prefork TServer (MSock x) else [])) (fun _ => [])), flat_map_nil by (intros a; destruct (supported a); [apply FS|reflexivity]).
  rewrite for_flat, (flat_map_ext' _ (fun _ => [])), flat_map_nil by (intros; apply CS).
  cbn [app].
  assert (H : for_ TCrypto n (flat_map (send_host fs prefork (pc_privsep_crypto c)) (pc_hosts c)) = if (n =? 0)%nat then key_msgs c else []); [|rewrite H; destruct (n =? 0)%nat; reflexivity].
  rewrite for_flat. unfold key_msgs.
  rewrite (flat_map_ext' _ (fun h => if (n =? 0)%nat && pc_privsep_crypto c then [MCert (contents (ph_cert h)); MKey (contents (ph_key h))] else [])).
  { destruct (n =? 0)%nat, (pc_privsep_crypto c); cbn [andb]; try reflexivity; apply flat_map_nil. }
  intros h. unfold send_host. rewrite !for_app, CS. cbn [app].
  change (for_ TCrypto n [AFlush TServer]) with (@nil msg).
  rewrite for_flat, (flat_map_ext' (fun x => for_ TCrypto n (compose prefork TServer (MHostAddr x))) (fun _ => [])), flat_map_nil by (intros; apply CS).
  rewrite for_flat, (flat_map_ext' (fun x => for_ TCrypto n (send_loc fs prefork x)) (fun _ => [])), flat_map_nil.
  2: { intros l. unfold send_loc. rewrite !for_app, FS, for_flat, (flat_map_ext' _ (fun _ => [])), flat_map_nil by (intros; apply CS). destruct (pl_ca l); reflexivity. }
  rewrite for_flat, (flat_map_ext' (fun x => for_ TCrypto n (compose prefork TServer (MAlias x))) (fun _ => [])), flat_map_nil by (intros; apply CS).
  rewrite for_flat, (flat_map_ext' (fun x => for_ TCrypto n (send_proxy fs prefork x)) (fun _ => [])), flat_map_nil.
  2: { intros p. unfold send_proxy, config_open_send. rewrite !for_app, FS. destruct (px_ca p); (destruct (px_cert p); [destruct (px_key p)|]); cbn [app]; rewrite ?for_cons_open, ?for_app, ?for_cons_open, ?FS; reflexivity. }
  replace (for_ TCrypto n (match ph_ocsp h with Some o => config_open_send fs prefork TServer MOcsp o | None => [] end)) with (@nil msg) by (destruct (ph_ocsp h); [unfold config_open_send; rewrite for_cons_open, FS|]; reflexivity).
  cbn [app]. rewrite app_nil_r. unfold config_send_kp, config_open_send. rewrite for_cons_open, !for_app, FS, for_cons_open. cbn [app].
  destruct (pc_privsep_crypto c); rewrite ?FC, ?FS; destruct (n =? 0)%nat; reflexivity.
Qed.

(** ** What is received *)
Notation recv := (config_recv load_ca pubkey_hash load_pkey).
Notation recv_all := (recv_all load_ca pubkey_hash load_pkey).
Lemma recv_app cr a b s s' : recv_all cr a s = Took s' -> recv_all cr (a ++ b) s = recv_all cr b s'.
Proof. revert s. induction a as [|m a IH]; intros s E; cbn [Config.recv_all app] in *; [injection E as ->; reflexivity|]. destruct (recv cr m s) as [s1| |]; try discriminate. apply IH, E. Qed.

Lemma upd_snoc {A} (f : A -> A) l x : upd_last f (l ++ [x]) = l ++ [f x].
Proof. induction l as [|y l IH]; [reflexivity|]. cbn [app]. rewrite <- IH. destruct l; reflexivity. Qed.
Lemma last_snoc {A} (l : list A) x : last_of (l ++ [x]) = Some x.
Proof. induction l as [|y l IH]; [reflexivity|]. cbn [app]. rewrite <- IH. destruct l; reflexivity. Qed.

(** a server that is being told about a host [h], the ones before being [hs] *)
Definition at_host (s : child) (hs : list chost) (h : chost) : Prop := k_h s = PLast /\ cc_hosts (k_conf s) = hs ++ [h].
(** everything but the hosts and the pointers *)
Definition rest_eq (s s' : child) : Prop :=
  set_hosts (k_conf s) [] = set_hosts (k_conf s') [] /\ k_acks s = k_acks s' /\ k_pki s = k_pki s'.
Lemma rest_refl s : rest_eq s s. Proof. unfold rest_eq. auto. Qed.
Lemma rest_trans a b c : rest_eq a b -> rest_eq b c -> rest_eq a c.
Proof. intros (A & B & C) (D & E & F). unfold rest_eq. repeat split; congruence. Qed.

Lemma in_host_ok s hs h f : at_host s hs h -> exists s', in_host s f = Took s' /\ at_host s' hs (f h) /\ rest_eq s s' /\ k_l s' = k_l s /\ k_p s' = k_p s.
Proof.
  intros [P E]. unfold in_host. rewrite P. eexists. split; [reflexivity|]. split; [split; [exact P|]|].
  - cbn. rewrite E. apply upd_snoc.
  - unfold rest_eq. auto.
Qed.
Lemma get_host_ok s hs h {A} (f : chost -> option A) : at_host s hs h -> get_host s f = f h.
Proof. intros [_ E]. unfold get_host, cur_host. rewrite E, last_snoc. reflexivity. Qed.

Lemma envs_ok es : forall s hs h ls l, at_host s hs h -> k_l s = PLast -> ch_locs h = ls ++ [l] ->
  exists s' l', recv_all false (map MEnv es) s = Took s' /\ at_host s' hs (set_locs (fun _ => ls ++ [l']) h) /\ rest_eq s s' /\ k_l s' = PLast /\ k_p s' = k_p s /\
  l_params l' = l_params l ++ es /\
  l' = mkLoc (l_match l) (l_lang l) (l_default_mime l) (l_index l) (l_auto_index l) (l_block_code l) (l_block_fmt l)
        (l_strip l) (l_reqca l) (l_disable_log l) (l_fcgi l) (l_nofcgi l) (l_fcgi_strip l) (l_params l ++ es) (l_dir l) (l_dirfd l).
Proof.
  induction es as [|e es IH]; intros s hs h ls l A L E.
  - exists s, l. cbn [map Config.recv_all]. rewrite app_nil_r. split; [reflexivity|]. split; [|split; [apply rest_refl|]].
    + destruct A as [A1 A2]. split; [exact A1|]. rewrite A2. destruct h; cbn in *. subst. reflexivity.
    + repeat split; auto. destruct l; reflexivity.
  - cbn [map Config.recv_all]. cbn [config_recv]. rewrite L. destruct (in_host_ok s hs h (set_locs (upd_last (add_env e))) A) as (s1 & E1 & A1 & R1 & L1 & P1). rewrite E1.
    destruct (IH s1 hs _ ls (add_env e l) A1 ltac:(congruence)) as (s2 & l2 & E2 & A2 & R2 & L2 & P2 & Q & Q2).
    { cbn. rewrite E. apply upd_snoc. }
    exists s2, l2. split; [exact E2|]. split; [|split; [apply (rest_trans _ _ _ R1 R2)|]].
    + destruct A2 as [X1 X2]. split; [exact X1|]. rewrite X2. reflexivity.
    + split; [exact L2|]. split; [congruence|]. cbn in Q2. split; [rewrite Q2; cbn; rewrite <- app_assoc; reflexivity|]. rewrite Q2. rewrite <- app_assoc. reflexivity.
Qed.

Lemma loc_ok lc : forall s hs h, at_host s hs h -> (forall p, pl_ca lc = Some p -> exists d, fs p = Some d /\ load_ca d <> None) ->
  exists s' k, recv_all false (loc_msgs lc) s = Took s' /\ at_host s' hs (set_locs (fun ls => ls ++ [k]) h) /\ rest_eq s s' /\ same_loc fs load_ca lc k.
Proof.
  intros s hs h A CA. unfold loc_msgs. cbn [Config.recv_all config_recv].
  assert (X : exists st, ca_of load_ca (file_opt fs (pl_ca lc)) = Some st /\ loaded fs load_ca (pl_ca lc) st).
  { destruct (pl_ca lc) as [p|]; cbn; [|exists None; auto]. destruct (CA p eq_refl) as (d & D1 & D2). unfold Config.contents. rewrite D1. destruct (load_ca d) as [x|] eqn:LD; [|congruence].
    exists (Some x). split; [reflexivity|]. exists d. rewrite LD. repeat split; congruence. }
  destruct X as (st & X1 & X2). rewrite X1.
  destruct (in_host_ok s hs h (set_locs (fun ls => ls ++ [with_ca (lcopy (pl lc)) st])) A) as (s1 & E1 & A1 & R1 & L1 & P1). rewrite E1.
  set (s1' := mkChild _ _ _ _ _ _). assert (R1' : rest_eq s s1') by exact R1.
  destruct (envs_ok (l_params (pl lc)) s1' hs (set_locs (fun ls => ls ++ [with_ca (lcopy (pl lc)) st]) h) (ch_locs h) (with_ca (lcopy (pl lc)) st) A1 eq_refl eq_refl) as (s2 & l2 & E2 & A2 & R2 & _ & _ & _ & Q).
  exists s2, l2. split; [exact E2|]. split; [|split; [exact (rest_trans _ _ _ R1' R2)|]].
  - destruct A2 as [Y1 Y2]. split; [exact Y1|]. rewrite Y2. reflexivity.
  - rewrite Q. unfold same_loc. cbn. repeat split; auto.
Qed.

Lemma locs_ok lcs : forall s hs h, at_host s hs h -> (forall lc p, In lc lcs -> pl_ca lc = Some p -> exists d, fs p = Some d /\ load_ca d <> None) ->
  exists s' ks, recv_all false (flat_map loc_msgs lcs) s = Took s' /\ at_host s' hs (set_locs (fun ls => ls ++ ks) h) /\ rest_eq s s' /\ Forall2 (same_loc fs load_ca) lcs ks.
Proof.
  induction lcs as [|lc lcs IH]; intros s hs h A CA.
  - exists s, []. split; [reflexivity|]. split; [|split; [apply rest_refl|constructor]]. destruct A as [A1 A2]. split; [exact A1|]. rewrite A2. destruct h. unfold set_locs. cbn. rewrite app_nil_r. reflexivity.
  - cbn [flat_map]. destruct (loc_ok lc s hs h A (fun p => CA lc p (or_introl eq_refl))) as (s1 & k & E1 & A1 & R1 & S1). rewrite (recv_app _ _ _ _ _ E1).
    destruct (IH s1 hs _ A1 (fun l p I => CA l p (or_intror I))) as (s2 & ks & E2 & A2 & R2 & S2).
    exists s2, (k :: ks). split; [exact E2|]. split; [|split; [exact (rest_trans _ _ _ R1 R2)|constructor; auto]].
    destruct A2 as [X Y]. split; [exact X|]. rewrite Y. unfold set_locs. cbn. rewrite <- app_assoc. reflexivity.
Qed.

Lemma addrs_ok l : forall s hs h, at_host s hs h -> exists s', recv_all false (map MHostAddr l) s = Took s' /\
  at_host s' hs (mkChost (ch_domain h) (ch_cert h) (ch_key h) (ch_ocsp h) (ch_addrs h ++ l) (ch_locs h) (ch_aliases h) (ch_proxies h)) /\ rest_eq s s'.
Proof.
  induction l as [|a l IH]; intros s hs h A; cbn [map Config.recv_all].
  - exists s. split; [reflexivity|]. split; [|apply rest_refl]. rewrite app_nil_r. destruct h. exact A.
  - cbn [config_recv]. destruct (in_host_ok s hs h (add_addr a) A) as (s1 & E1 & A1 & R1 & _). rewrite E1. destruct (IH s1 hs _ A1) as (s2 & E2 & A2 & R2).
    exists s2. split; [exact E2|]. split; [|exact (rest_trans _ _ _ R1 R2)]. cbn in A2. rewrite <- app_assoc in A2. exact A2.
Qed.
Lemma aliases_ok l : forall s hs h, at_host s hs h -> exists s', recv_all false (map MAlias l) s = Took s' /\
  at_host s' hs (mkChost (ch_domain h) (ch_cert h) (ch_key h) (ch_ocsp h) (ch_addrs h) (ch_locs h) (ch_aliases h ++ l) (ch_proxies h)) /\ rest_eq s s'.
Proof.
  induction l as [|a l IH]; intros s hs h A; cbn [map Config.recv_all].
  - exists s. split; [reflexivity|]. split; [|apply rest_refl]. rewrite app_nil_r. destruct h. exact A.
  - cbn [config_recv]. destruct (in_host_ok s hs h (add_alias a) A) as (s1 & E1 & A1 & R1 & _). rewrite E1. destruct (IH s1 hs _ A1) as (s2 & E2 & A2 & R2).
    exists s2. split; [exact E2|]. split; [|exact (rest_trans _ _ _ R1 R2)]. cbn in A2. rewrite <- app_assoc in A2. exact A2.
Qed.

Lemma proxy_ok p : forall s hs h, at_host s hs h -> (forall q, px_ca p = Some q -> exists d, fs q = Some d /\ load_ca d <> None) ->
  (forall c k, px_cert p = Some c -> px_key p = Some k -> fs c <> None /\ fs k <> None) ->
  exists s' k, recv_all false (proxy_msgs p) s = Took s' /\ at_host s' hs (set_proxies (fun ls => ls ++ [k]) h) /\ rest_eq s s' /\ same_proxy fs load_ca p k.
Proof.
  intros s hs h A CA KP. unfold proxy_msgs. cbn [Config.recv_all config_recv].
  assert (X : exists st, ca_of load_ca (file_opt fs (px_ca p)) = Some st /\ loaded fs load_ca (px_ca p) st).
  { destruct (px_ca p) as [q|]; cbn; [|exists None; auto]. destruct (CA q eq_refl) as (d & D1 & D2). unfold Config.contents. rewrite D1. destruct (load_ca d) as [x|] eqn:LD; [|congruence].
    exists (Some x). split; [reflexivity|]. exists d. rewrite LD. repeat split; congruence. }
  destruct X as (st & X1 & X2). rewrite X1. set (k0 := mkCproxy (with_pca (pcopy (px p)) st) (px_sni p) (px_protos p) (px_noverify p) None None).
  destruct (in_host_ok s hs h (set_proxies (fun ls => ls ++ [k0])) A) as (s1 & E1 & A1 & R1 & L1 & P1). rewrite E1.
  set (s1' := mkChild _ _ _ _ _ _). assert (R1' : rest_eq s s1') by exact R1. assert (A1' : at_host s1' hs (set_proxies (fun ls => ls ++ [k0]) h)) by exact A1.
  assert (NOKP : px_cert p = None \/ px_key p = None -> exists s' k, Took s1' = Took s' /\ at_host s' hs (set_proxies (fun ls => ls ++ [k]) h) /\ rest_eq s s' /\ same_proxy fs load_ca p k).
  { intros NK. exists s1', k0. split; [reflexivity|]. split; [exact A1'|]. split; [exact R1'|]. unfold same_proxy. cbn. repeat split; auto; try (destruct NK; contradiction). }
  destruct (px_cert p) as [c|] eqn:PC; [|apply NOKP; auto]. destruct (px_key p) as [k|] eqn:PK; [|apply NOKP; auto]. clear NOKP.
  destruct (KP c k eq_refl eq_refl) as [FC FK]. cbn [Config.recv_all config_recv]. change (k_p s1') with PLast. cbn iota.
  rewrite (get_host_ok _ _ _ _ A1'). cbn [ch_proxies set_proxies]. rewrite last_snoc. cbn [cx_cert k0].
  destruct (in_host_ok s1' hs _ (set_proxies (upd_last (set_pcert (contents c)))) A1') as (s2 & E2 & A2 & R2 & L2 & P2). rewrite E2.
  assert (PP : k_p s2 = PLast) by (rewrite P2; reflexivity). rewrite PP. rewrite (get_host_ok _ _ _ _ A2). cbn [ch_proxies set_proxies]. rewrite upd_snoc, last_snoc. cbn [cx_key set_pcert k0].
  destruct (in_host_ok s2 hs _ (set_proxies (upd_last (set_pkey (contents k)))) A2) as (s3 & E3 & A3 & R3 & _). rewrite E3.
  exists s3, (set_pkey (contents k) (set_pcert (contents c) k0)). split; [reflexivity|]. split; [|split; [exact (rest_trans _ _ _ R1' (rest_trans _ _ _ R2 R3))|]].
  - destruct A3 as [Y1 Y2]. split; [exact Y1|]. rewrite Y2. unfold set_proxies. cbn. rewrite !upd_snoc. reflexivity.
  - unfold same_proxy. rewrite PC, PK. cbn. unfold Config.contents. destruct (fs c); [|congruence]. destruct (fs k); [|congruence]. repeat split; auto; try congruence; destruct H; congruence.
Qed.
Lemma proxies_ok ps : forall s hs h, at_host s hs h -> (forall p q, In p ps -> px_ca p = Some q -> exists d, fs q = Some d /\ load_ca d <> None) ->
  (forall p c k, In p ps -> px_cert p = Some c -> px_key p = Some k -> fs c <> None /\ fs k <> None) ->
  exists s' ks, recv_all false (flat_map proxy_msgs ps) s = Took s' /\ at_host s' hs (set_proxies (fun ls => ls ++ ks) h) /\ rest_eq s s' /\ Forall2 (same_proxy fs load_ca) ps ks.
Proof.
  induction ps as [|lc lcs IH]; intros s hs h A CA KP.
  - exists s, []. split; [reflexivity|]. split; [|split; [apply rest_refl|constructor]]. destruct A as [A1 A2]. split; [exact A1|]. rewrite A2. destruct h. unfold set_proxies. cbn. rewrite app_nil_r. reflexivity.
  - cbn [flat_map]. destruct (proxy_ok lc s hs h A (fun p => CA lc p (or_introl eq_refl)) (fun c k => KP lc c k (or_introl eq_refl))) as (s1 & k & E1 & A1 & R1 & S1). rewrite (recv_app _ _ _ _ _ E1).
    destruct (IH s1 hs _ A1 (fun l p I => CA l p (or_intror I)) (fun p c k I => KP p c k (or_intror I))) as (s2 & ks & E2 & A2 & R2 & S2).
    exists s2, (k :: ks). split; [exact E2|]. split; [|split; [exact (rest_trans _ _ _ R1 R2)|constructor; auto]].
    destruct A2 as [X Y]. split; [exact X|]. rewrite Y. unfold set_proxies. cbn. rewrite <- app_assoc. reflexivity.
Qed.

Lemma read_some path data : fs path <> None -> data = Some (contents path) -> read_from fs (Some path) data.
Proof. intros F ->. unfold read_from, Config.contents. destruct (fs path); [|congruence]. split; congruence. Qed.

Definition host_files (h : phost) : Prop :=
  fs (ph_cert h) <> None /\ fs (ph_key h) <> None /\ (forall o, ph_ocsp h = Some o -> fs o <> None) /\
  (forall lc p, In lc (ph_locs h) -> pl_ca lc = Some p -> exists d, fs p = Some d /\ load_ca d <> None) /\
  (forall p q, In p (ph_proxies h) -> px_ca p = Some q -> exists d, fs q = Some d /\ load_ca d <> None) /\
  (forall p c k, In p (ph_proxies h) -> px_cert p = Some c -> px_key p = Some k -> fs c <> None /\ fs k <> None).

Lemma host_ok b h s hs : cc_hosts (k_conf s) = hs -> host_files h ->
  exists s' k, recv_all false (host_msgs b h) s = Took s' /\ cc_hosts (k_conf s') = hs ++ [k] /\ rest_eq s s' /\ same_host fs load_ca (negb b) h k.
Proof.
  intros EH (F1 & F2 & F3 & F4 & F5 & F6). unfold host_msgs. cbn [Config.recv_all config_recv].
  set (s0 := mkChild _ _ _ _ _ _). set (h0 := mkChost (ph_domain h) None None None [] [] [] []).
  assert (A0 : at_host s0 hs h0) by (split; [reflexivity|cbn; rewrite EH; reflexivity]). assert (R0 : rest_eq s s0) by (unfold rest_eq; auto).
  change (k_h s0) with PLast. cbn iota. rewrite (get_host_ok _ _ _ _ A0). cbn [ch_cert h0].
  destruct (in_host_ok s0 hs h0 (set_cert (contents (ph_cert h))) A0) as (s1 & E1 & A1 & R1 & _). rewrite E1. clear E1.
  assert (R1' := rest_trans _ _ _ R0 R1). clear R0 R1. set (h1 := set_cert _ h0) in *.
  assert (K : exists s2 h2, recv_all false (if b then [] else [MKey (contents (ph_key h))]) s1 = Took s2 /\ at_host s2 hs h2 /\ rest_eq s s2 /\ h2 = mkChost (ph_domain h) (Some (contents (ph_cert h))) (if b then None else Some (contents (ph_key h))) None [] [] [] []).
  { destruct b; cbn [Config.recv_all config_recv].
    - exists s1, h1. auto.
    - pose proof A1 as A1c. destruct A1c as [PH _]. rewrite PH. rewrite (get_host_ok _ _ _ _ A1). cbn [ch_key h1 h0 set_cert].
      destruct (in_host_ok s1 hs h1 (set_key (contents (ph_key h))) A1) as (s2 & E2 & A2 & R2 & _). rewrite E2. eexists. eexists. split; [reflexivity|]. split; [exact A2|]. split; [exact (rest_trans _ _ _ R1' R2)|reflexivity]. }
  destruct K as (s2 & h2 & E2 & A2 & R2 & Q2). rewrite (recv_app _ _ _ _ _ E2). clear E2 A1 R1' s1 h1 A0.
  assert (K : exists s3 h3, recv_all false (match ph_ocsp h with Some o => [MOcsp (contents o)] | None => [] end) s2 = Took s3 /\ at_host s3 hs h3 /\ rest_eq s s3 /\
    h3 = mkChost (ph_domain h) (Some (contents (ph_cert h))) (if b then None else Some (contents (ph_key h))) (match ph_ocsp h with Some o => Some (contents o) | None => None end) [] [] [] []).
  { destruct (ph_ocsp h) as [o|]; cbn [Config.recv_all config_recv].
    - pose proof A2 as A2c. destruct A2c as [PH _]. rewrite PH. rewrite (get_host_ok _ _ _ _ A2). rewrite Q2. cbn [ch_ocsp].
      destruct (in_host_ok s2 hs h2 (set_ocsp (contents o)) A2) as (s3 & E3 & A3 & R3 & _). rewrite E3. eexists. eexists. split; [reflexivity|]. split; [exact A3|]. split; [exact (rest_trans _ _ _ R2 R3)|rewrite Q2; reflexivity].
    - exists s2, h2. auto. }
  destruct K as (s3 & h3 & E3 & A3 & R3 & Q3). rewrite (recv_app _ _ _ _ _ E3). clear E3 A2 R2 Q2 s2 h2.
  destruct (addrs_ok (ph_addrs h) s3 hs h3 A3) as (s4 & E4 & A4 & R4). rewrite (recv_app _ _ _ _ _ E4). clear E4.
  destruct (locs_ok (ph_locs h) s4 hs _ A4 F4) as (s5 & ls & E5 & A5 & R5 & L5). rewrite (recv_app _ _ _ _ _ E5). clear E5.
  destruct (aliases_ok (ph_aliases h) s5 hs _ A5) as (s6 & E6 & A6 & R6). rewrite (recv_app _ _ _ _ _ E6). clear E6.
  destruct (proxies_ok (ph_proxies h) s6 hs _ A6 F5 F6) as (s7 & ps & E7 & A7 & R7 & L7). rewrite E7.
  exists s7. eexists. split; [reflexivity|]. split; [apply A7|]. split; [exact (rest_trans _ _ _ R3 (rest_trans _ _ _ R4 (rest_trans _ _ _ R5 (rest_trans _ _ _ R6 R7))))|].
  rewrite Q3. unfold same_host. cbn. split; [reflexivity|]. split; [apply (read_some (ph_cert h)); [exact F1|reflexivity]|]. split; [destruct b; [reflexivity|apply (read_some (ph_key h)); [exact F2|reflexivity]]|].
  split; [destruct (ph_ocsp h) as [o|]; [apply (read_some o); [apply F3; reflexivity|reflexivity]|reflexivity]|]. repeat split; auto.
Qed.
Lemma hosts_ok b l : forall s hs, cc_hosts (k_conf s) = hs -> (forall h, In h l -> host_files h) ->
  exists s' ks, recv_all false (flat_map (host_msgs b) l) s = Took s' /\ cc_hosts (k_conf s') = hs ++ ks /\ rest_eq s s' /\ Forall2 (same_host fs load_ca (negb b)) l ks.
Proof.
  induction l as [|h l IH]; intros s hs EH F.
  - exists s, []. rewrite app_nil_r. split; [reflexivity|]. split; [exact EH|]. split; [apply rest_refl|constructor].
  - cbn [flat_map]. destruct (host_ok b h s hs EH (F h (or_introl eq_refl))) as (s1 & k & E1 & H1 & R1 & S1). rewrite (recv_app _ _ _ _ _ E1).
    destruct (IH s1 _ H1 (fun x I => F x (or_intror I))) as (s2 & ks & E2 & H2 & R2 & S2). exists s2, (k :: ks). split; [exact E2|]. split; [rewrite H2, <- app_assoc; reflexivity|]. split; [exact (rest_trans _ _ _ R1 R2)|constructor; auto].
Qed.

Lemma conf_ok c s : (forall h, In h (pc_hosts c) -> host_files h) ->
  exists s', recv_all false (conf_msgs c) s = Took s' /\ k_acks s' = S (k_acks s) /\ same_conf fs supported load_ca c (k_conf s').
Proof.
  intros F. unfold conf_msgs. cbn [Config.recv_all config_recv]. set (s0 := with_conf _ _).
  assert (MM : forall l s, exists s', recv_all false (map MMime l) s = Took s' /\ k_acks s' = k_acks s /\
     k_conf s' = mkCconf (cc_logfmt (k_conf s)) (cc_mime (k_conf s) ++ l) (cc_protos (k_conf s)) (cc_addrs (k_conf s)) (cc_fcgi (k_conf s)) (cc_hosts (k_conf s)) (cc_pkis (k_conf s))).
  { clear. induction l as [|e l IH]; intros s; [exists s; rewrite app_nil_r; destruct s as [[]]; auto|]. cbn [map Config.recv_all config_recv]. match goal with |- context[Config.recv_all _ _ _ false (map MMime l) ?s0] => destruct (IH s0) as (s' & E & A & B) end. exists s'. split; [exact E|]. split; [exact A|]. rewrite B. cbn. rewrite <- app_assoc. reflexivity. }
  destruct (MM (pc_mime c) s0) as (s1 & E1 & A1 & B1). rewrite (recv_app _ _ _ _ _ E1). clear MM E1. cbn [app Config.recv_all config_recv]. set (s1' := with_conf _ _).
  assert (MM : forall l s, exists s', recv_all false (map MSock l) s = Took s' /\ k_acks s' = k_acks s /\
     k_conf s' = mkCconf (cc_logfmt (k_conf s)) (cc_mime (k_conf s)) (cc_protos (k_conf s)) (rev l ++ cc_addrs (k_conf s)) (cc_fcgi (k_conf s)) (cc_hosts (k_conf s)) (cc_pkis (k_conf s))).
  { clear. induction l as [|e l IH]; intros s; [exists s; destruct s as [[]]; auto|]. cbn [map Config.recv_all config_recv rev]. match goal with |- context[Config.recv_all _ _ _ false (map MSock l) ?s0] => destruct (IH s0) as (s' & E & A & B) end. exists s'. split; [exact E|]. split; [exact A|]. rewrite B. cbn. rewrite <- app_assoc. reflexivity. }
  destruct (MM (filter supported (pc_addrs c)) s1') as (s2 & E2 & A2 & B2). rewrite (recv_app _ _ _ _ _ E2). clear MM E2.
  assert (MM : forall l s, exists s', recv_all false (map MFcgi l) s = Took s' /\ k_acks s' = k_acks s /\
     k_conf s' = mkCconf (cc_logfmt (k_conf s)) (cc_mime (k_conf s)) (cc_protos (k_conf s)) (cc_addrs (k_conf s)) (cc_fcgi (k_conf s) ++ l) (cc_hosts (k_conf s)) (cc_pkis (k_conf s))).
  { clear. induction l as [|e l IH]; intros s; [exists s; rewrite app_nil_r; destruct s as [[]]; auto|]. cbn [map Config.recv_all config_recv]. match goal with |- context[Config.recv_all _ _ _ false (map MFcgi l) ?s0] => destruct (IH s0) as (s' & E & A & B) end. exists s'. split; [exact E|]. split; [exact A|]. rewrite B. cbn. rewrite <- app_assoc. reflexivity. }
  destruct (MM (pc_fcgi c) s2) as (s3 & E3 & A3 & B3). rewrite (recv_app _ _ _ _ _ E3). clear MM E3.
  destruct (hosts_ok (pc_privsep_crypto c) (pc_hosts c) s3 [] ltac:(rewrite B3, B2; cbn; rewrite B1; reflexivity) F) as (s4 & ks & E4 & H4 & (R4 & R5 & _) & S4). rewrite (recv_app _ _ _ _ _ E4). clear E4.
  cbn [Config.recv_all config_recv]. eexists. split; [reflexivity|]. cbn [k_acks k_conf]. split; [rewrite <- R5, A3, A2; cbn; rewrite A1; reflexivity|].
  rewrite B3, B2 in R4. cbn in R4. rewrite B1 in R4. cbn in R4. rewrite app_nil_r in R4. unfold same_conf. injection R4 as Q1 Q2 Q3 Q4 Q5 Q6.
  rewrite H4. repeat split; auto.
Qed.

Lemma opens_flat {A} (f : A -> list act) l x p : In x l -> In p (opens (f x)) -> In p (opens (flat_map f l)).
Proof. intros I P. induction l as [|y l IH]; [destruct I|]. cbn [flat_map]. rewrite opens_app. apply in_or_app. destruct I as [->|I]; auto. Qed.
Lemma opens_hosts c h p : In h (pc_hosts c) -> In p (opens (send_host fs prefork (pc_privsep_crypto c) h)) -> In p (opens (main_configure fs supported prefork c)).
Proof. intros I P. unfold main_configure, config_send. rewrite !opens_app. do 2 (apply in_or_app; right). apply in_or_app; left. do 5 (apply in_or_app; right). apply (opens_flat _ _ h); auto. Qed.

Lemma files_ok c : (forall p, In p (opens (main_configure fs supported prefork c)) -> fs p <> None) -> cas_load fs load_ca c -> forall h, In h (pc_hosts c) -> host_files h.
Proof.
  intros O CL h I. assert (O' : forall p, In p (opens (send_host fs prefork (pc_privsep_crypto c) h)) -> fs p <> None) by (intros p P; apply O, (opens_hosts c h); auto). clear O.
  unfold send_host in O'.
  assert (T1 : forall p, In p (opens (config_send_kp fs prefork (pc_privsep_crypto c) (ph_cert h) (ph_key h))) -> fs p <> None) by (intros p P; apply O'; rewrite !opens_app; apply in_or_app; right; apply in_or_app; left; exact P).
  assert (T2 : forall p, In p (opens (match ph_ocsp h with Some o => config_open_send fs prefork TServer MOcsp o | None => [] end)) -> fs p <> None) by (intros p P; apply O'; rewrite !opens_app; do 2 (apply in_or_app; right); apply in_or_app; left; exact P).
  assert (T3 : forall p, In p (opens (flat_map (send_loc fs prefork) (ph_locs h))) -> fs p <> None) by (intros p P; apply O'; rewrite !opens_app; do 5 (apply in_or_app; right); apply in_or_app; left; exact P).
  assert (T4 : forall p, In p (opens (flat_map (send_proxy fs prefork) (ph_proxies h))) -> fs p <> None) by (intros p P; apply O'; rewrite !opens_app; do 9 (apply in_or_app; right); exact P).
  split; [apply T1; left; reflexivity|]. split; [apply T1; unfold config_send_kp; rewrite opens_open, !opens_app; right; do 2 (apply in_or_app; right); left; reflexivity|].
  split; [intros o E; apply T2; rewrite E; left; reflexivity|].
  split. { intros lc p L E. assert (X : fs p <> None) by (apply T3, (opens_flat _ _ lc); [exact L|]; unfold send_loc; rewrite E; left; reflexivity). destruct (fs p) as [d|] eqn:FP; [|congruence]. exists d. split; [reflexivity|]. apply (CL h p d I); eauto. }
  split. { intros x p L E. assert (X : fs p <> None) by (apply T4, (opens_flat _ _ x); [exact L|]; unfold send_proxy; rewrite E; left; reflexivity). destruct (fs p) as [d|] eqn:FP; [|congruence]. exists d. split; [reflexivity|]. apply (CL h p d I); eauto. }
  intros x cp kp L E1 E2. split; apply T4, (opens_flat _ _ x); auto; unfold send_proxy; rewrite E1, E2, !opens_app; do 2 (apply in_or_app; right); apply in_or_app; [left|right]; left; reflexivity.
Qed.

(** the crypto process *)
Lemma keys_ok l : forall s ps, k_pki s = PNull -> cc_pkis (k_conf s) = ps ->
  (forall h, In h l -> pubkey_hash (contents (ph_cert h)) <> None /\ load_pkey (contents (ph_key h)) <> None) ->
  exists s' ks, recv_all true (flat_map (fun h => [MCert (contents (ph_cert h)); MKey (contents (ph_key h))]) l) s = Took s' /\ k_pki s' = PNull /\ k_acks s' = k_acks s /\ cc_pkis (k_conf s') = ps ++ ks /\
  Forall2 (fun h k => pubkey_hash (contents (ph_cert h)) = Some (pk_hash k) /\ load_pkey (contents (ph_key h)) = pk_key k) l ks.
Proof.
  induction l as [|h l IH]; intros s ps PN E F.
  - exists s, []. rewrite app_nil_r. repeat split; auto.
  - cbn [flat_map app Config.recv_all config_recv crypto_recv_kp]. rewrite PN. destruct (F h (or_introl eq_refl)) as [F1 F2].
    destruct (pubkey_hash (contents (ph_cert h))) as [hh|] eqn:PH; [|congruence]. destruct (load_pkey (contents (ph_key h))) as [kk|] eqn:LK; [|congruence]. cbn [k_pki k_conf cc_pkis]. rewrite upd_snoc.
    match goal with |- context[Config.recv_all _ _ _ true (flat_map _ l) ?s0] => destruct (IH s0 _ eq_refl eq_refl (fun x I => F x (or_intror I))) as (s' & ks & E' & P' & A' & B' & C') end.
    exists s', (mkPki hh (Some kk) :: ks). split; [exact E'|]. split; [exact P'|]. split; [exact A'|]. split; [rewrite B'; cbn; rewrite E, <- app_assoc; reflexivity|]. constructor; [cbn; auto|exact C'].
Qed.
End Proofs.

(** ** C29 *)
(** Whatever configuration a server process had before, when the main process
    got through sending a new one the server has exactly that, and has
    acknowledged it once. *)
Theorem c29_servers fs supported load_ca pubkey_hash load_pkey prefork ok c ms n s :
  perform fs ok 0 (main_configure fs supported prefork c) = (ms, Done) -> (n < prefork)%nat -> cas_load fs load_ca c ->
  exists s', recv_all load_ca pubkey_hash load_pkey false (sent_to TServer n ms) s = Took s' /\
    k_acks s' = S (k_acks s) /\ same_conf fs supported load_ca c (k_conf s').
Proof.
  intros P L CL. destruct (perform_done _ _ _ _ _ P) as [-> O]. fold (for_ TServer n (main_configure fs supported prefork c)). rewrite (for_server fs supported prefork n c L).
  apply conf_ok. apply (files_ok fs supported load_ca prefork c O CL).
Qed.
(** The crypto process has, for every host in order, the hash of its certificate
    and its key, and has acknowledged once. *)
Theorem c29_crypto fs supported load_ca pubkey_hash load_pkey prefork ok c ms s :
  perform fs ok 0 (main_configure fs supported prefork c) = (ms, Done) -> pc_privsep_crypto c = true -> k_pki s = PNull ->
  (forall h d, In h (pc_hosts c) -> (fs (ph_cert h) = Some d -> pubkey_hash d <> None) /\ (fs (ph_key h) = Some d -> load_pkey d <> None)) ->
  exists s', recv_all load_ca pubkey_hash load_pkey true (sent_to TCrypto 0 ms) s = Took s' /\ k_acks s' = S (k_acks s) /\ k_pki s' = PNull /\
  Forall2 (fun h k => (exists d, fs (ph_cert h) = Some d /\ pubkey_hash d = Some (pk_hash k)) /\
                      exists d, fs (ph_key h) = Some d /\ load_pkey d = pk_key k /\ pk_key k <> None) (pc_hosts c) (cc_pkis (k_conf s')).
Proof.
  intros P PC PN F. destruct (perform_done _ _ _ _ _ P) as [-> O]. fold (for_ TCrypto 0 (main_configure fs supported prefork c)). rewrite for_crypto. cbn [Nat.eqb]. unfold key_msgs. rewrite PC.
  assert (FO : forall h, In h (pc_hosts c) -> exists d1 d2, fs (ph_cert h) = Some d1 /\ fs (ph_key h) = Some d2 /\ pubkey_hash d1 <> None /\ load_pkey d2 <> None).
  { intros h I. assert (A : fs (ph_cert h) <> None /\ fs (ph_key h) <> None).
    { split; apply O, (opens_hosts fs supported prefork c h _ I); unfold send_host, config_send_kp, config_open_send; rewrite !opens_app; apply in_or_app; right; apply in_or_app; left; rewrite opens_open, ?opens_app; [left; reflexivity|]. right. do 2 (apply in_or_app; right). left. reflexivity. }
    destruct A as [A B]. destruct (fs (ph_cert h)) as [d1|] eqn:F1; [|congruence]. destruct (fs (ph_key h)) as [d2|] eqn:F2; [|congruence]. exists d1, d2. repeat split; auto; [apply (F h d1 I)|apply (F h d2 I)]; auto. }
  cbn [recv_all config_recv].
  match goal with |- context[Config.recv_all _ _ _ true _ ?s0] => destruct (keys_ok fs load_ca pubkey_hash load_pkey (pc_hosts c) s0 [] ltac:(cbn; rewrite PN; reflexivity) eq_refl) as (s' & ks & E & P' & A' & B' & C') end.
  { intros h I. destruct (FO h I) as (d1 & d2 & X1 & X2 & X3 & X4). unfold contents. rewrite X1, X2. auto. }
  rewrite (recv_app _ _ _ _ _ _ _ _ E). cbn [recv_all config_recv]. eexists. split; [reflexivity|]. cbn [k_acks k_pki k_conf]. split; [rewrite A'; reflexivity|]. split; [exact P'|].
  rewrite B'. cbn [app]. clear - FO C'. induction C' as [|h k l ks H C' IH]; constructor; [|apply IH; intros x I; apply FO; right; exact I].
  destruct (FO h (or_introl eq_refl)) as (d1 & d2 & X1 & X2 & X3 & X4). unfold contents in H. rewrite X1, X2 in H. destruct H as [H1 H2]. split; [exists d1; auto|]. exists d2. repeat split; auto. rewrite <- H2. exact X4.
Qed.

(** ** C30 *)
(** the files attached to a message *)
Definition carries (m : msg) : list (list N) :=
  match m with
  | MCert f | MKey f | MOcsp f | MProxyCert f | MProxyKey f => [f]
  | MLoc _ (Some f) | MProxy _ _ _ _ (Some f) => [f]
  | _ => []
  end.
(** what a server process needs to read: certificates, OCSP staples, CAs, and
    what it presents to the upstream servers of its proxies *)
Inductive needed (c : pconf) : list N -> Prop :=
| nd_cert h : In h (pc_hosts c) -> needed c (ph_cert h)
| nd_ocsp h o : In h (pc_hosts c) -> ph_ocsp h = Some o -> needed c o
| nd_lca h l p : In h (pc_hosts c) -> In l (ph_locs h) -> pl_ca l = Some p -> needed c p
| nd_pca h x p : In h (pc_hosts c) -> In x (ph_proxies h) -> px_ca x = Some p -> needed c p
| nd_pcert h x p k : In h (pc_hosts c) -> In x (ph_proxies h) -> px_cert x = Some p -> px_key x = Some k -> needed c p
| nd_pkey h x p k : In h (pc_hosts c) -> In x (ph_proxies h) -> px_key x = Some p -> px_cert x = Some k -> needed c p.

Lemma in_sends_flat {A} (f : A -> list act) l e : In e (sends (flat_map f l)) -> exists x, In x l /\ In e (sends (f x)).
Proof. induction l as [|y l IH]; [intros []|]. cbn [flat_map]. rewrite sends_app. intros I. apply in_app_or in I. destruct I as [I|I]; [exists y; cbn; auto|]. destruct (IH I) as (x & X & Y). exists x. cbn. auto. Qed.
Lemma in_compose pf t m e : In e (sends (compose pf t m)) -> exists n, e = (t, n, m).
Proof. unfold compose. generalize (seq 0 (instances pf t)). induction l as [|n l IH]; [intros []|]. cbn [map]. intros [<-|I]; [eauto|]. apply IH, I. Qed.
Lemma in_send_file pf t m e : In e (sends (config_send_file pf t m)) -> exists n, e = (t, n, m).
Proof. unfold config_send_file. rewrite sends_app. intros I. apply in_app_or in I. destruct I as [I|I]; [apply (in_compose _ _ _ _ I)|destruct I]. Qed.

Section Keys.
Variable fs : list N -> option (list N).
Variable supported : addr -> bool.
Variable prefork : nat.

(** everything sent to servers is an innocent message or a file they need *)
Lemma server_files c n m f : pc_privsep_crypto c = true -> In (TServer, n, m) (sends (main_configure fs supported prefork c)) -> In f (carries m) ->
  exists p, needed c p /\ f = contents fs p.
Proof.
  intros PC I C. unfold main_configure, config_send in I. rewrite !sends_app in I.
  assert (CO : forall t m', In (TServer, n, m) (sends (compose prefork t m')) -> m = m') by (intros t m' X; destruct (in_compose _ _ _ _ X) as [n' E]; congruence).
  assert (CF : forall t m', In (TServer, n, m) (sends (config_send_file prefork t m')) -> t = TServer /\ m = m') by (intros t m' X; destruct (in_send_file _ _ _ _ X) as [n' E]; split; congruence).
  apply in_app_or in I. destruct I as [I|I]; [rewrite (CO _ _ I) in C; destruct C|].
  apply in_app_or in I. destruct I as [I|I]; [rewrite (CO _ _ I) in C; destruct C|].
  apply in_app_or in I. destruct I as [I|I];
    [|apply in_app_or in I; destruct I as [I|I]; rewrite (CO _ _ I) in C; destruct C].
  apply in_app_or in I. destruct I as [I|I]; [rewrite (CO _ _ I) in C; destruct C|].
  apply in_app_or in I. destruct I as [I|I]; [|apply in_app_or in I; destruct I as [I|I]; [rewrite (CO _ _ I) in C; destruct C|apply in_app_or in I; destruct I as [I|I]; [|apply in_app_or in I; destruct I as [I|I]]]].
  - destruct (in_sends_flat _ _ _ I) as (x & _ & Y). rewrite (CO _ _ Y) in C. destruct C.
  - destruct (in_sends_flat _ _ _ I) as (x & _ & Y). destruct (supported x); [|destruct Y]. destruct (CF _ _ Y) as [_ ->]. destruct C.
  - destruct (in_sends_flat _ _ _ I) as (x & _ & Y). rewrite (CO _ _ Y) in C. destruct C.
  - destruct (in_sends_flat _ _ _ I) as (h & IH & Y). clear I. unfold send_host, config_send_kp in Y. rewrite PC in Y. rewrite !sends_app in Y.
    apply in_app_or in Y. destruct Y as [Y|Y]; [rewrite (CO _ _ Y) in C; destruct C|].
    apply in_app_or in Y. destruct Y as [Y|Y].
    { change (sends (AOpen (ph_cert h) :: ?l)) with (sends l) in Y. rewrite !sends_app in Y. unfold config_open_send in Y. change (sends (AOpen (ph_key h) :: ?l)) with (sends l) in Y.
      apply in_app_or in Y. destruct Y as [Y|Y]; [destruct (CF _ _ Y) as [_ ->]; destruct C as [<-|[]]; eexists; split; [apply (nd_cert c h IH)|reflexivity]|].
      apply in_app_or in Y. destruct Y as [Y|Y]; destruct (CF _ _ Y) as [X _]; discriminate. }
    apply in_app_or in Y. destruct Y as [Y|Y].
    { destruct (ph_ocsp h) as [o|] eqn:O; [|destruct Y]. unfold config_open_send in Y. change (sends (AOpen o :: ?l)) with (sends l) in Y. destruct (CF _ _ Y) as [_ ->]. destruct C as [<-|[]]. eexists. split; [apply (nd_ocsp c h o IH O)|reflexivity]. }
    apply in_app_or in Y. destruct Y as [Y|Y]; [destruct (in_sends_flat _ _ _ Y) as (x & _ & Z); rewrite (CO _ _ Z) in C; destruct C|].
    apply in_app_or in Y. destruct Y as [[]|Y].
    apply in_app_or in Y. destruct Y as [Y|Y].
    { destruct (in_sends_flat _ _ _ Y) as (l & IL & Z). unfold send_loc in Z. rewrite !sends_app in Z. apply in_app_or in Z. destruct Z as [Z|Z]; [destruct (pl_ca l); destruct Z|].
      apply in_app_or in Z. destruct Z as [Z|Z]; [|destruct (in_sends_flat _ _ _ Z) as (e & _ & W); rewrite (CO _ _ W) in C; destruct C].
      destruct (CF _ _ Z) as [_ ->]. cbn in C. destruct (pl_ca l) as [p|] eqn:PL; [|destruct C]. destruct C as [<-|[]]. exists p. split; [apply (nd_lca c h l p IH IL PL)|reflexivity]. }
    apply in_app_or in Y. destruct Y as [[]|Y].
    apply in_app_or in Y. destruct Y as [Y|Y]; [destruct (in_sends_flat _ _ _ Y) as (x & _ & Z); rewrite (CO _ _ Z) in C; destruct C|].
    apply in_app_or in Y. destruct Y as [[]|Y].
    destruct (in_sends_flat _ _ _ Y) as (x & IX & Z). unfold send_proxy in Z. rewrite !sends_app in Z. apply in_app_or in Z. destruct Z as [Z|Z]; [destruct (px_ca x); destruct Z|].
    apply in_app_or in Z. destruct Z as [Z|Z].
    { destruct (CF _ _ Z) as [_ ->]. cbn in C. destruct (px_ca x) as [p|] eqn:PL; [|destruct C]. destruct C as [<-|[]]. exists p. split; [apply (nd_pca c h x p IH IX PL)|reflexivity]. }
    destruct (px_cert x) as [cp|] eqn:XC; [|destruct Z]. destruct (px_key x) as [kp|] eqn:XK; [|destruct Z]. unfold config_open_send in Z. rewrite sends_app in Z. apply in_app_or in Z.
    destruct Z as [Z|Z]; match type of Z with context[AOpen ?p :: ?l] => change (sends (AOpen p :: l)) with (sends l) in Z end; destruct (CF _ _ Z) as [_ ->]; destruct C as [<-|[]].
    + exists cp. split; [apply (nd_pcert c h x cp kp IH IX XC XK)|reflexivity].
    + exists kp. split; [apply (nd_pkey c h x kp cp IH IX XK XC)|reflexivity].
Qed.
End Keys.

(** However far the main process gets in sending the configuration, the only
    files a server process is handed are those it needs; the private keys of the
    hosts are not among them (unless one of those is the same file). *)
Theorem c30_host_keys fs supported prefork ok c ms o n m f :
  perform fs ok 0 (main_configure fs supported prefork c) = (ms, o) -> pc_privsep_crypto c = true ->
  In m (sent_to TServer n ms) -> In f (carries m) -> exists p, needed c p /\ f = contents fs p.
Proof.
  intros P PC I C. destruct (perform_prefix fs ok (main_configure fs supported prefork c) 0) as [r E]. rewrite P in E. cbn [fst] in E.
  apply (server_files fs supported prefork c n m f PC); [|exact C]. rewrite E. apply in_or_app. left.
  unfold sent_to in I. apply in_flat_map in I. destruct I as ([[t' n'] m'] & I & J). destruct t'; [|destruct J]. destruct (Nat.eqb_spec n n') as [->|]; [|destruct J]. destruct J as [<-|[]]. exact I.
Qed.
(** and no message of the type that carries host keys is sent to them *)
Theorem c30_no_key_message fs supported prefork ok c ms o n m f :
  perform fs ok 0 (main_configure fs supported prefork c) = (ms, o) -> (n < prefork)%nat -> pc_privsep_crypto c = true ->
  In m (sent_to TServer n ms) -> m <> MKey f.
Proof.
  intros P L PC I ->. destruct (perform_prefix fs ok (main_configure fs supported prefork c) 0) as [r E]. rewrite P in E. cbn [fst] in E.
  assert (J : In (MKey f) (for_ TServer n (main_configure fs supported prefork c))) by (unfold for_; rewrite E, sent_app; apply in_or_app; left; exact I).
  rewrite (for_server fs supported prefork n c L) in J. unfold conf_msgs in J. rewrite PC in J.
  destruct J as [J|[J|J]]; try discriminate.
  assert (MP : forall A (g : A -> msg) l, (forall x, g x <> MKey f) -> ~ In (MKey f) (map g l)) by (intros A g l G X; apply in_map_iff in X; destruct X as (x & X & _); exact (G x X)).
  apply in_app_or in J. destruct J as [J|J]; [exact (MP _ MMime _ ltac:(congruence) J)|]. apply in_app_or in J. destruct J as [[J|[]]|J]; [discriminate|].
  apply in_app_or in J. destruct J as [J|J]; [exact (MP _ MSock _ ltac:(congruence) J)|].
  apply in_app_or in J. destruct J as [J|J]; [exact (MP _ MFcgi _ ltac:(congruence) J)|].
  apply in_app_or in J. destruct J as [J|[J|[]]]; [|discriminate].
  apply in_flat_map in J. destruct J as (h & _ & J). unfold host_msgs in J. cbn [app] in J. destruct J as [J|[J|J]]; try discriminate.
  apply in_app_or in J. destruct J as [J|J]; [destruct (ph_ocsp h); [destruct J as [J|[]]; discriminate|destruct J]|].
  apply in_app_or in J. destruct J as [J|J]; [exact (MP _ MHostAddr _ ltac:(congruence) J)|].
  apply in_app_or in J. destruct J as [J|J].
  { apply in_flat_map in J. destruct J as (l & _ & J). destruct J as [J|J]; [discriminate|]. exact (MP _ MEnv _ ltac:(congruence) J). }
  apply in_app_or in J. destruct J as [J|J]; [exact (MP _ MAlias _ ltac:(congruence) J)|].
  apply in_flat_map in J. destruct J as (x & _ & J). destruct J as [J|J]; [discriminate|]. destruct (px_cert x); [|destruct J]. destruct (px_key x); [|destruct J]. destruct J as [J|[J|[]]]; discriminate.
Qed.

(** ** Cases *)
Definition ex_loc : location := mkLoc (s2b "*") [] [] [] 0 0 [] 0 None false None false 0 [(s2b "K", s2b "V")] (s2b "/srv") None.
Definition ex_px (cert key : option (list N)) : pproxy := mkPproxy (mkProxy [] [] [] (s2b "up") (s2b "1965") false false None) [] 24 false cert key None.
Definition ex_host (cert key : option (list N)) : phost :=
  mkPhost (s2b "a.example") (s2b "a.pem") (s2b "a.key") None [mkAddr [1] 1965 false (s2b "::1")] [mkPloc ex_loc (Some (s2b "ca"))] [s2b "b.example"] [ex_px cert key].
Definition ex_conf cert key : pconf := mkPconf 0 [(s2b "text/x", s2b "x")] 24 [mkAddr [1] 1965 false (s2b "::1"); mkAddr [2] 1966 true (s2b "::1")] [mkFcgi (s2b "/s") []] [ex_host cert key] true.
(** every file holds its own name *)
Definition ex_files (p : list N) : option (list N) := Some p.
Definition ex_child : child := mkChild (mkCconf 1 [] 0 [] [] [mkChost [] None None None [] [] [] []] []) PLast PLast PNull PNull 4.
Example c29_case : exists ms s', perform ex_files (fun _ => true) 0 (main_configure ex_files (fun _ => true) 2 (ex_conf None None)) = (ms, Done) /\
  recv_all (fun _ => Some 7) (fun d => Some d) (fun _ => Some 9) false (sent_to TServer 1 ms) ex_child = Took s' /\
  map ch_cert (cc_hosts (k_conf s')) = [Some (s2b "a.pem")] /\ map ch_key (cc_hosts (k_conf s')) = [None] /\ map ad_port (cc_addrs (k_conf s')) = [1966%Z; 1965%Z] /\ k_acks s' = 5%nat.
Proof. eexists. eexists. split; [vm_compute; reflexivity|]. split; [vm_compute; reflexivity|]. vm_compute. auto. Qed.
Example c29_crypto_case : exists ms s', perform ex_files (fun _ => true) 0 (main_configure ex_files (fun _ => true) 2 (ex_conf None None)) = (ms, Done) /\
  recv_all (fun _ => Some 7) (fun d => Some d) (fun _ => Some 9) true (sent_to TCrypto 0 ms) (mkChild (mkCconf 1 [] 0 [] [] [] []) PNull PNull PNull PNull 0) = Took s' /\
  cc_pkis (k_conf s') = [mkPki (s2b "a.pem") (Some 9)] /\ k_acks s' = 1%nat.
Proof. eexists. eexists. split; [vm_compute; reflexivity|]. split; [vm_compute; reflexivity|]. vm_compute. auto. Qed.

(** The private key a proxy uses as a TLS client is handed to every server
    process. *)
Theorem c30_proxy_key_refuted : exists c ms, pc_privsep_crypto c = true /\
  perform ex_files (fun _ => true) 0 (main_configure ex_files (fun _ => true) 2 c) = (ms, Done) /\
  (exists h x, In h (pc_hosts c) /\ In x (ph_proxies h) /\ px_key x = Some (s2b "client.key")) /\
  forall n, (n < 2)%nat -> In (MProxyKey (s2b "client.key")) (sent_to TServer n ms).
Proof.
  exists (ex_conf (Some (s2b "client.pem")) (Some (s2b "client.key"))). eexists. split; [reflexivity|]. split; [vm_compute; reflexivity|].
  split; [eexists; eexists; split; [left; reflexivity|]; split; [left; reflexivity|reflexivity]|].
  intros [|[|n]] L; [vm_compute; tauto|vm_compute; tauto|lia].
Qed.
(** When sending fails half way the crypto process is left waiting for a key, and
    the next configuration kills it. *)
Theorem c29_retry_refuted : exists ok ms o ms',
  perform ex_files ok 0 (main_configure ex_files (fun _ => true) 1 (ex_conf None None)) = (ms, o) /\ o = Gave_up /\
  perform ex_files (fun _ => true) 0 (main_configure ex_files (fun _ => true) 1 (ex_conf None None)) = (ms', Done) /\
  recv_all (fun _ => Some 7) (fun d => Some d) (fun _ => Some 9) true (sent_to TCrypto 0 (ms ++ ms')) (mkChild (mkCconf 1 [] 0 [] [] [] []) PNull PNull PNull PNull 0) = Died.
Proof. exists (fun i => negb (Nat.eqb i 17)). do 3 eexists. split; [vm_compute; reflexivity|]. split; [reflexivity|]. split; vm_compute; reflexivity. Qed.
(** A certificate that is missing when the configuration is reloaded ends the
    main process, and with it the service. *)
Theorem c31_missing_file_refuted : exists fs, fs (s2b "a.key") <> None /\ fs (s2b "ca") <> None /\
  snd (perform fs (fun _ => true) 0 (main_configure fs (fun _ => true) 1 (ex_conf None None))) = Exited.
Proof. exists (fun p => if leqb p (s2b "a.pem") then None else Some p). vm_compute. repeat split; congruence. Qed.
