(** The list-level parser [f_iri] recognises exactly the grammar [g_iri]. *)
From Verif Require Import Base BaseLemmas Utf8 Utf8Spec Utf8_Proofs Iri IriSpec PathClean_Proofs Canon_Proofs Iri_Proofs Iri_Proofs2 Iri_Proofs3.
Local Open Scope N_scope.

Ltac cls := intros c; unfold host_char, path_char, query_char, scheme_char, g_host, g_path, g_query, g_scheme, g_unreserved, g_subdelim, unreserved, sub_delimiters;
  cbv [s2b existsb String.list_ascii_of_string Ascii.N_of_ascii map Ascii.N_of_digits]; 
  rewrite ?orb_false_r, ?orb_assoc.

Lemma host_char_eq : forall c, host_char c = g_host c.
Proof. cls. reflexivity. Qed.
Lemma path_char_eq : forall c, path_char c = g_path c.
Proof. cls. reflexivity. Qed.
Lemma query_char_eq : forall c, query_char c = g_query c.
Proof. cls. reflexivity. Qed.
Lemma scheme_char_eq : forall c, scheme_char c = g_scheme c.
Proof. cls. reflexivity. Qed.

Definition stops (ok : N -> bool) (r : list N) : Prop :=
  match r with [] => True | c :: _ => ok c = false /\ c <> 37 /\ c < 128 end.

Lemma item_ext ok ok' dec a b : (forall c, ok c = ok' c) -> item ok dec a b -> item ok' dec a b.
Proof. intros H I. destruct I; constructor; auto. rewrite <- H; auto. Qed.
Lemma items_ext ok ok' dec a b : (forall c, ok c = ok' c) -> items ok dec a b -> items ok' dec a b.
Proof. intros H I. induction I; constructor; auto. eapply item_ext; eauto. Qed.

Lemma utf8_hi cp : 128 <= cp -> exists c t, utf8_encode cp = c :: t /\ 128 <= c /\ t <> [].
Proof.
  intros H. unfold utf8_encode. destruct (N.ltb_spec cp 128); [lia|].
  destruct (cp <? 2048). { eexists _, _. split; [reflexivity|]. split; [lia|discriminate]. }
  destruct (cp <? 65536); (eexists _, _; split; [reflexivity|]; split; [lia|discriminate]).
Qed.

Lemma item_gstep ok dec a a' s : goodcls ok -> item ok dec a a' -> gstep ok dec (a ++ s) = Eat a' s.
Proof.
  intros G I. destruct I as [c H|x y H1 H2 H3|cp H1 H2].
  - cbn [app gstep]. rewrite H. reflexivity.
  - cbn [app gstep]. destruct (ok 37) eqn:E. { apply G in E. lia. }
    change (37 =? 37) with true. cbn iota. unfold okpct. rewrite H1, H2.
    destruct (N.eqb_spec x 48); destruct (N.eqb_spec y 48); cbn [andb negb]; try reflexivity.
    subst. exfalso. apply H3. reflexivity.
  - destruct (utf8_hi cp H2) as (c & t & E & Hc & _).
    destruct (encode_mb_len cp s H1 H2) as [M _].
    unfold gstep. rewrite E in M |- *. cbn [app] in *.
    destruct (ok c) eqn:O. { apply G in O. lia. }
    destruct (N.eqb_spec c 37); [lia|]. destruct (N.ltb_spec c 128); [lia|].
    rewrite M. change (c :: t ++ s) with ((c :: t) ++ s).
    rewrite firstn_pre, skipn_pre by reflexivity. reflexivity.
Qed.

Lemma item_nonempty ok dec a a' : item ok dec a a' -> a <> [].
Proof.
  intros I. destruct I; try discriminate. destruct (utf8_hi cp) as (c & t & -> & _); auto. discriminate.
Qed.

Lemma fscan_of_items ok dec src out : goodcls ok -> items ok dec src out ->
  forall rest n, stops ok rest -> (length (src ++ rest) <= n)%nat ->
  fscan ok dec (S n) (src ++ rest) = Some (out, rest).
Proof.
  intros G I. induction I as [|a a' s s' Ha I IH]; intros rest n Hst Hn.
  - cbn [app]. rewrite fscan_S. destruct rest as [|c t]; [reflexivity|].
    destruct Hst as (H1 & H2 & H3). unfold gstep. rewrite H1.
    destruct (N.eqb_spec c 37); [congruence|]. destruct (N.ltb_spec c 128); [|lia]. reflexivity.
  - rewrite fscan_S, <- app_assoc, (item_gstep _ _ _ _ _ G Ha).
    pose proof (item_nonempty _ _ _ _ Ha). destruct n as [|n].
    { rewrite !app_length in Hn. destruct a; [congruence|cbn in Hn; lia]. }
    rewrite IH; auto. rewrite <- app_assoc, app_length in Hn. destruct a; [congruence|cbn in Hn; lia].
Qed.

Lemma items_of_fscan ok dec : goodcls ok -> forall n s out rest, bytes s -> (length s <= n)%nat ->
  fscan ok dec (S n) s = Some (out, rest) ->
  exists src, s = src ++ rest /\ items ok dec src out /\ stops ok rest.
Proof.
  intros G. induction n as [|n IH]; intros s out rest Hb Hn H.
  { destruct s; [|cbn in Hn; lia]. cbn in H. inversion H; subst. exists []. repeat split; constructor. }
  rewrite fscan_S in H. unfold gstep in H. destruct s as [|c t].
  { inversion H; subst. exists []. repeat split; constructor. }
  assert (Hb' := Hb). apply bytes_cons in Hb'.
  assert (K : forall a a' t0, c :: t = a ++ t0 -> (length t0 <= n)%nat -> bytes t0 -> item ok dec a a' ->
     match fscan ok dec (S n) t0 with Some (o, r) => Some (a' ++ o, r) | None => None end = Some (out, rest) ->
     exists src, c :: t = src ++ rest /\ items ok dec src out /\ stops ok rest).
  { intros a a' t0 Hs Ht0 Hbt Hi Hf. destruct (fscan ok dec (S n) t0) as [[o r]|] eqn:E; [|discriminate].
    inversion Hf; subst. destruct (IH t0 o rest Hbt Ht0 E) as (src & -> & I & St).
    exists (a ++ src). split; [rewrite <- app_assoc; exact Hs|]. split; [constructor; auto|exact St]. }
  destruct (ok c) eqn:Eo.
  { apply (K [c] [c] t); auto; try tauto. cbn in Hn; lia. constructor; auto. }
  destruct (N.eqb_spec c 37) as [->|Hne].
  { destruct t as [|a [|b r]]; try discriminate. destruct (okpct a b) eqn:Ek; [|discriminate].
    unfold okpct in Ek. apply andb_true_iff in Ek. destruct Ek as [Ek E3].
    apply andb_true_iff in Ek. destruct Ek as [E1 E2].
    apply (K [37; a; b] (if dec then [16 * hexval a + hexval b] else [37; a; b]) r); auto.
    - cbn in Hn; lia.
    - destruct Hb' as [_ Hb']. apply bytes_cons in Hb'. destruct Hb' as [_ Hb']. apply bytes_cons in Hb'. tauto.
    - constructor; auto. intros Q. inversion Q; subst. discriminate. }
  destruct (N.ltb_spec c 128) as [Hlt|Hge].
  { inversion H; subst. exists []. split; [reflexivity|]. split; [constructor|]. cbn. auto. }
  destruct (mb_len (c :: t)) as [k|] eqn:Em; [|discriminate].
  destruct (mb_len_encode _ _ Hb Em) as (S1 & S2 & S3 & S4 & S5).
  apply (K (firstn k (c :: t)) (firstn k (c :: t)) (skipn k (c :: t))); auto.
  - symmetry. apply firstn_skipn.
  - rewrite skipn_length. cbn [length] in *. lia.
  - rewrite <- (firstn_skipn k (c :: t)) in Hb. apply bytes_app in Hb. tauto.
  - rewrite <- S3. constructor; auto.
Qed.

Lemma items_skip_slash ok dec p p' : items ok dec (47 :: p) p' ->
  exists p'', p' = 47 :: p'' /\ items ok dec p p''.
Proof.
  intros I. inversion I as [|a a' s s' Ha Is E1 E2]; subst.
  destruct Ha as [c H|x y H1 H2 H3|cp H1 H2].
  - cbn in E1. inversion E1; subst. exists s'. auto.
  - cbn in E1. inversion E1.
  - destruct (utf8_hi cp H2) as (c & t & E & Hc & _). rewrite E in E1. cbn in E1. inversion E1; subst. lia.
Qed.

Lemma items_slashes_iff ok dec sl : ok 47 = true -> forallb (fun c => c =? 47) sl = true ->
  forall p p', items ok dec (sl ++ p) p' <-> exists p'', p' = sl ++ p'' /\ items ok dec p p''.
Proof.
  intros H47. induction sl as [|c sl IH]; intros Hs p p'; cbn [app].
  { split; [eauto|intros (p'' & -> & H); exact H]. }
  cbn in Hs. apply andb_true_iff in Hs. destruct Hs as [E Hs]. apply N.eqb_eq in E. subst c. split.
  - intros I. apply items_skip_slash in I. destruct I as (q & -> & I).
    apply IH in I; auto. destruct I as (p'' & -> & I). eauto.
  - intros (p'' & -> & I).
    apply (its_cons ok dec [47] [47]). { constructor; auto. } apply IH; eauto.
Qed.

Lemma canon_sl sl s : forallb (fun c => c =? 47) sl = true -> canon (sl ++ s) = canon s.
Proof.
  induction sl as [|c sl IH]; cbn [forallb app]; intros H; [reflexivity|]. apply andb_true_iff in H. destruct H as [E H].
  apply N.eqb_eq in E. subst c. rewrite canon_slashes. auto.
Qed.

Lemma items_self ok s s' : items ok false s s' -> s' = s.
Proof. intros I. induction I; [reflexivity|]. subst. f_equal. destruct H; auto. Qed.

(** the query, then maybe a fragment *)
Inductive g_qf : list N -> list N -> list N -> Prop :=
| gq0 q : items g_query false q q -> g_qf q q []
| gq1 q f : items g_query false q q -> g_qf (q ++ 35 :: f) q f.

Lemma f_query_iff s q f : bytes s -> f_query s = Some (q, f) <-> g_qf s q f.
Proof.
  intros Hb.
  assert (HE : f_query s = match fscan query_char false (S (length s)) s with
    | Some (o, []) => Some (o, [])
    | Some (o, c :: f) => if c =? 35 then Some (o, f) else None
    | None => None end) by (destruct s; reflexivity).
  rewrite HE. split.
  - intros H. destruct (fscan _ _ _ s) as [[o r]|] eqn:E; [|discriminate].
    destruct (items_of_fscan _ _ goodcls_query _ _ _ _ Hb (le_n _) E) as (src & -> & I & St).
    apply (items_ext _ g_query _ _ _ query_char_eq) in I.
    assert (o = src) as -> by (eapply items_self; eauto).
    destruct r as [|c r]. { inversion H; subst. rewrite app_nil_r. constructor; auto. }
    destruct (N.eqb_spec c 35); [|discriminate]. inversion H; subst. constructor; auto.
  - intros I. destruct I as [q I|q f I]; apply (items_ext _ query_char _ _ _ (fun c => eq_sym (query_char_eq c))) in I.
    + pose proof (fscan_of_items _ _ _ _ goodcls_query I [] (length q) Logic.I) as F.
      rewrite app_nil_r in F. rewrite F; auto.
    + rewrite (fscan_of_items _ _ _ _ goodcls_query I); auto. cbn. repeat split; lia.
Qed.

(** what follows the '/' that ends the authority *)
Inductive g_after : list N -> list N -> list N -> list N -> Prop :=
| ga0 p p' : items g_path true p p' -> g_after p (canon p') [] []
| ga1 p p' f : items g_path true p p' -> g_after (p ++ 35 :: f) (canon p') [] f
| ga2 p p' t q f : items g_path true p p' -> g_qf t q f -> g_after (p ++ 63 :: t) (canon p') q f.

Definition f_path_ns (s : list N) :=
    match fscan path_char true (S (length s)) s with
    | None => None
    | Some (o, []) => Some (canon o, [], [])
    | Some (o, c :: t) =>
      if c =? 35 then Some (canon o, [], t)
      else if c =? 63 then
        match f_query t with Some (q, f) => Some (canon o, q, f) | None => None end
      else None
    end.

Lemma f_path_split s : f_path s = f_path_ns (snd (span (fun c => c =? 47) s)).
Proof. unfold f_path, f_path_ns. destruct (snd _); reflexivity. Qed.

Lemma f_path_ns_iff s a q f : bytes s -> f_path_ns s = Some (a, q, f) <-> g_after s a q f.
Proof.
  intros Hb. unfold f_path_ns. split.
  - intros H. destruct (fscan _ _ _ s) as [[o r]|] eqn:E; [|discriminate].
    destruct (items_of_fscan _ _ goodcls_path _ _ _ _ Hb (le_n _) E) as (src & -> & I & St).
    apply (items_ext _ g_path _ _ _ path_char_eq) in I.
    destruct r as [|c r]. { inversion H; subst. rewrite app_nil_r. constructor; auto. }
    destruct (N.eqb_spec c 35). { inversion H; subst. constructor; auto. }
    destruct (N.eqb_spec c 63); [|discriminate]. subst c.
    apply bytes_app in Hb. destruct Hb as [_ Hb]. apply bytes_cons in Hb.
    destruct (f_query r) as [[q0 f0]|] eqn:Eq; [|discriminate]. inversion H; subst.
    apply ga2; auto. apply f_query_iff; tauto.
  - intros I. destruct I as [p p' I|p p' f I|p p' t q f I J];
      apply (items_ext _ path_char _ _ _ (fun c => eq_sym (path_char_eq c))) in I.
    + pose proof (fscan_of_items _ _ _ _ goodcls_path I [] (length p) Logic.I) as F.
      rewrite app_nil_r in F. rewrite F; auto.
    + rewrite (fscan_of_items _ _ _ _ goodcls_path I); auto. cbn. repeat split; lia.
    + rewrite (fscan_of_items _ _ _ _ goodcls_path I); auto. 2:{ cbn. repeat split; lia. }
      change (63 =? 35) with false. change (63 =? 63) with true. cbn iota.
      apply bytes_app in Hb. destruct Hb as [_ Hb]. apply bytes_cons in Hb.
      apply f_query_iff in J; [|tauto]. rewrite J. reflexivity.
Qed.

Lemma g_after_slashes sl s a q f : forallb (fun c => c =? 47) sl = true ->
  g_after (sl ++ s) a q f <-> g_after s a q f.
Proof.
  intros Hs. assert (H47 : g_path 47 = true) by reflexivity.
  assert (K : forall p1 s2 x, sl ++ s = p1 ++ x :: s2 -> x <> 47 -> exists p2, p1 = sl ++ p2 /\ s = p2 ++ x :: s2).
  { clear - Hs. induction sl as [|c sl IH]; intros p1 s2 x E Hx; cbn in E. { exists p1. auto. }
    cbn in Hs. apply andb_true_iff in Hs. destruct Hs as [Ec Hs]. apply N.eqb_eq in Ec. subst c.
    destruct p1 as [|y p1]; cbn in E; inversion E; subst; [congruence|].
    destruct (IH Hs _ _ _ H1 Hx) as (p2 & -> & ->). exists p2. auto. }
  split; intros I.
  - inversion I as [p p' I1 E|p p' f0 I1 E|p p' t q0 f0 I1 I2 E]; subst.
    + apply items_slashes_iff in I1; auto. destruct I1 as (p'' & -> & I1). rewrite canon_sl by auto. constructor; auto.
    + symmetry in E. apply K in E; [|lia]. destruct E as (p2 & -> & ->).
      apply items_slashes_iff in I1; auto. destruct I1 as (p'' & -> & I1). rewrite canon_sl by auto. constructor; auto.
    + symmetry in E. apply K in E; [|lia]. destruct E as (p2 & -> & ->).
      apply items_slashes_iff in I1; auto. destruct I1 as (p'' & -> & I1). rewrite canon_sl by auto. constructor; auto.
  - destruct I as [p p' I1|p p' f0 I1|p p' t q0 f0 I1 I2];
      rewrite <- (canon_sl sl p' Hs); rewrite ?app_assoc; constructor; auto;
      apply items_slashes_iff; eauto.
Qed.

Lemma f_path_iff s a q f : bytes s -> f_path s = Some (a, q, f) <-> g_after s a q f.
Proof.
  intros Hb. rewrite f_path_split. destruct (span _ s) as [sl s'] eqn:E.
  destruct (span_app _ _ _ _ E) as (-> & Hs & _). cbn [snd].
  apply bytes_app in Hb. rewrite f_path_ns_iff by tauto. symmetry. apply g_after_slashes; auto.
Qed.

Lemma g_rest_iff s a q f : g_rest s a q f <->
  (s = [] /\ a = [] /\ q = [] /\ f = []) \/ exists t, s = 47 :: t /\ g_after t a q f.
Proof.
  split.
  - intros I. destruct I; [left; auto|right..]; eexists; (split; [reflexivity|]).
    + constructor; auto.
    + constructor; auto.
    + apply ga2; auto. constructor; auto.
    + apply ga2; auto. constructor; auto.
  - intros [(-> & -> & -> & ->)|(t & -> & I)]; [constructor|].
    destruct I as [p p' I|p p' f I|p p' t q f I J]; [constructor; auto..|].
    destruct J; constructor; auto.
Qed.

Lemma not_in_span93 h r : ~ In 93 h -> span (fun x => negb (x =? 93)) (h ++ 93 :: r) = (h, 93 :: r).
Proof.
  intros H. apply span_iff; [|reflexivity]. apply forallb_forall. intros x Hx.
  destruct (N.eqb_spec x 93); [subst; contradiction|reflexivity].
Qed.

(** f_host leaves a rest; it must not continue the name *)
Lemma f_host_iff ip6 s h r : bytes s ->
  (exists c t, r = c :: t /\ (c = 58 \/ c = 47)) \/ r = [] ->
  f_host ip6 s = Some (h, r) <-> exists hs, s = hs ++ r /\ g_hostname ip6 hs h.
Proof.
  intros Hb Hr.
  assert (St : stops host_char r).
  { destruct Hr as [(c & t & -> & [-> | ->])| ->]; cbn; repeat split; lia. }
  split.
  - intros H. unfold f_host in H. destruct s as [|c t].
    { inversion H; subst. exists []. split; [reflexivity|].
      apply (gh_name ip6 [] []). constructor. }
    destruct (N.eqb_spec c 91) as [->|Hne].
    + destruct (span (fun x => negb (x =? 93)) t) as [h0 u] eqn:E.
      destruct (span_app _ _ _ _ E) as (Et & Hh & Hu).
      destruct u as [|z u]; [discriminate|]. destruct (ip6 h0) eqn:E6; [|discriminate].
      inversion H; subst. destruct (N.eqb_spec z 93); [|discriminate]. subst z.
      exists ([91] ++ h ++ [93]). split; [cbn; rewrite <- app_assoc; reflexivity|].
      apply gh_ip6; auto. intros Hin. eapply forallb_forall in Hh; eauto. discriminate.
    + destruct (fscan host_char true (S (length (c :: t))) (c :: t)) as [[o r0]|] eqn:E; [|discriminate].
      inversion H; subst.
      destruct (items_of_fscan _ _ goodcls_host _ _ _ _ Hb (le_n _) E) as (src & Es & I & _).
      exists src. split; [exact Es|]. constructor. eapply items_ext; [|exact I]. exact host_char_eq.
  - intros (hs & -> & I). destruct I as [src out I|h Hn H6].
    + apply (items_ext _ host_char _ _ _ (fun c => eq_sym (host_char_eq c))) in I.
      pose proof (fscan_of_items _ _ _ _ goodcls_host I r _ St (le_n _)) as F.
      unfold f_host. destruct (src ++ r) as [|c t] eqn:E.
      { cbn in F. inversion F; subst. reflexivity. }
      destruct (N.eqb_spec c 91) as [->|Hne].
      { exfalso. inversion I as [|a a' s1 s1' Ha Is E1 E2]; subst.
        - cbn in E. subst r. cbn in St. destruct Hr as [(c & ? & Hr & [-> | ->])|Hr]; inversion Hr.
        - pose proof (item_nonempty _ _ _ _ Ha). destruct Ha as [x Hx|x y|cp A B].
          + cbn in E. inversion E; subst. discriminate.
          + cbn in E. inversion E.
          + destruct (utf8_hi cp B) as (x & y & Ee & Hx & _). rewrite Ee in E. cbn in E. inversion E; subst. lia. }
      rewrite F. reflexivity.
    + unfold f_host. cbn [app]. rewrite <- app_assoc. cbn [app].
      change (91 =? 91) with true. cbn iota. rewrite (not_in_span93 h r Hn), H6. reflexivity.
Qed.

Lemma f_port_iff s ds v r : f_port s = Some (ds, v, r) <->
  forallb is_digit ds = true /\ decimal ds <= 65535 /\ v = decimal ds /\
  ((s = ds /\ r = []) \/ s = ds ++ 47 :: r).
Proof.
  unfold f_port. split.
  - destruct (span is_digit s) as [d u] eqn:E. destruct (span_app _ _ _ _ E) as (-> & Hd & Hu).
    destruct (N.leb_spec (dec_from 0 d) 65535); [|discriminate].
    destruct u as [|c u].
    + intros Q. inversion Q; subst. rewrite app_nil_r. repeat split; auto.
    + destruct (N.eqb_spec c 47); [|discriminate]. intros Q. inversion Q; subst. repeat split; auto.
  - intros (Hd & Hle & -> & Hs).
    assert (E : span is_digit s = (ds, match r with [] => match Hs with _ => skipn (length ds) s end | _ => 47 :: r end)).
    { destruct Hs as [[-> ->]| ->].
      - rewrite skipn_all. rewrite <- (app_nil_r ds) at 1. apply span_iff; auto.
      - rewrite span_iff; auto. destruct r; auto. rewrite skipn_pre; auto. }
    rewrite E. change (dec_from 0 ds) with (decimal ds).
    destruct (N.leb_spec (decimal ds) 65535); [|lia].
    destruct Hs as [[-> ->]| ->].
    + rewrite skipn_all. reflexivity.
    + destruct r; [rewrite skipn_pre by auto|]; reflexivity.
Qed.

(** [f_auth] eats the '/' that follows; [slash] says whether there was one *)
Lemma f_auth_iff ip6 s h po no r : bytes s ->
  f_auth ip6 s = Some (h, po, no, r) <->
  exists hs ps, g_hostname ip6 hs h /\ g_portpart ps po no /\
    ((s = hs ++ ps /\ r = []) \/ s = hs ++ ps ++ 47 :: r).
Proof.
  intros Hb. unfold f_auth. split.
  - destruct (f_host ip6 s) as [[h0 r0]|] eqn:E; [|discriminate].
    destruct r0 as [|c r'].
    + intros Q. inversion Q; subst. apply f_host_iff in E; auto. destruct E as (hs & -> & I).
      exists hs, []. split; [auto|]. split; [constructor|]. left. rewrite !app_nil_r. auto.
    + destruct (N.eqb_spec c 58) as [->|H58].
      * destruct (f_port r') as [[[ds v] r2]|] eqn:Ep; [|discriminate]. intros Q. inversion Q; subst.
        apply f_host_iff in E; auto. 2:{ left. eauto. } destruct E as (hs & -> & I).
        apply f_port_iff in Ep. destruct Ep as (A & B & -> & C).
        exists hs, (58 :: po). split; [auto|]. split; [constructor; auto|].
        destruct C as [[-> ->]| ->]; [left|right]; auto.
      * destruct (N.eqb_spec c 47) as [->|H47]; [|discriminate].
        intros Q. inversion Q; subst. apply f_host_iff in E; auto. 2:{ left. eauto. }
        destruct E as (hs & -> & I). exists hs, []. split; [auto|]. split; [constructor|]. right. reflexivity.
  - intros (hs & ps & Ih & Ip & Hs).
    destruct Ip as [|ds Hd Hle].
    + destruct Hs as [[-> ->]| ->]; cbn [app] in *.
      * rewrite (proj2 (f_host_iff ip6 (hs ++ []) h [] Hb (or_intror eq_refl))); [reflexivity|].
        exists hs. auto.
      * rewrite (proj2 (f_host_iff ip6 (hs ++ 47 :: r) h (47 :: r) Hb (or_introl (ex_intro _ 47 (ex_intro _ r (conj eq_refl (or_intror eq_refl)))))));
          [reflexivity|]. exists hs. auto.
    + assert (exists t, s = hs ++ 58 :: t /\ ((t = ds /\ r = []) \/ t = ds ++ 47 :: r)) as (t & -> & Ht).
      { destruct Hs as [[-> ->]| ->]; cbn [app]; eexists; split; try reflexivity; auto. }
      rewrite (proj2 (f_host_iff ip6 (hs ++ 58 :: t) h (58 :: t) Hb (or_introl (ex_intro _ 58 (ex_intro _ t (conj eq_refl (or_introl eq_refl))))))).
      2:{ exists hs. auto. }
      change (58 =? 58) with true. cbn iota.
      rewrite (proj2 (f_port_iff t ds (decimal ds) r)); [reflexivity|]. repeat split; auto.
Qed.

Lemma forallb_ext' {A} (f g : A -> bool) l : (forall x, f x = g x) -> forallb f l = forallb g l.
Proof. intros H. induction l; cbn; congruence. Qed.

Lemma f_scheme_iff s sch r : f_scheme s = Some (sch, r) <->
  exists c t, is_alpha c = true /\ forallb g_scheme t = true /\ sch = map to_lower (c :: t) /\
    s = (c :: t) ++ s2b "://" ++ r.
Proof.
  unfold f_scheme. split.
  - destruct s as [|c t]; [discriminate|]. destruct (is_alpha c) eqn:Ea; [|discriminate].
    destruct (span scheme_char t) as [a b] eqn:E. cbn [fst snd].
    destruct (span_app _ _ _ _ E) as (-> & Ha & _).
    destruct b as [|x [|y [|z b]]]; try discriminate.
    destruct ((x =? 58) && ((y =? 47) && (z =? 47))) eqn:Ex; [|discriminate].
    intros Q. inversion Q; subst. exists c, a. split; [auto|].
    rewrite !andb_true_iff, !N.eqb_eq in Ex. destruct Ex as (-> & -> & ->).
    split; [rewrite <- Ha; apply forallb_ext'; intros; rewrite scheme_char_eq; reflexivity|]. split; reflexivity.
  - intros (c & t & Ha & Ht & -> & ->). cbn [app]. rewrite Ha.
    rewrite span_iff; [reflexivity| |reflexivity].
    rewrite <- Ht. apply forallb_ext'; intros; apply scheme_char_eq.
Qed.

Lemma f_path_nil : f_path [] = Some ([], [], []).
Proof. reflexivity. Qed.

Theorem f_iri_iff ip6 s c : bytes s -> f_iri ip6 s = Some c <-> g_iri ip6 s c.
Proof.
  intros Hb. unfold f_iri. split.
  - destruct (f_scheme s) as [[sch r]|] eqn:Es; [|discriminate].
    apply f_scheme_iff in Es. destruct Es as (c0 & t & Ha & Ht & -> & ->).
    assert (Hbr : bytes r). { apply bytes_app in Hb. destruct Hb as [_ Hb]. apply bytes_app in Hb. tauto. }
    destruct (f_auth ip6 r) as [[[[h po] no] r2]|] eqn:E; [|discriminate].
    apply f_auth_iff in E; auto. destruct E as (hs & ps & Ih & Ip & Hs).
    destruct (f_path r2) as [[[pa q] f]|] eqn:E; [|discriminate].
    intros Q. inversion Q; subst. destruct Hs as [[-> ->]| ->].
    + rewrite f_path_nil in E. inversion E; subst.
      rewrite <- (app_nil_r ps) at 1. eapply g_iri_intro; eauto. constructor.
    + assert (Hb2 : bytes r2). { repeat (apply bytes_app in Hbr; destruct Hbr as [_ Hbr]). apply bytes_cons in Hbr. tauto. }
      apply f_path_iff in E; auto. eapply g_iri_intro; eauto. apply g_rest_iff. right. eauto.
  - intros I. destruct I as [c0 t hs h ps po no rest pa q f Ha Ht Ih Ip Ir].
    rewrite (proj2 (f_scheme_iff _ (map to_lower (c0 :: t)) (hs ++ ps ++ rest))). 2:{ exists c0, t. split; [eassumption|]. split; [eassumption|]. split; reflexivity. }
    assert (Hbr : bytes (hs ++ ps ++ rest)). { apply bytes_app in Hb. destruct Hb as [_ Hb]. apply bytes_app in Hb. tauto. }
    apply g_rest_iff in Ir. destruct Ir as [(-> & -> & -> & ->)|(t' & -> & Ir)].
    + rewrite (proj2 (f_auth_iff _ _ h po no [] Hbr)); [reflexivity|].
      exists hs, ps. rewrite app_nil_r. auto.
    + rewrite (proj2 (f_auth_iff _ _ h po no t' Hbr)); [|exists hs, ps; auto].
      assert (Hb2 : bytes t'). { repeat (apply bytes_app in Hbr; destruct Hbr as [_ Hbr]). apply bytes_cons in Hbr. tauto. }
      apply f_path_iff in Ir; auto. rewrite Ir. reflexivity.
Qed.
