(** What the application decodes is what was sent. *)
From Verif Require Import Base BaseLemmas Compat Conf Fcgi FcgiSpec.
Local Open Scope N_scope.

Lemma land255 n : N.land n 255 = n mod 256.
Proof. change 255 with (N.ones 8). rewrite N.land_ones. reflexivity. Qed.
Lemma land7' n : N.land n 7 = n mod 8.
Proof. change 7 with (N.ones 3). rewrite N.land_ones. reflexivity. Qed.
Lemma split256 n : n < 65536 -> 256 * (N.shiftr n 8 mod 256) + N.land n 255 = n.
Proof.
  intros H. rewrite land255, N.shiftr_div_pow2. change (2^8) with 256.
  rewrite (N.mod_small (n / 256)) by (apply N.div_lt_upper_bound; lia).
  pose proof (N.div_mod n 256). lia.
Qed.

Lemma len4_ok n r : n < 65536 -> pair_len (len4 n ++ r) = Some (N.to_nat n, r).
Proof.
  intros H. unfold len4. cbn [app pair_len].
  assert (E1 : N.shiftr n 24 = 0) by (rewrite N.shiftr_div_pow2; apply N.div_small; change (2^24) with 16777216; lia).
  assert (E2 : N.shiftr n 16 = 0) by (rewrite N.shiftr_div_pow2; apply N.div_small; change (2^16) with 65536; lia).
  rewrite E1, E2. change (N.lor 0 128 mod 256) with 128. change (N.land 0 255) with 0.
  destruct (N.ltb_spec 128 128); [lia|]. do 3 f_equal. pose proof (split256 n H) as S.
  rewrite land255 in *. rewrite N.shiftr_div_pow2 in *. change (2^8) with 256 in *. rewrite land255. lia.
Qed.

Definition content (p : list N * list N) : list N :=
  len4 (N.of_nat (length (fst p))) ++ len4 (N.of_nat (length (snd p))) ++ fst p ++ snd p.
Definition fits16 (p : list N * list N) : Prop := (length (fst p) + length (snd p) + 8 < N.to_nat 65536)%nat.

Lemma content_len p : length (content p) = (length (fst p) + length (snd p) + 8)%nat.
Proof. unfold content, len4. rewrite !app_length. cbn [length]. lia. Qed.

Lemma send_param_eq p : fits16 p -> exists pad, (pad < 8)%nat /\ (Nat.modulo (length (content p) + pad) 8 = 0)%nat /\
  fcgi_send_param (fst p) (snd p) =
  prepare_header FCGI_PARAMS (N.of_nat (length (content p))) (N.of_nat pad) ++ content p ++ repeat 0 pad.
Proof.
  intros H. unfold fits16 in H. unfold fcgi_send_param. change (2^32) with 4294967296.
  rewrite (N.mod_small (N.of_nat (length (fst p)))) by lia. rewrite (N.mod_small (N.of_nat (length (snd p)))) by lia.
  cbv zeta. rewrite (N.mod_small (_ + _ + 8)) by lia.
  assert (EL : N.of_nat (length (fst p)) + N.of_nat (length (snd p)) + 8 = N.of_nat (length (content p))) by (rewrite content_len; lia).
  rewrite EL. set (sz := N.of_nat (length (content p))) in *.
  set (pl := N.land (8 - N.land sz 7) 7). assert (EP : pl = (8 - sz mod 8) mod 8) by (unfold pl; rewrite !land7'; reflexivity).
  pose proof (N.mod_lt sz 8 ltac:(lia)) as M1. pose proof (N.div_mod sz 8 ltac:(lia)) as M2.
  assert (P : pl < 8 /\ (sz + pl) mod 8 = 0).
  { rewrite EP. split; [apply N.mod_lt; lia|].
    destruct (N.eq_dec (sz mod 8) 0) as [E|E].
    - rewrite E. change ((8 - 0) mod 8) with 0. rewrite N.add_0_r. exact E.
    - rewrite (N.mod_small (8 - _)) by lia. replace (sz + (8 - sz mod 8)) with ((sz / 8 + 1) * 8) by lia. apply N.mod_mul. lia. }
  destruct P as [P1 P2]. clearbody pl. clear EP. exists (N.to_nat pl). split; [lia|]. split.
  { replace (length (content p)) with (N.to_nat sz) by (unfold sz; lia).
    pose proof (Nat.div_mod (N.to_nat sz + N.to_nat pl) 8 ltac:(lia)). 
    apply (f_equal N.to_nat) in P2. rewrite N2Nat.inj_mod, N2Nat.inj_add in P2. exact P2. }
  rewrite N2Nat.id. f_equal. unfold content. rewrite <- !app_assoc. do 2 f_equal.
  rewrite !Nat2N.id, !firstn_all. reflexivity.
Qed.

(** one record in front of a stream *)
Lemma records_step (type : N) (c : list N) (pad : nat) (rest : list N) rs (f : nat) : type < 256 -> N.of_nat (length c) < 65536 -> (pad < 256)%nat ->
  (forall f, (length rest <= f)%nat -> records f rest = Some rs) ->
  (length (prepare_header type (N.of_nat (length c)) (N.of_nat pad) ++ c ++ repeat 0%N pad ++ rest) <= f)%nat ->
  records f (prepare_header type (N.of_nat (length c)) (N.of_nat pad) ++ c ++ repeat 0 pad ++ rest) =
  Some (mkRec type 1 c :: rs).
Proof.
  intros Ht Hc Hp IH Hf. rewrite app_length in Hf. unfold prepare_header in *. cbn [length app] in Hf. cbn [app].
  destruct f as [|f]; [lia|]. cbn [records]. rewrite N.eqb_refl. cbn [andb].
  rewrite split256 by assumption. rewrite Nat2N.id. rewrite (N.mod_small (N.of_nat pad)) by lia. rewrite Nat2N.id.
  rewrite (N.mod_small type) by lia. rewrite !app_length, repeat_length in *.
  destruct (Nat.leb_spec (length c + pad) (length c + (pad + length rest))); [|lia].
  assert (SK : skipn (length c + pad) (c ++ repeat 0 pad ++ rest) = rest).
  { rewrite app_assoc. apply skipn_pre. rewrite app_length, repeat_length. reflexivity. }
  rewrite SK, IH by lia. rewrite firstn_pre by reflexivity. reflexivity.
Qed.

Lemma header_len t n p : length (prepare_header t n p) = 8%nat.
Proof. reflexivity. Qed.

Lemma params_records : forall ps rest rs, Forall fits16 ps ->
  (forall f, (length rest <= f)%nat -> records f rest = Some rs) ->
  forall f, (length (send_params ps ++ rest) <= f)%nat ->
  records f (send_params ps ++ rest) = Some (map (fun p => mkRec 4 1 (content p)) ps ++ rs).
Proof.
  induction ps as [|p ps IH]; intros rest rs HF HR f Hf; [cbn [send_params flat_map map app] in *; auto|].
  inversion HF as [|? ? F1 F2]; subst. cbn [send_params flat_map map app] in *. fold (send_params ps) in *.
  destruct (send_param_eq p F1) as (pad & P1 & P2 & E). rewrite E in *. rewrite <- !app_assoc in *.
  apply records_step; auto; [reflexivity|rewrite content_len; unfold fits16 in F1; lia|lia].
Qed.

Lemma stream_params : forall ps rest, Forall fits16 ps ->
  stream 4 (map (fun p => mkRec 4 1 (content p)) ps ++ mkRec 4 1 [] :: rest) = Some (flat_map content ps, rest).
Proof.
  induction ps as [|p ps IH]; intros rest HF; [reflexivity|]. inversion HF; subst. cbn [map app stream r_type r_id r_content flat_map].
  rewrite !N.eqb_refl. cbn [andb]. destruct (content p) eqn:E; [apply (f_equal (@length N)) in E; rewrite content_len in E; cbn in E; lia|].
  rewrite IH by assumption. reflexivity.
Qed.

Lemma pairs_params : forall ps f, Forall fits16 ps -> (length (flat_map content ps) <= f)%nat ->
  pairs f (flat_map content ps) = Some ps.
Proof.
  induction ps as [|[n v] ps IH]; intros f HF Hf; [destruct f; reflexivity|].
  inversion HF as [|? ? F1 F2]; subst. unfold fits16 in F1. cbn [fst snd] in F1. cbn [flat_map] in *.
  rewrite app_length, content_len in Hf. cbn [fst snd] in Hf. destruct f as [|f]; [lia|].
  change (content (n, v)) with (len4 (N.of_nat (length n)) ++ len4 (N.of_nat (length v)) ++ n ++ v). rewrite <- !app_assoc.
  set (rest := flat_map content ps) in *. clearbody rest.
  assert (NE : exists x y, len4 (N.of_nat (length n)) ++ len4 (N.of_nat (length v)) ++ n ++ v ++ rest = x :: y) by (unfold len4; cbn [app]; eauto).
  destruct NE as (x & y & NE). cbn [pairs]. rewrite NE at 1. clear NE x y.
  rewrite len4_ok by lia. rewrite len4_ok by lia. rewrite !Nat2N.id.
  rewrite !app_length. destruct (Nat.leb_spec (length n + length v) (length n + (length v + length rest))) as [_|Q]; [|lia].
  assert (SK : skipn (length n + length v) (n ++ v ++ rest) = rest).
  { rewrite app_assoc. apply skipn_pre. rewrite app_length. reflexivity. }
  rewrite SK, IH by (auto; lia).
  rewrite firstn_pre by reflexivity. rewrite skipn_pre by reflexivity. rewrite firstn_pre by reflexivity. reflexivity.
Qed.

Lemma app_decode_ok ps : Forall fits16 ps ->
  app_decode (fcgi_begin_request ++ send_params ps ++ fcgi_end_param) = Some ps.
Proof.
  intros HF. unfold app_decode.
  assert (E2 : forall f, (length fcgi_end_param <= f)%nat -> records f fcgi_end_param = Some [mkRec 4 1 []; mkRec 5 1 []]).
  { intros f Hf. destruct f as [|[|f]]; [cbn in Hf; lia|cbn in Hf; lia|]. destruct f; reflexivity. }
  pose proof (params_records ps fcgi_end_param _ HF E2) as E1.
  pose proof (records_step 1 [0; 1; 1; 0; 0; 0; 0; 0] 0 (send_params ps ++ fcgi_end_param) _
    (length (fcgi_begin_request ++ send_params ps ++ fcgi_end_param)) ltac:(lia) ltac:(cbn; lia) ltac:(lia) E1) as E0.
  change (prepare_header 1 (N.of_nat (length [0; 1; 1; 0; 0; 0; 0; 0])) (N.of_nat 0) ++
     [0; 1; 1; 0; 0; 0; 0; 0] ++ repeat 0 0 ++ send_params ps ++ fcgi_end_param)
    with (fcgi_begin_request ++ send_params ps ++ fcgi_end_param) in E0.
  rewrite E0 by lia. cbn [r_type r_id r_content]. rewrite !N.eqb_refl, leqb_refl. cbn [andb].
  rewrite stream_params by assumption. cbn [stream r_type r_id r_content]. rewrite !N.eqb_refl. cbn [andb].
  apply pairs_params; auto.
Qed.
