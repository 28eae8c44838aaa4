(** Lemmas on replies. *)
From Coq Require Import Permutation Sorting.Sorted.
From Verif Require Import Base BaseLemmas Compat Iri IriSpec IriObs Puny Conf ConfSpec Mime Prop_Conf Fmt FmtSpec Prop_Fmt Fcgi Server ServerSpec.
Local Open Scope N_scope.

Lemma dec2 code : 10 <= code -> code < 100 -> dec code = [48 + code / 10; 48 + code mod 10].
Proof.
  intros H1 H2. unfold dec.
  assert (L : (1 <= N.to_nat (N.log2 code))%nat).
  { assert (N.log2 10 <= N.log2 code) by (apply N.log2_le_mono; lia). change (N.log2 10) with 3 in H. lia. }
  destruct (N.to_nat (N.log2 code)) as [|f]; [lia|]. cbn [digits].
  destruct (N.ltb_spec code 10); [lia|].
  assert (code / 10 < 10) by (apply N.div_lt_upper_bound; lia).
  destruct (N.ltb_spec (code / 10) 10); [reflexivity|lia].
Qed.

(** two clients that differ at most in what a reply changes *)
Definition same (c c' : client) : Prop :=
  c_hs c' = c_hs c /\ c_closed c' = c_closed c /\ c_in c' = c_in c /\ c_sent c' = c_sent c /\ c_iri c' = c_iri c /\
  c_domain c' = c_domain c /\ c_vhost c' = c_vhost c /\ c_pfd c' = c_pfd c /\ c_dir c' = c_dir c /\ c_sbuf c' = c_sbuf c /\
  c_cgibev c' = c_cgibev c /\ c_conns c' = c_conns c /\ c_pxy c' = c_pxy c /\ c_up c' = c_up c.

Ltac same_tac := unfold same; repeat match goal with |- _ /\ _ => split end; reflexivity.

Lemma same_refl c : same c c. Proof. same_tac. Qed.
Lemma same_trans a b c : same a b -> same b c -> same a c.
Proof. unfold same. intros H1 H2. decompose [and] H1. decompose [and] H2. repeat split; congruence. Qed.

Lemma add_out_eq s c : s <> [] -> add_out s c = set_io (c_out c ++ s) (c_sent c) true c.
Proof. destruct s; [congruence|reflexivity]. Qed.

Lemma add_out_out s c : c_out (add_out s c) = c_out c ++ s.
Proof. destruct s; cbn; [rewrite app_nil_r|]; reflexivity. Qed.
Lemma add_out_same s c : same c (add_out s c).
Proof. destruct s; same_tac. Qed.
Lemma add_out_type s c : c_type (add_out s c) = c_type c. Proof. destruct s; reflexivity. Qed.
Lemma add_out_code s c : c_code (add_out s c) = c_code c. Proof. destruct s; reflexivity. Qed.
Lemma add_out_acts s c : c_acts (add_out s c) = c_acts c. Proof. destruct s; reflexivity. Qed.

(** the log entry, if any *)
Definition logged (E : env) (c : client) (code : N) (meta : list N) : list action :=
  if vhost_disable_log (e_fnm E) (c_vhost c) (path_of c) then [] else [ALog code meta].

Lemma emit_spec E code meta h c :
  let c' := emit E code meta h c in
  same c c' /\ c_out c' = c_out c ++ h ++ [13; 10] /\ c_code c' = code /\ c_wev c' = true /\
  c_type c' = (if code =? 20 then c_type c else DONE) /\
  c_acts c' = c_acts c ++ [AReply code meta] ++ logged E c code meta.
Proof.
  cbv zeta. unfold emit, logged.
  rewrite (add_out_eq (h ++ [13; 10])) by (destruct h; discriminate).
  change (c_vhost (act (AReply code meta) _)) with (c_vhost c).
  change (path_of (act (AReply code meta) _)) with (path_of c).
  destruct (vhost_disable_log _ _ _), (code =? 20); cbn; repeat split; rewrite <- ?app_assoc; reflexivity.
Qed.

(** what is sent for a meta *)
Definition full_meta (E : env) (c : client) (meta : list N) : list N :=
  meta ++ (if negb (is_relayed (c_type c)) && leqb meta (s2b "text/gemini") then
             match vhost_lang (e_fnm E) (c_vhost c) (path_of c) with Some l => s2b ";lang=" ++ l | None => [] end else []).
Definition fits (E : env) (c : client) (meta : list N) : bool := (length (full_meta E c meta) <=? 1024)%nat.

Lemma start_reply_spec E code meta c : 10 <= code -> code < 100 ->
  let '(c', ok) := start_reply E code meta c in
  ok = fits E c meta /\ same c c' /\ c_wev c' = true /\
  if ok then c_out c' = c_out c ++ header code (full_meta E c meta) /\ c_code c' = code /\
             c_type c' = (if code =? 20 then c_type c else DONE) /\
             c_acts c' = c_acts c ++ [AReply code meta] ++ logged E c code meta
  else c_out c' = header 40 (s2b "internal error") /\ c_code c' = 40 /\ c_type c' = DONE /\
       c_acts c' = c_acts c ++ [AReply 40 (s2b "internal error")] ++ logged E c 40 (s2b "internal error").
Proof.
  intros H1 H2. unfold start_reply, header_line. rewrite dec2 by assumption.
  set (l := if negb _ && _ then _ else []).
  assert (FM : full_meta E c meta = meta ++ l) by reflexivity.
  assert (FT : ((1027 <? length (([48 + code / 10; 48 + code mod 10] ++ [32] ++ meta)%N))%nat ||
     (1027 <? length (([48 + code / 10; 48 + code mod 10] ++ [32] ++ meta)%N) + length l)%nat) = negb (fits E c meta)).
  { unfold fits. rewrite FM, !app_length. cbn [length]. clearbody l.
    destruct (Nat.leb_spec (length meta + length l) 1024); cbn [negb];
      repeat match goal with |- context[(?a <? ?b)%nat] => destruct (Nat.ltb_spec a b) end; cbn [orb]; try reflexivity; lia. }
  rewrite FT. destruct (fits E c meta); cbn [negb].
  - pose proof (emit_spec E code meta (([48 + code / 10; 48 + code mod 10] ++ [32] ++ meta) ++ l) c) as H. cbv zeta in H.
    destruct H as (S & O & C & W & T & A). split; [reflexivity|]. split; [exact S|]. split; [exact W|].
    rewrite O. split; [|auto]. unfold header. rewrite FM. cbn [app]. rewrite <- !app_assoc. reflexivity.
  - pose proof (emit_spec E 40 (s2b "internal error") (s2b "40 internal error") (set_io [] (c_sent c) (c_wev c) c)) as H. cbv zeta in H.
    destruct H as (S & O & C & W & T & A). split; [reflexivity|]. split; [exact S|]. split; [exact W|].
    split; [exact O|]. split; [exact C|]. split; [exact T|exact A].
Qed.

Lemma reply_spec E code meta c : 10 <= code -> code < 100 ->
  let c' := reply E code meta c in
  same c c' /\ c_wev c' = true /\
  if fits E c meta then c_out c' = c_out c ++ header code (full_meta E c meta) /\ c_code c' = code /\
             c_type c' = (if code =? 20 then c_type c else DONE) /\
             c_acts c' = c_acts c ++ [AReply code meta] ++ logged E c code meta
  else c_out c' = header 40 (s2b "internal error") /\ c_code c' = 40 /\ c_type c' = DONE /\
       c_acts c' = c_acts c ++ [AReply 40 (s2b "internal error")] ++ logged E c 40 (s2b "internal error").
Proof.
  intros H1 H2. cbv zeta. unfold reply. pose proof (start_reply_spec E code meta c H1 H2) as H.
  destruct (start_reply E code meta c) as [c' ok]. cbn [fst]. destruct H as (-> & S & W & H). auto.
Qed.

(** header facts *)
Lemma header_wf code meta : 10 <= code -> code < 100 -> (length meta <= 1024)%nat -> wf_header (header code meta).
Proof.
  intros H1 H2 H3. exists (48 + code / 10), (48 + code mod 10), meta. split; [reflexivity|].
  assert (code / 10 < 10) by (apply N.div_lt_upper_bound; lia). pose proof (N.mod_lt code 10).
  unfold is_digit. repeat split; try assumption; lia.
Qed.

Lemma logged_invisible E c code meta : filter visible (logged E c code meta) = [].
Proof. unfold logged. destruct (vhost_disable_log _ _ _); reflexivity. Qed.
