(** Configuration files that satisfy the hypotheses of C70.

    [scan] reads a text of simple tokens; what it reads is spelled there (LexSpec.v). *)
From Verif Require Import Base BaseLemmas Compat Compat_Proofs Conf Config Mime Fmt Parse Prop_Parse UpTls UpTlsSpec Lex LexSpec Prop_Lex Iri_Last_Proofs Gram GramSpec Prop_Gram.
Local Open Scope N_scope.

Definition all_kws : list kw :=
  [ACCESS; ALIAS; AUTO; BLOCK; CA; CERT; CGI; CHROOT; CLIENT; DEFAULT; FACILITY; FASTCGI; FOR_HOST; INCLUDE; INDEX; IPV6; KEY; LANG; LISTEN; LOCATION; LOG; OCSP; OFF; ON; PARAM; PORT;
   PREFORK; PROTO; PROTOCOLS; PROXY; PROXYV1; RELAY_TO; REQUIRE; RETURN; ROOT; SERVER; SNI; SOCKET; STRIP; STYLE; SYSLOG; TCP; TOEXT; TYPE; TYPES; USE_TLS; USER; VERIFYNAME].
Lemma all_kws_all k : In k all_kws.
Proof. destruct k; cbn [all_kws In]; intuition. Qed.
Fixpoint take_while (p : N -> bool) (l : list N) : list N * list N :=
  match l with [] => ([], []) | c :: r => if p c then let '(a, b) := take_while p r in (c :: a, b) else ([], l) end.
Lemma take_while_spec p l : forall a b, take_while p l = (a, b) -> l = a ++ b /\ Forall (fun c => p c = true) a.
Proof.
  induction l as [|c r IH]; intros a b; cbn [take_while]; [intros E; injection E as <- <-; auto|]. destruct (p c) eqn:P.
  - destruct (take_while p r) as [x y]. intros E. injection E as <- <-. destruct (IH x y eq_refl) as (-> & F). auto.
  - intros E. injection E as <- <-. auto.
Qed.
Definition wchar (c : N) : bool := (33 <=? c) && (c <=? 126) && negb (existsb (N.eqb c) (s2b "(){}!=#,;\")).
Definition lower_ (c : N) : bool := (97 <=? c) && (c <=? 122).
Definition digit_ (c : N) : bool := (48 <=? c) && (c <=? 57).
Definition namec (c : N) : bool := lower_ c || digit_ c || ((65 <=? c) && (c <=? 90)) || (c =? 95).
Lemma wchar_spec c : wchar c = true <-> word_char c.
Proof.
  unfold wchar, word_char. rewrite !andb_true_iff, negb_true_iff. split.
  - intros ((A & B) & C). split; [lia|]. intros I. assert (existsb (N.eqb c) (s2b "(){}!=#,;\") = true) by (apply existsb_exists; exists c; split; [exact I|apply N.eqb_refl]). congruence.
  - intros (A & C). split; [split; lia|]. destruct (existsb _ _) eqn:E; [|reflexivity]. apply existsb_exists in E. destruct E as (x & X & Y). apply N.eqb_eq in Y. subst x. contradiction.
Qed.
Definition lookup_kw (w : list N) : tok := match find (fun k => leqb (s2b (spelling k)) w) all_kws with Some k => TKw k | None => TStr w end.
Lemma lookup_kw_spec w : word_token w (lookup_kw w).
Proof.
  unfold lookup_kw. destruct (find _ all_kws) as [k|] eqn:E.
  - apply find_some in E. destruct E as (_ & E). apply leqb_eq in E. left. exists k. auto.
  - right. split; [|reflexivity]. intros k ->. pose proof (find_none _ _ E k (all_kws_all k)) as Q. cbv beta in Q. rewrite leqb_refl in Q. discriminate.
Qed.
Definition quotable (c : N) : bool := negb (existsb (N.eqb c) [34; 92; 10; 0; 1; 2]).
Lemma quotable_spec s : Forall (fun c => quotable c = true) s -> quoted 34 s s.
Proof.
  induction 1 as [|c s Q _ IH]; constructor; [|exact IH]. intros I. unfold quotable in Q. apply negb_true_iff in Q. assert (existsb (N.eqb c) [34; 92; 10; 0; 1; 2] = true) by (apply existsb_exists; exists c; split; [exact I|apply N.eqb_refl]). congruence.
Qed.
Definition num_of (ds : list N) : Z := fold_left (fun a d => a * 10 + Z.of_N (d - 48))%Z ds 0%Z.
Definition white_ (c : N) : bool := (c =? 32) || ((9 <=? c) && (c <=? 13)).
Definition short_enough (s : list N) : bool := N.of_nat (length s) <=? 8000.
Fixpoint scan (val : list N -> option (list N)) (n : nat) (after t : list N) : option (list tok) :=
  match n with
  | O => None
  | S n =>
    match t with
    | [] => Some []
    | c :: r =>
      if (c =? 32) || (c =? 9) then scan val n after r
      else if lower_ c then
        let '(w, rest) := take_while wchar r in
        if negb (wchar (next_of (rest ++ after))) && negb (next_of (rest ++ after) =? 92) && short_enough (c :: w)
        then option_map (cons (lookup_kw (c :: w))) (scan val n after rest) else None
      else if digit_ c then
        let '(d, rest) := take_while digit_ r in
        let e := next_of (rest ++ after) in
        if (white_ e || existsb (N.eqb e) (s2b "),/}=")) && short_enough (c :: d) && (num_of (c :: d) <=? 2147483647)%Z
        then option_map (cons (TNum (num_of (c :: d)))) (scan val n after rest) else None
      else if c =? 34 then
        let '(s, rest) := take_while quotable r in
        match rest with
        | 34 :: rest => if short_enough s then option_map (cons (TStr s)) (scan val n after rest) else None
        | _ => None
        end
      else if c =? 36 then
        let '(m, rest) := take_while namec r in
        if negb (namec (next_of (rest ++ after))) && negb (next_of (rest ++ after) =? 92) && short_enough m
        then match val m with Some v => option_map (cons (TStr v)) (scan val n after rest) | None => None end else None
      else if existsb (N.eqb c) [10; 42; 44; 59; 61; 123; 125] then option_map (cons (TChr c)) (scan val n after r)
      else None
    end
  end.
Lemma namec_spec c : namec c = true <-> name_byte c.
Proof. unfold namec, lower_, digit_, name_byte, letter, digit. rewrite !orb_true_iff, !andb_true_iff, !N.leb_le, N.eqb_eq. lia. Qed.
Lemma num_bound ds : (0 <= num_of ds)%Z.
Proof. unfold num_of. rewrite <- fold_left_rev_right. induction (rev ds) as [|d l IH]; cbn [fold_right]; lia. Qed.
Lemma scan_ok val : forall n after t ts, scan val n after t = Some ts -> spells val false after t ts.
Proof.
  induction n as [|n IH]; intros after t ts; cbn [scan]; [discriminate|]. destruct t as [|c r]; [intros E; injection E as <-; constructor|].
  destruct ((c =? 32) || (c =? 9)) eqn:B; [intros E; apply sp_blank; [unfold blank; lia|apply IH; exact E]|].
  destruct (lower_ c) eqn:LO.
  { destruct (take_while wchar r) as [w rest] eqn:TW. destruct (take_while_spec _ _ _ _ TW) as (-> & F). destruct (negb (wchar (next_of (rest ++ after))) && negb (next_of (rest ++ after) =? 92) && short_enough (c :: w)) eqn:C; [|discriminate].
    apply andb_true_iff in C. destruct C as (C & C3). apply andb_true_iff in C. destruct C as (C1 & C2). rewrite negb_true_iff in C1, C2. destruct (scan val n after rest) as [us|] eqn:SC; [|discriminate]. intros E. injection E as <-. unfold lower_ in LO.
    change (c :: w ++ rest) with ((c :: w) ++ rest). apply sp_word; [| | |apply lookup_kw_spec|apply IH; exact SC].
    - exists c, w. split; [reflexivity|]. split; [unfold word_start, letter; lia|]. split; [eapply Forall_impl; [|exact F]; intros x X; apply wchar_spec, X|]. unfold short_enough in C3. lia.
    - split; [|lia]. intros W. apply wchar_spec in W. congruence.
    - intros (d & q & E & D & FD & _). destruct d as [|y d]; [congruence|]. cbn [app] in E. injection E as <- _. inversion FD; subst. unfold digit in *. lia. }
  destruct (digit_ c) eqn:DI.
  { destruct (take_while digit_ r) as [d rest] eqn:TW. destruct (take_while_spec _ _ _ _ TW) as (-> & F). cbv zeta. destruct (_ && (num_of (c :: d) <=? 2147483647)%Z) eqn:C; [|discriminate].
    apply andb_true_iff in C. destruct C as (C & C3). apply andb_true_iff in C. destruct C as (C1 & C2). destruct (scan val n after rest) as [us|] eqn:SC; [|discriminate]. intros E. injection E as <-.
    change (c :: d ++ rest) with ((c :: d) ++ rest). assert (FD : Forall (fun x => digit_ x = true) (c :: d)) by (constructor; assumption). pose proof (num_bound (c :: d)) as NB. apply sp_number; [| |apply IH; exact SC].
    - split; [|split; [exists (c :: d); split; [left; reflexivity|eapply Forall_impl; [|exact FD]; intros x X; unfold digit_, digit in *; lia]|split; [unfold short_enough in C2; lia|lia]]].
      exists [], [], (c :: d). split; [reflexivity|]. split; [reflexivity|]. split; [discriminate|]. split; [apply forallb_forall; rewrite Forall_forall in FD; intros x X; specialize (FD x X); unfold digit_, is_digit in *; lia|]. left. split; [left; reflexivity|reflexivity].
    - apply orb_true_iff in C1. destruct C1 as [C1|C1]; [left; unfold white_, white in *; lia|right]. apply existsb_exists in C1. destruct C1 as (x & X & Y). apply N.eqb_eq in Y. rewrite Y. exact X. }
  destruct (N.eqb_spec c 34) as [->|N34].
  { destruct (take_while quotable r) as [s rest] eqn:TW. destruct (take_while_spec _ _ _ _ TW) as (-> & F). destruct rest as [|q rest]; [discriminate|].
    destruct (N.eq_dec q 34) as [->|NQ]; [|intros E; exfalso; revert E; destruct q as [|p]; [discriminate|]; do 6 (destruct p as [p|p|]; try discriminate); congruence].
    destruct (short_enough s) eqn:C; [|discriminate]. destruct (scan val n after rest) as [us|] eqn:SC; [|discriminate]. intros E. injection E as <-. apply sp_quoted; [left; reflexivity|apply quotable_spec, F|unfold short_enough in C; lia|apply IH; exact SC]. }
  destruct (N.eqb_spec c 36) as [->|N36].
  { destruct (take_while namec r) as [m rest] eqn:TW. destruct (take_while_spec _ _ _ _ TW) as (-> & F). destruct (negb (namec (next_of (rest ++ after))) && negb (next_of (rest ++ after) =? 92) && short_enough m) eqn:C; [|discriminate].
    apply andb_true_iff in C. destruct C as (C & C3). apply andb_true_iff in C. destruct C as (C1 & C2). rewrite negb_true_iff in C1, C2. destruct (val m) as [v|] eqn:VM; [|discriminate]. destruct (scan val n after rest) as [us|] eqn:SC; [|discriminate]. intros E. injection E as <-.
    apply (sp_macro _ _ m v); [split; [eapply Forall_impl; [|exact F]; intros x X; apply namec_spec, X|unfold short_enough in C3; lia]|split; [intros W; apply namec_spec in W; congruence|lia]|exact VM|apply IH; exact SC]. }
  destruct (existsb (N.eqb c) [10; 42; 44; 59; 61; 123; 125]) eqn:X; [|discriminate]. destruct (scan val n after r) as [us|] eqn:SC; [|discriminate]. intros E. injection E as <-.
  apply existsb_exists in X. destruct X as (x & X & Y). apply N.eqb_eq in Y. subst x. cbn [In] in X.
  apply sp_char; [unfold blank; lia|unfold word_start, letter, digit; lia|cbn [In]; lia|lia|apply IH; exact SC].
Qed.

(** ** a file *)
Definition ln (s : string) : list N := s2b s ++ [10].
Definition ex_inc : list N := ln "  text/x-foo foo 1 # from a file".
Definition ex_head : list N := ln "# a capsule" ++ ln "prefork 2" ++ ln "log { style common; access ""/l"" }" ++ ln "dir = ""/var/gemini""".
Definition ex_types : list N := ln "types {" ++ ln "  include ""/etc/types""" ++ ln "  image/png png jpg" ++ ln "}".
Definition ex_server : list N :=
  ln "server ""example.com"" {" ++ ln "  alias ""b.com""" ++ ln "  cert ""/c.pem""" ++ ln "  key ""/k.pem"";" ++ ln "  listen on * port 300" ++ ln "  root $dir" ++
  ln "  location ""/cgi/*"" {" ++ ln "    fastcgi {" ++ ln "      socket tcp ""localhost"" port 9000" ++ ln "      param ""a"" = ""b"" ""c""" ++ ln "    }" ++ ln "  }" ++
  ln "  block return 51 ""gone""" ++ ln "  proxy for-host ""h"" {" ++ ln "    relay-to ""up"" port 1966" ++ ln "    use-tls off" ++ ln "  }" ++ s2b "}".
Definition ex_text : list N := ex_head ++ ex_types ++ ex_server.
Definition ex_gai (h : option (list N)) (p : list N) : option (list (ainfo * list N)) := Some [(ex_ai 300, s2b "0.0.0.0")].
Definition ex_service (s : list N) : option Z := None.
Definition ex_files (n : list N) : option (list N) := if leqb n (s2b "/etc/types") then Some ex_inc else None.
Definition ex_items : list sitem :=
  [SAlias (s2b "b.com"); SCert (s2b "/c.pem"); SKey (s2b "/k.pem"); SListen None (s2b "300") false; SOpt (LRoot (s2b "/var/gemini"));
   SLoc (s2b "/cgi/*") [LFcgi [FSocket (s2b "localhost") (Some (s2b "9000")); FParam (s2b "a") (s2b "bc")]]; SOpt (LBlock 51 (s2b "gone"));
   SProxy [MHost (s2b "h") 1965] [PRelayTo (s2b "up") (s2b "1966"); PUseTls false]].
Definition ex_stmts : list stmt :=
  [StOpt (GPrefork 2); StOpt (GLog [LgStyle (s2b "common"); LgAccess (s2b "/l")]);
   StTypes [(s2b "text/x-foo", [s2b "foo"; s2b "1"]); (s2b "image/png", [s2b "png"; s2b "jpg"])]; StServer (s2b "example.com") ex_items].
Lemma str1 s : strs s [TStr s].
Proof. exists [s]. split; [discriminate|]. split; [reflexivity|]. symmetry. apply app_nil_r. Qed.
Lemma str2 a b : strs (a ++ b) [TStr a; TStr b].
Proof. exists [a; b]. split; [discriminate|]. split; [reflexivity|]. cbn [concat]. rewrite app_nil_r. reflexivity. Qed.
Lemma plain_comment s : forallb (fun c => negb (existsb (N.eqb c) [10; 92; 1; 2])) s = true -> comment s.
Proof.
  induction s as [|c s IH]; cbn [forallb]; [constructor|]. intros E. apply andb_true_iff in E. destruct E as (E1 & E2). apply cm_chr; [|apply IH, E2]. intros I. apply negb_true_iff in E1.
  assert (existsb (N.eqb c) [10; 92; 1; 2] = true) by (apply existsb_exists; exists c; split; [exact I|apply N.eqb_refl]). congruence.
Qed.
Lemma nls1 : nls [TChr 10]. Proof. repeat constructor. Qed.
Lemma nls2 : nls [TChr 59; TChr 10]. Proof. constructor; [right; reflexivity|]. apply nls1. Qed.
Lemma nls3 : nls [TChr 59]. Proof. constructor; [right; reflexivity|constructor]. Qed.
Lemma nls0 : nls []. Proof. constructor. Qed.
Lemma braces_of {A} (P : A -> list tok -> Prop) xs b c : nls b -> seq P xs c -> braces P xs ([TChr 123] ++ b ++ c ++ [TChr 125]).
Proof. intros B S. exists b, c. auto. Qed.
Definition ex_macros : list sym := [mkSym (s2b "dir") (s2b "/var/gemini") false].
Ltac scanned := apply (scan_ok _ 1000); vm_compute; reflexivity.
Lemma ex_server_toks : exists ts, stmt_toks ex_service (StServer (s2b "example.com") ex_items) ts /\ scan (val_of ex_macros) 1000 [] ex_server = Some ts.
Proof.
  eexists. split.
  - apply stm_server; [apply str1|]. apply braces_of; [apply nls1|]. unfold ex_items.
    eapply sq_cons; [apply st_alias, str1|apply nls1|]. eapply sq_cons; [apply st_cert, str1|apply nls1|]. eapply sq_cons; [apply st_key, str1|apply nls2|].
    eapply sq_cons; [refine (st_listen _ None (s2b "300") false _ (lp_num 300))|apply nls1|]. eapply sq_cons; [apply st_opt, lt_root, str1|apply nls1|].
    eapply sq_cons; [|apply nls1|].
    { apply st_loc; [apply str1|]. apply braces_of; [apply nls1|]. eapply sq_cons; [|apply nls1|constructor]. apply lt_fcgis, braces_of; [apply nls1|].
      eapply sq_cons; [refine (ft_tcp_num (s2b "localhost") _ 9000 (str1 _))|apply nls1|]. eapply sq_cons; [refine (ft_param (s2b "a") (s2b "b" ++ s2b "c") _ _ (str1 _) (str2 _ _))|apply nls1|constructor]. }
    eapply sq_cons; [apply st_opt, lt_meta, str1|apply nls1|].
    eapply sq_cons; [|apply nls1|constructor]. apply st_proxy; [eapply ms_cons; [apply mt_host; [apply str1|apply pp_none]|constructor]|]. apply braces_of; [apply nls1|].
    eapply sq_cons; [refine (pt_relay _ (s2b "up") 1966 _ _ (str1 _) (pp_num _ 1966))|apply nls1|]. eapply sq_cons; [apply (pt_tls _ false)|apply nls1|constructor].
  - vm_compute. reflexivity.
Qed.
Lemma ex_conf : conf_text ex_service ex_files [] (Some ex_text) ex_stmts ex_macros.
Proof.
  unfold ex_text, ex_head, ex_types, ln. rewrite <- !app_assoc. cbn [app].
  change (s2b "# a capsule" ++ 10 :: ?r) with ([] ++ 35 :: s2b " a capsule" ++ 10 :: r).
  eapply ct_blank; [constructor|apply en_comment, plain_comment; vm_compute; reflexivity|].
  eapply ct_stmt with (ts := [TKw PREFORK; TNum 2]); [scanned|apply stm_opt, gt_prefork|apply en_nl|].
  eapply ct_stmt with (ts := [TKw LOG; TChr 123; TKw STYLE; TStr (s2b "common"); TChr 59; TKw ACCESS; TStr (s2b "/l"); TChr 125]); [scanned| |apply en_nl|].
  { apply stm_opt. refine (gt_logs [LgStyle (s2b "common"); LgAccess (s2b "/l")] _ (braces_of log_toks _ [] ([TKw STYLE; TStr (s2b "common")] ++ [TChr 59] ++ [TKw ACCESS; TStr (s2b "/l")] ++ [] ++ []) nls0 _)).
    apply sq_cons; [apply (lg_style _ _ (str1 _))|apply nls3|]. apply sq_cons; [apply (lg_access _ _ (str1 _))|apply nls0|constructor]. }
  eapply ct_macro with (n := s2b "dir") (v := s2b "/var/gemini") (a := [TStr (s2b "/var/gemini")]); [scanned|apply str1|cbn [s2b tl In]; intros c [<-|[<-|[]]]; unfold white; vm_compute; intuition discriminate|apply en_nl|].
  change (symset (s2b "dir") (s2b "/var/gemini") false []) with ex_macros.
  eapply ct_types with (rest := 10 :: ex_server) (b2 := []) (e := 10 :: ex_server).
  - change (s2b "types {") with (s2b "types {"). scanned.
  - discriminate.
  - change (10 :: s2b "  include ""/etc/types""" ++ 10 :: s2b "  image/png png jpg" ++ 10 :: s2b "}" ++ 10 :: ex_server) with ([] ++ 10 :: s2b "  include " ++ (s2b """/etc/types""") ++ 10 :: s2b "  image/png png jpg" ++ 10 :: [] ++ 125 :: 10 :: ex_server).
    eapply tt_blank; [constructor|apply en_nl|].
    refine (tt_include ex_files ex_macros _ (s2b "  include ") (s2b """/etc/types""") (s2b "/etc/types") ex_inc _ (Some (s2b "  image/png png jpg" ++ 10 :: [] ++ 125 :: 10 :: ex_server)) [(s2b "text/x-foo", [s2b "foo"; s2b "1"])] [(s2b "image/png", [s2b "png"; s2b "jpg"])] _ _ _ _ _ _).
    + scanned.
    + refine (fn_quoted 34 (s2b "/etc/types") (s2b "/etc/types") _ _ _ _); [left; reflexivity|apply quotable_spec; repeat constructor|vm_compute; discriminate].
    + vm_compute. reflexivity.
    + exists [], (10 :: s2b "  image/png png jpg" ++ 10 :: [] ++ 125 :: 10 :: ex_server). split; [reflexivity|]. split; [discriminate|]. split; [discriminate|]. split; [constructor|apply en_nl].
    + change ex_inc with (s2b "  text/x-foo foo 1 " ++ 35 :: s2b " from a file" ++ [10]). eapply tt_entry with (a := [TStr (s2b "foo"); TNum 1]); [scanned|discriminate|repeat constructor; exact (et_num 1)|apply en_comment, plain_comment; vm_compute; reflexivity|].
      refine (tt_blank ex_files ex_macros None [] [] None [] _ en_eof _); [constructor|]. apply tt_end. reflexivity.
    + eapply tt_entry with (a := [TStr (s2b "png"); TStr (s2b "jpg")]); [scanned|discriminate|repeat constructor|apply en_nl|]. apply tt_close; [reflexivity|constructor].
  - reflexivity.
  - constructor.
  - apply en_nl.
  - destruct ex_server_toks as (ts & ST & SC). rewrite <- (app_nil_r ex_server). eapply ct_stmt; [apply (scan_ok _ 1000); exact SC|exact ST|apply en_eof|]. constructor.
Qed.

Ltac short := unfold shorter; vm_compute; lia.
Lemma ex_valid : Forall valid_stmt ex_stmts.
Proof.
  assert (FM : fmt_text (s2b "gone")) by (repeat (apply fm_chr; [vm_compute; discriminate|]); constructor).
  assert (AB : forall r, abs_path (47 :: r)) by (intros r; exists r; reflexivity).
  apply Forall_cons; [cbn [valid_stmt valid_gopt]; lia|].
  apply Forall_cons; [constructor; [right; left; reflexivity|constructor; [exact I|constructor]]|].
  apply Forall_cons; [cbn [valid_stmt]; repeat constructor; short|]. apply Forall_cons; [|constructor].
  split; [short|]. split; [|split; [exists (s2b "/c.pem"); right; left; reflexivity|exists (s2b "/k.pem"); right; right; left; reflexivity]]. unfold ex_items.
  apply Forall_cons; [short|]. apply Forall_cons; [apply AB|]. apply Forall_cons; [apply AB|]. apply Forall_cons; [exact I|]. apply Forall_cons; [cbn [valid_sitem valid_lopt]; unfold shorter; apply Nat.ltb_lt; vm_compute; reflexivity|].
  apply Forall_cons; [split; [short|constructor; [constructor; [exact I|constructor; [split; short|constructor]]|constructor]]|].
  apply Forall_cons; [split; [lia|]; split; [exact FM|]; split; [unfold shorter; apply Nat.ltb_lt; vm_compute; reflexivity|lia]|].
  apply Forall_cons; [|constructor]. split; [constructor; [short|constructor]|]. split; [constructor; [short|constructor; [exact I|constructor]]|]. split; [exists (s2b "up"), (s2b "1966"); left; reflexivity|].
  split; [intros h p [E|[E|[]]]; [|discriminate]; injection E as <- _; discriminate|]. split; intros (f & [E|[E|[]]]); discriminate.
Qed.
Definition ex_ds : list ldir := [LServer; LListen [(ex_ai 300, s2b "0.0.0.0")] false].
Lemma ex_addresses : ldirs ex_gai None 1965%Z ex_stmts = Some ex_ds /\ addresses_ok ex_ds.
Proof.
  split; [vm_compute; reflexivity|]. split; [repeat constructor; vm_compute; lia|]. intros (ai & [E|[]] & _). discriminate.
Qed.
Lemma ex_applications : applications_ok (calls ex_stmts).
Proof. split; [intros path p [E|[]]; discriminate|]. constructor; [split; [unfold shorter; apply Nat.ltb_lt; vm_compute; reflexivity|short]|constructor]. Qed.
(** C70 applies to it *)
Example c70_applies : exists c enough, means ex_stmts ex_ds c /\ forall n, (enough <= n)%nat -> parse_conf ex_gai ex_service ex_files n [] ex_text = Good c.
Proof. apply (c70_configuration ex_gai ex_service ex_files [] ex_text ex_stmts ex_macros ex_ds ex_conf); [intros m []|apply ex_valid|apply ex_applications|apply ex_addresses|apply ex_addresses]. Qed.
(** and this is what the parser makes of it *)
Example c70_case : match parse_conf ex_gai ex_service ex_files 300 [] ex_text with
  | Good c => g_prefork c = 2%Z /\ g_style c = 1 /\ m_t (g_mime c) = [(s2b "text/x-foo", s2b "foo"); (s2b "text/x-foo", s2b "1"); (s2b "image/png", s2b "png"); (s2b "image/png", s2b "jpg")] /\
      match g_hosts c with
      | [h] => vh_domain h = s2b "example.com" /\ map (fun l => (l_match (pl l), l_dir (pl l), l_fcgi (pl l), l_block_code (pl l))) (vh_locs h) =
                 [(s2b "*", s2b "/var/gemini", None, 0); (s2b "cgi/*", [], Some 0%nat, 51)] /\
               map (fun p => (p_match_host (px p), p_match_port (px p), p_host (px p), p_port (px p), p_notls (px p))) (vh_proxies h) = [(s2b "h", s2b "1965", s2b "up", s2b "1966", true)]
      | _ => False end
  | _ => False end.
Proof. vm_compute. repeat split. Qed.
