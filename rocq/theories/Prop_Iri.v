(** Properties C01-C07: request IRIs.  The specification is IriSpec.v
    (grammar, canonicalisation), IriSafeSpec.v (safe paths), Utf8Spec.v; the
    program is [parse_iri] of Iri.v, observed through IriObs.v. *)
From Verif Require Import Base Utf8 Utf8Spec Iri IriSpec IriObs IriSafeSpec.
From Verif Require Import Canon_Proofs Iri_Proofs Iri_Grammar_Proofs Iri_Final_Proofs.
Local Open Scope N_scope.

(** C01.  The path of an accepted request is relative, consists of proper
    segments, and following any prefix of it never climbs above its root. *)
Theorem c01_path_never_escapes : forall ip6 s c,
  nonul s -> bytes s -> accepts ip6 s c ->
  hd 0 (c_path c) <> 47 /\ safe_path (c_path c) /\
  (forall pre suf, split_slash (c_path c) = pre ++ suf -> walk 0 pre <> None).
Proof. exact accepted_path_safe. Qed.
Print Assumptions c01_path_never_escapes.

Example c01_example :
  accepts (fun _ => false) (s2b "gemini://h/a/%2e%2E/../%2f../b//./c/")
          (mkC (s2b "gemini") (s2b "h") [] 1965 (s2b "b/c/") [] []).
Proof. eexists. split; vm_compute; reflexivity. Qed.

(** C02.  In-place path cleaning computes the segment-stack canonical form
    (spec [canon]), in place and inside the string, and it is idempotent. *)
Theorem c02_clean_is_canon : forall pre s junk, nonul s ->
  exists g, path_clean (pre ++ s ++ 0 :: junk) (length pre) = OK (true, pre ++ canon s ++ 0 :: g)
         /\ length (pre ++ canon s ++ 0 :: g) = length (pre ++ s ++ 0 :: junk)
         /\ skipn (length pre + length s) (pre ++ canon s ++ 0 :: g) = 0 :: junk.
Proof. exact path_clean_spec. Qed.
Print Assumptions c02_clean_is_canon.

Theorem c02_canon_idempotent : forall s, canon (canon s) = canon s.
Proof. exact canon_idem. Qed.
Print Assumptions c02_canon_idempotent.

Example c02_example : path_clean (s2b "x" ++ s2b "a/../../b/./c//" ++ [0]) 1
  = OK (true, s2b "x" ++ s2b "b/c/" ++ 0 :: s2b "../b/./c//" ++ [0]).
Proof. vm_compute. reflexivity. Qed.

(** C03.  No undefined behaviour (no access outside the buffer, no reading of
    an unterminated string), termination, size preserved, and on success all
    components are NUL-terminated strings in the buffer.  With [junk = []] the
    buffer ends right after the terminator. *)
Theorem c03_parse_safe : forall ip6 s junk, nonul s -> bytes s ->
  exists b p, parse_iri ip6 (s ++ 0 :: junk) = OK (b, p) /\
    length (mem p) = length (s ++ 0 :: junk) /\
    (b = true -> exists c, comps_of p = Some c).
Proof. exact parse_total. Qed.
Print Assumptions c03_parse_safe.

Example c03_example : exists p, parse_iri (fun _ => false) (s2b "gemini://h/%f" ++ [0]) = OK (false, p).
Proof. eexists. vm_compute. reflexivity. Qed.

(** C04.  Accepted requests, and what is returned for them, are exactly the grammar. *)
Theorem c04_accepts_iff_grammar : forall ip6 s c, nonul s -> bytes s ->
  (accepts ip6 s c <-> g_iri ip6 s c).
Proof. exact accepts_iff. Qed.
Print Assumptions c04_accepts_iff_grammar.

Theorem c04_refuses_iff_not_grammar : forall ip6 s, nonul s -> bytes s ->
  (refuses ip6 s <-> ~ exists c, g_iri ip6 s c).
Proof. exact refuses_iff. Qed.
Print Assumptions c04_refuses_iff_not_grammar.

Example c04_example :
  accepts (fun _ => false) (s2b "GeMini://Ex%41mple.com:0070/f%20o?a%20b#c d")
          (mkC (s2b "gemini") (s2b "example.com") (s2b "0070") 70 (s2b "f o") (s2b "a%20b") (s2b "c d")).
Proof. eexists. split; vm_compute; reflexivity. Qed.
Example c04_example_refused : refuses (fun _ => false) (s2b "gemini://a b/").
Proof. eexists. vm_compute. reflexivity. Qed.
Example c04_example_ip6 :
  accepts (fun h => leqb h (s2b "::1")) (s2b "gemini://[::1]:1966")
          (mkC (s2b "gemini") (s2b "::1") (s2b "1966") 1966 [] [] []).
Proof. eexists. split; vm_compute; reflexivity. Qed.

(** C05.  "%00" is refused everywhere except in a fragment (35 is '#') or an
    address literal (91 is '['), which are not decoded. *)
Theorem c05_pct00_refused : forall ip6 a b c,
  nonul (a ++ [37; 48; 48] ++ b) -> bytes (a ++ [37; 48; 48] ++ b) ->
  accepts ip6 (a ++ [37; 48; 48] ++ b) c -> In 35 a \/ In 91 a.
Proof. exact pct00_rejected. Qed.
Print Assumptions c05_pct00_refused.

(** and what is decoded never contains a NUL: host and path characters *)
Theorem c05_decoded_nonul : forall src out,
  (items g_host true src out -> nonul out) /\ (items g_path true src out -> nonul out).
Proof. exact (fun src out => conj (items_nonul _ src out g_host_good) (items_nonul _ src out g_path_good)). Qed.
Print Assumptions c05_decoded_nonul.

Example c05_example : refuses (fun _ => false) (s2b "gemini://h/a%00b").
Proof. eexists. vm_compute. reflexivity. Qed.
Example c05_example2 : exists c, accepts (fun _ => false) (s2b "gemini://h/a%01b#%00") c.
Proof. eexists. eexists. split; vm_compute; reflexivity. Qed.

(** C06.  The scanner accepts exactly the RFC 3629 encodings of scalar values
    above U+007F, consumes exactly one, and computes its code point. *)
Theorem c06_utf8_exact : forall pre s junk pos', nonul s -> bytes s ->
  (exists e, valid_multibyte_utf8 (pre ++ s ++ 0 :: junk) (length pre) = OK (pos', true, e)) <->
  (exists cp r, scalar cp /\ 128 <= cp /\ s = utf8_encode cp ++ r /\
                pos' = (length pre + length (utf8_encode cp) - 1)%nat).
Proof. exact utf8_scan_iff. Qed.
Print Assumptions c06_utf8_exact.

Theorem c06_utf8_codepoint : forall pre cp r junk, scalar cp -> 128 <= cp -> nonul r -> bytes r ->
  utf8_loop (S (length (pre ++ (utf8_encode cp ++ r) ++ 0 :: junk)))
            (pre ++ (utf8_encode cp ++ r) ++ 0 :: junk) (length pre) 0 0
  = OK ((length pre + length (utf8_encode cp) - 1)%nat, 0, cp).
Proof. exact utf8_loop_cp. Qed.
Print Assumptions c06_utf8_codepoint.

(** U+20AC accepted; a surrogate and an overlong form refused *)
Example c06_example : valid_multibyte_utf8 [226; 130; 172; 65; 0] 0 = OK (2%nat, true, false).
Proof. vm_compute. reflexivity. Qed.
Example c06_example_bad : exists p q, valid_multibyte_utf8 [237; 160; 128; 0] 0 = OK (p, false, true)
  /\ valid_multibyte_utf8 [192; 175; 0] 0 = OK (q, false, true).
Proof. eexists _, _. split; vm_compute; reflexivity. Qed.

(** C07.  The port of an accepted request is the decimal value of its digits,
    at most 65535, or 1965 when there is none (58 is ':'). *)
Theorem c07_port_exact : forall ip6 s c, nonul s -> bytes s -> accepts ip6 s c ->
  (exists pre post, s = pre ++ post /\ (post = [] \/ hd 0 post = 47) /\ c_port c = [] /\ c_port_no c = 1965) \/
  (exists pre post, s = pre ++ 58 :: c_port c ++ post /\ (post = [] \/ hd 0 post = 47) /\
     forallb is_digit (c_port c) = true /\ c_port_no c = decimal (c_port c) /\ c_port_no c <= 65535).
Proof. exact port_exact. Qed.
Print Assumptions c07_port_exact.

Theorem c07_bad_port_refused : forall ip6 c0 sch hs out port rest,
  nonul ((c0 :: sch) ++ s2b "://" ++ hs ++ 58 :: port ++ rest) ->
  bytes ((c0 :: sch) ++ s2b "://" ++ hs ++ 58 :: port ++ rest) ->
  is_alpha c0 = true -> forallb g_scheme sch = true -> items g_host true hs out ->
  ~ In 47 port -> (rest = [] \/ hd 0 rest = 47) ->
  (forallb is_digit port = false \/ 65535 < decimal port) ->
  refuses ip6 ((c0 :: sch) ++ s2b "://" ++ hs ++ 58 :: port ++ rest).
Proof. exact bad_port_refused. Qed.
Print Assumptions c07_bad_port_refused.

(** a port that is given is the one used, whatever follows *)
Theorem c07_given_port_used : forall ip6 c0 sch hs out port rest path query frag,
  nonul ((c0 :: sch) ++ s2b "://" ++ hs ++ (58 :: port) ++ rest) ->
  bytes ((c0 :: sch) ++ s2b "://" ++ hs ++ (58 :: port) ++ rest) ->
  is_alpha c0 = true -> forallb g_scheme sch = true -> items g_host true hs out ->
  forallb is_digit port = true -> decimal port <= 65535 -> g_rest rest path query frag ->
  accepts ip6 ((c0 :: sch) ++ s2b "://" ++ hs ++ (58 :: port) ++ rest)
    (mkC (map to_lower (c0 :: sch)) (map to_lower out) port (decimal port) path query frag).
Proof.
  intros. apply accepts_iff; auto. constructor; auto; constructor; auto.
Qed.
Print Assumptions c07_given_port_used.

Example c07_example : exists c, accepts (fun _ => false) (s2b "gemini://h:65535/x") c /\ c_port_no c = 65535.
Proof. eexists. split; [eexists; split; vm_compute; reflexivity|reflexivity]. Qed.
Example c07_example_wrap : refuses (fun _ => false) (s2b "gemini://h:4294969261/x").
Proof. eexists. vm_compute. reflexivity. Qed.
