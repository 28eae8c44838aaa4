(** When the server is free of undefined behaviour: what is asked of the
    configuration, of the system and of the peers. *)
From Coq Require Import Permutation Sorting.Sorted.
From Verif Require Import Base Compat Iri IriSpec IriObs IriOut Puny Conf ConfSpec Mime MimeSpec Fmt FmtSpec Fcgi Server ServerSpec RequestSpec HistorySpec Decide_Proofs.
Local Open Scope N_scope.

(** a configuration the parser let through (C19, C28): codes and texts of
    `block return', sorted MIME table; qsort(3) sorts; [e_junk] is the stack
    buffer of proxy_enqueue_req, of its size *)
Definition fmts_ok (v : vhost) : Prop := Forall (fun l => l_block_code l <> 0 -> wf_fmt (l_block_fmt l)) (v_loc0 v :: v_locs v).
Record sound_env (E : env) : Prop := mkSound {
  so_codes : conf_ok E;
  so_fmts : Forall fmts_ok (c_hosts (e_conf E));
  so_mime : exists t, sort_mime t (c_mime (e_conf E));
  so_sort : sort_ok E;
  so_junk : length (e_junk E) = GEMINI_URL_LEN }.

(** what the system hands over: bytes; names without NUL *)
Definition name_ok (n : list N) : Prop := nonul n /\ bytes n.
Inductive node_ok : node -> Prop :=
| nk_missing : node_ok NMissing
| nk_bad : node_ok NBad
| nk_file b c : bytes c -> node_ok (NFile b c)
| nk_dir look es : (forall x, node_ok (look x)) -> (forall l, es = Some l -> Forall (fun d => name_ok (fst d)) l) -> node_ok (NDir look es).

(** a host name puny.c copes with (see C10 and C11 for those it does not) *)
Definition tame (h : list N) : Prop :=
  (exists out, puny_decode h DOMAIN_NAME_LEN = OK (Ret false out)) \/
  (exists out d, puny_decode h DOMAIN_NAME_LEN = OK (Ret true out) /\ cstr out = Some d).

Definition event_ok (E : env) (c : client) (e : event) : Prop :=
  match e with
  | EvHandshake (Some sni) => tame sni
  | EvRead chunk fs => bytes chunk /\ (forall fd p, node_ok (fs fd p)) /\
      forall line rest i, first_line (c_in c ++ chunk) line rest -> accepts (e_ip6 E) line i -> tame (c_host i)
  | _ => True
  end.

(** histories of such events *)
Inductive sound_history (E : env) : list event -> client -> Prop :=
| s_new : sound_history E [] fresh
| s_step es e c c' : sound_history E es c -> polite_step c e -> event_ok E c e -> step E e c = Some (OK c') -> sound_history E (es ++ [e]) c'.
