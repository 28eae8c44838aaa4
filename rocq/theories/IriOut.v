(** Model of the producers of IRIs: serialize_iri (iri.c) and the request line
    the reverse proxy sends (proxy.c).  [encode_path] and [pct_decode_str] are
    in Iri.v. *)
From Verif Require Import Base Compat Iri IriSpec.
Local Open Scope N_scope.

(** gmid.h:62 — GEMINI_URL_LEN *)
Definition GEMINI_URL_LEN : nat := 1027.

(** iri.c:422-447 — [serialize_iri] for an iri whose fields are all non-NULL
    (what parse_iri leaves); [buf] is the caller's uninitialised buffer of
    [len] bytes.  The fields are C strings. *)
Definition z (s : list N) : list N := s ++ [0].
Definition serialize_iri (c : comps) (buf : list N) (len : nat) : res (bool * list N) :=
  let* (_, b) := strlcpy buf (z (c_scheme c)) len in
  let* (_, b) := strlcat b (z (s2b "://")) len in
  let* (_, b) := strlcat b (z (c_host c)) len in
  let* (_, b) := strlcat b (z (s2b "/")) len in
  let* (l, b) := strlcat b (z (c_path c)) len in
  match c_query c with
  | [] => OK ((l <? len)%nat, b)
  | _ => let* (_, b) := strlcat b (z (s2b "?")) len in
         let* (l, b) := strlcat b (z (c_query c)) len in
         OK ((l <? len)%nat, b)
  end.

(** proxy.c:228-262 — [proxy_enqueue_req]: the bytes queued for the upstream
    by the last two statements, "%s\r\n" of the serialised IRI; its return
    value is ignored, as in the code.  [buf0] is the uninitialised [iribuf]. *)
Definition proxy_request_line (c : comps) (buf0 : list N) : res (list N) :=
  let* (_, b) := serialize_iri c buf0 GEMINI_URL_LEN in
  match cstr b with Some l => OK (l ++ [13; 10]) | None => UB end.
