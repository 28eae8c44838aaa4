{
 "claims": [
  {
   "property": "C01",
   "status": "proved",
   "theorems": [
    "c01_path_never_escapes"
   ],
   "note": "for every NUL-terminated request; IPv6-literal acceptance (getaddrinfo) is an arbitrary function"
  },
  {
   "property": "C02",
   "status": "proved",
   "theorems": [
    "c02_clean_is_canon",
    "c02_canon_idempotent"
   ],
   "note": ""
  },
  {
   "property": "C03",
   "status": "proved",
   "theorems": [
    "c03_parse_safe"
   ],
   "note": ""
  },
  {
   "property": "C04",
   "status": "proved",
   "theorems": [
    "c04_accepts_iff_grammar",
    "c04_refuses_iff_not_grammar"
   ],
   "note": ""
  },
  {
   "property": "C05",
   "status": "proved",
   "theorems": [
    "c05_pct00_refused",
    "c05_decoded_nonul"
   ],
   "note": ""
  },
  {
   "property": "C06",
   "status": "proved",
   "theorems": [
    "c06_utf8_exact",
    "c06_utf8_codepoint"
   ],
   "note": ""
  },
  {
   "property": "C07",
   "status": "proved",
   "theorems": [
    "c07_port_exact",
    "c07_given_port_used",
    "c07_bad_port_refused"
   ],
   "note": "an empty port (\"host:\") denotes 0 in the code, as in the spec decimal []"
  },
  {
   "property": "C08",
   "status": "proved",
   "theorems": [
    "c08_encode_path",
    "c08_encode_roundtrip",
    "c08_pct_decode_str"
   ],
   "note": ""
  },
  {
   "property": "C09",
   "status": "partial",
   "theorems": [
    "c09_plain_partial",
    "c09_long_label_refused",
    "c09_too_long_refuted"
   ],
   "note": "unchanged when it fits; the failure half is refuted: a host that does not fit can be reported as decoded"
  },
  {
   "property": "C10",
   "status": "partial",
   "theorems": [
    "c10_safe_partial",
    "c10_overrun_refuted",
    "c10_unterminated_refuted"
   ],
   "note": "safe when the buffer exceeds 4 times the host; refuted for the 254-byte buffer gmid uses: out-of-bounds write"
  },
  {
   "property": "C11",
   "status": "partial",
   "theorems": [
    "c11_adapt_partial",
    "c11_valid_partial",
    "c11_div_by_zero_refuted"
   ],
   "note": "no fault on valid labels; refuted in general: xn--vz891716a divides by zero"
  },
  {
   "property": "C12",
   "status": "proved",
   "theorems": [
    "c12_first_match",
    "c12_selects_unique",
    "c12_proxy_first_match",
    "c12_handshake",
    "c12_before"
   ],
   "note": "for all histories of a connection; fnmatch(3) is an arbitrary function"
  },
  {
   "property": "C13",
   "status": "partial",
   "theorems": [
    "c13_governed",
    "c13_lang",
    "c13_default_type",
    "c13_index",
    "c13_auto_index",
    "c13_block",
    "c13_root",
    "c13_strip",
    "c13_client_ca",
    "c13_fastcgi",
    "c13_log_off",
    "c13_log_refuted"
   ],
   "note": "proved for every option but log: a location cannot switch logging back on (refuted)"
  },
  {
   "property": "C14",
   "status": "proved",
   "theorems": [
    "c14_protected"
   ],
   "note": "the request line may arrive in any pieces; reverse proxy rules come first, as in the code"
  },
  {
   "property": "C15",
   "status": "proved",
   "theorems": [
    "c15_decision",
    "c15_exactly_one"
   ],
   "note": "the decision table of ServerSpec.v is an independent relation; two listings may differ in the order of equal names"
  },
  {
   "property": "C16",
   "status": "proved",
   "theorems": [
    "c16_malformed",
    "c16_oversize",
    "c16_long_line",
    "c16_waits",
    "c16_no_second_reply"
   ],
   "note": "for every fragmentation of the request"
  },
  {
   "property": "C17",
   "status": "partial",
   "theorems": [
    "c17_one_header",
    "c17_header_is_reply",
    "c17_too_long",
    "c17_pipelined_refuted"
   ],
   "note": "proved for every history in which the client sends nothing while a FastCGI application works on its request; false otherwise (refuted): a second header appears in the body"
  },
  {
   "property": "C18",
   "status": "partial",
   "theorems": [
    "c18_one_line_partial",
    "c18_refuted",
    "c18_redirect_refuted"
   ],
   "note": "proved for request lines without %0A and %0D; false with them: they are decoded and reach block return texts and directory redirects"
  },
  {
   "property": "C19",
   "status": "partial",
   "theorems": [
    "c19_expansion_partial",
    "c19_port_refuted",
    "c19_expansion_unique",
    "c19_wf_expands",
    "c19_check_exact",
    "c19_check_code",
    "c19_safe",
    "c19_bounded",
    "dec_value"
   ],
   "note": "proved for ports up to 32767; larger ports are printed negative because the address stores an int16_t (refuted)"
  },
  {
   "property": "C20",
   "status": "partial",
   "theorems": [
    "c20_redirect",
    "c20_target_refuted"
   ],
   "note": "proved as stated; following the redirect may lead elsewhere because the path is sent decoded (refuted)"
  },
  {
   "property": "C21",
   "status": "partial",
   "theorems": [
    "c21_file_partial",
    "c21_short_read_refuted"
   ],
   "note": "proved for every schedule of the TLS layer when read(2) returns all it was asked for or all that is left; a short read before the end cuts the body (refuted)"
  },
  {
   "property": "C22",
   "status": "proved",
   "theorems": [
    "c22_listing",
    "c22_complete",
    "c22_link"
   ],
   "note": "for every schedule; entry names have at most NAME_MAX (255) bytes"
  },
  {
   "property": "C23",
   "status": "proved",
   "theorems": [
    "c23_params_roundtrip",
    "c23_padded"
   ],
   "note": "for parameters that fit one record; larger ones are C25"
  },
  {
   "property": "C24",
   "status": "proved",
   "theorems": [
    "c24_split",
    "c24_relayed",
    "c24_header_only",
    "c24_too_long",
    "c24_malformed",
    "c24_no_header",
    "c24_nothing_yet",
    "c24_all_sent",
    "c24_reserved_refuted"
   ],
   "note": "for every schedule in which the client sends nothing more (see C47); the reserved codes 21 to 29 lose what comes in later records (refuted separately)"
  },
  {
   "property": "C25",
   "status": "partial",
   "theorems": [
    "c25_length_field_partial",
    "c25_any_length_refuted"
   ],
   "note": "the length field is the size modulo 65536, so the claim is false above 65535 bytes (refuted)"
  },
  {
   "property": "C26",
   "status": "proved",
   "theorems": [
    "c26_split",
    "c26_relayed",
    "c26_header_only",
    "c26_too_long",
    "c26_malformed",
    "c26_no_header",
    "c26_nothing_yet",
    "c26_all_sent",
    "c26_reserved_refuted",
    "c26_1029_refuted"
   ],
   "note": "for every schedule and whatever else the client sends; the two exceptions in the statement are refuted separately"
  },
  {
   "property": "C27",
   "status": "partial",
   "theorems": [
    "c27_consumes",
    "c27_accepts",
    "c27_delivered",
    "c27_refused",
    "c27_safe",
    "c27_lenient_refuted",
    "c27_unknown_refuted",
    "c27_wait_refuted"
   ],
   "note": "proved for every stream and every fragmentation, for lines that name an address; some malformed lines are accepted, UNKNOWN reads an uninitialised variable and libtls is told to wait for bytes already read (refuted)"
  },
  {
   "property": "C28",
   "status": "proved",
   "theorems": [
    "c28_total",
    "c28_mapped",
    "c28_mapped_ambiguous",
    "c28_unmapped",
    "c28_table",
    "c28_table_refuses",
    "c28_defaults"
   ],
   "note": "qsort(3) is any sorted permutation"
  },
  {
   "property": "C29",
   "status": "proved",
   "theorems": [
    "c29_servers",
    "c29_crypto",
    "c29_retry_refuted"
   ],
   "note": "for every configuration and every previous state; if sending gives up half way the next attempt can kill the crypto process (refuted separately: the statement assumes sending completes)"
  },
  {
   "property": "C30",
   "status": "partial",
   "theorems": [
    "c30_host_keys",
    "c30_no_key_message",
    "c30_proxy_key_refuted"
   ],
   "note": "proved for the keys of the hosts; the client keys of proxies are handed to every server process (refuted)"
  },
  {
   "property": "C31",
   "status": "partial",
   "theorems": [
    "c31_handshake_partial",
    "c31_failed_parse_refuted",
    "c31_failed_send_refuted",
    "c31_missing_file_refuted"
   ],
   "note": "proved for histories without failures; after a syntax error acknowledgements are miscounted, after a failed transmission no reload is ever honoured, and a missing certificate ends the daemon (all refuted)"
  },
  {
   "property": "C32",
   "status": "proved",
   "theorems": [
    "c32_stream",
    "c32_drains"
   ],
   "note": "for every message sequence, every fragmentation and whatever the kernel does with descriptors"
  },
  {
   "property": "C33",
   "status": "partial",
   "theorems": [
    "c33_fds_partial",
    "c33_never_wrong",
    "c33_short_refuted",
    "c33_linux_refuted"
   ],
   "note": "proved for kernels where descriptors are barriers (BSD) and reads that get a whole header with the descriptor; a shorter read loses it, and on Linux it can be attached to an earlier message (both refuted)"
  },
  {
   "property": "C34",
   "status": "proved",
   "theorems": [
    "c34_macro_value",
    "c34_cmdline",
    "c34_equals_refuted"
   ],
   "note": "for every sequence of definitions; a -D value that contains = ends up in another macro (refuted separately, excluded from the statement)"
  },
  {
   "property": "C35",
   "status": "proved",
   "theorems": [
    "c35_topology",
    "c35_isolated"
   ],
   "note": "for every number of servers"
  },
  {
   "property": "C36",
   "status": "proved",
   "theorems": [
    "c36_unique_ids",
    "c36_wrap_refuted"
   ],
   "note": "for every history of accepts and closes; without the hypothesis the counter wraps (refuted separately)"
  },
  {
   "property": "C37",
   "status": "proved",
   "theorems": [
    "c37_strlcpy",
    "c37_strlcat",
    "c37_strlcat_full"
   ],
   "note": ""
  },
  {
   "property": "C38",
   "status": "proved",
   "theorems": [
    "c38_strtonum",
    "c38_strtonum_error_is_zero"
   ],
   "note": "strtoll(3) itself is modelled from its manual, not from libc code"
  },
  {
   "property": "C39",
   "status": "proved",
   "theorems": [
    "c39_once",
    "c39_proxy",
    "c39_port"
   ],
   "note": "for every sequence of directives and every answer of getaddrinfo"
  },
  {
   "property": "C40",
   "status": "proved",
   "theorems": [
    "c40_memmem_first"
   ],
   "note": "Every haystack and needle, the empty one included; needles of five bytes and more go through the two-way search (TwoWay.v). The model returns UB on a read outside the haystack or the needle or of an uninitialised shift entry and Fuel if the search did not end, so the theorem rules those out."
  },
  {
   "property": "C41",
   "status": "partial",
   "theorems": [
    "c41_strip_partial",
    "c41_strip_more_is_strip_one",
    "c41_strip_refuted"
   ],
   "note": "the code is wrong for n>=2: it behaves as n=1; proved both ways"
  },
  {
   "property": "C42",
   "status": "partial",
   "theorems": [
    "c42_upstream_line",
    "c42_same_resource_partial",
    "c42_one_line_refuted",
    "c42_same_resource_refuted"
   ],
   "note": "the line sent is characterised exactly; the property holds when nothing was percent-encoded and the port is default, and is refuted otherwise"
  },
  {
   "property": "C43",
   "status": "proved",
   "theorems": [
    "c43_ends_with"
   ],
   "note": ""
  },
  {
   "property": "C44",
   "status": "partial",
   "theorems": [
    "c44_serialize_fits_partial",
    "c44_truncation_unreported_refuted"
   ],
   "note": "exact when it fits; truncation with an empty path is reported as success"
  },
  {
   "property": "C45",
   "status": "proved",
   "theorems": [
    "c45_decodes_rfc3492"
   ],
   "note": "whenever the decoded host leaves 59 spare bytes (copy_label compares the label length with the space left)"
  },
  {
   "property": "C46",
   "status": "proved",
   "theorems": [
    "c46_request_described",
    "c46_translated",
    "c46_pathinfo_relative_refuted"
   ],
   "note": "proved as stated; a stronger claim (PATH_INFO always empty or absolute, RFC 3875) is refuted"
  },
  {
   "property": "C47",
   "status": "partial",
   "theorems": [
    "c47_one_reply_partial",
    "c47_one_reply_refuted"
   ],
   "note": "proved for polite clients; a client that pipelines a line behind a FastCGI request gets two replies (refuted)"
  },
  {
   "property": "C48",
   "status": "proved",
   "theorems": [
    "c48_logged",
    "c48_all_logged",
    "c48_logged_partial"
   ],
   "note": "for all histories, polite or not; the text of the lines is C57 and C58"
  },
  {
   "property": "C49",
   "status": "partial",
   "theorems": [
    "c49_nothing_after_close_partial",
    "c49_use_after_free_refuted"
   ],
   "note": "proved for polite clients; two pipelined FastCGI requests leave an event pointing to the freed client (refuted)"
  },
  {
   "property": "C50",
   "status": "partial",
   "theorems": [
    "c50_no_ub_partial"
   ],
   "note": "for polite clients and hosts the punycode decoder copes with (C10, C11), given a sound configuration and libc"
  },
  {
   "property": "C51",
   "status": "proved",
   "theorems": [
    "c51_only_what_is_configured",
    "c51_opens"
   ],
   "note": "for all histories, polite or not"
  },
  {
   "property": "C52",
   "status": "partial",
   "theorems": [
    "c52_preamble_partial",
    "c52_notls",
    "c52_garbage_refuted",
    "c52_leak_refuted",
    "c52_long_refuted"
   ],
   "note": "proved on listeners without proxy-v1 and for upstreams without TLS; on a proxy-v1 listener a TLS upstream gets garbage or memory behind the buffer (refuted); no header is sent when addresses are too long (refuted)"
  },
  {
   "property": "C53",
   "status": "partial",
   "theorems": [
    "c53_right_application",
    "c53_safe_partial",
    "c53_null_port_refuted"
   ],
   "note": "the right application is proved for all directives; the parser crashes if the same text names a Unix socket after it named a host with a port (refuted)"
  },
  {
   "property": "C54",
   "status": "partial",
   "theorems": [
    "c54_answers",
    "c54_failed_operation_refuted",
    "c54_reload_refuted",
    "c54_hostile_refuted"
   ],
   "note": "proved for all interleavings of well-behaved servers between reconfigurations; a failed RSA operation kills the server, a reload during a handshake kills the crypto process, a compromised server can corrupt it (all refuted)"
  },
  {
   "property": "C55",
   "status": "partial",
   "theorems": [
    "c55_log_partial",
    "c55_home_refuted",
    "c55_failed_parse_refuted"
   ],
   "note": "proved for histories of correct files that name their chroot; false when the chroot is the home of the user, and after a syntax error (refuted)"
  },
  {
   "property": "C56",
   "status": "partial",
   "theorems": [
    "c56_strnvis_partial",
    "c56_one_byte_refuted"
   ],
   "note": "for the flags gmid uses and buffers of at least two bytes (it uses 64); with a one byte buffer the return value hides the truncation (refuted)"
  },
  {
   "property": "C57",
   "status": "partial",
   "theorems": [
    "c57_line_partial",
    "c57_cn_refuted",
    "c57_null_host_refuted"
   ],
   "note": "the line is characterised exactly; the sizes are always logged as 0; the Common Name is wrong unless it is the first component of the subject, and a null pointer is printed for a client with a bad SNI (both refuted)"
  },
  {
   "property": "C58",
   "status": "partial",
   "theorems": [
    "c58_one_line_partial",
    "c58_lines_partial",
    "c58_fits",
    "c58_forged_refuted"
   ],
   "note": "proved for requests without encoded newlines; %0A in the path forges log lines (refuted)"
  },
  {
   "property": "C59",
   "status": "partial",
   "theorems": [
    "c59_offered",
    "c59_every_address",
    "c59_shown",
    "c59_listening",
    "c59_right_certificate_partial",
    "c59_other_host_refuted"
   ],
   "note": "which certificate is shown is characterised exactly; it is the right one if one host only has a certificate for the name; with a wildcard certificate after the first host another host certificate is shown (refuted)"
  },
  {
   "property": "C60",
   "status": "proved",
   "theorems": [
    "c60_certificate",
    "c60_no_error",
    "c60_one_label"
   ],
   "note": "X.509 parsing is an oracle giving the list of names"
  },
  {
   "property": "C61",
   "status": "partial",
   "theorems": [
    "c61_partial",
    "c61_served_elsewhere_refuted"
   ],
   "note": "the host is chosen by name only, whatever the address; proved when names do not overlap across addresses, refuted in general"
  },
  {
   "property": "C62",
   "status": "proved",
   "theorems": [
    "c62_roots",
    "c62_end_to_end"
   ],
   "note": "from the parsed configuration through the messages, the receiver and the connection automaton to openat"
  },
  {
   "property": "C63",
   "status": "partial",
   "theorems": [
    "c63_moves_partial",
    "c63_decided_partial",
    "c63_hangs_refuted"
   ],
   "note": "for applications that do not close in the middle of a reply whose sent part has been passed on (and clients that do not pipeline); refuted without: fcgi_error sets DONE and nothing ever writes or closes"
  },
  {
   "property": "C64",
   "status": "proved",
   "theorems": [
    "c64_ends",
    "c64_gone"
   ],
   "note": "a number of writes bounds the rest of the connection; names of directory entries fit (entry_name)"
  },
  {
   "property": "C65",
   "status": "partial",
   "theorems": [
    "c65_no_leak_partial",
    "c65_closes_partial",
    "c65_events_partial",
    "c65_late_partial",
    "c65_listing_refuted",
    "c65_fastcgi_refuted",
    "c65_late_refuted",
    "c65_leak_refuted"
   ],
   "note": "proved for processes that list no directory, have no FastCGI reply end before its client, and no waiting TLS close of an upstream; each reservation is refuted by a run with lowest-number descriptors"
  },
  {
   "property": "C66",
   "status": "proved",
   "theorems": [
    "c66_verified",
    "c66_accepted",
    "c66_default"
   ],
   "note": "SSL_connect is an oracle; the chain of certificates is never verified (insecure_noverifycert), as documented"
  },
  {
   "property": "C67",
   "status": "partial",
   "theorems": [
    "c67_last_word_partial",
    "c67_refuses",
    "c67_no_old",
    "c67_restarts_refuted",
    "c67_old_names_refuted"
   ],
   "note": "the last word decides unless a ! comes when everything was already switched off, which starts over from everything (refuted); the names of old versions stand for TLS 1.2 (refuted)"
  },
  {
   "property": "C68",
   "status": "proved",
   "theorems": [
    "c68_lexer_ends",
    "c68_loops"
   ],
   "note": "Every lexer state the parser can reach (tokens, errors, includes, macro definitions in any order, any bytes). c68_loops is the refutation for a -D macro that has the byte 2 in it. The grammar that drives the lexer: C70."
  },
  {
   "property": "C69",
   "status": "partial",
   "theorems": [
    "c69_spelled",
    "c69_included",
    "c69_number_semicolon",
    "c69_number_wraps",
    "c69_nul_ends",
    "c69_not_nested"
   ],
   "note": "Proved for all texts the rules spell. Partial: what a text that breaks the rules is read as is only settled for the four exceptions; numbers beyond 32 bits are outside of the rule."
  },
  {
   "property": "C70",
   "status": "proved",
   "theorems": [
    "c70_configuration",
    "c70_served"
   ],
   "note": "Against the language and meaning of GramSpec.v (conf_text, valid_stmt, means). c70_case in Gram_Case.v shows a configuration with an include, macros, types, fastcgi and proxy blocks that meets the hypotheses. c70_served composes with C29."
  },
  {
   "property": "C71",
   "status": "proved",
   "theorems": [
    "c71_accepted",
    "c71_block_texts",
    "c71_served",
    "c71_nul_refuted",
    "c71_check_refuted"
   ],
   "note": "Proved under the stated condition (no NUL bytes; the resolver never answers with an empty list). The last two are the refutations without it and for a lone % at the end of a block text."
  },
  {
   "property": "C72",
   "status": "partial",
   "theorems": [
    "c72_safe",
    "c72_request",
    "c72_refused",
    "c72_exit_status",
    "c72_exit_sound",
    "c72_whole_file_partial",
    "c72_whole_file_refuted",
    "c72_ends_refuted",
    "c72_one_line_refuted"
   ],
   "note": "Everything but \"the whole file is sent\", which holds for files of at most BUFSIZ bytes and is refuted for all larger ones (titan then never ends), and one line per request, refuted for urls with an encoded line break."
  },
  {
   "property": "C73",
   "status": "partial",
   "theorems": [
    "c73_safe",
    "c73_request",
    "c73_refused",
    "c73_check_only",
    "c73_output",
    "c73_garbage",
    "c73_exit_sound",
    "c73_output_prefix",
    "c73_no_answer_refuted",
    "c73_zero_refuted"
   ],
   "note": "All of it but the two refuted corners of the EXIT STATUS section: no answer at all (255) and code 00 (0)."
  },
  {
   "property": "C74",
   "status": "proved",
   "theorems": [
    "c74_map",
    "c74_connections",
    "c74_complete"
   ],
   "note": "On memory with pointers, addresses reused by the allocator, __node on the stack. The histories are those where malloc returns unused memory, only open connections are closed and each is freed once after that (what Server.v and Fds.v show of the callbacks). c74_connections also ties the tree to the table of C36."
  },
  {
   "property": "C75",
   "status": "partial",
   "theorems": [
    "c75_serves",
    "c75_nothing_else",
    "c75_any_name",
    "c75_root_partial",
    "c75_root_refuted",
    "c75_listens",
    "c75_options",
    "c75_stops",
    "c75_mkdirs",
    "c75_mkdirs_ends",
    "c75_by_address",
    "c75_ends_partial",
    "c75_ends_refuted"
   ],
   "note": "All for the code as it is. Missing because false: an absolute name of PATH_MAX bytes or more is cut silently and another directory exported (c75_root_refuted); with a relative XDG_DATA_HOME or HOME the program recurses for ever (c75_ends_refuted); a client that connects to the address, giving no name, gets 53 for everything (c75_by_address, proved as it is). fnmatch(3) is assumed to match everything with \"*\", qsort(3) to sort."
  },
  {
   "property": "C76",
   "status": "partial",
   "theorems": [
    "c76_kept",
    "c76_generated",
    "c76_again",
    "c76_elsewhere",
    "c76_failed",
    "c76_crash_partial",
    "c76_crash_refuted",
    "c76_failure_keeps_refuted",
    "c76_mixed_refuted"
   ],
   "note": "All but the interrupted generation, false of the code: an empty or cut certificate, or the old certificate with a new key, is then used for ever; a failed generation also deletes a certificate that was there."
  },
  {
   "property": "C77",
   "status": "partial",
   "theorems": [
    "c77_goes_on",
    "c77_done",
    "c77_file",
    "c77_listing",
    "c77_refuted"
   ],
   "note": "Proved for replies that have begun and requests already passed to an upstream. Missing because false: config_purge frees the hosts, locations and proxies that open connections point to, so a request that comes after the reload (or an answer of a FastCGI application whose header has not come yet) is treated by whatever is in the freed memory (c77_refuted)."
  },
  {
   "property": "C78",
   "status": "partial",
   "theorems": [
    "c78_children_partial",
    "c78_daemon_partial",
    "c78_privileges",
    "c78_possible",
    "c78_for_good",
    "c78_refuses",
    "c78_options",
    "c78_command_line",
    "c78_ends",
    "c78_any_command_line_refuted",
    "c78_homeless_refuted"
   ],
   "note": "Proved for the documented options and users with a home. Missing because false: -U, -X, -T, -I, -J given by the user are ignored by the main process and obeyed by the others; with an empty home and no chroot the others end with a usage message. getopt(3) is modelled in both conventions (POSIX, permuting)."
  },
  {
   "property": "C79",
   "status": "proved",
   "theorems": [
    "c79_only_looks",
    "c79_config_ok",
    "c79_startable_refuted"
   ],
   "note": "Exactly the stated equivalence; file system, X.509 parser and libtls are arbitrary. The last is the refutation of the stronger reading. What -nn prints is not modelled."
  },
  {
   "property": "C80",
   "status": "proved",
   "theorems": [
    "c80_one",
    "c80_content",
    "c80_content_partial",
    "c80_other",
    "c80_removed_refuted",
    "c80_full_disk_refuted"
   ],
   "note": "For all interleavings; fcntl locks, ftruncate and write as POSIX has them. c80_content is for disks with room; c80_content_partial says what is left without."
  },
  {
   "property": "C81",
   "status": "partial",
   "theorems": [
    "c81_calm",
    "c81_together",
    "c81_bounded",
    "c81_last_partial",
    "c81_last_refuted"
   ],
   "note": "All but that the main process is the last, which is false of the daemon: daemon(3) forks after the other processes were started, so they are not its children and waitpid(2) returns at once. On the sockets of C35, once every process has got its own."
  },
  {
   "property": "C82",
   "status": "proved",
   "theorems": [
    "c82_lists",
    "c82_purge",
    "c82_reload",
    "c82_tail_refuted",
    "c82_reload_env_refuted"
   ],
   "note": "Proved on memory with pointers. calloc(3) returns any address not in use. Only the pointers of the lists are modelled: the strings and X.509 stores the objects own are not. The two refutations show that the order conditions are needed."
  },
  {
   "property": "C83",
   "status": "proved",
   "theorems": [
    "c83_confined",
    "c83_after_drop",
    "c83_reads",
    "c83_unconfined",
    "c83_starts",
    "c83_absent",
    "c83_truncate_refuted"
   ],
   "note": "For the Landlock version of sandbox.c. The rights a kernel cannot restrict (truncate(2) before version 3, ioctl(2) on devices) are excepted in the theorem. pledge(2) is not modelled."
  },
  {
   "property": "C84",
   "status": "proved",
   "theorems": [
    "c84_open",
    "c84_dynamic",
    "c84_from_buffer",
    "c84_number",
    "c84_round",
    "c84_nothing_refuted"
   ],
   "note": "Refinement of a list of bytes with a read mark, for all three ways to make a buffer. Allocation does not fail; what realloc(3) adds has arbitrary content. A buffer that has no memory yet refuses to have nothing added (the specification says so; last theorem)."
  },
  {
   "property": "C85",
   "status": "proved",
   "theorems": [
    "c85_overflow",
    "c85_reallocarray",
    "c85_recallocarray",
    "c85_table"
   ],
   "note": "On memory: blocks that were freed and what is behind a block may not be used; malloc(3) answers as it likes and gives any content; realloc(3) always moves. cap * 1.5 is exact for the tables a machine with less than 2^57 bytes can hold."
  },
  {
   "property": "C86",
   "status": "partial",
   "theorems": [
    "c86_listing_partial",
    "c86_leak_refuted"
   ],
   "note": "Everything but a client that leaves before the listing was written: then only the array is freed, and the entries never (refuted, for every directory). Less than 2^31 entries. qsort(3) makes some permutation."
  },
  {
   "property": "C87",
   "status": "proved",
   "theorems": [
    "c87_text",
    "c87_injective"
   ],
   "note": "The digest is given; asprintf(3) makes its text in memory of its own."
  },
  {
   "property": "C88",
   "status": "proved",
   "theorems": [
    "c88_order",
    "c88_equal"
   ],
   "note": "The bit operations are those of two's complement. That the time does not depend on the contents is not stated."
  },
  {
   "property": "C89",
   "status": "proved",
   "theorems": [
    "c89_config",
    "c89_new",
    "c89_no_key_left",
    "c89_load_file",
    "c89_purge_refuted"
   ],
   "note": "Keypairs of a tls_config on a memory where freed blocks keep what was in them. c89_purge_refuted: config_purge, which is not part of libtls, frees the keys of hosts as they are."
  },
  {
   "property": "C90",
   "status": "proved",
   "theorems": [
    "c90_total",
    "c90_descriptors",
    "c90_lines",
    "c90_trust",
    "c90_fatal",
    "c90_shutdown",
    "c90_reload"
   ],
   "note": "The messages of a channel may be handled in any order, which includes the one they were sent in; the system numbers descriptors as it likes, not as one that is open. Writes to the file and to syslog succeed."
  }
 ]
}