{"id": "C01", "title": "Requests cannot escape the document root", "statement": "If the server accepts a request IRI, the path it then hands to the filesystem, FastCGI and location matching is relative (does not start with '/') and has no empty (other than a trailing one), '.' or '..' segment, whatever mix of slashes, dots and percent-encodings was sent.", "quantifier": "every NUL-terminated request line", "why_tests_cant": "The claim ranges over every byte string of every length; tests sample a few.", "anchors": ["iri.c:parse_path", "iri.c:path_clean"]}
{"id": "C02", "title": "Path normalisation is segment-stack canonicalisation", "statement": "The normalised path is exactly what one gets by splitting the decoded path at '/', dropping empty and '.' segments, letting '..' remove the previous kept segment (and nothing at the root), and joining with '/', keeping one trailing slash iff the input ended with '/' and something is left; in particular it is idempotent.", "quantifier": "every path string", "why_tests_cant": "The claim ranges over every byte string of every length; tests sample a few.", "anchors": ["iri.c:path_clean"]}
{"id": "C03", "title": "IRI parsing is memory safe and terminates", "statement": "Parsing any NUL-terminated string in place never reads or writes outside the buffer, always terminates, never changes the buffer's size, and on success every component it returns is a NUL-terminated string inside the buffer.", "quantifier": "every NUL-terminated buffer", "why_tests_cant": "The claim ranges over every byte string of every length; tests sample a few.", "anchors": ["iri.c:parse_iri", "utf8.c:valid_multibyte_utf8"]}
{"id": "C04", "title": "IRI grammar: accepted requests are exactly the grammar", "statement": "parse_iri succeeds exactly on scheme '://' authority [':' port] ['/' path ['?' query] ['#' fragment]] with the character classes documented, and returns the components of that grammar: scheme and host lowercased, percent-escapes decoded in host and path, query and fragment untouched.", "quantifier": "every NUL-terminated string (non-IPv6-literal hosts; IPv6 literals are an oracle)", "why_tests_cant": "The claim ranges over every byte string of every length; tests sample a few.", "anchors": ["iri.c:parse_iri", "iri.c:parse_scheme", "iri.c:parse_authority", "iri.c:parse_path", "iri.c:parse_query"]}
{"id": "C05", "title": "Percent-decoding never produces a NUL byte", "statement": "%00 is rejected; decoding a percent-escape replaces it by the one byte it denotes, so no component can be silently cut short.", "quantifier": "every request", "why_tests_cant": "The claim ranges over every byte string of every length; tests sample a few.", "anchors": ["iri.c:valid_pct_enc_string", "iri.c:parse_pct_encoded"]}
{"id": "C06", "title": "UTF-8 validation accepts exactly well-formed UTF-8", "statement": "The multibyte scanner used on hosts, paths and queries accepts exactly the well-formed 2-, 3- and 4-byte UTF-8 sequences of RFC 3629 (no overlong forms, no surrogates, nothing above U+10FFFF, no truncation), consumes exactly that sequence, and decodes its code point.", "quantifier": "every byte string", "why_tests_cant": "The claim ranges over every byte string of every length; tests sample a few.", "anchors": ["utf8.c:utf8_decode", "utf8.c:valid_multibyte_utf8"]}
{"id": "C07", "title": "Port numbers are parsed exactly or rejected", "statement": "A port in a request is a string of decimal digits denoting a number not larger than 65535, its value is that number with no wrap-around; anything else is rejected. A missing port means 1965.", "quantifier": "every request", "why_tests_cant": "The claim ranges over every byte string of every length; tests sample a few.", "anchors": ["iri.c:parse_port"]}
{"id": "C08", "title": "Percent-encoding round-trip for listings and redirects", "statement": "encode_path never writes beyond its buffer, fails exactly when the encoded form does not fit, and when it succeeds the output contains only URI path characters and decodes back to the original name.", "quantifier": "every file name and buffer size", "why_tests_cant": "The claim ranges over every byte string of every length; tests sample a few.", "anchors": ["iri.c:encode_path", "iri.c:pct_decode_str"]}
{"id": "C09", "title": "Hostnames without punycode pass through decoding unchanged", "statement": "If every label of the host is shorter than 64 bytes and none starts with xn--, decoding yields the same host whenever it fits, and reports failure when it does not.", "quantifier": "every host name and output size", "why_tests_cant": "The claim ranges over every byte string of every length; tests sample a few.", "anchors": ["puny.c:puny_decode", "puny.c:decode"]}
{"id": "C10", "title": "Host decoding never overruns its output buffer", "statement": "Decoding a host writes only inside the output buffer and, on success, leaves a NUL-terminated string in it.", "quantifier": "every host name, every output size", "why_tests_cant": "Out-of-bounds writes need adversarial lengths no test tries.", "anchors": ["puny.c:decode", "puny.c:insert", "puny.c:puny_decode"]}
{"id": "C11", "title": "Host decoding never faults arithmetically", "statement": "Decoding a host never divides by zero or overflows.", "quantifier": "every host name", "why_tests_cant": "Needs one of 2^32 accumulator values.", "anchors": ["puny.c:adapt", "puny.c:decode"]}
{"id": "C12", "title": "Virtual host selection", "statement": "The virtual host of a connection is the first configured host (in match order) whose name or one of whose aliases matches the server name the client asked for in the TLS handshake (or, without one, the address connected to); if none matches, the client gets 59 and is served nothing, and before the handshake it is told and served nothing.", "quantifier": "every configuration, server name and request", "why_tests_cant": "The claim ranges over every byte string of every length; tests sample a few.", "anchors": ["server.c:match_host", "server.c:client_read"]}
{"id": "C13", "title": "Location options: first matching location that sets the option wins", "statement": "For every per-location option (lang, default type, index, auto index, block, root, strip, client ca, fastcgi, log) the effective value is that of the first matching location that sets it, else the server's.", "quantifier": "every list of locations and every path", "why_tests_cant": "The claim ranges over every byte string of every length; tests sample a few.", "anchors": ["server.c:vhost_lang", "server.c:vhost_default_mime", "server.c:vhost_index", "server.c:vhost_auto_index", "server.c:vhost_block_return", "server.c:vhost_fastcgi", "server.c:vhost_dirfd", "server.c:vhost_strip", "server.c:vhost_require_ca", "server.c:vhost_disable_log"]}
{"id": "C14", "title": "Client-certificate protected locations never leak", "statement": "If the location of the (normalised) requested path requires a client CA, then no file is opened, no FastCGI request made and no `block return` text produced unless a client certificate was presented (else 60) and verified against that CA (else 61).", "quantifier": "every configuration, request and verification outcome", "why_tests_cant": "The claim ranges over every byte string of every length; tests sample a few.", "anchors": ["server.c:client_read", "server.c:apply_require_ca"]}
{"id": "C15", "title": "Decision order of request handling", "statement": "Reverse proxy rules are consulted before anything else, then scheme/host validation, then client CA, block return, FastCGI, and only then the filesystem; exactly one handler produces the reply.", "quantifier": "every configuration and request", "why_tests_cant": "The claim ranges over every byte string of every length; tests sample a few.", "anchors": ["server.c:client_read"]}
{"id": "C16", "title": "Oversized or malformed requests are refused", "statement": "A request whose line exceeds 1024 bytes, contains a NUL, or is not a valid IRI gets exactly one 59 reply and is never dispatched, however the bytes arrive.", "quantifier": "every byte stream and fragmentation", "why_tests_cant": "The claim ranges over every way the kernel may fragment or delay I/O; tests see a handful of schedules.", "anchors": ["server.c:client_read"]}
{"id": "C17", "title": "Every reply begins with one well-formed header", "statement": "Every reply queued by the server starts with two digits, a space, meta and CRLF; meta is never longer than 1024 bytes; a meta that would not fit is replaced by a 40 reply.", "quantifier": "every code, meta, host and path", "why_tests_cant": "The claim ranges over every byte string of every length; tests sample a few.", "anchors": ["server.c:start_reply"]}
{"id": "C18", "title": "Header meta cannot be split by the requester", "statement": "The meta of a reply never contains CR or LF originating from the request.", "quantifier": "every configuration and request", "why_tests_cant": "Needs encoded CRLF in the path together with a redirect.", "anchors": ["server.c:apply_block_return", "server.c:fmtbuf", "server.c:redirect_canonical_dir"]}
{"id": "C19", "title": "Block-return format expansion", "statement": "`block return` meta is expanded by replacing %% %p %q %P %N by percent, decoded path, query, port and server name and nothing else is changed; output is truncated, never overrun.", "quantifier": "every format accepted by the configuration and every request", "why_tests_cant": "The claim ranges over every byte string of every length; tests sample a few.", "anchors": ["server.c:fmtbuf", "parse.y:check_block_fmt"]}
{"id": "C20", "title": "Directory redirect", "statement": "A directory requested without trailing slash is redirected to the same path plus '/', and a directory with an index file serves that file.", "quantifier": "every path", "why_tests_cant": "The claim ranges over every byte string of every length; tests sample a few.", "anchors": ["server.c:redirect_canonical_dir", "server.c:open_dir"]}
{"id": "C21", "title": "File bodies are transmitted exactly", "statement": "The bytes queued for a static file are the 20 header followed by exactly the file content, in order, whatever the sizes returned by read and by the TLS layer.", "quantifier": "every file and every short-read/short-write schedule", "why_tests_cant": "The claim ranges over every way the kernel may fragment or delay I/O; tests see a handful of schedules.", "anchors": ["server.c:client_write", "server.c:client_tls_writecb"]}
{"id": "C22", "title": "Directory listings are complete, sorted and encoded", "statement": "A listing contains exactly one '=> ./name' line per entry of the directory except '.' (and except '..' at the root), in sorted order, with the name percent-encoded so that following the link names the same entry.", "quantifier": "every directory content", "why_tests_cant": "The claim ranges over every byte string of every length; tests sample a few.", "anchors": ["dirs.c:scandir_fd", "utils.c:select_non_dot", "server.c:server_dir_listing", "server.c:client_write"]}
{"id": "C23", "title": "FastCGI parameters round-trip", "statement": "What a FastCGI application decodes from the PARAMS stream is exactly the list of name/value pairs the server set, in order; records are 8-byte padded and correctly sized.", "quantifier": "every list of names and values", "why_tests_cant": "The claim ranges over every byte string of every length; tests sample a few.", "anchors": ["fcgi.c:fcgi_send_param", "fcgi.c:prepare_header"]}
{"id": "C24", "title": "FastCGI replies are relayed independently of fragmentation", "statement": "The bytes relayed to the client depend only on the byte stream received from the FastCGI application, not on how it was split into reads. The first line of its standard output is the reply header (the language of the host being added to text/gemini); when the code is 20 the rest of the standard output follows verbatim, other codes send the header alone, and no valid header gives 42. Padding, record headers and STDERR never reach the client.", "quantifier": "every application byte stream and every split", "why_tests_cant": "The claim ranges over every way the kernel may fragment or delay I/O; tests see a handful of schedules.", "anchors": ["fcgi.c:fcgi_read", "fcgi.c:fcgi_handle_stdout"]}
{"id": "C25", "title": "FastCGI records of any size are framed correctly", "statement": "A parameter of any length is framed so that the application finds the next record.", "quantifier": "every parameter length", "why_tests_cant": "Needs parameters near 64 KiB.", "anchors": ["fcgi.c:fcgi_send_param"]}
{"id": "C26", "title": "Proxied replies are relayed verbatim", "statement": "Through the reverse proxy a success (code 20) of the upstream reaches the client byte for byte, header and body; of any other reply (codes 10-19 and 30-69) the client gets the header; a malformed, overlong or missing header gives 43. All of it independently of how the bytes of the upstream were split and interleaved with writes, as long as the header line is not exactly 1029 bytes long (no valid header is longer than 1027) and the code is not one of the reserved 21-29.", "quantifier": "every upstream stream and split", "why_tests_cant": "The claim ranges over every way the kernel may fragment or delay I/O; tests see a handful of schedules.", "anchors": ["proxy.c:proxy_read"]}
{"id": "C27", "title": "PROXY protocol v1 header parsing", "statement": "With `proxy-v1` on, exactly one header line is consumed from the stream, malformed ones are refused, and the remaining bytes reach TLS unchanged.", "quantifier": "every byte stream and split", "why_tests_cant": "The claim ranges over every way the kernel may fragment or delay I/O; tests see a handful of schedules.", "anchors": ["proxy-proto.c:proxy_proto_v1_parse", "server.c:read_cb"]}
{"id": "C28", "title": "MIME lookup", "statement": "The type sent for a file is the one configured for its extension (case-sensitively the text after the last dot), otherwise the configured default; sorting and bisection find a mapping iff one exists.", "quantifier": "every mapping table and file name", "why_tests_cant": "The claim ranges over every byte string of every length; tests sample a few.", "anchors": ["mime.c:mime", "mime.c:path_ext", "mime.c:sort_mime"]}
{"id": "C29", "title": "Server processes see exactly the parsed configuration", "statement": "Whatever configuration a server process had before, once the main process got through sending a new one the server process holds exactly that one: the same hosts, certificates, OCSP staples, addresses, aliases, locations with their environments and CAs, proxies, mime table, protocols and FastCGI list, in the order the main process has them (listening sockets in the opposite order), and it has acknowledged once; the crypto process holds the hash of each host's certificate with that host's key.", "quantifier": "every configuration, every set of files, every previous state of the receiver, any number of processes", "why_tests_cant": "The claim ranges over every byte string of every length; tests sample a few.", "anchors": ["config.c:config_send", "config.c:config_recv", "config.c:config_purge", "config.c:config_crypto_recv_kp", "gmid.c:main_configure"]}
{"id": "C30", "title": "Private keys never reach the network-facing processes", "statement": "Private keys are only handed to the crypto process, however far the transmission of a configuration gets: the only files server processes get are certificates, OCSP staples and CAs.", "quantifier": "every configuration and every point at which sending may fail", "why_tests_cant": "The claim ranges over every history of events; tests replay a few.", "anchors": ["config.c:config_send_kp", "config.c:config_send", "config.c:config_crypto_recv_kp", "crypto.c:crypto_dispatch_server"]}
{"id": "C31", "title": "Reload handshake", "statement": "While some worker has not acknowledged the last configuration further reload requests change nothing; as soon as all have, the next request is honoured, once; a reload that fails leaves the service as it was and able to reload later.", "quantifier": "every history of signals, acknowledgements, parse failures and transmission failures", "why_tests_cant": "The claim ranges over every history of events; tests replay a few.", "anchors": ["gmid.c:main_configure", "gmid.c:main_configure_done", "gmid.c:main_reload", "config.c:config_purge"]}
{"id": "C32", "title": "Inter-process messages survive any fragmentation", "statement": "The sequence of messages received on an imsg channel is exactly the sequence sent, whatever the sizes of reads and writes.", "quantifier": "every message sequence and fragmentation", "why_tests_cant": "The claim ranges over every way the kernel may fragment or delay I/O; tests see a handful of schedules.", "anchors": ["compat/imsg.c", "compat/imsg-buffer.c"]}
{"id": "C33", "title": "Passed file descriptors stay attached to their message", "statement": "A descriptor attached to a message is delivered with that message and no other.", "quantifier": "every message sequence", "why_tests_cant": "The claim ranges over every way the kernel may fragment or delay I/O; tests see a handful of schedules.", "anchors": ["compat/imsg-buffer.c:msgbuf_write", "compat/imsg-buffer.c:ibuf_read_process"]}
{"id": "C34", "title": "Macros: command line overrides the file", "statement": "A macro set on the command line (-D name=value, value without '=') keeps the value the first such option gives it, whatever the file assigns; any other macro has, where it is used, the value of the last assignment before that point in the file being read, and none if there is none.", "quantifier": "every sequence of definitions", "why_tests_cant": "The claim ranges over every history of events; tests replay a few.", "anchors": ["parse.y:symset", "parse.y:symget", "parse.y:cmdline_symset"]}
{"id": "C35", "title": "Process topology", "statement": "Each pair of processes that must talk gets exactly one connected socket pair and no two server instances are connected.", "quantifier": "every number of prefork instances", "why_tests_cant": "The claim ranges over every number of server processes; a test starts one.", "anchors": ["proc.c:proc_open", "proc.c:proc_connect"]}
{"id": "C36", "title": "Clients are identified uniquely", "statement": "As long as no connection stays open while 2^32 more are attempted, no two live connections share an id, so an id taken from a live connection identifies it and nothing else.", "quantifier": "every history of accepts and closes", "why_tests_cant": "The claim ranges over every history of events; tests replay a few.", "anchors": ["server.c:server_accept", "server.c:client_close", "server.c:client_tree_cmp", "gmid.h:struct client"]}
{"id": "C37", "title": "Bounded string copies", "statement": "strlcpy/strlcat never write outside the destination, always NUL-terminate when size permits, and return the length needed.", "quantifier": "every source, destination and size", "why_tests_cant": "The claim ranges over every byte string of every length; tests sample a few.", "anchors": ["compat/strlcpy.c", "compat/strlcat.c"]}
{"id": "C38", "title": "Strict decimal parsing", "statement": "strtonum accepts exactly decimal integers inside the bounds and returns their value.", "quantifier": "every string and bounds", "why_tests_cant": "The claim ranges over every byte string of every length; tests sample a few.", "anchors": ["compat/strtonum.c"]}
{"id": "C39", "title": "Listen addresses are deduplicated", "statement": "Each (family, type, protocol, address, port) named by the listen directives is listened on exactly once, and each server has each of its own addresses once, whatever repetitions there are; an address speaks the PROXY protocol iff its directives say so, and an error is reported iff two directives for the same address disagree about it.", "quantifier": "every list of server blocks and listen directives, and every answer of the resolver", "why_tests_cant": "The claim ranges over every byte string of every length; tests sample a few.", "anchors": ["parse.y:add_to_addr_queue", "parse.y:listen_on"]}
{"id": "C40", "title": "Substring search", "statement": "memmem returns the first occurrence of the needle in the haystack iff there is one, for needles of every length, and always ends without reading outside the two.", "quantifier": "every haystack and needle", "why_tests_cant": "The claim ranges over every byte string of every length; tests sample a few.", "anchors": ["compat/memmem.c"]}
{"id": "C41", "title": "Stripping path components", "statement": "`strip n` removes exactly the first n path components for the filesystem lookup and yields the empty path if there are fewer.", "quantifier": "every path and n", "why_tests_cant": "The claim ranges over every byte string of every length; tests sample a few.", "anchors": ["utils.c:strip_path"]}
{"id": "C42", "title": "The reverse-proxied request line is the request that was made", "statement": "The request sent upstream denotes the same resource the client asked for and is exactly one line.", "quantifier": "every request matching a proxy rule", "why_tests_cant": "The claim ranges over every byte string of every length; tests sample a few.", "anchors": ["iri.c:serialize_iri", "proxy.c:proxy_enqueue_req"]}
{"id": "C43", "title": "Suffix test", "statement": "ends_with(s, t) is true exactly when s ends with t.", "quantifier": "every pair of strings", "why_tests_cant": "Holds for every pair of lengths, including a suffix longer than the string.", "anchors": ["utils.c:ends_with"]}
{"id": "C44", "title": "Serialising an IRI reports truncation", "statement": "Writing an IRI into a buffer yields scheme://host/path[?query] and reports success exactly when all of it fitted.", "quantifier": "every IRI and buffer size", "why_tests_cant": "The interesting sizes depend on the lengths of four fields.", "anchors": ["iri.c:serialize_iri"]}
{"id": "C45", "title": "Internationalised host names decode per RFC 3492", "statement": "A host whose labels are plain or valid Punycode is decoded to exactly the Unicode labels RFC 3492 assigns, encoded in UTF-8 and joined by dots, when the result fits.", "quantifier": "every list of labels and every buffer size", "why_tests_cant": "Bias adaptation, insertion positions and UTF-8 widths interact over unboundedly many labels; tests check a handful of vectors.", "anchors": ["puny.c:puny_decode", "puny.c:decode", "puny.c:adapt", "puny.c:insert"]}
{"id": "C46", "title": "A FastCGI application sees the request that was made", "statement": "The environment a FastCGI application decodes describes the request: QUERY_STRING, host, port, path and address are those of the request; SCRIPT_NAME is the configured one and SCRIPT_NAME followed by PATH_INFO is the request path whenever the script name leads it; the search string is the percent-decoded query exactly when the query is non-empty and has no '='; certificate variables are present exactly when the client showed a certificate; configured parameters appear in order; PATH_TRANSLATED is the path info below the configured root, cut to what fits PATH_MAX, and empty without a root.", "quantifier": "every request, location and client certificate", "why_tests_cant": "The split of the path and the optional parameters depend on arbitrary paths, script names and parameter lists.", "anchors": ["fcgi.c:fcgi_req", "fcgi.c:path_translate"]}
{"id": "C47", "title": "One reply per connection", "statement": "At most one reply header is ever queued on a connection, whatever the client, the FastCGI applications, the upstreams and the scheduler do.", "quantifier": "every history of a connection", "why_tests_cant": "Histories are unbounded sequences of events in any order and with any data.", "anchors": ["server.c:start_reply", "server.c:client_read", "fcgi.c:fcgi_error", "proxy.c:proxy_error"]}
{"id": "C48", "title": "Every reply is logged exactly once", "statement": "The access log gets exactly one line per reply, with the code and meta of that reply, unless logging is disabled for the request.", "quantifier": "every history of a connection", "why_tests_cant": "Histories are unbounded sequences of events in any order and with any data.", "anchors": ["server.c:start_reply", "gmid.c:log_request"]}
{"id": "C49", "title": "A closed connection is never used again", "statement": "After the server has closed and freed a client connection, no callback for that client runs any more, so nothing reads or writes the freed state.", "quantifier": "every history of a connection", "why_tests_cant": "The order of callbacks is chosen by the peers and the kernel; tests see a few schedules.", "anchors": ["server.c:client_close", "fcgi.c:fcgi_read", "fcgi.c:fcgi_error", "proxy.c:proxy_read"]}
{"id": "C50", "title": "No undefined behaviour while serving", "statement": "With a configuration the parser accepts, no event on a connection leads to undefined behaviour: no out-of-bounds access, no use of unterminated or freed memory, no unbounded loop, whatever bytes the client, the applications and the upstreams send.", "quantifier": "every history of a connection", "why_tests_cant": "Histories are unbounded sequences of events in any order and with any data.", "anchors": ["server.c", "fcgi.c", "proxy.c", "iri.c", "puny.c"]}
{"id": "C51", "title": "The server does only what the configuration says", "statement": "Every file opened, every request given to a FastCGI application and every line sent upstream, at any moment of any history of a connection, is done for a request line the client sent, on the server selected by the name of the connection, after the reverse proxy rules, the server name, the client certificate and the block rules let it through; files are opened only below the root of a configured location of that server and the path never leaves it.", "quantifier": "every history of a connection, every behaviour of the peers and of the file system", "why_tests_cant": "Histories are unbounded sequences of events in any order and with any data.", "anchors": ["server.c:client_read", "server.c:apply_reverse_proxy", "server.c:apply_fastcgi", "server.c:apply_require_ca", "server.c:apply_block_return"]}
{"id": "C52", "title": "What an upstream gets before the request", "statement": "An upstream configured with `proxy-v1` is sent exactly one PROXY protocol header line, naming the client's address and port, before anything else; an upstream without it is sent nothing before the request (or before the TLS stream that carries it).", "quantifier": "every client address and port, every listener and upstream configuration, every way the client's own header was fragmented", "why_tests_cant": "It depends on how the kernel cuts the incoming stream and on the length of addresses; a test sees one of each.", "anchors": ["server.c:proxy_socket", "proxy.c:proxy_enqueue_req", "proxy.c:proxy_write_cb"]}
{"id": "C53", "title": "Each location talks to the FastCGI application it names", "statement": "After reading a configuration without errors, every fastcgi directive refers to exactly the socket (or host and port) written in it, and each distinct application appears once in the table the servers index; reading any sequence of fastcgi directives has no undefined behaviour.", "quantifier": "every sequence of fastcgi directives", "why_tests_cant": "The claim ranges over every sequence of directives and every text in them; tests replay a few.", "anchors": ["parse.y:fastcgi_conf", "gmid.h:struct fcgi"]}
{"id": "C54", "title": "Private key operations are answered to whoever asked", "statement": "However many server processes ask the crypto process for private key operations, in whatever order, each gets for its requests, in order, exactly what the private key of the certificate it named yields; nobody dies, neither of an operation that fails, nor of a reload, nor of what a misbehaving server process sends.", "quantifier": "every number of server processes and every interleaving of requests, answers and reconfigurations", "why_tests_cant": "The claim ranges over every interleaving of processes; tests see a handful of schedules.", "anchors": ["crypto.c:crypto_dispatch_server", "crypto.c:rsae_send_imsg", "crypto.c:ecdsae_send_enc_imsg", "crypto.c:get_pkey"]}
{"id": "C55", "title": "The access log follows the configuration in force", "statement": "After any history of reloads and log rotations the logger writes to the file the configuration in force names (below its chroot), and to none iff it names none.", "quantifier": "every history of signals and configuration files", "why_tests_cant": "The claim ranges over every history of signals; tests replay a few.", "anchors": ["gmid.c:main_send_logfd", "gmid.c:main_reload", "gmid.c:main", "config.c:config_purge"]}
{"id": "C56", "title": "Text is quoted for the log without loss and without overflow", "statement": "Quoting a string for the log writes only inside the buffer given, leaves a terminated string of printing non-blank characters that decodes to a prefix of the original in exactly one way, keeps as much as fits, and returns the length of the complete quoted text.", "quantifier": "every string and every buffer size", "why_tests_cant": "All byte strings and sizes, in particular escapes that straddle the end of the buffer.", "anchors": ["compat/vis.c:strnvis", "compat/vis.c:vis", "compat/vis.c:isvisible"]}
{"id": "C57", "title": "Access log lines have the documented form", "statement": "Every line of the access log has the fields gmid.conf(5) documents for the configured style, in that order: host, remote address, Common Name of the client certificate (quoted, a dash if there is none), time, request URI, code, meta and the sizes of request and response; composing it has no undefined behaviour.", "quantifier": "every style, request, reply and client certificate", "why_tests_cant": "All requests, certificates subjects and server name indications, including those refused before there is a request.", "anchors": ["gmid.c:log_request", "logger.c:logger_dispatch_server"]}
{"id": "C58", "title": "One line in the log file per reply", "statement": "Each logged reply adds exactly one line to the log file: its text reaches the logger whole and contains no newline chosen by the requester.", "quantifier": "every history of a connection and every request", "why_tests_cant": "All request paths and queries, and all field lengths against the message size limit.", "anchors": ["gmid.c:log_request", "logger.c:logger_dispatch_server", "iri.c:parse_path"]}
{"id": "C59", "title": "Certificate shown is the host's", "statement": "On every address the server offers the certificates of exactly the hosts configured to listen there; a client is only ever shown one of them, and if the name it asks for is the name on the certificate of the host that will answer, it is shown that host's certificate.", "quantifier": "every configuration, set of listening addresses, certificates and server name", "why_tests_cant": "Ranges over all sets of hosts, certificates, wildcard patterns and orders; tests have one or two hosts.", "anchors": ["server.c:add_matching_kps", "server.c:setup_tls", "compat/libtls/tls_server.c:tls_servername_cb"]}
{"id": "C60", "title": "Names a certificate is good for", "statement": "The bundled libtls accepts a certificate for a name exactly when one of its DNS alternative names (or, if it has none, its common name) equals it ignoring case, or is a wildcard whose star stands for exactly the first label and which has at least two labels after it; for an IP address exactly when an IP alternative name is that address.", "quantifier": "every certificate and every name", "why_tests_cant": "All byte strings, all lengths and all lists of alternative names.", "anchors": ["compat/libtls/tls_verify.c:tls_check_name", "compat/libtls/tls_verify.c:tls_match_name"]}
{"id": "C61", "title": "Hosts answer on their own addresses only", "statement": "A virtual host answers requests only on connections accepted on an address it was configured to listen on.", "quantifier": "every configuration, connection and history", "why_tests_cant": "All combinations of hosts, names and addresses and every history of a connection.", "anchors": ["server.c:handle_handshake", "server.c:match_host"]}
{"id": "C62", "title": "Only the document roots of the configuration", "statement": "From the configuration file to openat(2): whatever happens on any connection, every file a server opens for it lies below the document root of a location of the configuration the main process parsed.", "quantifier": "every configuration, every history of a connection", "why_tests_cant": "Every configuration, every sequence of requests and environment responses, across two processes.", "anchors": ["config.c:config_send", "config.c:config_recv", "server.c:load_vhosts", "server.c:client_read"]}
{"id": "C63", "title": "No connection is left hanging", "statement": "As long as a connection is open, somebody is to move: the client owes the handshake or the rest of its request, or the server is sending, or an application or upstream whose connection is open owes more of its reply.", "quantifier": "every configuration and every history of a connection", "why_tests_cant": "Every interleaving of reads, writes and backend events; the bug is that nothing happens.", "anchors": ["server.c:client_read", "server.c:client_write", "server.c:start_reply", "fcgi.c:fcgi_error", "fcgi.c:fcgi_read", "proxy.c:proxy_error", "proxy.c:proxy_init"]}
{"id": "C64", "title": "Replies come to an end", "statement": "Once a reply depends on no backend any more, finitely many writes to the client, however short each is, close the connection; a client that goes away has its connection closed at once.", "quantifier": "every configuration, history and sequence of write sizes and read(2) results", "why_tests_cant": "All fragmentations of the output and all read results; termination is not testable.", "anchors": ["server.c:client_write", "server.c:client_error", "server.c:client_close", "server.c:start_reply"]}
{"id": "C65", "title": "Connections keep their hands off each other", "statement": "In a process that serves many connections at once, each close(2) is of a descriptor open for the connection that closes it, each event handler is registered on a descriptor open for its own connection, none outlives its connection, and no descriptor of a connection is open once it is gone.", "quantifier": "every order in which the callbacks of any number of connections run and every choice of descriptor numbers by the kernel", "why_tests_cant": "Needs a particular interleaving of connections and reuse of descriptor numbers; all of them must be fine.", "anchors": ["server.c:client_close", "server.c:client_close_ev", "server.c:client_proxy_close", "server.c:open_dir", "dirs.c:scandir_fd", "fcgi.c:fcgi_error", "proxy.c:proxy_error", "server.c:server_accept"]}
{"id": "C66", "title": "A TLS upstream gets the request only after it proved its name", "statement": "A reverse proxy that is to speak TLS to its upstream sends it nothing of the client's request unless a TLS handshake with it was completed; and unless the block says `verifyname off', the upstream showed in it a certificate for the configured name (`sni' or else the `relay-to' host, without final dot). A well-formed certificate for that name is accepted. Without a `verifyname' option names are verified, and the last such option decides.", "quantifier": "all histories of a connection, all results of the calls of the TLS library, all certificates, names and proxy blocks", "why_tests_cant": "a single order of events or form of certificate in which the request leaks before or without the check would go unnoticed by tests with one upstream", "anchors": ["proxy.c: proxy_setup_tls, proxy_handshake, proxy_enqueue_req", "compat/libtls/tls_client.c: tls_handshake_client, tls_connect_common", "parse.y: proxy_opt", "server.c: apply_reverse_proxy"]}
{"id": "C67", "title": "`protocols' enables the versions it names", "statement": "A `protocols' string is refused exactly if one of its comma or colon separated words names no version; otherwise the last word that mentions a version of TLS decides whether it is on (off if written with `!'), and versions nobody mentions are on exactly if the first word switches something off. No version before TLS 1.2 is ever on.", "quantifier": "all strings", "why_tests_cant": "unboundedly many words in any order, case and with blanks", "anchors": ["compat/libtls/tls_config.c: tls_config_parse_protocols", "compat/libtls/tls.c: tls_configure_ssl", "compat/libtls/tls.h", "parse.y: proxy_opt, option"]}
{"id": "C68", "title": "The configuration lexer ends on every file and stays in its buffer", "statement": "Whatever bytes the configuration file and the files it includes contain, and whatever macros the configuration defines, each request for a token returns: no endless macro expansion, no write outside of the token buffer, no lookup outside of the table of reserved words. This holds as long as no -D macro has the byte 2 in its value; with one that has it, gmid may loop for ever.", "quantifier": "all file contents, all included files, all sequences of tokens read, errors reported, files included and macros defined from the strings read, all -D macros without the byte 2", "why_tests_cant": "termination over macro values that are pushed back onto the input and over arbitrary bytes (including the internal expansion marks) is not a matter of samples", "anchors": ["parse.y: yylex, lgetc, igetc, lungetc, findeol, popfile, pushfile, lookup, symset, symget"]}
{"id": "C69", "title": "The configuration is read as the words, strings, numbers and macros written in it", "statement": "A configuration whose text is written by the rules of gmid.conf(5) (reserved words, bare words, quoted strings with backslashes, numbers, comments, line continuations, $macro and @macro) is read as exactly the tokens it spells, with a final end of line even if the last one is missing, and without an error; an included file stands for its own tokens. Exceptions shown: a number followed by ';' is a string, numbers are reduced to 32 bits, a NUL byte ends the configuration silently, '$' is not expanded inside an '@' expansion.", "quantifier": "all texts that spell a list of tokens by the rules, all macro tables, all includes", "why_tests_cant": "the set of texts is infinite and the escape, number/word, macro and end-of-file rules interact at every boundary between tokens", "anchors": ["parse.y: yylex, lgetc, lookup, keywords, pushfile, popfile", "gmid.conf.5"]}
{"id": "C70", "title": "A valid configuration file means what its statements say", "statement": "If a configuration file, together with the files it includes and the macros it and the command line define, is written in the language of gmid.conf(5) and its statements are valid (lengths, absolute paths, codes, a certificate and key for each server, addresses and services that resolve), then gmid -n style parsing reports no error and yields exactly the configuration the statements describe: the last of repeated options wins, list options accumulate in order, options of a location apply to it, each server listens on the addresses it names (or the defaults), each FastCGI application appears once.", "quantifier": "all configuration texts in the language with all includes (nested to any depth), macro definitions and expansions, all lists of servers, locations, proxies, types and options, all results of the resolver", "why_tests_cant": "the language is infinite; the meaning depends on the interplay of lexer, includes, macro table, yacc actions and shared tables (addresses, FastCGI applications, MIME types) over any list of statements", "anchors": ["parse.y: grammar, conf, include, varset, option, logopt, vhost, servopt, proxy, proxy_match, proxy_opt, location, locopt, fastcgi, types, mediaopts, parse_conf, listen_on, fastcgi_conf, add_param", "config.c: config_new", "gmid.conf.5"]}
{"id": "C71", "title": "A configuration that is accepted is well formed, and reaches the servers as it is", "statement": "Whatever the text of the configuration and of the files it includes (as long as they have no NUL byte), if gmid accepts it then the configuration is complete and in bounds: every string fits its buffer, prefork is 1 to 15, every server has a name, an absolute certificate and key path, at least one address, no address twice, each in the daemon's table in the same PROXY mode, and a first location for everything; block codes are 10-19 or 30-69 with a text whose placeholders are all known; every FastCGI reference is to an application of the table; every proxy has a host and a certificate and a key or neither. Once the main process has sent it, each server process has exactly that. A NUL byte in an included file makes gmid forget the errors reported before it (shown).", "quantifier": "all texts, included files, macros without NUL bytes; all resolver and service answers; all later transmissions that complete", "why_tests_cant": "this is about every text, valid or not, including unbalanced, repeated and interleaved blocks: errors are only counted and parsing goes on, so an unchecked path anywhere would let a half-made configuration through", "anchors": ["parse.y: grammar, parse_conf, check_block_fmt, check_block_code, ensure_absolute_path, listen_on, add_to_addr_queue, fastcgi_conf, popfile", "config.c: config_send", "server.c: fmtbuf"]}
{"id": "C72", "title": "titan(1) sends the request and the whole file, and its exit status is the server's verdict", "statement": "titan either refuses to run (status 1, nobody contacted) when the url is not a titan url, does not fit, the file cannot be read or a key is given without a certificate; or connects to the host and port of the url (1965 by default) with the given certificate and sends the request line titan://host/path;size=N[;token=T][;mime=M][?query] and the file, and nothing else, in this order, however few bytes the connection takes at a time. If the server answers and closes, the exit status is 0 for 2x and 3x (the target printed), 2 for the other codes, 1 when the answer is no answer; 0 and 2 happen in no other case. Refuted: files larger than BUFSIZ are never sent whole and titan waits for ever; an encoded line break in the url splits the request.", "quantifier": "all urls, options, file contents and sizes, BUFSIZ, and all results of poll, tls_read and tls_write in any order and fragmentation, for ever", "why_tests_cant": "depends on how the TLS library splits reads and writes, on the file size relative to a system constant and on every url; a test sees a few sizes and one schedule", "anchors": ["titan.c: main, iomux, parse_response, open_input_file, dial", "iri.c: parse_iri, serialize_iri", "titan.1"]}
{"id": "C73", "title": "gg(1) fetches what was asked, prints what -d says and exits with the server's code", "statement": "gg either refuses to run (status 1, nobody contacted) when the options contradict each other, the certificate cannot be loaded, or the url is not valid or longer than 1024 bytes; or, with -n, exits 0 without contacting anybody; or connects to the proxy, else to the host and port of the url (1965 by default), with the name, name check, certificate and protocols chosen, and sends the url as typed, CRLF and nothing else, however few bytes are taken at a time. If the server answers and closes, stdout is the body, the code, the header, the meta text or the whole answer as -d says, the status is 0 for 2x and the code otherwise, and the server's text reaches the terminal without control characters; what is no answer gives 1 and no output. Status 0 happens in no other case, and at any time stdout is a prefix of what was asked. Refuted: a connection closed without an answer gives 255 instead of 1, and an answer 00 gives 0.", "quantifier": "all urls, options and proxies, all results of tls_handshake, tls_write and tls_read in any order and fragmentation, for ever, any locale", "why_tests_cant": "depends on how the TLS library splits the answer relative to the 2048 byte buffer and on every url; a test sees a few answers in one piece", "anchors": ["gg.c: main, get, doreq, dorep, safeprint, connectto, parse_proxy, parse_debug, load_tls_conf", "iri.c: parse_iri", "gg.1"]}
{"id": "C74", "title": "The table of connections is a map and never leads to freed memory", "statement": "Whatever connections a server process accepts, refuses, closes and frees, in whatever order, and even when the 32 bit counter of ids wraps and two open connections share an id: no operation on the table of connections reads or writes memory that is not an allocated connection's, each ends, and what can be reached through the table is open (neither closed nor freed). If no connection stays open while 2^32 others are attempted, the table has exactly the open connections. As a data structure, any sequence of insertions, removals and lookups returns what it would on a map from ids.", "quantifier": "every history of accepts, refusals, closes and frees, every reuse of memory by the allocator, every sequence of table operations and every assignment of keys", "why_tests_cant": "A splay tree restructures itself at every access; a wrong link shows only for particular shapes reached by particular histories, and sharing an id needs 2^32 connections.", "anchors": ["compat/tree.h:SPLAY_GENERATE", "server.c:client_tree_cmp", "server.c:server_accept", "server.c:client_close", "server.c:client_close_ev"]}
{"id": "C75", "title": "gemexp exports the directory it is given and nothing else", "statement": "gemexp [-d dir] [-H host] [-p port] [-R] [dir] exports the directory named on the command line (relative names are below the current directory; without one, the current directory itself). A client that connects under any server name and asks for that name gets what is at the path below that directory: a file with the type of its extension (application/octet-stream if none), for a directory its index.gmi or a listing, 51 if there is nothing; a request for another name or another scheme gets 53; nothing outside that directory is opened, no application is run, nothing is proxied, no client certificate is asked for. It listens on exactly those addresses of the host and port that can be bound, and shows the same certificate on all of them. The last -d, -H, -p counts; a bad port, an unknown option, -h and -V end the program before it does anything. The certificates are kept in the directory of -d, else in $XDG_DATA_HOME/gemexp, else in ~/.local/share/gemexp; missing directories of these are created one by one.", "quantifier": "every command line, environment, result of every system call, every configuration of addresses, every client, request, split of the request into reads, and history of events", "why_tests_cant": "The claims are about what never happens (opening something else, asking for a certificate) for any request; the truncation needs names near PATH_MAX, and the recursion that does not end needs unusual environments.", "anchors": ["ge.c:main", "ge.c:serve", "ge.c:mkdirs", "ge.c:data_dir", "utils.c:absolutify_path", "server.c:server_configure_done"]}
{"id": "C76", "title": "gemexp's certificate is made once and kept", "statement": "If both the certificate and the key of the host can be read, gemexp uses exactly those and writes nothing. Otherwise it generates a key and a certificate for that key, and uses what it has written; every later run then uses the same. No other file is changed. If generation fails, it exits with a failure and leaves neither file. If it is interrupted at any point, a later run never uses a certificate that is not of the key next to it.", "quantifier": "every disk, host, directory, answer of the cryptographic library and of the file system, and every point at which the program may be interrupted", "why_tests_cant": "The crash point is any step between the two files, including each byte written, and the effect shows only in a later run.", "anchors": ["ge.c:load_local_cert", "utils.c:gencert"]}
{"id": "C77", "title": "Connections open across a reload", "statement": "When the configuration is reloaded while connections are open, every reply that has begun (file, listing, application's or upstream's answer) is completed byte for byte as if there had been no reload, nothing more is done or logged for that connection, and a request still to come on an open connection is answered as the old or the new configuration says.", "quantifier": "all configurations before and after, all numbers and points in time of reloads, all events of the connection in between, all contents of memory that the reload releases", "why_tests_cant": "a test reloads at a few chosen moments, with one allocator; the claim is for every interleaving of reloads and connection events and for whatever happens to be in released memory", "anchors": ["config.c:config_purge", "config.c:config_recv", "server.c:client_write", "server.c:start_reply", "server.c:handle_handshake", "fcgi.c:fcgi_read", "proxy.c:proxy_read"]}
{"id": "C78", "title": "gmid starts the right processes and each gives up its privileges", "statement": "A gmid that starts with the documented options has, besides the main process, exactly as many server processes as `prefork' says (numbered from 0), one crypto process and one logger. If the configuration names a user, each of them, before it does any work, is that user and only that user (real, effective and saved ids, one group) and sees only what is below the chroot, which is the user's home if none is configured; if any of the calls for that fails, the process ends. Root can always get there (no call comes after the one that takes the right for it away), and a process that got there has no way back unless the user is root himself. gmid refuses to start if a user is named and it is not root or the user does not exist, and if a chroot is set without a user. The configuration file is the last -c (or /etc/gmid.conf), the pid file the last -P, relative names from the current directory; -h and -V and wrong options end it. Two reservations, shown: the internal options -U and -X are ignored by the main process but handed on to the others, so `gmid -U root' runs them as root whatever the configuration says; and a user with an empty home makes every process end with a usage message.", "quantifier": "all command lines, configurations, user databases, both getopt(3) conventions; every subset of the calls failing", "why_tests_cant": "the processes are started with an argument vector made from the configuration and the user's own arguments and parsed again by the same program: the claim is about every command line and every user name and path in it; privilege is about every later call the process could make", "anchors": ["gmid.c: main, proc_id lookup, usage, opts", "proc.c: proc_init, proc_exec, proc_run, proc_getid", "utils.c: absolutify_path"]}
{"id": "C79", "title": "gmid -n: config OK means what it says, and nothing is started", "statement": "With -n gmid never starts a daemon. It reports `config OK' and exits with 0 exactly if the file (the last -c, or the default) is accepted, the user named can be switched to, the certificate and the key of every server can be read and, for each address, libtls accepts the certificates of the servers that listen there, and the root of every location can be opened (below the chroot if there is one). It does not mean that the daemon will start: a missing OCSP staple, for example, is not looked at (shown).", "quantifier": "all command lines, configuration texts, file systems, user databases and answers of libtls", "why_tests_cant": "an equivalence over all configurations and file systems; the test of the code goes through the same loading code as the servers, with early exits that could skip a server, an address or a location", "anchors": ["gmid.c: main", "config.c: config_test, config_open_fd", "server.c: setup_tls, load_vhosts, load_default_mime"]}
{"id": "C80", "title": "One daemon per pid file, and the file holds its pid", "statement": "Of any number of gmid started with the same -P file, in whatever order their system calls interleave and whenever any of them ends, at most one gets past the lock as long as nobody removes the file; while it runs the file holds its pid in decimal and a newline and nothing else (for longer pids written before, too); another one started meanwhile ends when it tries to lock, and has changed nothing. Two reservations, shown: if the file is removed a second daemon starts; on a full disk the daemon runs with an empty or cut pid file.", "quantifier": "all interleavings of the calls of any number of processes, all ends and failures of calls", "why_tests_cant": "a race between processes: the claim is about every interleaving of open, lock, truncate and write", "anchors": ["gmid.c: write_pidfile"]}
{"id": "C81", "title": "The processes end together", "statement": "As long as no process of gmid fails or is killed and nobody asks the daemon to end, all of them go on. Once one of them has ended for whatever reason (or the main one got SIGTERM or SIGINT), then whatever order things happen in and whatever the servers were doing, even if they were waiting for an answer of the crypto process, the others end too: as long as one is left something more happens by itself, and only a bounded number of such things can happen. With -f the main process is the last to end unless it is killed itself. As a daemon it is not (shown): it does not wait, so for a while servers are left that have the sockets open while the pid file is already unlocked.", "quantifier": "all numbers of servers, all interleavings of failures, signals, ends of file on the sockets between the processes, and questions to the crypto process", "why_tests_cant": "a liveness claim over every interleaving of failures and notifications of n+3 processes, where a missed one would leave orphans with the keys or the sockets", "anchors": ["gmid.c: main, main_sig_handler, main_shutdown", "proc.c: proc_kill, proc_close, proc_shutdown, proc_sig_handler, proc_run, proc_dispatch, proc_init, proc_open", "crypto.c: rsae_send_imsg, ecdsae_send_enc_imsg"]}
{"id": "C82", "title": "The lists of the configuration survive every reload", "statement": "However hosts, locations, aliases, parameters, proxies, addresses, FastCGI servers and keys are added, by the parser or by the messages of a reload, and however often the configuration is purged: no memory that is not allocated is read or written, every list when walked gives exactly its objects in the order they were put there, a purge frees everything that was added since the one before exactly once, and nothing else is freed.  A message about a host or a location when there was none since the reload started ends the process instead.", "quantifier": "all histories of additions and purges of any length, all choices of calloc(3), all sequences of reload messages that have no parameter of a location before the first host of a reload", "why_tests_cant": "Use after free, double free and leaks of linked lists depend on the whole history; a test sees a few configurations and the allocator it has.", "anchors": ["compat/queue.h:TAILQ_INSERT_HEAD", "compat/queue.h:TAILQ_INSERT_TAIL", "compat/queue.h:TAILQ_REMOVE", "config.c:config_new", "config.c:config_purge", "config.c:config_recv", "utils.c:new_vhost", "utils.c:new_location", "parse.y:listen_on"]}
{"id": "C83", "title": "The processes are confined before they do any work", "statement": "On Linux, whatever the version of Landlock and whichever calls fail: a server, crypto or logger process that gets to its event loop has already dropped its privileges and confined itself. A server can then only read files and directories beneath its root; the crypto and logger processes cannot open, create, remove, execute or change any file. If the confinement fails the process ends; it goes on unconfined only if the kernel says it has no Landlock. The confinement never keeps a process from starting, nor a server from reading beneath its root.", "quantifier": "all versions of Landlock, all failures of the system calls, all files, all access rights, all confinements already in force, with and without a user and a chroot", "why_tests_cant": "It is about every file and every right and depends on the kernel; a test machine has one kernel, and what a process does not try is not seen.", "anchors": ["sandbox.c:landlock_init", "sandbox.c:landlock_unveil", "sandbox.c:landlock_lock", "sandbox.c:sandbox_server_process", "sandbox.c:sandbox_crypto_process", "sandbox.c:sandbox_logger_process", "proc.c:proc_run", "server.c:server_init"]}
{"id": "C84", "title": "A message buffer gives back exactly what was put into it", "statement": "Whatever is done with a message buffer, in any order and with any sizes and positions up to 2^64 - 1: no memory outside of the buffer is read or written, what is read is what was written and not yet read, in order, numbers come back as they were put in, an operation that does not fit fails and changes nothing, the buffer grows up to its maximum and not further, and memory of someone else never grows.", "quantifier": "all sequences of operations (add, add zeros, set, truncate, rewind, get, get a string, skip, size, left, numbers of 1, 2, 4 and 8 bytes), all contents, sizes and positions, all three ways to make a buffer", "why_tests_cant": "The bounds are checked with arithmetic that wraps around at 2^64, and the state depends on the whole history; no test goes through all of them.", "anchors": ["compat/imsg-buffer.c:ibuf_open", "compat/imsg-buffer.c:ibuf_dynamic", "compat/imsg-buffer.c:ibuf_reserve", "compat/imsg-buffer.c:ibuf_add", "compat/imsg-buffer.c:ibuf_seek", "compat/imsg-buffer.c:ibuf_set", "compat/imsg-buffer.c:ibuf_truncate", "compat/imsg-buffer.c:ibuf_get", "compat/imsg-buffer.c:ibuf_skip", "compat/imsg-buffer.c:ibuf_from_buffer"]}
{"id": "C85", "title": "Arrays grow without losing, changing or leaking anything", "statement": "When an array is enlarged (reallocarray, recallocarray): a number of elements times their size that does not fit in a size_t is refused, and only then; if there is no memory nothing changes; otherwise the elements that have room are the same, new ones of recallocarray are zero, the old memory of recallocarray was wiped, and no other memory is touched. So the table of media types holds, whatever was put into it and whatever memory was refused, exactly the pairs that were accepted, in order, every pair that fits is accepted if there is memory, and no memory is left when it is freed.", "quantifier": "all numbers and sizes below 2^64, all contents, all answers of malloc(3), all sequences of media types and extensions of any length", "why_tests_cant": "The check for overflow must be exact for 2^128 pairs of numbers, and the failures of malloc can come at any moment; tests run with small tables and enough memory.", "anchors": ["compat/reallocarray.c:reallocarray", "compat/recallocarray.c:recallocarray", "mime.c:init_mime", "mime.c:add_mime", "mime.c:free_mime"]}
{"id": "C86", "title": "The memory of a directory listing is released", "statement": "Reading a directory never touches memory that is not its own. If it fails, which it does only if the system refused something, it leaves nothing behind. Otherwise the listing shows each entry selected once, with its type and name, and when the connection ended, for whatever reason, all the memory is free again.", "quantifier": "all directories (number, length and order of names, size of the directory file), all selections, all answers of malloc(3) and fstat(2), whatever order qsort(3) makes, and a client that leaves before or after the listing was written", "why_tests_cant": "The array grows with the directory and memory can be refused at each entry; a leak shows only after many requests by clients that go away at the right moment.", "anchors": ["dirs.c:scandir_fd", "dirs.c:select_non_dot", "dirs.c:select_non_dotdot", "server.c:server_dir_listing", "server.c:client_write", "server.c:client_close_ev"]}
{"id": "C87", "title": "The hash of a client certificate is SHA256: and the digest in hexadecimal", "statement": "The hash of the client's certificate that FastCGI applications get is SHA256: followed by two lower case digits for every byte of the digest; two certificates with different digests have different texts; no memory outside of the text's is written, none is lost, and it fails only if there is no memory.", "quantifier": "all digests of all lengths, all answers of malloc(3)", "why_tests_cant": "That no two digests have the same text, and that no byte is written outside, is about all digests.", "anchors": ["compat/libtls/tls_conninfo.c:tls_hex_string", "compat/libtls/tls.c:tls_cert_hash"]}
{"id": "C88", "title": "timingsafe_memcmp orders like memcmp", "statement": "The result of timingsafe_memcmp is 0 exactly if the two texts are equal, negative if the first byte that differs is smaller in the first one, and positive if it is larger.", "quantifier": "all pairs of texts of the same length", "why_tests_cant": "It is bit arithmetic on signed numbers without a branch, about all pairs of texts.", "anchors": ["compat/timingsafe_memcmp.c:timingsafe_memcmp"]}
{"id": "C89", "title": "Private keys are released wiped", "statement": "Whatever is done with a TLS configuration (keypairs set, added, keys replaced or cleared, references taken and given back), from memory or from files and whatever memory the system refuses: it uses no memory but its own, frees everything exactly once when the last reference is given back, holds in order the certificates, keys and staples it was given, fails only if something it needs is refused, and never leaves a private key in freed memory. A file is loaded whole or not at all.", "quantifier": "every sequence of operations on a configuration, every certificate, key, staple and file, every pattern of refused memory, every function for the hash of a public key", "why_tests_cant": "what is left behind in freed memory cannot be seen by a test, and every failure at every point of every sequence matters", "anchors": ["compat/libtls/tls_keypair.c: tls_keypair_new, tls_keypair_pubkey_hash, tls_keypair_clear_key, tls_keypair_set_cert_mem, tls_keypair_set_key_mem, tls_keypair_free", "compat/libtls/tls_util.c: memdup, tls_set_mem, tls_load_file, tls_unload_file", "compat/libtls/tls_config.c: tls_config_load_file, tls_config_new_internal, tls_config_free, tls_config_clear_keys, tls_config_add_keypair_mem_internal, tls_config_set_keypair_mem_internal", "compat/freezero.c", "config.c: config_purge"]}
{"id": "C90", "title": "Access log goes where the configuration says", "statement": "Whatever messages the main process and the server processes send the logger, in whatever order and with whatever descriptors attached: each request is written as one line to the file the main process opened for its last configuration, or to none if that has no log, and to syslog with the facility and only if the configuration says so; nothing else is written. Server processes cannot redirect the log. The logger never uses a descriptor that is not open, holds no more than the log and what it has yet to look at, closes the previous log when it gets a new one, and goes away only on a message that is not for it.", "quantifier": "every sequence of messages from either kind of process, with and without descriptors, every order of handling them, every choice of descriptor numbers by the system", "why_tests_cant": "leaks and reuse of descriptors depend on the whole history of reloads and on how messages of several processes interleave", "anchors": ["logger.c: logger_dispatch_parent, logger_dispatch_server, logger_shutdown", "gmid.c: main_send_logfd", "proc.c: proc_dispatch", "compat/imsg-buffer.c: ibuf_free, ibuf_fd_get"]}
