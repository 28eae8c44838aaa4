# gmid: a Rocq model and its theorems

## Method

* Model files (`rocq/theories/*.v` without suffix) contain total, executable
  Gallina functions, one per C function, each citing `file:lines` of /repo.
* `*_Spec.v` / the head of `Prop_*.v` files hold the independent specification.
* `*_Proofs.v` hold the lemmas; `Prop_*.v` hold only the property theorems
  (closed by `exact`), `Print Assumptions` and the non-vacuity examples.
* Undefined behaviour is a distinct outcome: `res A := OK a | UB | Fuel`.
  Reading or writing outside a buffer, dividing by zero and signed overflow
  yield `UB`; a loop that would not terminate within its fuel yields `Fuel`.
  Safety theorems therefore say `= OK _`.
* Where the code violates the property, a theorem `..._refuted` exhibits a
  witness evaluated on the model; where only a part is proved the theorem is
  called `..._partial`.

## Plan per property

| id | modelled | proof |
|----|----------|-------|
| C01-C05, C07 | `iri.c` at memory level: one byte buffer, pointers are offsets | refinement of the in-place parser to a list-level grammar, loop invariants "prefix ++ rest ++ NUL ++ junk" |
| C06 | the DFA table and driver of `utf8.c` | finite sweep over states x bytes lifted by `forallb_forall`, induction on the sequence |
| C08 | `encode_path`, `pct_decode_str` with bounded buffers | induction on the name |
| C09-C11 | `puny.c` with 32-bit wrap-around, buffer bounds, division | identity by induction on labels; refutations by witness |
| C12-C15, C19, C20 | `server.c` matching helpers, `client_read` decisions as a function to an outcome, external calls are parameters | induction on the location list; case analysis |
| C16 | `client_read` on an evbuffer stream | induction over chunks |
| C17, C18 | `start_reply`, `fmtbuf` | length bounds; refutation of C18 |
| C21, C26, C24 | `client_write`, `proxy_read`, `fcgi_read` as stream transducers | invariant over all fragmentations |
| C22 | `scandir_fd`, listing writer | sortedness + permutation |
| C23, C25 | `fcgi_send_param` with 16-bit length fields | decoder/encoder round trip; refutation beyond 64 KiB |
| C27 | `proxy_proto_v1_parse`, `read_cb` | case analysis, stream splitting |
| C28 | `mime.c` | bisection over sorted arrays |
| C29, C30 | `config.c` message lists and receiver fold | round trip by induction |
| C31 | `gmid.c` reload counter | state machine invariant |
| C32, C33 | imsg framing with fragmentation and fd queue | simulation of stream by list of frames |
| C34 | `symset`, `symget`, `cmdline_symset` | refinement to finite map |
| C35 | `proc_open`, `proc_connect` | enumeration over all instance counts |
| C36 | splay tree as ordered map keyed by id, counter wrap | invariant |
| C37, C38, C41 | `compat/*`, `utils.c` | induction |
| C40 | `compat/memmem.c`: the rolling comparisons, and the two-way search with its tables and its two maximal suffixes | invariants of the maximal-suffix scan (order on suffixes), critical factorisation, invariant of the search |
| C39 | `add_to_addr_queue` | induction |
| C42 | `serialize_iri` | refutation, bounded theorem |

| C43, C44 | `ends_with`, `serialize_iri` | induction; refutation |
| C45 | `puny_decode` on valid labels against RFC 3492 | loop invariant relating the decoder to the independent encoder |
| C46 | `fcgi_req` parameters | case analysis on the translated path |
| C47, C48, C49, C50, C51 | the connection automaton `Server.step` (handshake, reads, writes, backend events, errors, close) | invariants by induction on histories; refutations by runs |
| C52 | `proxy_socket`, `proxy_enqueue_req`, PROXY line | case analysis; refutation |
| C53 | `fastcgi_conf` | induction over directives |
| C54 | `crypto.c` both ends, interleaving of servers | invariant over interleavings |
| C55 | `main_send_logfd`, `main_reload` | invariant over histories |
| C56 | `compat/vis.c` | induction with buffer bounds |
| C57, C58 | `log_request`, logger | exact equation for the line; newline-freeness |
| C59, C60 | `setup_tls`, `add_matching_kps`, libtls name checks and SNI selection | induction over hosts and keypairs |
| C61 | connection automaton with the address | corollary of the handshake theorem; refutation |
| C62 | composition of Config, Tls and Server models | composition of C29, roots and C51 |
| C63, C64 | connection automaton `Server.step` | invariant on the registered events; decreasing measure on output, file and listing |
| C65 | descriptors and events of many connections (`Fds.v`), kernel table of owners | invariants over interleavings; refutations by runs |
| C66 | `proxy_setup_tls`, `proxy_handshake`, libtls client (`UpTls.v`), proxy blocks of parse.y; SSL_connect an oracle | invariant over histories; C60 for the certificate |
| C67 | `tls_config_parse_protocols`, `tls_configure_ssl` (`UpTls.v`) | induction on the words; refutations |
| C68 | the lexer of parse.y with its push-back, macro expansion, include stack (`Lex.v`) | measure: what is still to be read outside of an expansion |
| C69 | the same, against the relation `spells` (`LexSpec.v`) | induction on how the text is written |
| C70 | the whole grammar and its actions as the recursive descent the yacc grammar amounts to (`Gram.v`), composed with the lexer; language, validity and meaning in `GramSpec.v` | induction on the text; each construct's tokens lead to its action; the actions fold to the meaning |
| C71 | the same parser on any text; `well_formed` in `WellSpec.v` | Hoare triples for every rule of the grammar (`Well_Proofs.v`): an invariant of the configuration as long as no error was counted; composed with C19 and C29 |
| C72 | titan.c (`Titan.v`): the TLS library and the network are a schedule of results of `poll`, `tls_read`, `tls_write`; specification in `TitanSpec.v` | induction on the schedule; the loop invariant of `iomux` is "sent ++ to send = given, read = first bytes of what was delivered" |
| C73 | gg.c (`Gg.v`): schedules of results of `tls_handshake`, `tls_write`, `tls_read`; specification in `GgSpec.v` | the schedule of reads is a stream of bytes and an end; induction: `dorep` cuts it in blocks of 2048 whatever the fragmentation |
| C74 | `compat/tree.h` SPLAY_* as instantiated by server.c, on memory with pointers; accept, close and free of connections | representation predicate (tree in memory), loop invariant with the two trees under construction and its mirror image, refinement to a map and to the table of C36 |
| C75 | ge.c `main`, `serve`, `mkdirs`, `data_dir` and utils.c `absolutify_path` (`Ge.v`): command line, environment and results of system calls are the world; the two address lists linked through one field; what follows is `server_configure_done` (Tls.v) and Server.v. Specification in `GeSpec.v` (`exports`, `gets`, `in_turn`) | inversion of a start that serves gives gemexp's configuration; `c15_decision` specialised to it; induction on histories through C51; induction on words of the path for `mkdirs` |
| C76 | `load_local_cert` and `gencert` as the list of disks they go through | stages of the trace as an inductive invariant |
| C77 | connection events and reloads interleaved; a reload replaces the environment and what the connection's pointers into the configuration show, arbitrarily | simulation with the run without reloads, an invariant of connections whose reply has begun |
| C78 | `main` of gmid.c with its getopt loop, `proc_exec`'s argument vectors, `proc_run`'s calls; the processes are `main` run again on those vectors; credentials as the kernel keeps them (`MainSpec.v`) | reading back of the vectors option by option, under both getopt conventions; case analysis of the calls with any of them failing; induction over later calls |
| C79 | the same `main` with -n: `config_test`, on the model of `load_vhosts` and `setup_tls` (Tls.v), any file system | equivalence with `sane` of `MainSpec.v`, by induction over servers and addresses |
| C80 | `write_pidfile` as four system calls, any number of processes interleaved, on files with fcntl locks | invariant: one lock per file, held by whoever is past it; the file's content by how far its owner is |
| C81 | the processes as a transition system over the sockets of Proc.v: failures, signals, end of file on a socket whose other end nobody has open, `waitpid` | an invariant for calm runs; from C35: main and each child are connected, so a stuck state with one gone has all gone; a weight that every event but a question decreases |
| C82 | the TAILQ macros on memory with pointers, allocation, `config_new`, `config_purge` as nested loops, the static pointers of `config_recv` | an invariant: every head that exists leads through the objects of an abstract list and back pointers match, each object is on one list, every object is on a list or about to be freed; loops by a specification that composes |
| C83 | Landlock (rights, rulesets, layers, versions, failures), sandbox.c's functions, `proc_run` up to the event loop | case analysis on the failures; the layer a process ends up with is computed once, and what it permits follows |
| C84 | struct ibuf on a block of memory with size_t arithmetic, every operation on it | refinement: a list of bytes with a read mark and a maximum; one invariant, one lemma per operation, induction on the sequence |
| C85 | reallocarray, recallocarray, the table of media types, on blocks of memory that malloc gives or refuses | exactness of the overflow check; specification of each function by its effect on the blocks; invariant of the table, induction on what is added |
| C86 | scandir_fd with the array of pointers and the copies of the entries, the loop that lists them, the close of a connection | invariant: the array's slots are the live blocks, each holds its entry, all other new blocks are dead; refutation for a client that leaves early |
| C87 | tls_hex_string, tls_cert_hash on the same memory | induction on the digest; the digits are injective |
| C88 | timingsafe_memcmp in two's complement | induction on the common prefix |
| C89 | Keypairs of a tls_config on memory, every operation and reference, memory and files | ownership invariant: every block is a field's or was freed with something public in it |
| C90 | The logger's descriptor table, its channels and what it writes; any messages in any order | invariant: the table is the initial one, the log's descriptor and those of queued messages; destination read off the history of messages |

## Trusted base

* **Coq 8.16.1's kernel** (and `vm_compute`, used for finite sweeps and for
  evaluating examples and witnesses).  No `native_compute`, no plugins, no kernel
  check is switched off.
* **Axioms.**  `Print Assumptions` answers "Closed under the global context" for
  every theorem named in MANIFEST.json: none uses classical logic, functional
  extensionality or proof irrelevance.  vcheck also lists seven constants of
  `Coq.ssr.ssrunder.Under_rel` as library axioms: they are abstract
  fields of a standard library module that the checker loads transitively (no file
  here imports it); no theorem depends on them.
* **The translation of the C code to Gallina**, made by reading.  Each model
  definition cites the lines it models and says where it simplifies.  The model
  is at the level of C semantics where the property is about memory (IRI parser,
  punycode, format strings, string functions, vis, imsg), i.e. buffers with
  bounds, wrap-around and undefined behaviour as an outcome; it is at the level
  of values where the property is about decisions.
* **Platform assumptions**: 8-bit bytes, signed `char`, 32-bit `int`, 64-bit
  `size_t` and `long long`, two's complement; memory allocation does not fail
  (the code calls `fatal` when it does).

Things outside the code that theorems take as parameters or from manuals:

| thing | how it appears |
|-------|----------------|
| `fnmatch(3)` | an arbitrary function of pattern and text |
| `qsort(3)`, `scandir` order | any permutation sorted by the comparison |
| file system | an arbitrary function from descriptor and path to what is found; it may change between any two events |
| `read(2)`, `tls_read`, `tls_write` | any result allowed by their manuals at every call (short counts, EAGAIN/WANT_POLL, errors) |
| libevent bufferevents | callbacks fire in any order at any time the bufferevent is enabled; watermarks and `evbuffer` operations as in the libevent manual |
| `getaddrinfo`, `getnameinfo`, `inet_pton`, `inet_ntop` | arbitrary functions (with bounded output where the C buffer is bounded) |
| `strtoll(3)`, `strftime`, `localtime`, `snprintf`, `strlen`, `memchr`, ... | written from the manual |
| X.509, RSA, ECDSA, the TLS protocol | oracles: `cert_of` gives the names in a certificate, key operations are arbitrary functions, the handshake ends with whatever server name the client chose |
| FastCGI applications, upstream servers | arbitrary bytes in arbitrary fragments at arbitrary times |
| kernel sockets, SCM_RIGHTS | `barrier` (BSD) or `glue` (Linux unix(7)) semantics, see Imsg.v |

## What is modelled

| code | model |
|------|-------|
| iri.c (all), puny.c (all), utf8.c (all) | Iri.v, IriOut.v, Puny.v, Utf8.v |
| mime.c (all but `load_default_mime`'s allocation), dirs.c | Mime.v, Server.v |
| server.c: matching, vhost_*, handshake, client_read, client_write, client_error, start_reply, client_close, fmtbuf, proxies, FastCGI dispatch, directories, read_cb, accept table, TLS setup, load_vhosts | Conf.v, Fmt.v, Server.v, ProxyProto.v, Clients.v, Tls.v |
| server.c, fcgi.c, proxy.c: which descriptors and events each callback opens, closes, registers, for many connections | Fds.v |
| fcgi.c (all), proxy.c (all), proxy-proto.c (all) | Fcgi.v, Server.v, UpTls.v, IriOut.v, ProxyProto.v |
| config.c (send, receive, purge), gmid.c (log_request, reload, log descriptor, startup order) | Config.v, Reload.v, Log.v |
| crypto.c (both ends), proc.c (topology), compat/imsg.c and imsg-buffer.c (framing, descriptors) | Crypto.v, Proc.v, Imsg.v |
| parse.y: macros, addresses, listen, FastCGI table, proxy blocks, format checks | Parse.v, UpTls.v, Fmt.v |
| parse.y: lexer (yylex, lgetc, lungetc, findeol, lookup, pushfile, popfile); without line numbers and messages | Lex.v |
| parse.y: the grammar with its actions and `parse_conf`, config_new. A syntax error ends the run (yacc's error recovery, which can only find more errors, is not modelled); warnings are left out | Gram.v |
| titan.c (all but the messages on stderr, `pledge` and the closing handshake) | Titan.v |
| gg.c (all but the messages on stderr other than the server's text, `-T`, `pledge` and the closing handshake; `write(2)` to stdout writes everything) | Gg.v |
| compat: strlcpy, strlcat, strtonum, memmem (rolling comparisons and two-way search), vis | Compat.v, TwoWay.v, Vis.v |
| compat/queue.h: TAILQ_INIT, INSERT_HEAD, INSERT_TAIL, REMOVE, FOREACH(_SAFE) (pointers, memory); config.c:31-162 `config_new`, `config_purge` (the lists), :515-735 `config_recv` (which object is put on which list); utils.c:464-490 | Tailq.v |
| sandbox.c (the Landlock version; Landlock itself as documented), the order of `proc_run` and the `*_init` functions | Sandbox.v |
| compat/imsg-buffer.c:54-512, the operations on a buffer (memory, size_t; not the ones in host byte order, which are `ibuf_add` and `ibuf_get` of the number's bytes) | Ibuf.v |
| compat/reallocarray.c, recallocarray.c, freezero.c, timingsafe_memcmp.c; mime.c: the table; dirs.c and the entries in server.c; tls_hex_string, tls_cert_hash (pointers, memory, malloc refusing) | Arr.v |
| compat/libtls: tls_util.c (memdup, tls_set_mem, tls_load_file without a password), tls_keypair.c, the keypairs and references of tls_config.c (the fields of the structs beside their blocks, the hash of a public key as an answer of OpenSSL); what config_purge frees of a host's certificate | Keys.v |
| logger.c: logger_dispatch_parent, logger_dispatch_server, logger_shutdown (descriptors, destination); gmid.c: main_send_logfd's messages | Logger.v |
| compat/tree.h: SPLAY_INSERT, SPLAY_REMOVE, SPLAY_FIND, SPLAY (pointers, memory); not SPLAY_NEXT, SPLAY_MINMAX, which gmid does not use | Splay.v |
| ge.c (all but `log_request`, the locale and the process title), utils.c: absolutify_path, gencert (the cryptography is an answer of the world) | Ge.v |
| compat/libtls: tls_verify.c, SNI selection of tls_server.c, keypair lists of tls_config.c | Tls.v |
| server.c, config.c across a reload: connections whose host, location and proxy pointers are left over from the configuration before | Stale.v |
| gmid.c: `main` (options, roles, user and chroot, -n), proc.c: `proc_init`'s children, `proc_exec`'s arguments, `proc_run`'s privilege drop; config.c: `config_test`. `fork` and `execve` always succeed; `-nn`'s printout is left out | Main.v |
| gmid.c: `write_pidfile` | Pid.v |
| gmid.c: `main_sig_handler`, `main_shutdown`; proc.c: `proc_kill`, `proc_close`, `proc_shutdown`, `proc_sig_handler`, dead pipes in `proc_dispatch` | End.v |

## What is not modelled

* The rest of libtls and OpenSSL; the TLS record layer.
* Failures of `fork` and `execve`; what `chroot(2)` does to paths; pledge(2) in sandbox.c.
* Timers (there are none on connections), signals other than SIGHUP, SIGUSR1, SIGTERM, SIGINT, SIGCHLD.
* Allocation failure; integer sizes above 2^63.
* Interactive prompts.

## Findings

Where the code does not do what its manual or a reasonable user says, a theorem
`*_refuted` evaluates a witness on the model.  In summary:
* puny.c: a host that does not fit is reported as decoded; out-of-bounds write in the 254-byte buffer; division by zero on `xn--vz891716a` (C09-C11).
* `%0D%0A` in a path reaches block-return texts and directory redirects (C18), the line sent to an upstream (C42) and the access log (C58).
* Replies 21 to 29 of FastCGI applications and upstreams lose the part of the body that comes in later records (C24, C26).
* FastCGI parameters above 65535 bytes are framed with a truncated length (C25); PATH_INFO may lack its leading slash (C46).
* PROXY `UNKNOWN` reads an uninitialised variable, `TCPUNKNOWN` is accepted, a tail already read is waited for (C27).
* On a proxy-v1 listener a TLS upstream with proxy-v1 gets memory behind the buffer; no PROXY header if addresses are long (C52).
* `%P` is negative above 32767 because the port is an int16_t (C19).
* A failed parse at reload leaves `prefork` at 0, a failed transmission blocks reloads for ever, a missing certificate ends the daemon (C31); the log is switched off by SIGUSR1 after a failed parse, and its path changes when the chroot is the home directory (C55).
* The Common Name in the access log is cut at the wrong place; a NULL host is printed for a client with an undecodable SNI (C57).
* `fastcgi` with the same text naming a host with port and then a Unix socket crashes the parser (C53).
* A failed RSA operation kills the server process, a reload during a handshake kills the crypto process, and a compromised server process can corrupt it (C54).
* A location cannot switch `log` back on (C13). `strip n` with n >= 2 strips one component (C41).
* `serialize_iri` reports success when truncated (C44).
* A second line pipelined behind a FastCGI request is answered too: two headers, an event left on a freed client (C17, C47, C49).
* A short `read(2)` ends a file early (C21). A directory redirect sends the decoded path (C20).
* Client keys of proxies are sent to every server process (C30).
* imsg: a descriptor can be lost on a short read, and on Linux attached to an earlier message (C33).
* `strnvis` with a one-byte buffer returns 0 (C56).
* SNI selection ignores the first keypair: a wildcard certificate of a later host is shown for the exact name of the first (C59); the host is chosen by name whatever the address (C61).
* The connection counter wraps: two connections may get one id (C36). A `-D` value with `=` goes to another macro (C34).
* An application that hangs up in the middle of its reply leaves its client on an open connection on which nothing happens any more (C63).
* After a directory listing `closedir(3)` has closed `c->pfd`, which is closed again at the end: by then it may be another client's socket (C65).
* After a FastCGI reply its bufferevent stays registered on a closed descriptor number, until the client has read everything: it then reads the bytes of the connection that got the number (C65).
* `client_proxy_close` frees the TLS context after registering an event for it (C65).
* `protocols "all,!tlsv1.0"` switches TLS 1.2 off; in "tlsv1.2,!tlsv1.2,!tlsv1.3" TLS 1.2 ends up on (C67).
* Configuration: a number followed by `;` is a string, so `prefork 3;` is a syntax error; numbers are cut to 32 bits; a NUL byte silently ends the configuration; `$` is not expanded inside an `@` expansion (C69). A `-D` macro whose value has the byte 2 in it makes `@` loop for ever (C68).
* Configuration: `prefork 16` is refused although the manual allows it; the syslog facility `local0` is not recognised; unquoted paths that begin with `/` are syntax errors unless the lexer takes them as words; options written after a `location` block inside a server apply to that location (GramSpec.v gives this meaning, `c70_case` shows it); server blocks are put at the head of the list, so of two matching ones the last wins; `fastcgi off` followed by `fastcgi socket` leaves FastCGI off; the numbers of `fastcgi strip` and of proxy ports are not checked for sign or range (C70).
* A NUL byte in an included file ends the parse there and only the errors of that file are looked at: `prefork 99` before the `include` is accepted (C71). A block text that ends in a lone `%` is read past its end by the check (C71).
* titan: `iomux` does not come back once its block of BUFSIZ bytes is sent, so a larger file is never sent whole and titan waits (busily) for ever; the path is sent decoded, `%0D%0A` ends the request line (C72). Its manual says the name of the server is verified, but `tls_config_insecure_noverifyname` is always called.
* gg: exits with 255, not 1, when the server closes without an answer; an answer with code 00 is reported as success (C73). With -d code, header or meta gg still waits for 2048 bytes or the end of the connection before it prints anything.
* gemexp: a directory whose absolute name has PATH_MAX bytes or more is cut and another one exported; a client that goes to the address (no SNI) gets 53 for everything, because the printed address is never set; a relative XDG_DATA_HOME or HOME (and, with glibc's `dirname`, HOME=/) makes `mkdirs` recurse for ever; the first component of the path is never created (C75).
* gemexp: an interrupted generation leaves an empty or cut certificate, or an old certificate with a new key, which later runs use; a failed one deletes a certificate that was there; the key is created with the permissions of the umask (C76).
* On a reload `config_purge` frees the hosts, locations, proxies and addresses that open connections still point to (`c->host`, `c->addr`, `c->proxy`), and the TLS context that pending handshakes refer to: a request read after the reload is handled by what is in freed memory (C77).
* gmid: the internal options -U and -X are ignored by the main process but handed on to the others after its own, so `gmid -U root` runs them as root, whatever `user` says; a user whose home is empty (and no chroot) makes every process end with a usage message (C78). `gmid -n` says OK for configurations the daemon cannot start with, such as a missing OCSP staple (C79). The result of `dprintf` to the pid file is not looked at (C80).
* The daemon calls `daemon(3)`, which forks, after it has started the other processes: they are not its children, SIGCHLD never comes and `waitpid` in `proc_kill` returns at once, so it ends, and unlocks the pid file, before they do (C81). It does notice their end by their sockets.
* `config_purge` does not initialise `conf->addrs` again: TAILQ_INSERT_TAIL there would write through a null pointer; it is harmless only because both places use TAILQ_INSERT_HEAD (C82). `config_recv` does not reset its static `l` when a reload starts, so it still points to a freed location until the next host; only an IMSG_RECONF_ENV sent too early would use it (C82).
* Landlock before version 3 cannot restrict `truncate(2)`: there a server may still empty a file its user may write (C83). `ioctl(2)` on devices and the network are never restricted; the main process is not confined on Linux.
* `ibuf_add` of no bytes fails for a buffer that has no memory yet (`ibuf_open(0)`), because the pointer it got, NULL, means failure (C84). gmid never makes such a buffer.
* A client that goes away after its directory was read and before the listing was written (say, it resets the connection while the header is sent) leaves all entries of the directory in memory: `client_close_ev` frees `c->dir` but not what it points to (C86). Anyone can make the server grow this way.
* libtls wipes private keys before it frees them, `config_purge` does not: after a reload the old keys of hosts and proxies are still in the freed memory of the processes that had them (C89).
