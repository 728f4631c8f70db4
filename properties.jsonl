{"id": "C01", "title": "Numeric options are parsed exactly, never wrapped", "statement": "The number parser accepts a string if and only if it is an optional single '+' or '-', followed by either the single digit 0 or a digit run without leading zero, denotes a value inside the caller's [min,max] range and inside the signed 64-bit range; on acceptance the delivered value is the mathematical value of the string, and on rejection the output is 0. It never reads past the terminating NUL and no intermediate arithmetic overflows.", "quantifier": "every NUL-terminated byte string of any length, every min/max pair of 64-bit integers", "why_tests_cant": "The input space is unbounded strings and 2^128 range pairs; overflow boundaries (LLONG_MIN, LLONG_MAX+1) are only a few points among them.", "anchors": ["parsenum.c: parsenum", "parsenum.h: parsenum_MIN, parsenum_MAX"]}
{"id": "C02", "title": "Port text conversion is a bijection on 16-bit ports", "statement": "Formatting any 2-byte port yields the canonical decimal text of its big-endian value (1 to 5 digits, no leading zero, NUL terminated, fits the 6-byte buffer); parsing that text gives back the same two bytes; and the port parser accepts exactly the canonical unsigned numerals (no sign, no leading zero) denoting 0..65535, delivering the big-endian bytes.", "quantifier": "every pair of port bytes; every NUL-terminated string given to the parser", "why_tests_cant": "Acceptance of arbitrary strings is an infinite input set; a test enumerates ports but not all strings.", "anchors": ["porttostr.c: porttostr", "parseport.c: parseport"]}
{"id": "C03", "title": "Host names are accepted exactly when valid and encoded losslessly", "statement": "The name parser accepts a string iff it is empty, a single dot, or a dot-separated sequence of non-empty labels (with optional trailing dot) where each label is at most 63 bytes of letters, digits, '-' and '_' with no leading or trailing '-', and the wire encoding is at most 255 bytes; on acceptance the 256-byte output holds exactly the length-prefixed labels followed by the root label; nothing is written outside the output buffer.", "quantifier": "every NUL-terminated byte string", "why_tests_cant": "Unbounded strings; off-by-one behaviour at 63/255 boundaries interacts with arbitrary label splits.", "anchors": ["parsename.c: parsename_, parsename", "parsename.h: parsename_BYTES"]}
{"id": "C04", "title": "host:port splitting never loses or overflows bytes", "statement": "On acceptance, the host and port outputs are NUL-terminated, fit their buffers, and the input is exactly the host (possibly in brackets), optionally followed by ':' and the port text; bracketed and multi-colon hosts are accepted only if they are IPv6 literals, other hosts are copied verbatim; a port, when present and asked for, is a canonical numeral in 0..65535; every input of this form whose host fits 255 bytes is accepted. On rejection outputs are empty strings. Nothing outside the input string is read and nothing outside the buffers is written.", "quantifier": "every NUL-terminated byte string and every subset of requested outputs", "why_tests_cant": "Separator ambiguity over arbitrary strings cannot be enumerated.", "anchors": ["parsehostport.c: parsehostport", "parsehostport.h: parsehostport_HOSTBYTES, parsehostport_PORTBYTES"]}
{"id": "C05", "title": "IP addresses survive formatting and parsing", "statement": "Formatting any 16-byte address and parsing the text gives back the same 16 bytes, for IPv4-mapped and for genuine IPv6 addresses; the IPv4 text is the dotted quad of the last four bytes.", "quantifier": "every 16-byte address", "why_tests_cant": "2^128 addresses; zero-run compression has many shape-dependent cases.", "anchors": ["iptostr.c: iptostr", "parseip.c: parseip4, parseip6, parseip"]}
{"id": "C06", "title": "The PROXY v1 reader consumes exactly the header line", "statement": "Reading an incoming PROXY v1 header consumes from the connection exactly the bytes up to and including the first LF (at most 127 bytes) and not one byte of the payload that follows, never writes outside its 128-byte line buffer, and either succeeds with both endpoints assigned or fails leaving the caller's endpoint buffers unmodified.", "quantifier": "every byte stream, every fragmentation of the stream into short reads, interruptions and errors", "why_tests_cant": "Arbitrary streams and read schedules; a test fixes both.", "anchors": ["proxyprotocol.c: proxyprotocol_v1_get"]}
{"id": "C07", "title": "A generated PROXY v1 header parses back to the same endpoints", "statement": "For two endpoints of the same address family the generated header, fed to the reader, is accepted and returns exactly the local and remote address and port that were given; it fits the caller's buffer whenever it is produced, and nothing is produced for the all-zero endpoint pair.", "quantifier": "every pair of 16-byte addresses of one family and every pair of ports", "why_tests_cant": "2^288 endpoint combinations.", "anchors": ["proxyprotocol.c: proxyprotocol_v1, proxyprotocol_v1_get"]}
{"id": "C08", "title": "A PROXY v1 header for mixed address families is never accepted by the reader", "statement": "The generated PROXY v1 header names the family of the remote address only; for a remote and a local endpoint of different families the project's own reader never accepts it (it fails and leaves the caller's buffers unmodified), so the readability of generated headers holds exactly for endpoints of one family.", "quantifier": "every pair of endpoints with different address families", "why_tests_cant": "Only a particular combination of valid inputs exposes it; both halves pass their own tests.", "anchors": ["proxyprotocol.c: proxyprotocol_v1, proxyprotocol_v1_get"]}
{"id": "C09", "title": "Certificate path sanitising removes every slash-dot", "statement": "After sanitising, a path contains no '.' directly after '/', and no '//'; the result is never longer than the input, keeps its first byte, differs from the input only by collapsed slashes and by ':' in place of '.' after '/', sanitising twice equals sanitising once, and only bytes inside the original string are written.", "quantifier": "every NUL-terminated byte string", "why_tests_cant": "Properties over all strings, including idempotence and in-place aliasing.", "anchors": ["fixpath.c: fixpath"]}
{"id": "C10", "title": "A client-supplied server name cannot escape the certificate directory", "statement": "For a certificate directory, the file name requested from the key process is the sanitised directory, one '/', and the name sent by the client; the name part contains no '/' and no NUL, and no component of the path below a directory slash starts with '.', so it is a direct child of the directory; with an absent or invalid server name the directory is not consulted with attacker bytes.", "quantifier": "every configured directory string and every client SNI byte string", "why_tests_cant": "The adversary chooses the SNI; tests only try a few traversal strings.", "anchors": ["tls_profile.c: tls_choose", "fixpath.c: fixpath", "parsename.c: parsename_", "tls_keyjail.c: tls_keyjail"]}
{"id": "C11", "title": "-U never leaves the program running with the wrapper's privileges", "statement": "With -U the wrapped program is executed only after the engine reported a client certificate with the wanted field, and the account record its process received is the text of that field before the first '@' (at most 255 bytes, up to the first NUL). If this text is not empty, the process had taken on the ids of the account with exactly this name, every step checked, before the program was executed. If it is empty (an empty field or one starting with '@'), the change of ids is skipped and the program runs with the ids of -u, or else with the wrapper's own. Without -U no ids are changed because of a record.", "quantifier": "every certificate field value, every account database answer", "why_tests_cant": "The failing certificate values are chosen by the certificate holder; no finite list of names covers them.", "anchors": ["main_tlswrapper.c: report_tls_handshake, main_tlswrapper", "fixname.c: fixname", "jail.c: jail"]}
{"id": "C12", "title": "Case-insensitive comparison decides equality up to ASCII case", "statement": "case_diffs and case_diffb return 0 iff the strings are equal after mapping A-Z to a-z and leaving all other byte values alone; case_startsb and case_starts hold iff the prefix matches in that sense; case_lowerb/lowers perform exactly that mapping; no byte after the terminator or the given length is read.", "quantifier": "every pair of byte strings and every length", "why_tests_cant": "All 256x256 byte pairs at every position of unbounded strings.", "anchors": ["case.c: case_diffb, case_diffs, case_startsb, case_starts, case_lowerb, case_lowers"]}
{"id": "C13", "title": "String helpers match their contracts", "statement": "str_len, str_chr, str_rchr, str_diff, str_start, str_copy return the documented value for every string: length, first/last occurrence index or length, zero iff equal with the sign of the first differing byte, prefix test, exact copy; str_diffn compares the first len bytes (terminators included), except exactly when the first string has len bytes and the second properly extends it, where it returns minus the next byte instead of the documented 0.", "quantifier": "every NUL-terminated string(s), every byte, every length", "why_tests_cant": "Unbounded strings, signed-char bytes above 127.", "anchors": ["str.c"]}
{"id": "C14", "title": "Growable strings hold exactly the appended bytes", "statement": "After any sequence of append, copy, terminate and format operations, a growable string's content is given by the meaning of each operation and whether it reported success: a successful append adds the bytes, a successful copy replaces them; a failed append changes nothing, a failed copy leaves the string empty, a failed signed number may leave its minus sign. Length never exceeds the allocated capacity, failure happens only when an allocation fails or the source never owned storage.", "quantifier": "every finite sequence of operations with arbitrary byte arguments, every pattern of allocation failure", "why_tests_cant": "Unbounded histories and allocation-failure points.", "anchors": ["stralloc.c: stralloc_readyplus, stralloc_catb, stralloc_copyb, stralloc_append, stralloc_0, stralloc_cats, stralloc_cat"]}
{"id": "C15", "title": "Decimal formatting of growable strings is exact for all 64-bit values", "statement": "Appending a number writes its canonical decimal text, left-padded with zeros to the requested width, with one leading '-' for negative values, and reading that text back gives the number, including the most negative 64-bit value.", "quantifier": "every signed/unsigned 64-bit value and every pad width", "why_tests_cant": "2^64 values times widths.", "anchors": ["stralloc.c: stralloc_catunum0, stralloc_catnum0"]}
{"id": "C16", "title": "Exact-length reads deliver exactly the requested bytes", "statement": "readall returns success iff the stream supplied the requested number of bytes; then the buffer holds the first that many bytes of the stream in order and nothing more was consumed; interruptions and would-block results are invisible; EOF or a hard error makes it fail.", "quantifier": "every stream, every requested length, every schedule of short reads, EINTR, EAGAIN, errors and EOF", "why_tests_cant": "All fragmentations and interruption schedules.", "anchors": ["readall.c: readall"]}
{"id": "C17", "title": "Exact-length writes deliver exactly the given bytes", "statement": "writeall succeeds only if the sink received exactly the given bytes once and in order; in every outcome what the sink received is a prefix of the given bytes; interruptions and would-block are retried from the first unsent byte.", "quantifier": "every byte string and every schedule of short writes, EINTR, EAGAIN, zero-length results and errors", "why_tests_cant": "All fragmentations and interruption schedules.", "anchors": ["writeall.c: writeall"]}
{"id": "C18", "title": "Framed messages between processes round-trip", "statement": "Any sequence of byte-string messages written with the framed writer is read back by the framed readers as the same sequence of messages, each with its exact length, with no bytes left over, under any fragmentation.", "quantifier": "every finite sequence of messages of any admissible length and every read fragmentation", "why_tests_cant": "Unbounded histories of messages.", "anchors": ["pipe.c: pipe_write, pipe_readall, pipe_readmax, pipe_readalloc"]}
{"id": "C19", "title": "Framed readers never write beyond the caller's buffer", "statement": "For any byte stream, the exact-length reader accepts only a frame of exactly the caller's length and the bounded reader only frames no longer than the caller's capacity; otherwise they fail without storing payload (unless the stream ends or fails in the middle of an accepted frame); the allocating reader maps a negative length other than -2^63 to a failure carrying that error number and a non-negative length to a block of exactly that many bytes; the length -2^63 is undefined behaviour there.", "quantifier": "every byte stream, every buffer capacity", "why_tests_cant": "The peer process may send arbitrary 64-bit lengths.", "anchors": ["pipe.c: pipe_readall, pipe_readmax, pipe_readalloc, pipe_writeerrno"]}
{"id": "C20", "title": "Buffered output delivers bytes once and in order", "statement": "For any sequence of put/puts/putc/flush calls that all report success, the bytes handed to the descriptor followed by those still pending are exactly the concatenation of the arguments; after a successful flush nothing is pending; the pending count never exceeds the buffer size.", "quantifier": "every call history, every buffer size, every partial-write schedule", "why_tests_cant": "Unbounded histories and write schedules.", "anchors": ["buffer.c: buffer_put, buffer_puts, buffer_flush, buffer_putflush", "buffer.h: buffer_PUTC"]}
{"id": "C21", "title": "A failed flush is safe to abandon but not to retry", "statement": "A flush that fails leaves the buffer unchanged after sending a prefix of the pending bytes; a later successful flush sends all pending bytes again, so bytes already written are delivered twice. The claim that a retry delivers only the remaining bytes is refuted.", "quantifier": "every partial-write schedule with one failure followed by a retry", "why_tests_cant": "Depends on the byte position where the failure occurs.", "anchors": ["buffer.c: buffer_flush, allwrite"]}
{"id": "C22", "title": "Buffered input yields the descriptor's stream unchanged", "statement": "For any interleaving of get/feed/peek/seek/getc calls, the bytes returned are consecutive bytes of the descriptor's stream in order without loss or repetition, the internal position plus count stays equal to the buffer size, and 0 is returned only at end of file.", "quantifier": "every call history and read schedule", "why_tests_cant": "Unbounded histories.", "anchors": ["buffer.c: buffer_feed, buffer_get, buffer_copy", "buffer.h: buffer_GETC, buffer_PEEK, buffer_SEEK"]}
{"id": "C23", "title": "Timed reads and writes do not outlast their deadline", "statement": "A timed read or write performs its system call only if select reported the descriptor ready, retries only while the clock is before the deadline computed at entry, passes select at most the time left until the deadline (so never more than the requested timeout unless the clock jumps back), and fails with ETIMEDOUT when the deadline passes without readiness.", "quantifier": "every clock behaviour, select result schedule and timeout value", "why_tests_cant": "Clock and readiness schedules are unbounded.", "anchors": ["timeoutread.c: timeoutread", "timeoutwrite.c: timeoutwrite"]}
{"id": "C24", "title": "Directional close is idempotent and preserves errno", "statement": "Closing the read or write direction of a descriptor variable shuts down that direction and closes the descriptor exactly once, sets the variable to -1, leaves errno unchanged, and any further close on the same variable performs no system call.", "quantifier": "every history of directional closes over any descriptors and system-call outcomes", "why_tests_cant": "A double close can hit an unrelated descriptor only in some histories.", "anchors": ["fd.c: fd_close_read_, fd_close_write_"]}
{"id": "C25", "title": "Allocated blocks are zeroed, aligned and disjoint", "statement": "Every successful allocation returns a block of the requested size that is all zero, 16-byte aligned (32-byte inside the static arena), and whose backing memory is disjoint from that of every other live block; no operation changes the bytes of a block it does not own.", "quantifier": "every history of allocations, frees and system allocator behaviours", "why_tests_cant": "Unbounded allocation histories.", "anchors": ["alloc.c: alloc, alloc_free, alloc_freeall"]}
{"id": "C26", "title": "The allocator limit bounds tracked heap use", "statement": "The sum of the requested sizes of live heap blocks equals the counter, never exceeds the limit in effect (the last configured one, else every positive resource limit reported) right after a successful heap allocation, sizes never wrap, and a request that would exceed it fails with ENOMEM leaving accounting unchanged.", "quantifier": "every allocation history and limit value", "why_tests_cant": "Unbounded histories and 64-bit sizes.", "anchors": ["alloc.c: alloc, alloc_limit, alloc_free"]}
{"id": "C27", "title": "Freed memory is wiped", "statement": "A freed heap block is all zero over its whole backing size when it is released, every release is of a live block, an individually freed arena block is not handed out again before everything is freed, and freeing everything wipes the whole arena and releases every heap block.", "quantifier": "every allocation history", "why_tests_cant": "Which arena serves a request depends on the history.", "anchors": ["alloc.c: alloc_free, alloc_freeall"]}
{"id": "C28", "title": "A log record is one line without raw control bytes", "statement": "Whatever strings are logged (including attacker-controlled ones), each record of level 1 to 4 that passes the level and the whitelist is written as exactly one line 'time: name: level: ip: message (error){file:function:line}[id]' of printable ASCII bytes ended by a single newline (with colours on, additionally wrapped in the two fixed escape sequences); bytes outside the printable range appear in escaped form, CR, LF and TAB included; when standard error refuses data only bytes are left out, nothing is reordered or added, and the next record starts from an empty buffer; records not wanted write nothing.", "quantifier": "every argument strings, levels, ids and names", "why_tests_cant": "Arbitrary attacker-controlled bytes.", "anchors": ["log.c: outsescape, log_9_"]}
{"id": "C29", "title": "Log numbers and hex strings are exact", "statement": "log_num and log_num0 produce the canonical decimal text (zero padded to the requested width) of every 64-bit value including the most negative, and log_hex produces two lower-case hex digits per byte, truncated only at the buffer size, so that equal output for inputs that fit means equal input.", "quantifier": "every 64-bit value, every width, every byte string", "why_tests_cant": "2^64 values.", "anchors": ["log.c: numtostr, tohex"]}
{"id": "C30", "title": "Escaped log text identifies the logged bytes", "statement": "Two different byte strings without backslash never produce the same escaped log text; with backslashes in the data the text is ambiguous (refuted by a witness).", "quantifier": "every pair of byte strings", "why_tests_cant": "Collisions depend on specific pairs.", "anchors": ["log.c: outsescape"]}
{"id": "C31", "title": "Address ordering is a permutation that prefers IPv6 first", "statement": "Ordering a resolver result keeps exactly the same multiset of 16-byte addresses, and if any address is not IPv4-mapped, the first address after ordering is not IPv4-mapped.", "quantifier": "every list of addresses and every sequence of random bytes", "why_tests_cant": "Random choices and address lists are unbounded.", "anchors": ["resolvehost.c: sortip"]}
{"id": "C32", "title": "Resolver results fill the caller's buffer only with resolved addresses", "statement": "On success the caller's buffer is filled entirely with the addresses produced by the resolver (as many as fit, in permuted order with an IPv6 address first if there is one, repeating cyclically if there are fewer), IPv4 answers are delivered as IPv4-mapped addresses, answers of other families are skipped, and the reported length is 16 times the number of delivered addresses; without usable answer the length is 0 or -1 and the buffer is untouched.", "quantifier": "every resolver answer list (any families), every buffer size multiple of 16", "why_tests_cant": "Unbounded answer lists and families.", "anchors": ["resolvehost.c: resolvehost"]}
{"id": "C33", "title": "Random reduction is exact and in range", "statement": "randommod(n) returns the value of its 32 random bytes as a big-endian integer modulo n, so it lies in [0,n) for every n in 1..2^55, and returns 0 for n <= 1; no intermediate value overflows.", "quantifier": "every 32 random bytes and every modulus up to 2^55", "why_tests_cant": "2^256 random strings times moduli.", "anchors": ["randommod.c: randommod"]}
{"id": "C34", "title": "Parallel connect keeps exactly the winning socket", "statement": "When a parallel connection attempt that prepared no more sockets than there are addresses returns success, exactly the pair of descriptors of one connected address (the socket and its duplicate) is returned and remains open, every other descriptor prepared for the attempt has been closed exactly once, and the winning address is copied to the front of the caller's list; when it fails, every prepared descriptor is closed, and either a socket could not be prepared, or each of the first eight addresses was tried, none was connected, and all attempts failed, or the time limit had passed, or waiting itself failed.", "quantifier": "every address list, every schedule of connect results, poll readiness and clock values", "why_tests_cant": "Scheduling of several nonblocking connects.", "anchors": ["conn.c: conn_init, conn, conn_copyip, conn_close_"]}
{"id": "C35", "title": "The resolver helper answers each request with its own reply", "statement": "For every sequence of name lookups sent through the resolver channel in which no send or receive of the client fails, the n-th accepted name gets the result of the resolver's answer for that name: a failed lookup is reported as -1 and never as an address, no data as 0, otherwise the addresses; a name longer than the protocol allows is refused without sending anything and without desynchronising the channel. After a failed receive the next lookup can get the previous name's addresses.", "quantifier": "every sequence of names and resolver outcomes", "why_tests_cant": "Unbounded request histories.", "anchors": ["resolvehost.c: resolvehost_init, resolvehost_do, resolvehost_close"]}
{"id": "C36", "title": "jail() succeeds only in a fully restricted process", "statement": "If jailing reports success, every mandatory restriction succeeded: group and user ids were set to the same non-zero account ids and supplementary groups were replaced before the user id was dropped, the process was chrooted after a chdir when a directory was given, and when limits were requested the limits on open files, processes and core size and the dumpable flag were applied; if any mandatory step fails, failure is returned and no later step is attempted.", "quantifier": "every account database answer and every success/failure pattern of the system calls", "why_tests_cant": "All failure points of a long privileged sequence.", "anchors": ["jail.c: jail, jail_limit_memory"]}
{"id": "C37", "title": "jail() never runs under uid or gid 0", "statement": "Neither a named account nor the automatically derived ids can make jailing set uid 0 or gid 0.", "quantifier": "every account entry, every process id", "why_tests_cant": "All pids and accounts.", "anchors": ["jail.c: jail"]}
{"id": "C38", "title": "Descriptor polling works with open-file limits at zero", "statement": "The poll replacement used in the jail reports for each watched descriptor exactly the readiness select reported for it, never touches a descriptor bit outside the select set range, fails for unsupported descriptors, and passes the timeout through (negative meaning wait forever).", "quantifier": "every watch list, select outcome and timeout", "why_tests_cant": "Arbitrary descriptor numbers and readiness.", "anchors": ["jail_poll.c: jail_poll"]}
{"id": "C39", "title": "The configured cipher list is what the user asked for", "statement": "After any sequence of cipher options, if none is given the list is the documented defaults in order; otherwise it contains exactly the suites of the given names in first-occurrence order, without duplicates and within the fixed capacity; an unknown name ends the program.", "quantifier": "every sequence of cipher option strings", "why_tests_cant": "Unbounded option sequences.", "anchors": ["tls_cipher.c: tls_cipher_add, tls_cipher_defaults"]}
{"id": "C40", "title": "Curve, version, certificate and anchor options accumulate exactly", "statement": "The enabled curve set equals the union of the requested curves (documented defaults when none requested), the version bounds are those of the last option of each kind, at most one anchor and at most four certificate entries are kept in the order given, and the program ends exactly when an option has an unknown name, a file of the wrong kind, a second anchor or a fifth certificate entry.", "quantifier": "every sequence of options", "why_tests_cant": "Unbounded option sequences.", "anchors": ["tls_ecdhe.c: tls_ecdhe_add", "tls_version.c: tls_version_setmin, tls_version_setmax", "tls_anchor.c: tls_anchor_add", "tls_certfile.c: tls_certfile_add_dir, tls_certfile_add_file"]}
{"id": "C41", "title": "The chosen cipher suite fits the client, the key and the configuration", "statement": "When the certificate policy selects an answer, the entries were tried in configuration order, every earlier entry was unusable (directory without or with an invalid server name, path not buildable, directory answering 'not found', or no client suite for its key), the suite is the first one offered by the client whose authentication type matches the loaded key type, and the signature hash is the strongest usable one advertised for that key type (TLS 1.2; 0 if there is none) or the fixed legacy value; a failed file entry, a directory failing with another error, or a last directory entry that fails ends the search without an answer.", "quantifier": "every client hello (suite list, hash set, curve set, SNI) and every outcome of loading each configured entry", "why_tests_cant": "Clients choose arbitrary combinations.", "anchors": ["tls_profile.c: tls_choose, hash_choose"]}
{"id": "C42", "title": "The strongest advertised signature hash is chosen", "statement": "The selected signature hash is one advertised by the client, and no advertised hash stronger in the fixed order SHA-512, SHA-384, SHA-256, SHA-1 exists; if none of these is advertised (SHA-224 alone included) no hash is selected.", "quantifier": "every hash bit mask", "why_tests_cant": "All masks.", "anchors": ["tls_profile.c: hash_choose"]}
{"id": "C43", "title": "PEM splitting publishes exactly the certificate blocks", "statement": "Splitting a PEM file yields a public part consisting of exactly the lines of the CERTIFICATE blocks of the file in order (a block runs from its BEGIN line to the first END CERTIFICATE line, or to the end of the file when unterminated) and a secret part consisting of the remaining lines, both up to the first line longer than 64 bytes, where the rest of the file is dropped; no line from outside certificate blocks reaches the public part, the in-place rewriting never reads a byte it has already overwritten, and what is left of the file in both buffers is overwritten with random data.", "quantifier": "every PEM file content", "why_tests_cant": "Arbitrary file content, including unterminated and nested blocks and overlong lines.", "anchors": ["tls_pem.c: pemparse, lineparser"]}
{"id": "C44", "title": "Key-file encryption in memory is reversible and length preserving", "statement": "Encrypting the secret part of a loaded PEM and decrypting it with the same key yields the original bytes, in place, for any length.", "quantifier": "every secret part and key", "why_tests_cant": "All contents and keys.", "anchors": ["tls_pem.c: tls_pem_encrypt, tls_pem_decrypt"]}
{"id": "C45", "title": "Key exchange scalars are valid for their curve", "statement": "After clamping, every private scalar for the NIST curves is non-zero and smaller than the group order, for any random bytes.", "quantifier": "every random scalar byte string of each curve's length", "why_tests_cant": "2^256..2^528 scalars.", "anchors": ["tls_crypto_scalarmult.c: tls_crypto_scalarmult_base"]}
{"id": "C46", "title": "The key process opens files only before it is jailed and only by sanitised names", "statement": "In every run of the key process, every file open precedes the privilege drop, every opened name is sanitised, after the privilege drop no further file is opened, and no private-key operation happens before the privilege drop; the process answers requests only in protocol order and stops on the first malformed request.", "quantifier": "every byte stream sent by the network process, every outcome of file loads", "why_tests_cant": "The network process may be compromised and send anything.", "anchors": ["tls_keyjail.c: tls_keyjail"]}
{"id": "C47", "title": "The key process never reveals long-term key bytes", "statement": "Every byte the key process writes on its reply channel is public certificate text, an ephemeral public point, a signature, record-protection output or its offset, 12 bytes of PRF output for the label and seed asked for, an empty or zero answer, or an error number; the secret part of a file is never written.", "quantifier": "every byte stream sent by the network process", "why_tests_cant": "Adversarial request sequences.", "anchors": ["tls_keyjail.c: tls_keyjail", "tls_pipe.c"]}
{"id": "C48", "title": "Network process and key process stay in step", "statement": "For every sequence of stub calls in the TLS engine's order, and every behaviour of the pipes, the requests the key process has served are, one by one, the requests the stubs sent, and the replies the stubs took are the replies given to these requests; the conversation can only end early by a failing system call, a reply longer than the stub allows (signature or record) or an offset pointing out of the caller's buffer.", "quantifier": "every admissible call sequence with arbitrary parameters", "why_tests_cant": "Unbounded call histories.", "anchors": ["tls_pipe.c", "tls_keyjail.c"]}
{"id": "C49", "title": "SMTP lines are normalised to exactly one CRLF", "statement": "Each line forwarded by the SMTP helper ends in CRLF, has at most one CR removed before the terminator, is at most the documented length, and a NUL byte never reaches the program; a line longer than the limit ends the session.", "quantifier": "every client byte stream", "why_tests_cant": "Arbitrary streams and lengths.", "anchors": ["main_tlswrapper_smtp.c: smtp_readline"]}
{"id": "C50", "title": "A forwarded SMTP command is a single line", "statement": "A client line without NUL bytes is forwarded to the program with exactly one line terminator, at its end. (With a NUL byte the claim fails: the byte becomes LF and the program sees two lines.)", "quantifier": "every client byte stream", "why_tests_cant": "Specific byte values inside long lines.", "anchors": ["main_tlswrapper_smtp.c: readline"]}
{"id": "C51", "title": "SMTP command dispatch follows the protocol verbs", "statement": "Every session follows the plan given by the specification: a line is treated as QUIT, DATA, MAIL, RCPT, EHLO or STARTTLS iff its verb (bytes before the first space, CR or LF) is, ignoring case, a beginning of that word, an empty verb counting as QUIT; every other line is passed through with its reply. The process ends as planned, with the status of the mail server, or with 111 because the last call failed: no memory, a read or write without success, a wait that failed and was not merely interrupted, or a clock that shows that the configured seconds have passed since that wait began.", "quantifier": "every client line", "why_tests_cant": "All lines, including the empty line and prefixes of verbs.", "anchors": ["main_tlswrapper_smtp.c: smtpcommands dispatch"]}
{"id": "C52", "title": "SMTP envelope limits hold in every history", "statement": "In every history the recorded recipients number at most 256, have at most 2048 bytes each and 65536 in total, and a forwarded MAIL FROM: address has at most 2048 bytes; a line exceeding a limit is not forwarded and ends the session with status 111; MAIL, the end of a message and STARTTLS clear the recorded envelope.", "quantifier": "every sequence of client commands and server replies", "why_tests_cant": "Unbounded command histories.", "anchors": ["main_tlswrapper_smtp.c: smtp_mail, smtp_rcpt"]}
{"id": "C53", "title": "Greylisting decides every recipient", "statement": "With greylisting, a RCPT line is forwarded only if no sender or no recipient is recorded (then without asking), or the policy server was asked about the recorded sender and recipient and answered dunno, or its answer exceeded the line limit, or in fail-open mode the exchange failed; in fail-closed mode a failed exchange ends the session; a reject or defer answer is shown as 553 or 450 and the line is not forwarded.", "quantifier": "every command history and policy server answer", "why_tests_cant": "Unbounded histories and reply contents.", "anchors": ["main_tlswrapper_smtp.c: smtp_rcpt, greylist"]}
{"id": "C54", "title": "STARTTLS discards plaintext pipelined behind it", "statement": "After the STARTTLS reply the SMTP process reads and drops client bytes until none is available; no byte read up to that moment is interpreted or delivered later; then TLS is awaited, RSET is sent and the recorded envelope is empty.", "quantifier": "every client byte stream and arrival schedule", "why_tests_cant": "Command-injection depends on arrival schedules.", "anchors": ["main_tlswrapper_smtp.c: smtp_starttls", "main_tlswrapper.c: run_cleartext_phase"]}
{"id": "C55", "title": "SMTP message data passes through unmodified up to line ends", "statement": "Between an accepted DATA and the terminating dot line each line the client sends is forwarded in order, with its terminator normalised and each NUL replaced by LF, and the phase ends exactly at the first line consisting of a single dot; then the reply is shown and a command is expected.", "quantifier": "every message body", "why_tests_cant": "Arbitrary bodies.", "anchors": ["main_tlswrapper_smtp.c: smtp_data"]}
{"id": "C56", "title": "TCP relay preserves both byte streams", "statement": "At every moment of the TCP relay, the bytes written to each side are a prefix of the (optional PROXY header followed by) bytes read from the other side, and the difference is exactly the pending buffer, which never exceeds its size.", "quantifier": "every schedule of readiness, partial reads and writes, EOFs and errors", "why_tests_cant": "Interleavings are unbounded.", "anchors": ["main_tlswrapper_tcp.c: main_tlswrapper_tcp"]}
{"id": "C57", "title": "TCP relay propagates EOF only after delivering data", "statement": "Each write side is shut down only after end-of-file on the matching read side and after all its pending bytes were delivered (or the write side itself failed); while one direction is still alive its data keeps flowing.", "quantifier": "every schedule", "why_tests_cant": "Half-close interleavings.", "anchors": ["main_tlswrapper_tcp.c: main_tlswrapper_tcp"]}
{"id": "C58", "title": "Cleartext relay preserves both streams up to the STARTTLS boundary", "statement": "During delayed encryption, bytes written to each side are a prefix of those read from the other side with the pending buffer (at most 8192 bytes) as the difference; when the TLS phase is entered, every byte read from the child's output channel has been written to the client in clear, undelivered client plaintext was discarded, and exactly one acknowledgement byte was sent.", "quantifier": "every schedule of readiness, partial I/O, signals", "why_tests_cant": "Interleavings are unbounded.", "anchors": ["main_tlswrapper.c: run_cleartext_phase"]}
{"id": "C59", "title": "STARTTLS reply is never sent inside TLS", "statement": "If the child writes its cleartext reply before raising the control byte, and select looks at the control pipe not later than at the output pipe (for instance at all descriptors at once), then the reply has been sent to the client before TLS starts, under every interleaving of child and wrapper. With an ascending scan it is not so: the output pipe always has the smaller number, the child can write both between the two looks, and TLS then starts with the reply unsent.", "quantifier": "every interleaving of child writes with the wrapper's descriptor scan", "why_tests_cant": "A race of a few microseconds.", "anchors": ["main_tlswrapper.c: run_cleartext_phase"]}
{"id": "C60", "title": "TLS relay preserves both plaintext streams", "statement": "In the TLS phase, for every engine that offers its plaintext and records in order behind what was acknowledged and offers no plaintext before its state allowed application data: the bytes written to the child are a prefix of the account record followed by the plaintext, and the bytes written to the peer are a prefix of the records. For every engine: it is handed exactly what was read from peer and child, in order, each transfer follows the engine call that offered the buffer, and nothing is acknowledged that was not transferred. Without the condition on early plaintext the peer could choose the account.", "quantifier": "every schedule and every engine behaviour satisfying the engine interface", "why_tests_cant": "Interleavings are unbounded.", "anchors": ["main_tlswrapper.c: run_tls_phase"]}
{"id": "C61", "title": "TLS relay sends close_notify only when the child is finished", "statement": "TLS shutdown is initiated only when both child descriptors are closed and the engine is not closed. Child input is closed only after a failed write, or when no plaintext is pending and the peer closed or the child's output closed and the peer was just found silent, or after a signal; the network write side is closed only after a failed write or when the child's output is closed, the engine is closed and no record is pending; no descriptor is used after its close. Before every wait, ends of file have been passed on; the loop ends only after a failed handshake, with nothing left to do, after a failed write, or after a signal, and with code 111 only if the certificate is missing or the account record could not be written.", "quantifier": "every schedule", "why_tests_cant": "Half-close interleavings.", "anchors": ["main_tlswrapper.c: run_tls_phase"]}
{"id": "C62", "title": "Signals end the session without losing pending child output", "statement": "A SIGCHLD of the wrapped program only closes the child's input and starts the finish timer, so its remaining output is still relayed; a first timer expiry closes the child's descriptors, a further expiry or any other signal ends the relay loop.", "quantifier": "every signal sequence", "why_tests_cant": "Signal timing.", "anchors": ["main_tlswrapper.c: signalhandler, handle_selfpipe_event"]}
{"id": "C63", "title": "The exit status reports the program's status", "statement": "Every end of the wrapper's own process is one of: the program was waited for and the exit code is the program's exit code if it exited normally and 111 if it was killed or could not be waited for; the command line is refused and the exit code is 100 before any process is started; the exit code is 100 after both processes were started, which needs -p 1 and input that is not a PROXY line; or the exit code is 111 with no wait, and then one of these happened: a signal handler, pipe or process could not be made, the jail could not be entered, a pipe to the program or the key process could not be written, with -n descriptor 5 or 6 was in use or /dev/null could not be opened, with -a the trust anchor could not be had, with -U and without -n the client's certificate names no account.", "quantifier": "every wait status and option vector", "why_tests_cant": "All status words.", "anchors": ["main_tlswrapper.c: main_tlswrapper"]}
{"id": "C64", "title": "Command line prerequisites are enforced", "statement": "For every argument vector: the options are accepted exactly when the words form a line of the documented grammar with known letters, acceptable arguments, at least one certificate entry (at most four) and a program, -U accompanied by -a and not combined with -n, and both timeouts decimal numbers in 1..86400; every accepted option then has its documented effect (last one wins or accumulates), except that '-p 0' does not disable an earlier '-p 1'; otherwise the wrapper exits with code 100.", "quantifier": "every argument vector", "why_tests_cant": "Unbounded argument vectors with clustered options.", "anchors": ["main_tlswrapper.c: main_tlswrapper, timeout_parse"]}
{"id": "C65", "title": "The applet is chosen by the basename of argv[0]", "statement": "The entry point called depends only on the text after the last '/' of argv[0]: exactly tlswrapper-tcp and tlswrapper-smtp select their applets, every other text selects the default wrapper (all with the jail enabled), and without argv[0] the program exits with code 100.", "quantifier": "every argv[0] string", "why_tests_cant": "All strings.", "anchors": ["tlswrapper.c: main, basename"]}
{"id": "C66", "title": "Connection information round-trips through the environment", "statement": "Endpoints stored in the environment (setenv succeeding) are read back unchanged and no other variable changes; if all four variables are valid the result is exactly theirs, whatever the socket says; otherwise the result is entirely that of the socket, or failure if a socket name is missing or of another family. On failure one end may have been assigned.", "quantifier": "every pair of endpoints, every environment and socket answer", "why_tests_cant": "2^288 endpoint combinations.", "anchors": ["connectioninfo.c: connectioninfo_set, connectioninfo_get, connectioninfo_fromfd"]}
{"id": "C67", "title": "Nine formatted log texts coexist", "statement": "A text produced by log_str, log_num, log_num0, log_port or log_hex is the (truncated) rendering of its argument and remains intact during the next eight formatting calls, so the nine arguments of one record never overwrite each other; the tenth call reuses the buffer.", "quantifier": "every argument of every formatting call, every state of the nine rotating buffers, every sequence of up to eight following calls", "why_tests_cant": "Aliasing depends on the order and number of calls and on argument lengths at the truncation limit.", "anchors": ["log.c: log_str, log_num, log_num0, log_port, log_hex, staticbuf"]}
{"id": "C68", "title": "Random bytes come whole from the kernel's random device", "statement": "randombytes fills the whole buffer with exactly the bytes read from /dev/urandom, in order, whatever the sizes of the individual reads and however often reads fail; it never returns with part of the buffer unfilled.", "quantifier": "every buffer size and every schedule of short, empty and failing reads", "why_tests_cant": "Short and failing reads of the random device cannot be scheduled exhaustively.", "anchors": ["randombytes.c: randombytes"]}
{"id": "C69", "title": "The key process reads outside its buffers only for an unterminated PRF label", "statement": "For every byte stream the network process sends, the key process performs no out-of-bounds access, except when a PRF request carries a 16-byte label without a NUL byte, which is then read beyond its end.", "quantifier": "every byte stream sent by the network process, every system call answer", "why_tests_cant": "a test shows single streams; the claim excludes every other out-of-bounds access in all protocol phases and message lengths", "anchors": ["tls_keyjail.c: tls_keyjail, prf", "tls_pipe.c: tls_pipe_prf"]}
{"id": "C70", "title": "Record encryption failure and the memory behind the record", "statement": "When a record cannot be encrypted, the network process overwrites the plain text with random bytes. The overwriting is as long as the text plus 85 once the request was sent, so the call is free of undefined behaviour if 85 bytes follow the text in its buffer (and the reply's offset stays inside); with less room behind the text a vanished key process makes it write beyond the end of the buffer.", "quantifier": "all records, buffers, positions and all behaviours of the pipes", "why_tests_cant": "The overrun needs a key process that dies between reading a request and replying, and a record at the end of the buffer; tests never kill it there, and the overrun is silent.", "anchors": ["tls_pipe.c:383-407"]}
{"id": "C71", "title": "Nothing is read, written or waited for before the jail", "statement": "In the wrapper's own process every read, write, poll, select and shutdown on any descriptor comes after the command line was accepted and, unless jailing is disabled at build or by the environment, after every restriction of the jail succeeded: the identity of -j's account (or an id derived from the process id), the chroot to -J's directory (or the default empty one), the ids, and the resource limits.", "quantifier": "every argument vector, every sequence of system answers", "why_tests_cant": "Tests see a few orders of calls; this covers every run, including every failing call.", "anchors": ["main_tlswrapper.c: main_tlswrapper", "jail.c: jail"]}
{"id": "C72", "title": "The program is started only after everything was received and applied", "statement": "Whenever the program is executed, the process that executes it is the first one forked, the command line was accepted, and from then on exactly this happened: four frames with the two ends of the connection (16, 2, 16 and 2 bytes) were read from descriptor 0 and stored as TCPREMOTEIP, TCPREMOTEPORT, TCPLOCALIP and TCPLOCALPORT in the text form of these addresses; an account record of at most 256 bytes was read; with -U and a record longer than one byte the ids were changed to the account in the record, with -u to that account, every step of each change successful and checked; the handlers of SIGPIPE, SIGCHLD and SIGTERM were reset; and the words executed are those of the command line. Nothing else was called in between.", "quantifier": "every argument vector, every sequence of system answers", "why_tests_cant": "Every failing step of the sequence would have to be provoked at every point, and absence of other calls is not observable from outside.", "anchors": ["main_tlswrapper.c:1299-1382", "jail.c: jail"]}
{"id": "C73", "title": "What the program inherits", "statement": "When the wrapped program is executed, its open descriptors that survive the execution are exactly: 0, the read end of the pipe from the wrapper; 1, the write end of the pipe to it; with -n also 5, the write end of the control pipe, and 6, the read end of the acknowledgement pipe, and /dev/null on those of 2 to 4 that were free; and whatever else tlswrapper itself was started with (except, on 5 and 6, what was there before). In particular the program has neither the connection nor any other end of a pipe.", "quantifier": "every argument vector, every table of descriptors at the start, every sequence of system answers in which new descriptors are the lowest free ones", "why_tests_cant": "A leaked pipe end shows only as a connection that never closes, and only for some combinations of descriptors that were open at the start; tests start the program with one such table.", "anchors": ["main_tlswrapper.c:1286-1360", "open.c: open_pipe"]}
{"id": "C74", "title": "The process with the key has no way to the connection", "statement": "Whenever the process that holds the private key reads, writes, polls or waits, its open descriptors are only the read end of the requests' pipe on 0, the write end of the replies' pipe on 1, files it opened itself and descriptors numbered 2 or more that tlswrapper was started with: neither the connection nor any end of the pipes to the program.", "quantifier": "every argument vector, every table of descriptors at the start, every sequence of system answers in which new descriptors are the lowest free ones", "why_tests_cant": "The claim is about what a compromised process could reach; a test cannot observe a descriptor that is merely left open.", "anchors": ["main_tlswrapper.c:1385-1410"]}
{"id": "C75", "title": "The wrapper keeps only its own ends", "statement": "Whenever the wrapper's own process reads, writes, polls or waits, both other processes have been started and its open descriptors are only its own ends of the six pipes to them, both ends of the pipe its signal handler writes to, files, and what it was started with; so the end of the data from the program or the key process is always noticed.", "quantifier": "every argument vector, every table of descriptors at the start, every sequence of system answers in which new descriptors are the lowest free ones", "why_tests_cant": "A write end kept open would only show as a hang after the other process died; no test kills it at every point.", "anchors": ["main_tlswrapper.c:1299-1430"]}
{"id": "C76", "title": "What the wrapper tells the program's process", "statement": "Whatever the wrapper's own process writes to the program's standard input is a prefix of: the four frames with the ends of the connection (taken from the PROXY line with -p 1, else from the environment if it has all four valid variables, else from the socket names; arbitrary only if the socket has no internet names), then without -n the account record followed by the decrypted data, with -n an empty account record followed by further data. Without -n and with -U nothing after the four frames is written unless the engine reported a client certificate.", "quantifier": "every argument vector, every environment, every sequence of system answers, every engine behaviour satisfying the engine interface, every descriptor table at the start", "why_tests_cant": "The stream depends on every interleaving of engine states and partial transfers.", "anchors": ["main_tlswrapper.c: main_tlswrapper, report_tls_handshake, run_tls_phase", "connectioninfo.c", "proxyprotocol.c"]}
{"id": "C77", "title": "The command line of tlswrapper-tcp", "statement": "tlswrapper-tcp reads its command line without undefined behaviour, accepts exactly those made of the options q, Q, v, T, t, p, P, J, j (grouped letters, the argument joined or in the next word, '-' or '--' ending them) followed by a host and a decimal port up to 65535 in canonical form, with every version of -p and -P being 0 or 1 and the last -t and -T numbers from 1 to 86400; and takes from it exactly the host, the port, the timeouts, the jail account and directory, the verbosity, and PROXY handling. A later '-p 0' or '-P 0' does not undo an earlier 1 (the claim that the last one counts is refuted).", "quantifier": "every vector of argument strings", "why_tests_cant": "There are unboundedly many command lines; grouping, joined arguments and the end of options interact.", "anchors": ["main_tlswrapper_tcp.c:138-190", "main_tlswrapper_tcp.c:239-318"]}
{"id": "C78", "title": "The command line of tlswrapper-smtp", "statement": "tlswrapper-smtp reads its command line without undefined behaviour, accepts exactly those made of the options q, Q, v, c, C, u, T, t, g, J, j followed by a program with arguments, with the last -t and -T numbers from 1 to 86400 and the last -g a host and a port in the syntax of parsehostport; and takes from it exactly the program with all its arguments, the user, the timeouts, the greylisting server, whether greylisting fails closed, the jail account and directory.", "quantifier": "every vector of argument strings, every libc address conversion, every content of uninitialised memory", "why_tests_cant": "There are unboundedly many command lines; grouping, joined arguments and the end of options interact.", "anchors": ["main_tlswrapper_smtp.c:834-912"]}
{"id": "C79", "title": "tlswrapper-tcp enters its jail before it talks to anyone", "statement": "In the original process nothing is read, written or waited for on the connection and no connection is opened before all restrictions of the jail (account of the last -j, directory of the last -J) are in place, unless the jail is switched off; in the resolver helper no request is received and no name looked up before its own restrictions are in place; and the original process never resolves a name itself unless the jail is switched off.", "quantifier": "every command line, environment, every sequence of system call answers, both processes, every moment of observation", "why_tests_cant": "Every order of failures in the steps before the jail would have to be tried, in both processes.", "anchors": ["main_tlswrapper_tcp.c:239-519", "resolvehost.c:149-214"]}
{"id": "C80", "title": "tlswrapper-tcp as a whole forwards one connection to the host of its command line", "statement": "With the replies its own helper sends, the original process of tlswrapper-tcp has no undefined behaviour and closes only open descriptors. Either nothing is ever written and it ends with 111 because a socket, the jail or a system call of the start failed, no address was learned for the host, or the connection did not come about; or it ends with 100 because the command line is refused, or because of a bad PROXY line (with -p 1), or because there is nothing to say in the PROXY header or no memory for it (with -P 1). Or, before the first byte is written, it has learned addresses for the host of the command line, is connected to one of them at the given port, has read exactly the PROXY line or nothing, and has set the time limit of -t; then everything read from the client goes to the server behind the wanted PROXY header and everything from the server to the client, each in order with nothing lost or added, and it ends only with 0, and only when the streams have ended or broken or the time is up.", "quantifier": "every command line, environment, libc address conversion, every sequence of kernel answers, every moment of observation", "why_tests_cant": "The interleavings of two streams, the PROXY line, up to eight connection attempts and the failures of every call cannot be enumerated.", "anchors": ["main_tlswrapper_tcp.c:239-519", "conn.c:206-317", "resolvehost.c:230-290"]}
{"id": "C81", "title": "tlswrapper-tcp connects only to the addresses of the host it was given", "statement": "Every connect of the original process is to one of the addresses that were given, before it, for the host name of the command line (by its helper in reply to a request with that name, or by the resolver if the jail is off), and to the port of the command line.", "quantifier": "every command line, every sequence of kernel answers, every moment of observation", "why_tests_cant": "The addresses pass through two processes and a list that is reordered and cut; every number and kind of addresses would have to be tried.", "anchors": ["main_tlswrapper_tcp.c:326-382", "conn.c:206-250", "resolvehost.c:171-263"]}
{"id": "C82", "title": "The resolver helper answers with 255 or with addresses only", "statement": "Whatever datagrams it receives, the helper process of tlswrapper-tcp has no undefined behaviour and sends nothing but the single byte 255 or a length of 16 times the number of addresses (at most eight) and the addresses; so the original process, if its replies come from such a helper, receives only honest replies.", "quantifier": "every datagram, every resolver answer, every uninitialised buffer, every moment of observation", "why_tests_cant": "The helper must be safe for every datagram; the reply of the resolver is outside the program's control.", "anchors": ["resolvehost.c:149-214"]}
{"id": "C83", "title": "tlswrapper-smtp starts the mail server with exactly these steps and descriptors", "statement": "Whenever tlswrapper-smtp runs the mail server, its command line is valid, the program and arguments are the rest of it, and the process did exactly the following: probe descriptors 5 and 6, make two non-blocking close-on-exec pipes, fork, put the pipes on blocking descriptors 0 and 1, close 5, become the account of -u if given (groups, then user, both checked), restore two signals, and execute the program. It inherits exactly the two pipe ends as 0 and 1 and everything else tlswrapper-smtp was started with, but 5.", "quantifier": "every command line, every sequence of kernel answers, every table of open descriptors", "why_tests_cant": "The order of closing, duplicating and lowering matters only when a call fails or numbers collide; every answer and every table of descriptors would have to be tried.", "anchors": ["main_tlswrapper_smtp.c:914-948", "open_pipe.c:9-19", "jail.c"]}
{"id": "C84", "title": "tlswrapper-smtp enters its jail before it touches the network or the mail server", "statement": "In every execution of tlswrapper-smtp: the process that becomes the mail server transfers nothing and resolves nothing before the program runs; the resolver helper transfers, resolves and receives only inside its jail; the original process transfers nothing and connects nowhere before it is in the jail of the command line (account of -j, directory of -J, memory limit) unless the jail is switched off, and never resolves a name itself unless the jail is switched off.", "quantifier": "every command line, every sequence of kernel answers, every moment of observation", "why_tests_cant": "Every path through three processes, including all failures, has to be covered.", "anchors": ["main_tlswrapper_smtp.c:914-1020", "jail.c", "resolvehost.c"]}
{"id": "C85", "title": "tlswrapper-smtp connects only to the policy server of its command line", "statement": "Every connect of the original process of tlswrapper-smtp is to the first address that was given, before it, for the host of -g (by its helper in reply to a request with that name, or by the resolver, asked for one address, if the jail is off), and to the port of -g. Without -g it connects nowhere.", "quantifier": "every command line, every sequence of kernel answers and honest helper replies, every moment of observation", "why_tests_cant": "The address passes through two processes; every reply and every failure on the way has to be covered.", "anchors": ["main_tlswrapper_smtp.c:897-911", "main_tlswrapper_smtp.c:980-1013", "resolvehost.c", "conn.c"]}
{"id": "C86", "title": "tlswrapper-smtp as a whole leads to the SMTP session of its command line", "statement": "With the replies its own helper sends, the original process of tlswrapper-smtp has no undefined behaviour. Either nothing is ever written, only open descriptors are closed, and it ends with 111 because a system call of the start, a socket or the jail failed, or, with a policy server, its name was not resolved or, with -c, it was not connected; or it ends with 100 because the command line is refused. Or, before anything is read or written: signals and the initial time limit are set, the STARTTLS descriptors are probed, two pipes are made and the mail server is forked, their far ends are closed and the near ends made blocking, the policy server of -g is connected or was tried in vain without -c, the client's address is known, and the time limit of -t is set last; the descriptors open at that point are those given at the start, the two pipe ends and the policy connection, all distinct; and everything after that is a session as specified for C51 with this mail server, policy server and client address, which also determines the exit status.", "quantifier": "every command line, every sequence of kernel answers and honest helper replies, every set of descriptors open at the start that contains 0 and 1, every moment of observation", "why_tests_cant": "The session's guarantees hold only if the program sets it up correctly on every path, including all failures and all numbers of descriptors.", "anchors": ["main_tlswrapper_smtp.c:834-1029"]}
{"id": "C87", "title": "The other processes of tlswrapper-smtp", "statement": "Neither the process that becomes the mail server nor the resolver helper has undefined behaviour, whatever the kernel answers and whatever datagrams are received, and they send nothing but, in the helper, the single byte 255 or a length and that many bytes of addresses; so the original process, if its replies come from such a helper, receives only honest replies.", "quantifier": "every datagram, every resolver answer, every uninitialised buffer, every moment of observation", "why_tests_cant": "The helper must be safe for every datagram; the reply of the resolver is outside the program's control.", "anchors": ["main_tlswrapper_smtp.c:924-948", "resolvehost.c:149-214"]}
{"id": "C88", "title": "The certificate chain read from a PEM file", "statement": "Whatever the file and whatever BearSSL's decoders report about it, tls_pubcrt_parse stays inside its arrays of 16 entries. If it succeeds, the whole file was read, it is a sequence of complete objects, and the chain consists of the contents of exactly its CERTIFICATE and X509 CERTIFICATE objects in file order, 1 to 16 of them; there is one trust anchor per certificate with the name, CA flag and key the X.509 decoder reports for exactly that certificate, the key type is that of the first one, and no allocation failed. If it fails there is a reason: an allocation failed, the X.509 decoder reported an error or no RSA or EC key, the objects are malformed, there is a seventeenth certificate, or the file ends within an object or without a certificate. The decoders' memory is overwritten in every case.", "quantifier": "every file length, every behaviour of the PEM and X.509 decoders within their contract (any number and size of pieces, any events in any order), every pattern of allocation failures, every moment of observation", "why_tests_cant": "Number, nesting and piecewise delivery of objects and the place of a failed allocation multiply without bound; a silently dropped piece or a 17th certificate shows only in rare files.", "anchors": ["tls_pubcrt.c:31-39", "tls_pubcrt.c:58-78", "tls_pubcrt.c:92-253", "tls.h:9-21"]}
{"id": "C89", "title": "The private key read from a PEM file", "statement": "Whatever the file, at every moment all bytes given to the key decoder are contents of objects named EC PRIVATE KEY, RSA PRIVATE KEY or PRIVATE KEY. If tls_seccrt_parse succeeds, the whole file was read, it is a sequence of complete objects with exactly one private key, the key decoder was started once and given the contents of that object and nothing else, it reports no error, and the key pointer and key type set are of the type it reports, RSA or EC. If it fails there is a reason: the key decoder's error or key type, malformed objects, a second private key, or a file that ends within an object or without a private key.", "quantifier": "every file length, every behaviour of the PEM and key decoders within their contract, every moment of observation", "why_tests_cant": "The order, nesting and piecewise delivery of objects is unbounded.", "anchors": ["tls_seccrt.c:18-20", "tls_seccrt.c:33-138"]}
{"id": "C90", "title": "The TLS engine is the one the command line asks for", "statement": "Whenever the wrapper uses the TLS engine (records, application data, its state, the name in the client's certificate), the last set-up of it is complete and is the one of the accepted command line: TLS versions from -m to -M, exactly the suites of -c in their order and the groups of -e, the server's preference unless -S, no renegotiation and no other flag (so a client that is asked for a certificate cannot pass without one); certificates are chosen by tls_choose; the PRF, the record ciphers and the ECDHE multiplications are those that run in the key process; the hash table is MD5, SHA-1 and SHA-2; 32 fresh random bytes were injected; the buffer has room for both directions. Without -a no client is asked for a certificate; with -a the validator trusts exactly as many anchors (1 to 16) as were parsed from that file, accepts only SHA-256, SHA-384 and SHA-512 signatures, verifies ECDSA outside the key process's replacement, and extracts the attribute named by the last -U (object identifier by X.690), none without -U. The last set-up call is the reset that starts the handshake; no setting is changed afterwards.", "quantifier": "every command line, every environment, every run and every moment of it in the original process, every answer of the kernel, the other processes and the engine", "why_tests_cant": "A setting that is overwritten later, made before the zeroing, or missing for one combination of options leaves a working handshake with weaker properties; the combinations of options and interleavings are unbounded.", "anchors": ["tls_profile.c:214-333", "main_tlswrapper.c:327-342", "main_tlswrapper.c:1191-1192", "main_tlswrapper.c:1490", "tls_ecdhe.c:136-145"]}
{"id": "C91", "title": "The wrapper is supervised by its alarm clock", "statement": "From its fourth system call to its end the wrapper has an alarm clock. While the command line is parsed it is set to 10 seconds and SIGALRM ends the process; then, until the handler is installed, it is set to the -T value and SIGALRM still ends the process. Once the handler is there, every wait for data includes the read end of the self-pipe (the pipe made last) and has a running clock, set anew after everything read, to the -t value, the -T value or one second; the clock is set to no other value, and except for two times only after something was read. SIGALRM is never ignored. After the handler is removed nothing is transferred or waited for except the two processes. Both values are between 1 and 86400. A new process first stops its clock, sets none afterwards and starts no process. Not true: that -T limits the handshake (each byte from the peer sets the clock to the -t value during the handshake, so it may last for ever), and that the clock covers the wait for the program (it may have rung already, or it ends the wrapper before the exit code is known).", "quantifier": "every command line, every environment, every run and every moment of it, every answer of the kernel, the other processes and the engine", "why_tests_cant": "A phase without a running clock shows only if the peer goes silent exactly there; tests with timeouts cover a few of the unboundedly many interleavings of reads, signals and phases.", "anchors": ["main_tlswrapper.c:1162-1169", "main_tlswrapper.c:1280", "main_tlswrapper.c:1308", "main_tlswrapper.c:1392", "main_tlswrapper.c:1483-1501", "main_tlswrapper.c:135-176", "main_tlswrapper.c:1092-1116"]}
{"id": "C92", "title": "The alarm clocks of tlswrapper-tcp and tlswrapper-smtp", "statement": "tlswrapper-tcp sets no clock until it is connected and has its handler; from then on every wait includes the read end of the self-pipe and has the clock running with the whole -t value, set anew after everything read, and the clock is set to no other value, and except for the first time only after something was read. tlswrapper-smtp first sets the SIGALRM handler (which ends it with 111) and the clock to 30 seconds, and in all of its life sets the clock exactly once more, to the -t value, before it writes anything or reads more than one byte; so it ends within 30 seconds plus the -t value. Both values are between 1 and 86400. Not true: that the peer of tlswrapper-tcp is under a timeout from the start (with -p 1 the PROXY line is read without a clock), and that tlswrapper-smtp allows the -T value for the connection to the greylisting server (the 30 seconds still run, and end it even if it should go on without greylisting).", "quantifier": "every command line, every environment, every run of the original process and every moment of it, every answer of the kernel, the resolver, the peer and the servers", "why_tests_cant": "A wait without a running clock shows only if the other side goes silent exactly there; the order of reads and of settings of the clock is unbounded.", "anchors": ["main_tlswrapper_tcp.c:326-375", "main_tlswrapper_tcp.c:378-514", "main_tlswrapper_smtp.c:188-192", "main_tlswrapper_smtp.c:834-845", "main_tlswrapper_smtp.c:980-1029"]}
{"id": "C93", "title": "No relay loop spins", "statement": "In the cleartext phase and the TLS phase of tlswrapper and in the relay of tlswrapper-tcp, every round of the loop after the first is accounted for: bytes were transferred, the kernel asked to try again (EINTR, EAGAIN), a wait ended without any descriptor asked about being ready, or a descriptor was closed for good. So the number of rounds is at most one plus the number of such events plus the number of open descriptors, and the number of system calls and engine calls is at most a small constant times that, provided that the descriptors are below 1024. Not true: without the proviso (with a descriptor of 1024 or more the wait fails at once and the wrapper loops for ever without waiting, deaf to signals); that a signal is served in the round after it arrived (as long as there is data to move, the self-pipe is reported readable and never read).", "quantifier": "every state of the loops, every answer of the kernel and of the TLS engine, every length of the session", "why_tests_cant": "A spinning loop gives the right output; it shows only as load, and only in the one combination of closed directions, buffer levels and engine flags that lacks a guard.", "anchors": ["main_tlswrapper.c:658-876", "main_tlswrapper.c:903-1128", "main_tlswrapper.c:135-176", "main_tlswrapper_tcp.c:378-514", "jail_poll.c:37-104"]}
{"id": "C94", "title": "The key process keeps each secret no longer than it needs it", "statement": "In every run of the key process, whatever the network process, the kernel and the TLS library answer: whenever it reads or writes, neither the decoded private key nor the clear key file nor the shared secret is in its memory; when it makes its scalar none of the secrets is there; when it decodes the private key and when it computes the shared secret there is the scalar and nothing else; when it signs, the clear file is gone; when it derives the keys of the session, once, the scalar has been overwritten; and when it works for the session (PRF, encryption, decryption) the scalar and the shared secret have been overwritten. At the end the private key, the file and the key of the file are gone, and if the keys of the session were derived the scalar and the shared secret too. Not true: the stronger claim of the comment in front of tls_keyjail() that secret scalars are overwritten; if the client leaves after the first message of the key exchange, the function returns without overwriting the scalar, and if the cipher suite is unknown, without overwriting the shared secret.", "quantifier": "every dialogue with the network process, every answer of the kernel and of the TLS library, every key file, all arguments", "why_tests_cant": "What is left in memory does not show in the output; an error path that forgets to overwrite passes every test.", "anchors": ["tls_keyjail.c:52-101", "tls_keyjail.c:136-179", "tls_keyjail.c:186-233", "tls_keyjail.c:297-305", "tls_keyjail.c:405-407"]}
{"id": "C95", "title": "The TLS relay leaves nothing behind", "statement": "In every run of the relay of the TLS phase with an engine that offers what it has made in order, says in its state whether something is left, and makes more only in the calls that hand something to it, acknowledge, flush or close: when the input of the program is closed, the program has got the account record and all of the plaintext decrypted so far, unless a write to it failed, the engine failed or gave no buffer against its state, or a signal cut the input; when the connection to the peer is closed for writing, all that was read from the program has been handed to the engine and all records the engine has made have been sent, with the same exceptions; and at the end all that was read from either side has been handed to the engine, and everything that the last state showed to be complete has been passed on. With any engine: every closing and every wait uses the present state, asked for after the last call in which the engine works, and the data of the program is flushed in the call after it was handed over. Not true: that the end of input tells the program that the peer has ended its stream. A connection closed without the TLS closure is passed on as an ordinary end, and if the program has closed its output a peer that is silent for a moment is taken for one that has ended, and what it sends afterwards is read and dropped.", "quantifier": "every schedule of readiness, every answer of the kernel, every engine with that interface, every set of descriptors, with and without user from certificate, in both modes of the phase", "why_tests_cant": "A byte is lost only if the end of one stream falls into the window between two looks at the state of the engine, or if a short write is the last one before the end.", "anchors": ["main_tlswrapper.c:907-972", "main_tlswrapper.c:978-1020", "main_tlswrapper.c:1065-1122"]}
{"id": "C96", "title": "tlswrapper as a whole has no undefined behaviour, with two exceptions", "statement": "For every command line of C strings, every environment, every sequence of answers a kernel and the TLS library can give, and every start with 0 and 1 open: none of the three processes of tlswrapper (the program's process up to exec, the process with the key, the process with the sockets) ever reads or writes outside an object, overflows a signed integer, uses a negative shift or size, or dereferences a null pointer, from the first instruction of main_tlswrapper to the end, except in two cases. The key process does so only if it is asked, after other requests, for a PRF with a label that has no terminating zero; the process with the sockets does so only if -a was given, and all it got from the key process is the eight bytes of the length -2^63. Both cases need the other process to be compromised; both are reachable then. The program's process never does, and the process with the sockets never does without -a.", "quantifier": "all command lines, environments, descriptor tables at the start, answers of kernel and library, schedules of readiness; all three processes from start to end; no bound on lengths or steps, arguments shorter than 2^62", "why_tests_cant": "Memory errors of a privilege-separated program hide in paths that only a compromised peer or an unlucky answer of the kernel takes; the claim is about all of them together, in the composition and not module by module.", "anchors": ["main_tlswrapper.c:1154-1542", "tls_keyjail.c:136-409", "tls_keyjail.c:312-322", "pipe.c:183-215"]}
{"id": "C97", "title": "Addresses in the log are complete, unambiguous and stay in their buffers", "statement": "For every 16-byte address and every port, log_ip gives the dotted decimal form of an IPv4 address and otherwise IPv6 text that is read back as the same address; log_ipport gives \"address:port\" for IPv4 and \"[address]:port\" otherwise, with the port as a canonical decimal number; a missing address or port gives \"(null)\". Two places with the same text are the same address and the same port. All stores stay inside the 68 bytes of the rotating buffer, whatever it held before, the text is never cut, and together with the other formatting functions a text is intact while eight further texts of any kind are made, so that nine can be used in one record.", "quantifier": "all addresses, ports, contents and positions of the nine rotating buffers, all sequences of up to eight further formatting calls of every kind, every libc address conversion with the properties of inet_ok", "why_tests_cant": "The longest text, brackets, 45 characters of IPv6 text, colon and five digits, fits by a margin that tests with usual addresses do not probe; ambiguity is a statement about all pairs of places.", "anchors": ["log.c:555-556", "log.c:611-637", "log.c:661-693"]}
{"id": "C98", "title": "What was sent in clear is not taken for protected", "statement": "In every common history of the wrapper with -n and a program, joined by pipes: after the program has read the acknowledgement, the wrapper passes on only what comes out of TLS; a program that empties its input after that moment never takes a byte sent in clear for a protected one. What tlswrapper-smtp obeys after STARTTLS is what the wrapper passed on in clear after the last read of the drain, followed by what came out of TLS. As the drain comes before the acknowledgement, the first part need not be empty: a command sent in clear behind STARTTLS, while the peer does not take the reply, is given to the mail server after the acknowledgement and RSET.", "quantifier": "every interleaving of the calls of the wrapper and of the program, every program (first part), every client byte stream, arrival schedule, configuration (second part)", "why_tests_cant": "The window is between two calls of one process and two calls of another; tests run one schedule, and on a local connection the peer takes the reply at once.", "anchors": ["main_tlswrapper.c:740-850 run_cleartext_phase", "main_tlswrapper_smtp.c:262-287 smtp_discard_starttls_cleartext", "main_tlswrapper_smtp.c:777-809 smtp_starttls"]}
{"id": "C99", "title": "Network process and key process do not wait for each other", "statement": "There is no moment at which the network process is blocked on the pipes to the key process (it reads and the pipe is empty, or it writes and the pipe is full) while the key process is blocked too, whatever number of bytes the pipes hold: unless a system call failed in the network process, or it did not take a reply that was longer than allowed or pointed out of the buffer of its caller. While the network process writes a request, there is no reply it has not read.", "quantifier": "every sequence of stub calls in the order of a handshake, every content of requests and replies, every answer of the kernel and of BearSSL, every capacity of the pipes, every moment of both executions", "why_tests_cant": "A deadlock needs one particular pair of positions of two processes; tests see the pairs their timing produces, and a hanging connection looks like a slow peer.", "anchors": ["tls_pipe.c:31-407", "tls_keyjail.c:130-403", "pipe.c:68-203", "readall.c:22-42", "writeall.c:23-46"]}
{"id": "C100", "title": "What the log says about the end of a TLS connection", "statement": "Every return of the TLS phase is logged with a reason, and it is the true one: \"handshake failed\" only if the engine closed before the handshake was done, \"finished\" with the text for an error of the engine only after the handshake and when all records were sent, with a further line at the error level exactly if there was an error; \"write to network failed\" and \"write to child failed\" only if the engine had nothing to give against its state or the write failed for good; \"signal\" only after a read from the self-pipe. The text is \"TLS closed normally\" only if the engine reports no error, the text for an alert is its registered name, and two known errors or alerts never have the same text. The detail \"close_notify sent, not waiting for peer\" is logged only if the engine is not closed and has nothing to send, and either the program had closed both directions and the engine was asked to close after that, or the program had not closed its output, the engine did not accept plaintext, and the peer was gone or the plaintext at hand could not be delivered. In the second case the text is not true: a peer that disconnects during the handshake gives it, although nothing was sent. Before the handshake is done, the log does not tell an alert that was sent from one that was received.", "quantifier": "every run of the TLS phase: every state and error code of the engine, every readiness, every answer of the kernel, every signal; all error codes; no bound on steps", "why_tests_cant": "The reason is chosen in one place out of eight after any number of rounds; whether a line is true depends on the history of the connection, and tests compare lines only for the few endings they stage.", "anchors": ["main_tlswrapper.c:906-1130 run_tls_phase", "tls_engine.c:174-208 tls_engine_close_reason", "tls_error.c:11-316"]}
{"id": "C101", "title": "Several tlswrapper-tcp in a row pass on the ends and the streams, up to the program", "statement": "If any number of tlswrapper-tcp are connected in a row, each with -P 1 and the next with -p 1, and the ends of the first connection can be known (PROXY line, environment or internet socket), then each that passes something on has learned exactly the two ends the first one learned, has read nothing but the PROXY header before it relays, sends no other payload than a beginning of what the first one's client sent behind its own header, and the first one's client gets nothing but a beginning of what came back on the last connection. If the last of the row is connected to a tlswrapper with -p 1, the variables TCPREMOTEIP, TCPREMOTEPORT, TCPLOCALIP and TCPLOCALPORT of its program are texts of these two ends. If one end is an IPv4 and the other an IPv6 address, the next one passes nothing on, so a connection the first one accepts is lost there.", "quantifier": "all numbers of runs in the row, all command lines, environments, answers of kernel and helper, ways the streams are cut into reads and writes, all addresses and ports", "why_tests_cant": "Needs several processes with every way of cutting the stream between header and payload, and every pair of addresses; the mixed address families occur in no ordinary test.", "anchors": ["main_tlswrapper_tcp.c:239-519", "proxyprotocol.c:15-205", "connectioninfo.c:20-145"]}
{"id": "C102", "title": "A program behind two tlswrappers is told the ends that the first one saw", "statement": "If tlswrapper executes a tlswrapper-tcp without -p 1, then this and every further tlswrapper-tcp of a row that starts with it learns exactly the two ends of the connection that the first tlswrapper's network process found out (from its PROXY line, its environment or its socket), as long as setenv does not fail; and if a tlswrapper with -p 1 serves the last of the row, its program's variables TCPREMOTEIP, TCPREMOTEPORT, TCPLOCALIP and TCPLOCALPORT are texts of these ends. If setenv fails, the program can be executed with the variables of another connection.", "quantifier": "all command lines, environments, addresses and ports, lengths of the row, answers of kernel, resolver helper and TLS engine, ways the streams are cut into reads and writes", "why_tests_cant": "Six or more processes of three programs take part; a test runs a few addresses through one arrangement of them.", "anchors": ["connectioninfo.c:20-145", "main_tlswrapper.c", "main_tlswrapper_tcp.c:239-519", "proxyprotocol.c:15-205"]}
{"id": "C103", "title": "The policy server is asked about the client that tlswrapper saw", "statement": "All that tlswrapper-smtp sends to the policy server are questions of the form request, client_address, sender, recipient (only the last may be unfinished, or without -c also one whose writing failed), and client_address is the text of the remote address that tlswrapper-smtp found out. If tlswrapper executed it and setenv did not fail, this is the remote address that the network process of tlswrapper found out from its PROXY line, its environment or its socket. If the client sends no zero byte, sender and recipient contain no line end, so no other line about the address is in a question. With a zero byte the client can add a line client_address of its own. The environment of the mail server that tlswrapper-smtp starts gives the same ends of the connection.", "quantifier": "all command lines, environments, addresses, client and server inputs, answers of kernel, helper and policy server, ways the streams are cut into reads and writes", "why_tests_cant": "Four processes take part and the client chooses all bytes of the session; tests try a few sessions with ordinary lines.", "anchors": ["main_tlswrapper_smtp.c:409-447", "main_tlswrapper_smtp.c:548-604", "main_tlswrapper_smtp.c:663-760", "main_tlswrapper_smtp.c:1015-1017", "connectioninfo.c:20-145"]}
{"id": "C104", "title": "The answer to the question about a recipient decides about it", "statement": "The line by which tlswrapper-smtp decides about a recipient is the first one of what it reads from the policy server after the question about this recipient was sent as a whole. If at that time all of the answers to the earlier questions, and no more, had been read, it is the answer to this question. Without this condition it need not be: if the empty line that ends an answer arrives later than its first line, it is taken for the next answer, every further recipient is decided by the answer to the question before, and a recipient that the policy server rejects is passed on, also with -c.", "quantifier": "all sessions, settings, answers of the policy server and ways they are cut into reads", "why_tests_cant": "It depends on how the network cuts the answers; tests see them in one piece.", "anchors": ["main_tlswrapper_smtp.c:355-399", "main_tlswrapper_smtp.c:409-447", "main_tlswrapper_smtp.c:697-760"]}
