{
"C01": {
"status": "proved",
"note": "parsenum.c parsenum_"
},
"C02": {
"status": "proved",
"note": "porttostr.c, parseport.c parseport_"
},
"C03": {
"status": "proved",
"note": "parsename.c parsename_"
},
"C04": {
"status": "proved",
"note": "parsehostport.c"
},
"C05": {
"status": "proved",
"note": "parseip.c, iptostr.c; libc inet_pton/inet_ntop as an interface (Spec/Ip.v inet_ok), shown satisfiable by the ISC algorithms"
},
"C06": {
"status": "proved",
"note": "reader for all streams and schedules; 'fails' characterised exactly (failed read, overlong line, meaningless line)"
},
"C07": {
"status": "proved",
"note": "generator and round trip; libc text conversion through the interface inet_ok (instance isc proved)"
},
"C08": {
"status": "proved",
"note": "the original claim is false of the code (C08_refuted); proved exactly: such a header is never accepted"
},
"C09": {
"status": "proved",
"note": "fixpath.c"
},
"C10": {
"status": "proved",
"note": "tls_choose, copyfn and tls_pipe_getcert over the framed pipe; every run, also unfinished ones"
},
"C100": {
"status": "proved",
"note": "Model/Ending.v repeats the loop of the TLS phase with the variables reason and detail; C100_same proves that it is the phase of the other properties plus at most one question to the engine. C100_notified assumes of the engine that, unless closed, it waits for something (alive). The two parts that are false are C100_notified_refuted and C100_direction_refuted."
},
"C101": {
"status": "proved",
"note": "C101_chain for any length of the row, by induction over it, on top of C80_forward; the link between two runs is the hypothesis joined (neither reads but what the other wrote, in order). C101_program adds both processes of a tlswrapper behind the row (on top of C11_account; feeds links it to the last of the row). C101_mixed and C101_mixed_refuted: what happens with an IPv4 and an IPv6 end."
},
"C102": {
"status": "proved",
"note": "C102_inherits: from the network process of tlswrapper over the pipe to the environment of its program; C102_row and C102_through: on through a row of tlswrapper-tcp (C101) to the program of the tlswrapper behind it. Hypotheses stores (setenv does not fail), inherits, joined and feeds link the processes. C102_stores_refuted: without stores it is false."
},
"C103": {
"status": "proved",
"note": "C103_asked for tlswrapper-smtp in any environment, C103_behind when tlswrapper executes it; the claim that no other address is named holds if the client sends no zero byte, without this it is refuted (C103_alone_refuted)."
},
"C104": {
"status": "proved",
"note": "C104_own for the session, C104_program for tlswrapper-smtp as a whole; the claim without the condition on what was read before is refuted: C104_own_refuted, where the third recipient is passed on although the policy server rejects it, in fail-closed mode."
},
"C11": {
"status": "proved",
"note": "The original wording (the privileges are always dropped) is false: C11_privileges_refuted gives both processes of a connection with certificate name @example.org in which the program is executed and setuid is never called. C11_account is the exact behaviour, over the runs of both processes, connected by the pipe: what the program's process reads is a prefix of what the wrapper wrote. C11_fixname_exact covers fixname.c."
},
"C12": {
"status": "proved",
"note": "case.c"
},
"C13": {
"status": "proved",
"note": "str.c; the header comment of str_diffn is refuted for |s| = len"
},
"C14": {
"status": "proved",
"note": "Histories from an empty buffer with allocation failures anywhere, total size below 2^61; exact effect of each failure. The stronger claim (a failed operation leaves the content unchanged) is refuted for copies."
},
"C15": {
"status": "proved",
"note": "Every 64-bit value, every width below about 2^61; for widths near 2^63 the code has signed overflow (C15_any_width_refuted)."
},
"C16": {
"status": "proved",
"note": "readall.c"
},
"C17": {
"status": "proved",
"note": "writeall.c"
},
"C18": {
"status": "proved",
"note": "pipe.c: all three readers, any sequence of messages"
},
"C19": {
"status": "proved",
"note": "pipe.c; the most negative length is undefined behaviour in pipe_readalloc (refuted variant proved)"
},
"C20": {
"status": "proved",
"note": "Any history of output calls on a fresh buffer, stopping at the first failure."
},
"C21": {
"status": "proved",
"note": "The naive claim (no duplicates on retry) is refuted by C21_retry_refuted; the exact behaviour is proved."
},
"C22": {
"status": "proved",
"note": "Any history of feed/get/getc/seek calls with positive requests; also buffer_copy."
},
"C23": {
"status": "proved",
"note": "full statement for timeouts up to 2^62 microseconds; the remaining-time bound needs a clock that does not jump behind the start"
},
"C24": {
"status": "proved",
"note": "single close and histories over any number of variables"
},
"C25": {
"status": "proved",
"note": "Whole of alloc.c, over arbitrary histories of allocations, writes into owned blocks, frees, freeall and limit changes and any malloc answers a libc can give (checked by Spec/HeapSpec.v). Machine words are 8 bytes, alignment 32; log output omitted."
},
"C26": {
"status": "proved",
"note": "The counter equals the sum of the requested sizes of owned heap blocks after every history; requests are checked against the limit in effect."
},
"C27": {
"status": "proved",
"note": "C27_static_refuted: the naive claim that every individually freed block is overwritten is false for arena blocks; they are only never handed out again until alloc_freeall wipes the arena."
},
"C28": {
"status": "proved",
"note": "levels 1-4; exact text, and printable single line when colours are off; e_str and __FILE__/__func__ strings assumed free of newlines"
},
"C29": {
"status": "proved",
"note": "log_num, log_num0, log_hex; width capped at 67"
},
"C30": {
"status": "proved",
"note": "original claim refuted (C30_refuted: a literal backslash-n and a newline look the same); proved for strings without backslash"
},
"C31": {
"status": "proved",
"note": "sortip for every list of whole addresses and every random bytes (up to 2^55 addresses, the limit of randommod)"
},
"C32": {
"status": "proved",
"note": "full resolvehost for every answer list; buffers up to 2^55 bytes"
},
"C33": {
"status": "proved",
"note": "value, range and absence of overflow up to 2^55; overflow above is shown by C33_large_refuted"
},
"C34": {
"status": "proved",
"note": "About connect_any (conn_init then conn as main_tlswrapper_tcp.c calls them), for every script of socket, dup, connect, select, getpeername and clock answers: the descriptors open afterwards are exactly the winning pair plus those open before, on failure exactly those open before, every close is of an open descriptor, the second descriptor is a dup of the first and the winner's address is copied to the front. C34_in_vain gives the causes of failure. Assumes at most as many sockets as addresses (refuted otherwise), a clock below 2^62 microseconds."
},
"C35": {
"status": "proved",
"note": "client loop and helper loop with a FIFO datagram channel; C35_interrupted_refuted shows that the claim is false if a receive fails (EINTR) between request and reply"
},
"C36": {
"status": "proved",
"note": "jail.c in full; passwd strings (and so the values given to setenv) are not modelled."
},
"C37": {
"status": "proved",
"note": "Every uid/gid passed to setuid, setgid, setgroups or initgroups, in any run including interrupted ones; process ids are assumed not negative."
},
"C38": {
"status": "proved",
"note": "full function"
},
"C39": {
"status": "proved",
"note": "About every sequence of options, through tls_cipher_defaults, tls_cipher_add and the caller that ends the program on a refused option. Suite numbers are IANA's."
},
"C40": {
"status": "proved",
"note": "About every sequence of options through the functions of main_tlswrapper.c that call the setters. The setters themselves may change the configuration when they refuse (refuted companion); the program then ends."
},
"C41": {
"status": "proved",
"note": "PEM parser is an outside call with arbitrary answers; a hash is announced although none of the four was offered: see the refuted theorem"
},
"C42": {
"status": "proved",
"note": "SHA-224 is not in the code's list: see the refuted theorem"
},
"C43": {
"status": "proved",
"note": "exact for every file content; a line longer than 64 bytes ends the processing of the file (faithful to the code); 'key material never published' refuted for unterminated blocks (C43_unterminated_refuted), proved for tidy files (C43_tidy)"
},
"C44": {
"status": "proved",
"note": "stream cipher as parameter (XOR with a keystream depending on key, nonce and position)"
},
"C45": {
"status": "proved",
"note": "For every random 66-byte buffer and every curve code the scalar handed to the point multiplication is clamped into 1..order-1 (Curve25519: the library clamps), and the same scalar is used for the shared secret."
},
"C46": {
"status": "proved",
"note": "Every run of the modelled process is a dialogue of Spec/Protocol.v; files are opened before the jail by clean names; every private-key operation is preceded by all restrictions of the jail. Assumptions on answers: env_ok (new descriptors > 2, file sizes below 2^62, record routines return at most 16774 bytes, signatures at most 2048 bytes). With -J (no jail) only the order is claimed."
},
"C47": {
"status": "proved",
"note": "Origin of every reply. The label of PRF requests is not checked by the key process (C47_finished_only_refuted), so the claim names PRF output for any label."
},
"C48": {
"status": "proved",
"note": "Composition of the stub model and the key process model over FIFO pipes, any client strategy in handshake order, any failures; agreement of the two logs, and exact reasons for a refused reply. Buffers of the caller are assumed as in call_ok."
},
"C49": {
"status": "proved",
"note": "C49_lines: over all runs with POSIX-conforming answers and pairwise different descriptors. 'account' ties the acts to the client bytes, to what the program got and to what the client got."
},
"C50": {
"status": "proved",
"note": "Original claim refuted: readline turns NUL into LF (C50_single_line_refuted), so a client can smuggle a second command, here a recipient the policy server never hears of. Proved: a line without NUL is forwarded as exactly one line."
},
"C51": {
"status": "proved",
"note": "Original claim (exact verbs) refuted: C51_exact_verb_refuted, an empty line is treated as QUIT. Proved: every run follows the plan of the specification (C51_session, full conformance of the session), and what decides is whether the verb abbreviates a known one (C51_verbs)."
},
"C52": {
"status": "proved",
"note": "Original claim partly refuted: exceeding a limit ends the process with 111 without a reply (C52_error_reply_refuted), RSET does not clear the recorded envelope (C52_rset_refuted). Proved: limits in every history and the exit."
},
"C53": {
"status": "proved",
"note": "Original claim refuted in two ways: 'RCPT  TO:' (two spaces) is forwarded without asking, even in fail-closed mode (C53_every_recipient_refuted); an answer of 4097 bytes without LF counts as permission in fail-closed mode (C53_fail_closed_refuted). C53_policy states exactly when a RCPT line is forwarded."
},
"C54": {
"status": "proved",
"note": "C54_discard, C54_request: SMTP process. What the main process does around the switch is C59."
},
"C55": {
"status": "proved",
"note": "Original claim refuted for lines with NUL: C55_unmodified_refuted (one line becomes two, the second a lone dot). Proved for every message: each line is forwarded in order in its normal form (NUL becomes LF), up to and including the first lone dot."
},
"C56": {
"status": "proved",
"note": "Both directions of the relay loop (main_tlswrapper_tcp.c:378-514) modelled with buffers in memory and select; every write offers exactly the pending bytes, every read asks for exactly the free space, no undefined behaviour."
},
"C57": {
"status": "proved",
"note": "Close reasons, use after close, EOF propagation before the next wait, what is waited for and served, and how the relay ends. Progress is per wait (what is reported ready is served, writes first); fairness between the two readers is not claimed: a local side that is always readable is served first."
},
"C58": {
"status": "proved",
"note": "Every system-call history of run_cleartext_phase: streams, buffer bound, control byte boundary, acknowledgement, closing, waiting order. The C library calls of the loop are the modelled calls; log output is omitted."
},
"C59": {
"status": "proved",
"note": "C59_reply_first and C59_at_once hold for every interleaving (the program's writes and the wrapper's looks at descriptors are functions of time, Spec/Scan.v). C59_scan_refuted: with looks in ascending order, and the output pipe numbered below the control pipe as C75_wrapper proves of main, encryption can start with the reply still in the pipe."
},
"C60": {
"status": "proved",
"note": "Whole run_tls_phase loop for any schedule, any engine answers and any partial transfers. C60_handing holds for every engine; C60_streams assumes the engine interface engine_ok (offers continue behind the acknowledged bytes; no plaintext before the state allowed application data) and also says that with -U nothing is written to the child without a client certificate. C60_streams_refuted shows that without the last clause of the interface the peer's plaintext takes the place of the account record."
},
"C61": {
"status": "proved",
"note": "C61_notify, C61_close, C61_flow (what is waited for and which ready descriptor is served), C61_end, for any schedule and any engine."
},
"C62": {
"status": "proved",
"note": "Handler byte, exact behaviour of handle_selfpipe_event, and in the cleartext loop the child's output stays waited for after SIGCHLD. The TLS loop is covered with C60/C61."
},
"C63": {
"status": "proved",
"note": "C63_status covers every terminating run of the wrapper's own process; C63_usage ties exit 100 without a process to command lines no answers could make acceptable; C63_no_process_refuted shows the older claim (100 only before any process) is false: with -p 1 a refused PROXY line exits with 100 after both processes were started. C63_gives_up: the reasons for 111 before any wait (Spec/Quit.v); C63_proxy: 100 after the processes were started means that no PROXY line was read. C63_half_close_refuted: a client that closes its side during the handshake can make the wrapper write the account to descriptor -1 and end with 111 without waiting for the program."
},
"C64": {
"status": "proved",
"note": "C64_exact: options end in a command exactly on the lines of the independent grammar Spec/Cmdline.v (letters grouped, argument joined or next word, -, --) with the prerequisites (entry, program, -U with -a and without -n, timeouts numerals in 1..86400), never UB; an error (die(100)) only if no further answers of stat could make the line acceptable. C64_unique, C64_settings (what every option sets), C64_prerequisites. C64_proxy_off_refuted: -p 0 does not disable an earlier -p 1 although the function comment says so."
},
"C65": {
"status": "proved",
"note": "tlswrapper.c main and basename, all argv[0] strings and memory after them"
},
"C66": {
"status": "proved",
"note": "Proved for every libc conversion meeting inet_ok. The original clause that a failure leaves no partially assigned endpoint is false (C66_partial_refuted), and a failing setenv leaves the old value (C66_setenv_refuted)."
},
"C67": {
"status": "proved",
"note": ""
},
"C68": {
"status": "proved",
"note": "the /dev/urandom variant of randombytes.c"
},
"C69": {
"status": "proved",
"note": "The exception is reachable: C69_refuted."
},
"C70": {
"status": "proved",
"note": "Exact condition proved; the naive claim (never writes beyond the buffer) is refuted with a witness."
},
"C71": {
"status": "proved",
"note": "Order of every transfer against the jail, for the whole wrapper process including the option parser."
},
"C72": {
"status": "proved",
"note": "PropProgram.v, over the whole of main; the strings of the account entry (HOME etc.) are not modelled."
},
"C73": {
"status": "proved",
"note": "Proved in PropDesc.v over the whole of main: the table is computed from the calls, for every start table; the kernel is assumed to give the lowest free number below 1024."
},
"C74": {
"status": "proved",
"note": "Proved in PropDesc.v over the whole of main, at every transfer, with descriptors 0 and 1 exactly the ends of the key process's two pipes."
},
"C75": {
"status": "proved",
"note": "Proved in PropDesc.v over the whole of main, at every transfer of the original process."
},
"C76": {
"status": "proved",
"note": "PropProgram.v, over the whole of main; the descriptor table is followed through the run, so the stream is that of the pipe and not of a number. The engine interface is engine_ok as in C60."
},
"C77": {
"status": "proved",
"note": "The parser is a function on strings; argv strings are the words with their NUL."
},
"C78": {
"status": "proved",
"note": "The parser is a function on strings; address syntax is the abstract libc conversion of the other properties."
},
"C79": {
"status": "proved",
"note": "Both processes, every run."
},
"C80": {
"status": "proved",
"note": "C80_forward composes the command line (C77), the helper, connection attempts (C34), the PROXY line (C06), the header (C07), the jail (C36) and the relay (C56, C57) over whole runs. Assumed of the answers: what a kernel guarantees (kernel) and the helper's replies (honest, itself proved of the helper as C82)."
},
"C81": {
"status": "proved",
"note": "C81_destination."
},
"C82": {
"status": "proved",
"note": "C82_helper and C82_honest. C82_dishonest_refuted: a one-byte reply 254 makes the original process read past its address buffer when -vvv is given, so the original process does depend on its helper being honest."
},
"C83": {
"status": "proved",
"note": "C83_server: the exact sequence of calls (Spec/Server.v). C83_descriptors: the inherited table, exactly. C83_control_refuted: the mail server inherits descriptor 6 of the STARTTLS control channel."
},
"C84": {
"status": "proved",
"note": "All three processes of main_smtp, over Model/Smtpmain.v."
},
"C85": {
"status": "proved",
"note": "About main_smtp, for kernel answers (kernel), honest helper replies (C87) and the original process."
},
"C86": {
"status": "proved",
"note": "About main_smtp, every prefix of every run of the original process, for kernel answers, honest helper replies (C87) and fstat succeeding only for open descriptors. The session is the specification of C51. C86_fail_open_refuted: without -c a policy server whose name cannot be resolved still ends the program with 111."
},
"C87": {
"status": "proved",
"note": "About main_smtp in the runs where some fork answered 0."
},
"C88": {
"status": "proved",
"note": "C88_chain. Assumes decoders (Spec/Pemobj.v): the contract of BearSSL's decoders and that a failed allocation sets errno; less than 2^60 bytes are delivered."
},
"C89": {
"status": "proved",
"note": "C89_key. Assumes key_decoders (Spec/Pemobj.v): the contract of BearSSL's decoders. The comment in tls_seccrt.c:30 says the first key is used; in fact a second one is an error."
},
"C90": {
"status": "proved",
"note": "tls_profile.c tls_profile, main_tlswrapper.c certuser_add and the call of it; the br_* calls are outside calls, a setting is the last call that writes it; hypothesis plausible (randombytes fills its buffer, C88 for the number of anchors)"
},
"C91": {
"status": "proved",
"note": "C91_watched for the wrapper over a whole run, C91_children for the two processes it starts. C91_handshake_refuted: -T is not a limit of the handshake (for every n a run with n settings of the clock to -t before the handshake is over). C91_last_wait_refuted: the wait for the program with the clock rung, and with the clock running and SIGALRM at its default."
},
"C92": {
"status": "proved",
"note": "Spec/Clocks.v: forward_guarded and mail_guarded, over the guard of Spec/Watchdog.v. C92_forward and C92_mail for the original processes; the mail server's process is C83. C92_header_refuted: the PROXY line is read without a clock. C92_connect_refuted: -T above 30 is cut by the clock of the start."
},
"C93": {
"status": "proved",
"note": "Spec/Spin.v: transferred, postponed, woken, and the number of reasons in a trace. C93_cleartext, C93_tls, C93_tcp bound the calls and the rounds (runs with m rounds) for descriptors below 1024. C93_cleartext_refuted, C93_tls_refuted: with larger descriptors the loops spin. C93_signal_refuted: signals wait for the data."
},
"C94": {
"status": "proved",
"note": "Spec/Secrets.v: an automaton over the calls (what is in memory after a trace) and the condition at each call. C94_discreet holds at every call of every run, C94_end at the end of every completed run; no assumption about the answers. C94_scalar_refuted, C94_shared_refuted: witnesses against the stronger claim of the source comment. The objects overwritten by randombytes are told apart by their sizes."
},
"C95": {
"status": "proved",
"note": "Spec/Tlsdone.v: the engine as a source, engine_makes with plaintext P t and records R t as functions of the history and a predicate for a failed engine; C95_input, C95_output and C95_end are stated with it, C95_fresh without any assumption. C95_input assumes that the input of the program is open at the start. An engine that has failed may drop what it holds; then nothing is claimed. C95_truncation_refuted and C95_silence_refuted: the end of input does not mean that the peer has ended its stream. C95_ex: a session with all four streams."
},
"C96": {
"status": "proved",
"note": "Spec/Sound.v: excepted, the two exceptions. C96_sound: a run of main_tlswrapper that ends in undefined behaviour was started with an accepted command line and is in one of the two exceptions; this composes C54 and its kin over start, the three processes, the anchor file, the PROXY line, the connection information, the cleartext phase, the TLS phase and the end. C96_program and C96_network: the two processes with no exception, or with none under a named condition. C96_label_refuted and C96_length_refuted: both exceptions happen in whole runs of tlswrapper. System calls and library calls themselves are in the environment, as everywhere."
},
"C97": {
"status": "proved",
"note": "Spec/Logaddr.v: addrtext, placetext by dotquad and pton6, requests aop with C67's requests as one case. Model/Logip.v has log_ip and log_ipport over the rotating buffers of Model/Log.v; inet_ntop stores nothing when the text does not fit, which the proof shows not to happen. C97_nine extends C67_nine to all six formatting functions."
},
"C98": {
"status": "proved",
"note": "C98_acknowledged, C98_drained: the cleartext phase with any program; C98_whole: the wrapper from the jail to its end with any program that empties its input after the acknowledgement, what it then reads is part of the plaintext of the engine; C98_smtp: what tlswrapper-smtp obeys after the drain. C98_injection_refuted: for tlswrapper-smtp the claim of the title does not hold, with a complete history of both processes as witness."
},
"C99": {
"status": "proved",
"note": "C99_no_deadlock, from C99_not_both_reading and C99_nothing_unread. C99_unconditional_refuted: without the exception for a reply that was not taken the claim is false, for a caller that goes on after such a reply."
}
}
