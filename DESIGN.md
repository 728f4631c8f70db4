# Formal model of tlswrapper

A model in Rocq (Coq 8.16.1, standard library only) of the C sources in `/repo`, and proofs of the
properties in `properties.jsonl`. `MANIFEST.json` says which theorems prove which property.

## Layout

| directory | content |
|-----------|---------|
| `theories/Model` | the code, function by function; every definition cites file and lines |
| `theories/Spec`  | what the properties say, written without the model's functions (only its data types, traces and, in two places, wire formats) |
| `theories/Proof` | lemmas |
| `theories/Props` | one theorem or more per property (`Cnn_name`), `Print Assumptions` for each, and concrete examples that meet the hypotheses |

Build: `coq_makefile -f _CoqProject -o Makefile && make -j4` in `/verif/rocq`.
`tools/manifest.py` collects the theorem names from `Props`; `seeded/LOG.jsonl` is the log of the wrong
programs the theorems were tested with.

## How C is modelled

* A byte is a `Z` in [0, 256), memory is a `list Z`. A pointer into an object is the list of the bytes from
  there to the end of the object, so reading past the end is the empty list and gives `UB`. C integers are `Z`;
  wrapping (`u64`, `u32`, `u8`, ...) and overflow (`UB`) are written out.
* A function without system calls returns `res A := Ok a | UB | Fuel`. `Fuel` is a loop whose fuel ran out; the
  theorems show it does not occur for enough fuel, or hold for any fuel.
* A function with system calls is a `prog R` (`Model/Sys.v`): `Ret`, `Do call continuation`, `Bad` (undefined
  behaviour), `Halt` (fuel). The answer of a call is a return value, an errno and data. `runs p tr o` says that
  `p` can do the calls and see the answers in the list `tr` and end with `o`: `Fin r`, `Wrong`, or `Cut`
  (observation stopped there, so the runs are closed under prefixes). Every theorem about such a program is for
  all `tr` and `o`: any answers, any length, any moment of observation. `legal tr` restricts answers to what a
  kernel can say (read gives at most what was asked for, and so on); theorems say where they need it.
* `always OK tr`: every call in `tr` satisfies `OK` together with the calls before it.
* Two small program logics are used in the proofs and justified from `runs`: `wp` (`Proof/WpP.v`) for the relay
  loops and `sp` (`Proof/SafeP.v`) for whole processes under assumptions on the answers.
* Examples are runs computed by the kernel of Coq from a script or a function that answers the calls
  (`Proof/PlayP.v`, `Proof/PerformP.v`).

### Encodings of calls

* `Select n rd wr us`: the answer's data holds `f` for a readable and `-1-f` for a writable descriptor. The
  poll emulation of `jail_poll.c` is modelled on top; where `readall`/`writeall` wait, the model has a `Poll`
  call in place of the call of `jail_poll` (its behaviour is C38).
* Anything else is `Other name args data`: strings and byte arguments in data. Answers: `pipe` two descriptors,
  `stat` the mode, `waitpid` the status, `getpwnam` uid and gid, `getrlimit` two limits, `getaddrinfo` the
  list of addresses, `getsockname`/`getpeername` family and address fields, `setenv` may fail, `fork` 0 in the new process (a run is the life of one process).
* `Time` is the clock in microseconds. `Alloc n` is `alloc(n)` outside `alloc.c` itself; 0 is a null pointer.
* The TLS engine is outside (calls `tls_engine_*`, see `Model/Tlsphase.v`); what is assumed of it is
  `engine_ok` in `Spec/Tlsrelay.v`, and only where a theorem says so. `clientcrt` stands for reading the two
  variables set by the certificate callback.
* In the key process, the elliptic curve, signature, PRF and record routines of BearSSL are outside calls; in
  the stubs (`tls_pipe.c`) integers on the wire have their little-endian representation.

## What is modelled

| source | model | remarks |
|--------|-------|---------|
| parsenum, parseport, porttostr | Parsenum | |
| parsename | Parsename | |
| parsehostport | Parsehostport | |
| parseip, iptostr | Inet, InetIsc | `inet_pton`/`inet_ntop` are a record of functions with the assumption `inet_ok` (Spec/Ip.v); InetIsc is the ISC algorithm, proved to satisfy it |
| str, case, fixpath, fixname | Str | |
| readall, writeall, pipe | Io, Framed | |
| buffer | Buffer | |
| stralloc | Stralloc | the source does not overlap the destination's block |
| alloc | Heap | memory as a function from addresses to bytes; list nodes not part of it |
| proxyprotocol | Proxy | |
| tls_pem | Pem | ChaCha20 is a parameter (key stream), randombytes an outside call |
| log | Log, Logip | output, escaping, numbers, addresses, id, levels and colours; `errno` is not part of the state |
| randommod, randombytes, resolvehost (lookup, helper loop, request) | Resolve | `memcpy` of a block onto itself leaves it alone; the helper's socket pair keeps message boundaries |
| resolvehost (start and end of the helper) | Lookup | one run is the life of one process |
| timeoutread, timeoutwrite, fd, jail_poll | Fdio | |
| conn, socket, milliseconds | Conn | |
| connectioninfo | Conninfo | |
| jail | Jail | Linux: every `#ifdef` branch taken |
| tls_cipher, tls_ecdhe, tls_version, tls_anchor, tls_certfile | Config | BearSSL's numbers are the IANA numbers; no X448 |
| tls_profile (tls_profile), tls_ecdhe (tls_ecdhe_get_default) | Profile | the br_* set-up calls as outside calls with their numbers and the names of the static objects; the context is left out, trust anchors by their number, the answers ignored as in C |
| tls_profile (hash_choose, copyfn, tls_choose), tls_pipe (getcert) | Choose | tls_pubcrt_parse as an outside call (what it does is C88) |
| tls_crypto_scalarmult | Scalar | without X448 and lib25519 |
| tls_pubcrt, tls_seccrt | Certs | BearSSL's PEM, X.509 and key decoders are outside; a push call that delivers data to its callback is answered -1 with the data, once per callback |
| tls_keyjail | Keyjail | tls_seccrt_parse as an outside call (what it does is C89) |
| tls_pipe | Stubs | |
| main_tlswrapper_smtp | Smtp | see the head of the file |
| main_tlswrapper_smtp (command line, start) | Smtpmain | alarm is set before the transaction is reset, in C after it |
| main_tlswrapper_tcp (relay) | Relay | |
| main_tlswrapper_tcp (the rest) | Tcpmain | |
| option loops of the two applets | Getopt | one model with the option letters as parameters |
| main_tlswrapper (signals, cleartext phase, TLS phase) | Session, Tlsphase | |
| tls_error, tls_keytype, tls_engine_close_reason, reason and detail of run_tls_phase | Ending | error codes of BearSSL by value; the level of the log is left out |
| main_tlswrapper (command line) | Options | |
| main_tlswrapper (the rest: three processes) | Main | |
| tlswrapper | Applet | |

In general log output is left out of functions other than those of `log.c`; where a log call reads a string the
SMTP model still reads it. The wiping of memory before `_exit` is not modelled.

Not modelled: BearSSL and lib25519; `tls_engine.c` but for `tls_engine_close_reason` (it calls BearSSL), `e.c`
(a table of texts), `tls_ecdsa.c`, `fsyncfile.c`; libc beyond the interfaces above; the kernel beyond the answers; the compiler; signals
other than through the self-pipe (their dispositions are modelled: the second argument of `signal`).

## Assumptions that appear as hypotheses

* `inet_ok` of the address conversion functions.
* `legal`: answers a kernel can give.
* `clear_setup`, `tcp_setup`, `tls_setup`: the descriptors are distinct and below 1024. For the wrapper process
  C75 and its lemmas derive it from `kernel_fds` and `start_table`.
* `kernel_fds` (Spec/Fdtable.v): new descriptors are the lowest free ones; `start_table`: 0 and 1 are open at
  the start.
* C80, C81, C85, C86: `kernel` (Props/PropForward.v), what a kernel guarantees; `honest` (Spec/Forward.v), the form of the
  helper's replies, which C82 and C87 prove of the helper.
* C86: `fstats` (Spec/Mailer.v), fstat succeeds for open descriptors only.
* C90: `plausible` (Spec/Engine.v): randombytes fills its buffer; tls_pubcrt_parse answers failure or a number of
  certificates between 1 and 16, which is C88.  That a setting is what the last call for it wrote (and what
  `br_ssl_server_zero` and `br_x509_minimal_init` forget) is the specification's reading of bearssl_ssl.h and
  bearssl_x509.h.
* C88, C89: `decoders`, `key_decoders` (Spec/Pemobj.v), the contract of BearSSL's decoders. The code relies on
  `br_pem_decoder_name` at an END line giving the name of the BEGIN line, which BearSSL's documentation does not
  promise (its code does it); otherwise a 17th certificate could be stored.
* `engine_ok` for the theorems about the plaintext streams of C60; `engine_makes` (Spec/Tlsdone.v) for C95_input, C95_output
  and C95_end, which also says that a state without the bits for records or plaintext means that none are left.
* For the account of `-U` over two processes (C11): the bytes the program's process takes from the pipe are a
  prefix of those the wrapper has written to it.
* C59: `side_by_side` (Spec/Scan.v), a pipe as seen by two processes in time.
* C98: `pipe` (Spec/Inject.v), a pipe in the common history of two processes; for C98_whole besides `engine_ok`
  (Spec/Tlsrelay.v). That nothing before the cleartext phase writes to the acknowledgement pipe is a hypothesis of
  C98_acknowledged and C98_drained, and proved in C98_whole; C98_smtp does not need it.
* C102: `inherits` (Props/PropThrough.v): an executed program finds the values that the last successful setenv for each
  variable stored; `stores`: no setenv failed (the code ignores its result).
* C103: `mails` (Props/PropAsked.v) are the assumptions of C86 on the run of tlswrapper-smtp; `keeps`: a variable that a process
  does not set has the same value in the program it executes.
* C101: two runs are linked by the hypothesis `joined` (Props/PropChain.v), tlswrapper behind them by `feeds` (Props/PropChainMain.v): neither reads anything but what the other one wrote to
  the connection, in order. `known` says that the ends of the first connection can be found out.
* C100: C100_notified assumes that the engine, unless it is closed, waits for its records or plaintext to be taken or for records
  of the peer (`alive`, Spec/Farewell.v). The other theorems assume nothing of it.
* C99: a call on something else than the two pipes returns; `blocked` (Spec/Waits.v) says what waiting on a pipe is. The order of
  the stub calls (`ordered`, Spec/InStep.v) is that of BearSSL's handshake.
* C91, C92: `real_pipes` (Props/PropWatchdog.v): a successful pipe(2) gives non-negative descriptors. What a signal does
  between two calls is in the specification (Spec/Watchdog.v), read off the calls of alarm, signal and sigaction.
* C96: in the key process `open_read` gives a descriptor above 2 or fails, that is, descriptor 2 is open there; file sizes, the
  results of the signer and the lengths of records are what `env_ok` (Proof/KeyjailP.v) says.
* Arguments and environment are C strings (`points`), environment entries as in `env_ok`.

## Trusted base

* Coq's kernel.
* `Print Assumptions` stands after every theorem in `Props`; each prints "Closed under the global context". No
  axioms are used, neither own nor from the standard library.
* The transcription from C, done by hand and cited by line; its simplifications are listed above and at the
  head of each model file.
* The statements: the definitions in `Spec`.

## What the proofs found

Statements that turned out to be false of the code are kept as `..._refuted` theorems with a witness.

* C08, C30, C54, C59, C60, C11: see the notes in `MANIFEST.json`.
* C59: select looks at the child's output before it looks at the control pipe; a child that writes its reply
  and the control byte between the two looks has its reply sent inside TLS.
* C98: `tlswrapper-smtp` empties its input before it waits for the acknowledgement, and the wrapper goes on passing cleartext
  until it acknowledges. A command sent in clear behind STARTTLS by someone who delays taking the reply is obeyed as if it had
  come through TLS (C98_injection_refuted). Emptying the input after the acknowledgement would be enough (C98_drained).
* C99: a reply the stub does not take (too long, or out of the buffer) stays in the pipe and is read as the next replies; a caller
  that goes on after that can wait for ever (C99_unconditional_refuted). BearSSL stops at the first failure.
* C11: with `-U`, a certificate whose name is empty or starts with `@`, or a certificate status of -1, gives an
  empty account, and the program keeps the privileges of the wrapper.
* C60: a child that gets early plaintext in place of the account record (see C60_streams_refuted).
* C77: a later `-p 0` or `-P 0` of `tlswrapper-tcp` does not undo an earlier 1.
* C82: the original process of `tlswrapper-tcp` trusts its helper: a reply of the single byte 254 makes it read
  past its address buffer when `-vvv` is given.
* C83: the mail server inherits descriptor 6, the write end of the STARTTLS control channel; only 5 is closed.
* C86: without `-c` a policy server that cannot be connected does not matter, but one whose name cannot be resolved
  ends `tlswrapper-smtp` with 111.
* C63: without `-n` a client that closes its side of the connection before the handshake is over makes the wrapper close
  the program's pipe and then write the account to descriptor -1; it ends with 111 and does not wait for the program
  (C63_half_close_refuted).
* C91: `-T` does not limit the handshake, as each byte of the peer sets the clock to `-t`; the wait for the program is
  either without a clock or ends the wrapper before the exit code is known.
* C92: `tlswrapper-tcp -p 1` reads the PROXY line without a clock, so a silent peer keeps it for ever. In
  `tlswrapper-smtp` the clock of the start (30 seconds) cuts a connection to the policy server that `-T` would
  allow, also without `-c`.
* C93: if a descriptor of the session is 1024 or more (many descriptors inherited), jail_poll fails with EINVAL at
  once; the loops treat that like an interrupted wait and spin for ever, deaf to signals. Also, signals are served
  last: while data keeps coming, the self-pipe is never read.
* C94: the comment in front of tls_keyjail() says that secret scalars are overwritten. On the error paths they are not:
  a client that leaves during the key exchange leaves the scalar (tls_keyjail.c:186-231 goto cleanup), an unknown cipher
  suite the shared secret (tls_keyjail.c:300). die(0) then overwrites 4096 bytes of stack below the frame of main(), which
  may or may not be where they were; that is up to the compiler and not modelled.
* C95: a TCP connection that is closed without the TLS closure is passed on to the program as an ordinary end of input
  (C95_truncation_refuted); and when the program has closed its output, a peer that is silent at that moment loses the rest
  of what it sends (C95_silence_refuted).
* C96: the two exceptions are C69_refuted (a label without a terminator is read past its end, in the key process) and a
  length of -2^63 from the key process, which pipe_readalloc negates (C96_length_refuted; only with `-a`, because
  otherwise the process with the sockets does not read a length before it is restricted).
* C102: if setenv fails for lack of memory, the program is executed with the variables tlswrapper itself was started with,
  which may describe another connection (C102_stores_refuted).
* C103: a zero byte in MAIL FROM or RCPT TO becomes a line end in the question to the policy server, so a client can add
  lines to it, for example a second `client_address` with an address of its choice (C103_alone_refuted).
* C104: the rest of an answer of the policy server that has not arrived when its first line is read is taken for the answer to
  the next question; from then on each recipient is decided by the answer for the one before (C104_own_refuted).
* C101: behind a tlswrapper-tcp with -P 1 that serves a connection with an IPv4 and an IPv6 end, one with -p 1 passes nothing on
  (C101_mixed_refuted): it refuses the header. Cf. C08_refuted.
* C100: the line "close_notify sent, not waiting for peer" is also written when the peer disconnects during the handshake
  and nothing was sent (C100_notified_refuted); before the end of the handshake an alert that was sent and one that was
  received give the same line (C100_direction_refuted).
* Smaller: results of `connectioninfo_get` and `setenv` are ignored; `-m` above `-M` is accepted; `-p 0` does not
  undo `-p 1`; signals before the self-pipe exists are lost; with `-n` descriptors 2 to 4, if free, are left to
  the program as `/dev/null`.

## Wrong programs

Each line of `seeded/LOG.jsonl` is an edit of the model like a plausible bug, and the theorems that no longer
prove. An edit that no theorem noticed led to a stronger theorem or is noted as harmless.
