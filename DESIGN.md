# s2a-core formal model: design

The subject is google/s2a-core as found in /repo (read as text, never built).
The model is written in Gallina (Coq 8.16.1) under rocq/theories, logical name
`Verif`. Only Coq's standard library is used.

## 1. Modelling conventions

* **Bytes and sizes.** A byte is an `N`, a byte string a `list N`. `size_t`,
  `uint64_t` and friends are `N`; wherever the C++ could wrap, the model writes
  the reduction `mod 2^64` explicitly. Lengths of lists are `nat` only inside
  list functions.
* **Undefined behaviour is an outcome.** A C++ function that can run into UB is
  modelled by a function into `outcome A = Done a | Undef kind | NoFuel`.
  `Undef` records the kind (null dereference, out-of-bounds read, negative
  shift, uninitialised read, use after free). `NoFuel` marks an exhausted
  recursion bound; theorems exclude it.
* **Library calls may fail.** Every OpenSSL/BoringSSL call consults a fault
  oracle, a `list bool` threaded through the computation (`true` = this call
  fails, the empty list = all further calls succeed). "For every failure
  pattern" is "for every oracle".
* **Cryptography is a parameter.** HMAC, the cipher keystream and the MAC are
  fields of a record `prims` passed to the model. Theorems hold for every such
  record whose functions return strings of the right length (`prims_ok`). No
  cryptographic strength is assumed: authenticity is stated as "accepted only
  if the tag is the MAC of the data". A concrete instance shows `prims_ok` is
  inhabited.
* **Release build.** `ABSL_ASSERT` is a no-op, as in an NDEBUG build; if the
  code after it then misbehaves the model says so. Debug.v models the record
  layer of a debug build, where a failing assertion aborts (C88).
* **iovecs.** An input iovec is `IoBuf data` (its length is the length of the
  data) or `IoNull n` (null base pointer with length n). A caller that passes a
  length larger than its buffer is outside the model. Input and output buffers
  do not overlap, except where the library itself aliases them
  (`AdvanceSecret`), which is modelled.
* **Allocator.** Buffers of the frame protector carry an identity, and
  allocation and destruction are recorded in an event trace. The allocator is a
  parameter; theorems assume that it returns a buffer of the size asked for
  where they need that, with arbitrary contents.
* **Concurrency.** The sequential model treats every method as atomic. Conc.v
  redoes the methods as programs of atomic steps on the shared object, and
  threads interleave these steps in any order:
  - a critical section (mutex held) is one step, as are reads and writes of the
    crypter's own fields;
  - `TagLength` takes no lock: loading the pointer `aead_crypter_` and calling
    through it are two steps, and the call is a use after free if an
    `UpdateKey` replaced the crypter in between;
  - replacing the crypter and freeing the old one happen in one step;
  - Encrypt, Decrypt and UpdateKey of a half connection are atomic inside the
    record protocol programs because C29 shows they are linearizable;
  - buffers get names per call, so two calls never share an allocation counter;
  - the single-record Unprotect and the record-level methods take no lock of
    their own, and the machine for many threads takes the lock also where the
    call fails before reaching it;
  - logger, allocator and ticket sender are assumed to be thread-safe; data
    races on plain fields are not a separate outcome in Conc.v and ConcPair.v.
  ProxyConc.v does the same for S2AProxy: a method body under `mu_` is one
  step, every access of CreateFrameProtector and GetS2AContext after their
  call of IsHandshakeFinished is a step of its own, `result_->f` is a load of
  the pointer and a read through it, and addresses are not reused. There a
  race is a property of configurations (`racing`): two threads whose next
  steps access one location, one of them writing. channel_factory_ and
  channel_options_ count as one location.
* **Protobuf messages.** upb is not in /repo. Messages are records with one
  field per proto field, and Wire.v writes and reads the wire format of the
  generated layouts: default values are omitted, unknown fields are skipped,
  the last value of a repeated scalar wins, sub-messages merge, enumerations
  keep the low 32 bits. The UTF-8 check of strings is a parameter `V`
  (theorems that need a string to be accepted assume `V s = true`); nesting is
  bounded by the message types. `memcpy` and `memset` of zero bytes at null are
  not undefined in the model. An enumeration value outside the range of the
  C++ enum takes the default branch of a switch.
* **Hash containers.** The iteration order of `flat_hash_set` is a parameter:
  any permutation of the elements.
* **Strings of error messages** are not modelled; status codes are. The lines
  logged are modelled separately (Log, ProxyLog), one constructor per text; a text
  taken from an inner status is represented by its code, one taken from a token
  manager's status is left out.

## 2. Files (rocq/theories)

| file | content | models |
|---|---|---|
| Base.v | outcome, fault oracle, bytes, iovecs, status codes | include/s2a_constants.h, s2a_aead_constants.h |
| Aead.v | EVP contexts, the three AEAD crypters | src/crypto/aes_gcm_crypter.cc, chacha_poly_crypter_*.cc, s2a_aead_crypter*.cc |
| Hkdf.v | HKDF | src/crypto/hkdf.cc, s2a_crypter_util.cc |
| HalfConn.v | half connection | src/record_protocol/s2a_half_connection.cc |
| HsHandler.v | handshake message handler | handshake_message_handler.cc |
| Crypter.v | record protocol | s2a_crypter.cc |
| FrameProt.v | frame protector | s2a_frame_protector.cc |
| Options.v | options, identities | src/options, include/s2a_options.h |
| Wire.v, WireMsgs.v | protobuf wire format, the messages | src/proto/*.proto, upb-generated |
| SpecProto.v | what bytes mean under the .proto files (specification) | |
| WireSerial.v, WireReads.v, WireConform.v, PropWire.v | the parsers and encoders against SpecProto.v | |
| Util.v | enum and identity conversions | src/handshaker/s2a_util.cc |
| Context.v | S2AContext | src/handshaker/s2a_context.cc |
| TicketReq.v | ticket request | s2a_upb_ticket_sender.cc 32-80 |
| TicketEnd.v | destructor of the record protocol, the shipped ticket sender | s2a_crypter.cc 184-190, 590-591, s2a_upb_ticket_sender.cc 27-30 |
| Token.v | token manager | single_token_access_token_manager.cc, access_token_manager_factory |
| Proxy.v | handshake proxy | src/handshaker/s2a_proxy.cc |
| Log.v, LogRun.v | record protocol and frame protector with the lines they log | every `logger_` call in s2a_crypter.cc, s2a_frame_protector.cc |
| ProxyLog.v | the proxy with the lines it logs | every `logger_` call in s2a_proxy.cc |
| Debug.v, DebugRun.v | record layer with its assertions: aborting is an outcome | every `ABSL_ASSERT` in src/crypto, src/record_protocol, src/frame_protector that the types of the model do not make true (listed in Debug.v) |
| Held.v | the bytes a handler keeps | handshake_message_handler.h 140-172 |
| NoChacha.v | creation and key updates in a build without ChaCha20-Poly1305 | chacha_poly_crypter_openssl.cc 410-423 and its callers |
| ConcRead.v | several threads calling Unprotect: the unlocked check, the locked loop | s2a_frame_protector.cc 379-467, include/s2a_frame_protector.h 154-157 |
| NoMem.v | creation and key updates when EVP_CIPHER_CTX_new fails | aes_gcm_crypter.cc 408-433, chacha_poly_crypter_openssl.cc 410-437, s2a_half_connection.cc 102-254, s2a_crypter.cc 192-256 and 484, s2a_frame_protector.cc 192-231 |
| ConcMix.v | threads that call Protect and Unprotect, both mutexes | s2a_frame_protector.h 154-157, s2a_frame_protector.cc 233-317 and 379-467 |
| Single.v | threads that call the single-record Unprotect, no mutex | s2a_frame_protector.cc 319-377 |
| ErrQueue.v | the error queue of the SSL library and GetSSLErrors, in the crypters, the key derivation and the half connection | s2a_aead_crypter_util.cc 27-35, aes_gcm_crypter.cc, chacha_poly_crypter_openssl.cc, chacha_poly_crypter_boringssl.cc, hkdf.cc, s2a_half_connection.cc |
| ErrCrypt.v | Protect, Unprotect, UpdateOutboundKey and the handling of handshake messages with the error queue | s2a_crypter.cc 258-545 |
| ErrFrame.v | the frame protector and S2ACrypter::Create with the error queue | s2a_frame_protector.cc 192-467, s2a_crypter.cc 192-256 |
| Conc.v | half connection, record protocol, frame protector as thread programs; mutex machine | locking in the three classes |
| ConcPair.v | the four operations as thread programs; a writing and a reading thread | include/s2a_frame_protector.h 72-114, s2a_frame_protector.cc 319-377, 496-502 |
| ProxyConc.v | the methods of the proxy as steps of threads, with their memory accesses | s2a_proxy.h 116-148, s2a_proxy.cc (locking) |
| \*Run.v | histories: operation lists and their execution | - |
| Spec\*.v | small independent specifications (RFC 8446, RFC 5869, reference receiver, protobuf grammar, ...) | - |
| FrameRef.v | reference frame protector on byte strings (specification of C65) | - |
| Toy.v, \*Examples.v | a concrete `prims` and concrete runs (non-vacuity) | - |
| RealSha2.v, RealCiphers.v, RealProofs.v | SHA-256/384, HMAC, AES-GCM, ChaCha20-Poly1305 as a concrete `prims` called `real`; `real_ok : prims_ok real` | not in /repo (FIPS 180-4, RFC 2104, FIPS 197, SP 800-38D, RFC 8439) |
| RealData.v, RealVectors.v | test vectors copied from the repository's tests, and the model run on them with `real` (tests of the model's fidelity, not proofs) | src/test_util/s2a_test_data.h, hkdf_test.cc, aes_gcm_crypter_test.cc, chacha_poly_crypter_test.cc, s2a_half_connection_test.cc, s2a_crypter_test.cc |
| \*Refuted.v | the runs behind the `_refuted` theorems | - |
| all others but Prop\* | lemmas | - |
| Prop\*.v | the property theorems only, each closed by `exact`, with `Print Assumptions` and non-vacuity examples | - |

## 3. Plan per property

Refuted means: the statement is false of the code; the theorem exhibits a
witness, and a second theorem proves the strongest true restriction found.
Section 5 lists the theorems.

| id | plan |
|---|---|
| C01 | FrameProt: induction over Protect calls and over records; receiver state refines sender state (same key, same sequence) |
| C02, C03 | FrameProt: loop invariant of Protect against a chunking specification |
| C04, C05, C06 | HalfConn: invariant over all operation lists, trace of (key epoch, nonce) |
| C07 | HalfConn: induction over updates against an RFC 8446 specification of HKDF-Expand-Label |
| C08 | HalfConn: invariant "always fail" over all later histories and oracles |
| C09 | Hkdf: loop invariant against RFC 5869 |
| C10, C11 | Aead: streaming loops equal one-shot seal/open on concatenations, for each crypter |
| C12 | Aead: refuted for the two streaming crypters (short plaintext buffer, several fragments); proved for the BoringSSL crypter and for all exits except that one |
| C13 | Crypter: refuted (application data during a handshake message, handshake errors); proved for the remaining codes; the deviation is proved for every connection (PropEvery.v) |
| C14, C15, C16 | Crypter: case analysis of Unprotect in all states; histories by induction |
| C17 | Crypter: refuted after five tickets; proved before; the reference receiver says exactly when application data is refused (`r_wait`); the deviation is proved for every connection (PropEvery.v) |
| C18 | HsHandler: simulation with a byte-by-byte reference parser |
| C19 | Crypter: invariant over all histories; a second invariant (`cx_dead`) for the state after a malformed handshake stream |
| C20 | Crypter: refuted by five tickets plus a piece of a sixth in one record; proved when no partial message follows; the reference receiver says exactly what is handed over (`r_sent`); the deviation is proved for every connection (PropEvery.v) |
| C21 | Crypter: refuted by a split KeyUpdate; proved for unsplit ones; the deviation is proved for every connection (PropEvery.v) |
| C22 | Crypter: refuted by an empty-bodied handshake message, and by a message after a refused KeyUpdate; exact characterisation of the records with undefined behaviour in well-formed histories; the deviation is proved for every connection (PropEvery.v) |
| C23 | FrameProt: refuted (double destroy, destroy of a caller's buffer); success case proved; the deviation is proved for every connection (PropEvery.v) |
| C24 | FrameProt: refuted (leak when a later header is bad); success and crypter-error cases proved; the deviation is proved for every connection (PropEvery.v) |
| C25 | FrameProt: refuted for fewer than 22 trailing bytes; proved for longer partial records; the deviation is proved for every connection (PropEvery.v) |
| C26 | FrameProt: refuted; the deviation is proved for every connection (PropEvery.v) |
| C27 | FrameProt: refuted by an empty iovec at a header position; proved for non-empty iovecs; the inputs with a bad read characterised exactly by the positions of empty buffers (SpecGap.v, PropEvery.v) |
| C28 | Conc, ConcPair: refuted by a schedule (KeyUpdate between the two steps of TagLength), which exists whenever the reading thread changes the key; for every schedule of a writing and a reading thread with any lists of calls that is the only possible fault, and otherwise results are those of the threads alone |
| C29 | Conc: for any number of threads and every schedule, results and final state are those of a sequential order of the calls, and nonces are never repeated; UpdateOutboundKey concurrent with Protect refuted |
| C30 | Crypter: frame lemmas lifted to histories |
| C31 | FrameProt: refuted for short inputs of the single-record Unprotect; proved otherwise; the deviation is proved for every connection (PropEvery.v) |
| C32, C34 | FrameProt/Crypter: case analysis |
| C33 | Crypter: inversion of a successful Unprotect |
| C35, C36, C37 | Proxy: state machine invariants |
| C38, C41, C42, C43, C44, C45 | Proxy: refuted, with proved restrictions |
| C39, C40, C46, C47 | Proxy: functional specifications |
| C48 | Context: refuted for strings with NUL bytes, proved for NUL-free strings |
| C49, C50, C51, C52 | direct, inductions over setter histories |
| C53, C54, C56 | Aead |
| C57 | Aead: case analysis of the factories; histories keep the configuration |
| C58 | Aead: totality of the streaming loops for any fragments; Decrypt of the streaming crypters refuted (null fragment in the tag) |
| C55 | Wire: protobuf encoder/decoder round trip |
| C59 | Wire against SpecProto.v, a relational description of the encoding and of the .proto files; parsers equal the description, encoders conform to it |
| C60, C61 | Proxy: exact effect of one call (token cache invariant over histories; case analysis of responses) |
| C62 | composition of C39 (proxy), C32 (creation succeeds) and C01's channel theorem |
| C63 | Proxy and Crypter: the channel factory along both histories; refuted for a second protector |
| C64 | HsHandler: refinement of a reference that parses the byte stream (SpecHandler.v), by induction over the history |
| C65 | FrameProt and Crypter: refinement of the reference of FrameRef.v, by induction over the history; the reference is deterministic |
| C66 | FrameProt and Crypter at both ends (SpecStream.v): induction over the runs of the reference of C65; the attacker is a hypothesis on the bytes given to the receiver (no authentic record but those sent); refuted after an error |
| C67 | ProxyConc: the methods as steps, one per access outside of the mutex; invariant with a linearization point per call (the body under the mutex, or the moment the channel or the context is moved), for any number of threads and every schedule; the declared accesses are proved to be the actual ones; refuted for unrestricted use of CreateFrameProtector and GetS2AContext |
| C68 | Proxy: invariant that the stored result and context are those of the latest result with state, respectively of the latest accepted one with no context taken since, defined on the history alone; refuted for a refused result after an accepted one |
| C69 | TicketEnd: from C19 (the sender is called at most once) |
| C70 | Crypter, TicketReq, Wire composed: request prepared from what is handed over; refuted because the shipped sender is a stub |
| C71 - C76 | Crypter, FrameProt against rules of RFC 8446 (SpecRfc): from the reference receiver (accept) and the sender state (tx_run); induction over histories for C71 (protector) and C76; refuted, each on every connection |
| C77 - C79 | Crypter and FrameProt instrumented with the lines they log (Log, LogRun): erasing the log gives the functions of the other properties (LogProofs); the lines by a Hoare logic over the writer (LogFacts), exactly on connections (LogExact); C79 refuted on every connection |
| C80 - C82 | Proxy instrumented with the lines it logs (ProxyLog): erasing the log gives Proxy (ProxyLogProofs); exact lines from the calls recorded and the message sent (ProxyLogMore); C82 by a simulation between two histories (ProxyLogSame) |
| C83, C84 | Reading with two buffers compared by a relational Hoare logic over the model (BufProofs); the exact threshold and the effect of refused calls from the reference of C65, on every frame protector (BufFinal) |
| C85 | The relational logic of C83, relating a null output of length 0 to an empty buffer (NullProofs) |
| C86 | The reference of C65 extended to null pointers (`send_null`), refined by the loop of Protect (FrameNull), then one more call on any history (NullWrite) |
| C87 | Inversion of every branch of Encrypt and Decrypt with the remaining lengths as invariants of the loops (AeadCodes); non-authenticity from C10 |
| C88 | The record layer with its assertions put back (Debug); a relation between both builds with an invariant on the ticket store (DebugProofs), then induction on histories (DebugFinal) |
| C89 | What the handler keeps (Held); an invariant bounding tickets and fragments for arbitrary bytes (HeldProofs); exactly, from the invariant of well-formed streams (HeldFinal); the bound reached (HeldFinal, HeldEvery) |
| C90 | Postconditions of each function on its status (CreateCodes), with the invariant of half connections for updates |
| C91 | Simulation of two runs: the half connections of both are in the same protection state, everything else is equal (BuildsProofs); for AES-GCM equality of the computations (BuildsAes) |
| C92 | NoChacha gives again the functions that reach the #else branch; equal to the ordinary ones for the other suites by case analysis; refusal by the specifications of key derivation; a session as witness against the last part |
| C93 | ConcRead: the part of Unprotect before the mutex and the part inside it as programs of accesses, on the thread machine of C29; an invariant relates every configuration to a sequential execution, also when the steps before the mutex may fail; the failing schedules as witnesses |
| C94 | NoMem gives again the functions that reach EVP_CIPHER_CTX_new, with its failure; a simulation relation closed under the operations of the fault monad relates them to the ordinary functions; the failing runs by counting the library calls of HKDF |
| C95 | an invariant of the machine with two mutexes: the outbound half of the memory belongs to the thread inside Protect, the rest to the thread inside Unprotect, and each call, seen with the other half of the last sequential state, ends as its sequential call; calls of the two kinds commute; the order of nonces (C04) is a property of every step a sending thread makes |
| C96 | the weak invariant of all histories gives the state of the inbound half, so the record opened is the next of the peer; the handler sets the KeyUpdate flag only for type 24 at the start of a message if its own invariant holds. Frames: induction over the records opened; threads: the hypothesis of C95_threads_linearizable_same_key is derived |
| C97 | every access of such a call but Decrypt reads what does not change, so the call takes effect at Decrypt (or on return); an invariant of the machine with any number of threads, and a measure for completion |
| C98 | the functions of Aead.v, Hkdf.v and HalfConn.v with the error queue, shown to be the same functions without it; for each of them what it does to queue and text (induction over the loops), then induction over the calls |
| C99 | the functions of Crypter.v on the half connections of C98, shown to be the same functions without the queue; what each of them does to queue, text and the inbound half connection, then induction over the calls (a broken inbound half connection stays broken); for the deviation: a run without failures uses up a number of answers of the fault oracle and does not look at the rest (ErrCryptEvery.v), so the first library call for the new key can be made to fail |
| C100 | the functions of FrameProt.v and S2ACrypter::Create on those of C98 and C99, shown to be the same functions without the queue; induction over the records of a call, then over the calls; the deviation: that of C99 in the first record that installs a key, induction over the records before it |

## 4. Trusted base

* Coq's kernel (8.16.1).
* No axioms: `Print Assumptions` answers "Closed under the global context" for
  every theorem, see section 5. (`coqchk` over all loaded libraries also
  reports seven constants of `Coq.ssr.ssrunder`, which is part of Coq's own
  distribution and is loaded, not used.)
* The reading of the C++ recorded in the comment of each definition, and the
  conventions of section 1.
* The protobuf wire format as implemented by upb (not in /repo).
* OpenSSL and BoringSSL: that a streaming AEAD computes keystream and tag as in
  Aead.v, that `EVP_AEAD_CTX_seal/open` clear the output on failure, and that a
  call either fails without effect or succeeds.

Undefined behaviour that the model can report: null dereference, access out of
bounds (buffers and vectors), shift by a negative amount, read of an
uninitialised value, use after free. Not reported: data races as such (except
in ProxyConc.v), signed
overflow (there is no signed arithmetic that can overflow on the modelled
paths), misaligned access.

Not modelled: error strings (the line the destructor of S2ACrypter logs is an event of TicketEnd; which library errors they contain is in ErrQueue.v, where a failing BIO_new in GetSSLErrors and the limit of 16 entries are left out), object destruction order,
C++ exceptions and allocation failure of std containers, absl containers'
internals (their iteration order is a parameter), test code and fakes. Of the build against an
OpenSSL without ChaCha20 only creation and key updates are modelled (NoChacha.v, C92).
That EVP_CIPHER_CTX_new fails is modelled for creation and key updates only in NoMem.v (C94);
everywhere else it succeeds.

## 5. Theorems

<!-- theorems -->
| property | status | theorem | file | `Print Assumptions` |
|---|---|---|---|---|
| C01 | proved | `C01_round_trip` | PropFrame.v | Closed under the global context |
| C02 | proved | `C02_number_bytes_to_protect_exact` | PropFrame.v | Closed under the global context |
| C03 | proved | `C03_protect_emits_records` | PropFrame.v | Closed under the global context |
| C03 | proved | `C03_protect_into_emits_records` | PropFrame.v | Closed under the global context |
| C03 | proved | `C03_number_of_records` | PropFrame.v | Closed under the global context |
| C04 | proved | `C04_no_nonce_reuse` | PropHalf.v | Closed under the global context |
| C04 | proved | `C04_connection_no_nonce_reuse` | PropRecord.v | Closed under the global context |
| C04 | proved | `C04_frame_no_nonce_reuse` | PropFrame.v | Closed under the global context |
| C04 | proved | `C04_threads_nonces_in_order` | PropConcMix.v | Closed under the global context |
| C05 | proved | `C05_sequence_never_wraps` | PropHalf.v | Closed under the global context |
| C06 | proved | `C06_nonces_follow_rfc8446` | PropHalf.v | Closed under the global context |
| C07 | proved | `C07_key_schedule_follows_rfc8446` | PropHalf.v | Closed under the global context |
| C08 | proved | `C08_failed_update_is_final` | PropHalf.v | Closed under the global context |
| C09 | proved | `C09_derive_secret_is_hkdf_expand` | PropHkdf.v | Closed under the global context |
| C10 | proved | `C10_encrypt_is_seal` | PropAead.v | Closed under the global context |
| C10 | proved | `C10_decrypt_inverts_encrypt` | PropAead.v | Closed under the global context |
| C100 | partial | `C100_queue_changes_nothing` | PropErrFrame.v | Closed under the global context |
| C100 | partial | `C100_queue_changes_nothing_in_create` | PropErrFrame.v | Closed under the global context |
| C100 | partial | `C100_each_call` | PropErrFrame.v | Closed under the global context |
| C100 | partial | `C100_refused_input` | PropErrFrame.v | Closed under the global context |
| C100 | partial | `C100_create` | PropErrFrame.v | Closed under the global context |
| C100 | partial | `C100_own_errors_partial` | PropErrFrame.v | Closed under the global context |
| C100 | partial | `C100_nothing_lost_partial` | PropErrFrame.v | Closed under the global context |
| C100 | partial | `C100_errors_lost_refuted` | PropErrFrame.v | Closed under the global context |
| C100 | partial | `C100_stale_error_refuted` | PropErrFrame.v | Closed under the global context |
| C100 | partial | `C100_deviation_on_every_key_update` | PropErrFrame.v | Closed under the global context |
| C11 | proved | `C11_only_authentic_input_accepted` | PropAead.v | Closed under the global context |
| C12 | partial | `C12_no_unauthenticated_plaintext_partial` | PropAead.v | Closed under the global context |
| C12 | partial | `C12_no_unauthenticated_plaintext_refuted` | PropAead.v | Closed under the global context |
| C12 | partial | `C12_leak_for_all_primitives` | PropAead.v | Closed under the global context |
| C13 | partial | `C13_no_content_on_error_partial` | PropRecord.v | Closed under the global context |
| C13 | partial | `C13_no_content_on_error_refuted` | PropRecord.v | Closed under the global context |
| C13 | partial | `C13_deviation_on_every_connection` | PropEvery.v | Closed under the global context |
| C14 | proved | `C14_close_notify_final` | PropRecord.v | Closed under the global context |
| C14 | proved | `C14_frame_close_notify_final` | PropFrame.v | Closed under the global context |
| C15 | proved | `C15_padding_removed` | PropRecord.v | Closed under the global context |
| C15 | proved | `C15_all_zero_rejected` | PropRecord.v | Closed under the global context |
| C16 | proved | `C16_malformed_rejected_without_effect` | PropRecord.v | Closed under the global context |
| C17 | partial | `C17_no_data_inside_message_partial` | PropRecord.v | Closed under the global context |
| C17 | partial | `C17_data_accepted_iff_not_waiting` | PropRecord.v | Closed under the global context |
| C17 | partial | `C17_waiting` | PropRecord.v | Closed under the global context |
| C17 | partial | `C17_exception_is_fifth_ticket` | PropRecord.v | Closed under the global context |
| C17 | partial | `C17_no_data_inside_message_refuted` | PropRecord.v | Closed under the global context |
| C17 | partial | `C17_deviation_on_every_connection` | PropEvery.v | Closed under the global context |
| C18 | proved | `C18_reassembly` | PropRecord.v | Closed under the global context |
| C19 | proved | `C19_sent_once_at_most_five` | PropRecord.v | Closed under the global context |
| C19 | proved | `C19_sent_tickets_are_first_received` | PropRecord.v | Closed under the global context |
| C19 | proved | `C19_channel_passed_on` | PropRecord.v | Closed under the global context |
| C20 | partial | `C20_five_tickets_sent_partial` | PropRecord.v | Closed under the global context |
| C20 | partial | `C20_fifth_ticket_sends_partial` | PropRecord.v | Closed under the global context |
| C20 | partial | `C20_data_sends_tickets_partial` | PropRecord.v | Closed under the global context |
| C20 | partial | `C20_tickets_sent_exactly` | PropRecord.v | Closed under the global context |
| C20 | partial | `C20_tickets_not_lost_refuted` | PropRecord.v | Closed under the global context |
| C20 | partial | `C20_deviation_on_every_connection` | PropEvery.v | Closed under the global context |
| C21 | partial | `C21_one_update_per_message_partial` | PropRecord.v | Closed under the global context |
| C21 | partial | `C21_one_update_per_message_refuted` | PropRecord.v | Closed under the global context |
| C21 | partial | `C21_deviation_on_every_connection` | PropEvery.v | Closed under the global context |
| C22 | partial | `C22_no_undefined_behaviour_partial` | PropRecord.v | Closed under the global context |
| C22 | partial | `C22_undefined_iff_fatal` | PropRecord.v | Closed under the global context |
| C22 | partial | `C22_only_negative_shift_partial` | PropFrame.v | Closed under the global context |
| C22 | partial | `C22_no_undefined_behaviour_refuted` | PropRecord.v | Closed under the global context |
| C22 | partial | `C22_undefined_after_reported_error_refuted` | PropRecord.v | Closed under the global context |
| C22 | partial | `C22_deviation_on_every_connection` | PropEvery.v | Closed under the global context |
| C23 | partial | `C23_protect_destroys_partial` | PropFrame.v | Closed under the global context |
| C23 | partial | `C23_destroyed_once_refuted` | PropFrame.v | Closed under the global context |
| C23 | partial | `C23_callers_buffer_refuted` | PropFrame.v | Closed under the global context |
| C23 | partial | `C23_deviation_on_every_protector` | PropEvery.v | Closed under the global context |
| C24 | partial | `C24_buffers_released_partial` | PropFrame.v | Closed under the global context |
| C24 | partial | `C24_buffers_released_or_no_record_partial` | PropFrame.v | Closed under the global context |
| C24 | partial | `C24_buffers_released_refuted` | PropFrame.v | Closed under the global context |
| C24 | partial | `C24_deviation_on_every_protector` | PropEvery.v | Closed under the global context |
| C25 | partial | `C25_partial_record_reported_partial` | PropFrame.v | Closed under the global context |
| C25 | partial | `C25_partial_record_reported_refuted` | PropFrame.v | Closed under the global context |
| C25 | partial | `C25_deviation_on_every_protector` | PropEvery.v | Closed under the global context |
| C26 | partial | `C26_single_record_partial` | PropFrame.v | Closed under the global context |
| C26 | partial | `C26_single_record_refuted` | PropFrame.v | Closed under the global context |
| C26 | partial | `C26_deviation_on_every_protector` | PropEvery.v | Closed under the global context |
| C27 | partial | `C27_reads_in_bounds_partial` | PropFrame.v | Closed under the global context |
| C27 | partial | `C27_reads_in_bounds_refuted` | PropFrame.v | Closed under the global context |
| C27 | partial | `C27_exact_single` | PropEvery.v | Closed under the global context |
| C27 | partial | `C27_exact` | PropEvery.v | Closed under the global context |
| C28 | partial | `C28_protect_and_unprotect_partial` | PropConc.v | Closed under the global context |
| C28 | partial | `C28_writer_and_reader_partial` | PropConc.v | Closed under the global context |
| C28 | partial | `C28_use_after_free_refuted` | PropConc.v | Closed under the global context |
| C28 | partial | `C28_every_key_change_races_refuted` | PropConc.v | Closed under the global context |
| C28 | partial | `C28_protect_alone` | PropConc.v | Closed under the global context |
| C28 | partial | `C28_unprotect_alone` | PropConc.v | Closed under the global context |
| C28 | partial | `C28_call_alone` | PropConc.v | Closed under the global context |
| C29 | proved | `C29_half_connection_linearizable` | PropConc.v | Closed under the global context |
| C29 | proved | `C29_crypter_protect_linearizable` | PropConc.v | Closed under the global context |
| C29 | proved | `C29_frame_protect_linearizable` | PropConc.v | Closed under the global context |
| C29 | proved | `C29_update_outbound_key_refuted` | PropConc.v | Closed under the global context |
| C30 | proved | `C30_inbound_independent_of_outbound_calls` | PropRecord.v | Closed under the global context |
| C30 | proved | `C30_inbound_independent_of_outbound_state` | PropRecord.v | Closed under the global context |
| C30 | proved | `C30_outbound_independent_of_inbound_calls` | PropRecord.v | Closed under the global context |
| C31 | partial | `C31_no_bytes_with_error_partial` | PropFrame.v | Closed under the global context |
| C31 | partial | `C31_public_status` | PropFrame.v | Closed under the global context |
| C31 | partial | `C31_no_bytes_with_error_refuted` | PropFrame.v | Closed under the global context |
| C31 | partial | `C31_deviation_on_every_protector` | PropEvery.v | Closed under the global context |
| C32 | proved | `C32_creation_validates` | PropRecord.v | Closed under the global context |
| C32 | proved | `C32_frame_creation_validates` | PropFrame.v | Closed under the global context |
| C32 | proved | `C32_proxy_creation` | PropProxy2.v | Closed under the global context |
| C33 | proved | `C33_receiver_refines_reference` | PropRecord.v | Closed under the global context |
| C33 | proved | `C33_unprotect_refines_recv` | PropRecord.v | Closed under the global context |
| C33 | proved | `C33_only_peer_records_accepted` | PropRecord.v | Closed under the global context |
| C33 | proved | `C33_frame_only_peer_records` | PropFrame.v | Closed under the global context |
| C34 | proved | `C34_protect_writes_its_record` | PropRecord.v | Closed under the global context |
| C34 | proved | `C34_protect_statuses` | PropRecord.v | Closed under the global context |
| C35 | proved | `C35_start_then_next` | PropProxy.v | Closed under the global context |
| C35 | proved | `C35_call` | PropProxy.v | Closed under the global context |
| C35 | proved | `C35_kinds_differ` | PropProxy.v | Closed under the global context |
| C36 | proved | `C36_finished_on_result` | PropProxy.v | Closed under the global context |
| C36 | proved | `C36_stays_finished` | PropProxy.v | Closed under the global context |
| C37 | proved | `C37_nothing_before_finish` | PropProxy.v | Closed under the global context |
| C38 | partial | `C38_failed_result_partial` | PropProxy.v | Closed under the global context |
| C38 | partial | `C38_null_result_refuted` | PropProxy.v | Closed under the global context |
| C38 | partial | `C38_protector_after_error_refuted` | PropProxy.v | Closed under the global context |
| C39 | proved | `C39_parameters_delivered` | PropProxy.v | Closed under the global context |
| C40 | partial | `C40_tokens_partial` | PropProxy.v | Closed under the global context |
| C40 | partial | `C40_uncut` | PropProxy.v | Closed under the global context |
| C40 | partial | `C40_nul_refuted` | PropProxy.v | Closed under the global context |
| C41 | partial | `C41_first_context_partial` | PropProxy.v | Closed under the global context |
| C41 | partial | `C41_second_call_refuted` | PropProxy.v | Closed under the global context |
| C41 | partial | `C41_failed_result_refuted` | PropProxy.v | Closed under the global context |
| C42 | partial | `C42_one_protector_partial` | PropProxy.v | Closed under the global context |
| C42 | partial | `C42_two_protectors_refuted` | PropProxy.v | Closed under the global context |
| C42 | partial | `C42_same_keys` | PropProxy.v | Closed under the global context |
| C43 | partial | `C43_frames_partial` | PropProxy.v | Closed under the global context |
| C43 | partial | `C43_alert_lost_refuted` | PropProxy.v | Closed under the global context |
| C43 | partial | `C43_always_lost` | PropProxy.v | Closed under the global context |
| C44 | partial | `C44_identity_mismatch_refuted` | PropProxy.v | Closed under the global context |
| C44 | partial | `C45_accepted_partial` | PropProxy.v | Closed under the global context |
| C45 | partial | `C45_accepted_partial` | PropProxy.v | Closed under the global context |
| C45 | partial | `C45_protector_version_partial` | PropProxy.v | Closed under the global context |
| C45 | partial | `C45_version_refuted` | PropProxy.v | Closed under the global context |
| C45 | partial | `C45_suite_refuted` | PropProxy.v | Closed under the global context |
| C46 | partial | `C46_client_start_partial` | PropProxy.v | Closed under the global context |
| C46 | partial | `C46_nul_refuted` | PropProxy.v | Closed under the global context |
| C47 | partial | `C47_server_start_partial` | PropProxy.v | Closed under the global context |
| C47 | partial | `C47_nul_refuted` | PropProxy.v | Closed under the global context |
| C48 | partial | `C48_context_round_trip_partial` | PropMsgs.v | Closed under the global context |
| C48 | partial | `C48_fingerprint_refuted` | PropMsgs.v | Closed under the global context |
| C48 | partial | `C48_not_text_refuted` | PropMsgs.v | Closed under the global context |
| C49 | partial | `C49_tls_version` | PropMsgs.v | Closed under the global context |
| C49 | partial | `C49_ciphersuite` | PropMsgs.v | Closed under the global context |
| C49 | partial | `C49_identity_partial` | PropMsgs.v | Closed under the global context |
| C49 | partial | `C49_identity_received` | PropMsgs.v | Closed under the global context |
| C49 | partial | `C49_identity_fails` | PropMsgs.v | Closed under the global context |
| C49 | partial | `C49_identity_refuted` | PropMsgs.v | Closed under the global context |
| C50 | proved | `C50_options` | PropMsgs.v | Closed under the global context |
| C50 | proved | `C50_copy` | PropMsgs.v | Closed under the global context |
| C51 | partial | `C51_ticket_request_partial` | PropMsgs.v | Closed under the global context |
| C51 | partial | `C51_null_ticket` | PropMsgs.v | Closed under the global context |
| C51 | partial | `C51_more_tickets` | PropMsgs.v | Closed under the global context |
| C51 | partial | `C51_identity_refuted` | PropMsgs.v | Closed under the global context |
| C52 | partial | `C52_fixed_token_partial` | PropMsgs.v | Closed under the global context |
| C52 | partial | `C52_construction_refuted` | PropMsgs.v | Closed under the global context |
| C53 | proved | `C53_length_bounds_exact` | PropAead.v | Closed under the global context |
| C53 | proved | `C53_encrypt_writes_bound` | PropAead.v | Closed under the global context |
| C53 | proved | `C53_decrypt_writes_bound` | PropAead.v | Closed under the global context |
| C54 | proved | `C54_calls_independent` | PropAead.v | Closed under the global context |
| C55 | partial | `C55_wire_round_trip_partial` | PropMsgs.v | Closed under the global context |
| C55 | partial | `C55_not_text_refuted` | PropMsgs.v | Closed under the global context |
| C56 | partial | `C56_no_truncation_partial` | PropAead.v | Closed under the global context |
| C56 | partial | `C56_no_truncation_refuted` | PropAead.v | Closed under the global context |
| C56 | partial | `C56_truncation_for_all_primitives` | PropAead.v | Closed under the global context |
| C57 | proved | `C57_supported_keys_accepted` | PropAead.v | Closed under the global context |
| C57 | proved | `C57_other_keys_rejected` | PropAead.v | Closed under the global context |
| C57 | proved | `C57_library_failures_reported` | PropAead.v | Closed under the global context |
| C57 | proved | `C57_getters` | PropAead.v | Closed under the global context |
| C58 | partial | `C58_encrypt_no_undefined_behaviour` | PropAead.v | Closed under the global context |
| C58 | partial | `C58_decrypt_no_undefined_behaviour_partial` | PropAead.v | Closed under the global context |
| C58 | partial | `C58_null_tag_dereferenced` | PropAead.v | Closed under the global context |
| C58 | partial | `C58_no_undefined_behaviour_refuted` | PropAead.v | Closed under the global context |
| C59 | proved | `C59_responses_read` | PropWire.v | Closed under the global context |
| C59 | proved | `C59_requests_written` | PropWire.v | Closed under the global context |
| C59 | proved | `C59_requests_text` | PropWire.v | Closed under the global context |
| C59 | proved | `C59_meaning_unique` | PropWire.v | Closed under the global context |
| C59 | proved | `C59_context_written` | PropWire.v | Closed under the global context |
| C59 | proved | `C59_context_read` | PropWire.v | Closed under the global context |
| C60 | proved | `C60_unselected` | PropProxy2.v | Closed under the global context |
| C60 | proved | `C60_selected` | PropProxy2.v | Closed under the global context |
| C60 | proved | `C60_selected_token_kept` | PropProxy2.v | Closed under the global context |
| C60 | proved | `C60_no_manager` | PropProxy2.v | Closed under the global context |
| C61 | proved | `C61_unusable_response` | PropProxy2.v | Closed under the global context |
| C61 | proved | `C61_response` | PropProxy2.v | Closed under the global context |
| C62 | proved | `C62_handshake_to_data` | PropProxy2.v | Closed under the global context |
| C63 | partial | `C63_channel_partial` | PropProxy2.v | Closed under the global context |
| C63 | partial | `C63_second_protector_refuted` | PropProxy2.v | Closed under the global context |
| C64 | proved | `C64_results` | PropHandler.v | Closed under the global context |
| C64 | proved | `C64_records` | PropHandler.v | Closed under the global context |
| C64 | proved | `C64_unreadable` | PropHandler.v | Closed under the global context |
| C64 | proved | `C64_bodiless` | PropHandler.v | Closed under the global context |
| C65 | proved | `C65_refines` | PropFrameRef.v | Closed under the global context |
| C65 | proved | `C65_answers_unique` | PropFrameRef.v | Closed under the global context |
| C66 | partial | `C66_prefix_until_error_partial` | PropStream.v | Closed under the global context |
| C66 | partial | `C66_end_to_end_partial` | PropStream.v | Closed under the global context |
| C66 | partial | `C66_prefix_refuted` | PropStream.v | Closed under the global context |
| C66 | partial | `C66_any_number_lost` | PropStream.v | Closed under the global context |
| C66 | partial | `C66_appended_bytes_lose_data` | PropStream.v | Closed under the global context |
| C67 | partial | `C67_locked_methods` | PropProxyConc.v | Closed under the global context |
| C67 | partial | `C67_proxy_threads_partial` | PropProxyConc.v | Closed under the global context |
| C67 | partial | `C67_accesses_written` | PropProxyConc.v | Closed under the global context |
| C67 | partial | `C67_accesses_read` | PropProxyConc.v | Closed under the global context |
| C67 | partial | `C67_context_twice_refuted` | PropProxyConc.v | Closed under the global context |
| C67 | partial | `C67_use_after_free_refuted` | PropProxyConc.v | Closed under the global context |
| C67 | partial | `C67_mixed_keys_refuted` | PropProxyConc.v | Closed under the global context |
| C67 | partial | `C67_channel_twice_refuted` | PropProxyConc.v | Closed under the global context |
| C68 | partial | `C68_context` | PropSession.v | Closed under the global context |
| C68 | partial | `C68_protector` | PropSession.v | Closed under the global context |
| C68 | partial | `C68_one_session` | PropSession.v | Closed under the global context |
| C68 | partial | `C68_unknown_numbers` | PropSession.v | Closed under the global context |
| C68 | partial | `C68_same_session_partial` | PropSession.v | Closed under the global context |
| C68 | partial | `C68_same_session_refuted` | PropSession.v | Closed under the global context |
| C69 | proved | `C69_destructor_waits` | PropTickets.v | Closed under the global context |
| C69 | proved | `C69_latest_function` | PropTickets.v | Closed under the global context |
| C70 | partial | `C70_request_partial` | PropTickets.v | Closed under the global context |
| C70 | partial | `C70_nothing_written` | PropTickets.v | Closed under the global context |
| C70 | partial | `C70_tickets_reach_s2a_refuted` | PropTickets.v | Closed under the global context |
| C71 | partial | `C71_update_can_be_answered_partial` | PropRfc.v | Closed under the global context |
| C71 | partial | `C71_protector_keeps_its_key` | PropRfc.v | Closed under the global context |
| C71 | partial | `C71_deviation_on_every_connection` | PropRfc.v | Closed under the global context |
| C71 | partial | `C71_update_request_answered_refuted` | PropRfc.v | Closed under the global context |
| C72 | partial | `C73_alerts_reported_partial` | PropRfc.v | Closed under the global context |
| C72 | partial | `C14_close_notify_final` | PropRecord.v | Closed under the global context |
| C72 | partial | `C72_deviation_on_every_connection` | PropRfc.v | Closed under the global context |
| C72 | partial | `C72_error_alerts_final_refuted` | PropRfc.v | Closed under the global context |
| C73 | partial | `C73_alerts_reported_partial` | PropRfc.v | Closed under the global context |
| C73 | partial | `C73_deviation_on_every_connection` | PropRfc.v | Closed under the global context |
| C73 | partial | `C73_one_alert_per_record_refuted` | PropRfc.v | Closed under the global context |
| C74 | partial | `C74_other_types_rejected_partial` | PropRfc.v | Closed under the global context |
| C74 | partial | `C74_deviation_on_every_connection` | PropRfc.v | Closed under the global context |
| C74 | partial | `C74_proper_key_updates_refuted` | PropRfc.v | Closed under the global context |
| C75 | partial | `C75_empty_handshake_ignored_partial` | PropRfc.v | Closed under the global context |
| C75 | partial | `C75_empty_handshake_rejected_refuted` | PropRfc.v | Closed under the global context |
| C76 | partial | `C05_sequence_never_wraps` | PropHalf.v | Closed under the global context |
| C76 | partial | `C76_deviation_on_every_connection` | PropRfc.v | Closed under the global context |
| C76 | partial | `C76_key_usage_limited_refuted` | PropRfc.v | Closed under the global context |
| C77 | partial | `C77_log_changes_nothing` | PropLog.v | Closed under the global context |
| C77 | partial | `C77_frame_log_changes_nothing` | PropLog.v | Closed under the global context |
| C77 | partial | `C77_crypter_logs_failures` | PropLog.v | Closed under the global context |
| C77 | partial | `C77_crypter_lines` | PropLog.v | Closed under the global context |
| C77 | partial | `C77_protector_logs_failures_partial` | PropLog.v | Closed under the global context |
| C77 | partial | `C77_protector_lines` | PropLog.v | Closed under the global context |
| C77 | partial | `C77_null_output_lines` | PropLog.v | Closed under the global context |
| C77 | partial | `C77_short_input_not_logged` | PropLog.v | Closed under the global context |
| C77 | partial | `C77_failures_logged_refuted` | PropLog.v | Closed under the global context |
| C77 | partial | `C77_update_logged_refuted` | PropLog.v | Closed under the global context |
| C78 | proved | `C78_sending` | PropLog.v | Closed under the global context |
| C78 | proved | `C78_sending_reveals_nothing` | PropLog.v | Closed under the global context |
| C78 | proved | `C78_receiving` | PropLog.v | Closed under the global context |
| C78 | proved | `C78_data_not_logged` | PropLog.v | Closed under the global context |
| C78 | proved | `C77_crypter_lines` | PropLog.v | Closed under the global context |
| C78 | proved | `C77_protector_lines` | PropLog.v | Closed under the global context |
| C79 | partial | `C79_deviation_on_every_connection` | PropLog.v | Closed under the global context |
| C79 | partial | `C79_alert_named_refuted` | PropLog.v | Closed under the global context |
| C80 | partial | `C80_log_changes_nothing` | PropProxyLog.v | Closed under the global context |
| C80 | partial | `C80_failures_logged_partial` | PropProxyLog.v | Closed under the global context |
| C80 | partial | `C80_failures_logged_refuted` | PropProxyLog.v | Closed under the global context |
| C80 | partial | `C80_lines_to_s2a` | PropProxyLog.v | Closed under the global context |
| C80 | partial | `C80_lines_to_peer` | PropProxyLog.v | Closed under the global context |
| C80 | partial | `C80_empty_line` | PropProxyLog.v | Closed under the global context |
| C81 | partial | `C81_no_idle_lines_partial` | PropProxyLog.v | Closed under the global context |
| C81 | partial | `C81_deviation_on_every_proxy` | PropProxyLog.v | Closed under the global context |
| C81 | partial | `C81_no_idle_lines_refuted` | PropProxyLog.v | Closed under the global context |
| C82 | proved | `C82_log_reveals_nothing` | PropProxyLog.v | Closed under the global context |
| C83 | partial | `C83_enough` | PropBuf.v | Closed under the global context |
| C83 | partial | `C83_exact_partial` | PropBuf.v | Closed under the global context |
| C83 | partial | `C83_required_refuted` | PropBuf.v | Closed under the global context |
| C84 | partial | `C84_read_refuted` | PropBuf.v | Closed under the global context |
| C84 | partial | `C84_read_on_every_protector` | PropBuf.v | Closed under the global context |
| C84 | partial | `C84_write_on_every_protector` | PropBuf.v | Closed under the global context |
| C84 | partial | `C84_no_record_partial` | PropBuf.v | Closed under the global context |
| C85 | proved | `C85_encrypt` | PropNull.v | Closed under the global context |
| C85 | proved | `C85_decrypt` | PropNull.v | Closed under the global context |
| C85 | proved | `C85_decrypt_empty` | PropNull.v | Closed under the global context |
| C85 | proved | `C85_record_protect` | PropNull.v | Closed under the global context |
| C85 | proved | `C85_record_unprotect` | PropNull.v | Closed under the global context |
| C85 | proved | `C85_frame_protect` | PropNull.v | Closed under the global context |
| C85 | proved | `C85_frame_unprotect` | PropNull.v | Closed under the global context |
| C86 | partial | `C86_effect` | PropNullWrite.v | Closed under the global context |
| C86 | partial | `C86_no_effect_refuted` | PropNullWrite.v | Closed under the global context |
| C87 | proved | `C87_encrypt_status` | PropCodes.v | Closed under the global context |
| C87 | proved | `C87_decrypt_status` | PropCodes.v | Closed under the global context |
| C87 | proved | `C87_encrypt_exact` | PropCodes.v | Closed under the global context |
| C87 | proved | `C87_decrypt_exact` | PropCodes.v | Closed under the global context |
| C87 | proved | `C87_large_fragment` | PropCodes.v | Closed under the global context |
| C88 | partial | `C88_abort_or_same` | PropDebug.v | Closed under the global context |
| C88 | partial | `C88_no_assertion_fails_partial` | PropDebug.v | Closed under the global context |
| C88 | partial | `C88_no_assertion_fails_refuted` | PropDebug.v | Closed under the global context |
| C88 | partial | `C88_aborts_on_every_protector` | PropDebug.v | Closed under the global context |
| C88 | partial | `C88_protect_into_null` | PropDebug.v | Closed under the global context |
| C88 | partial | `C88_aead` | PropDebug.v | Closed under the global context |
| C89 | proved | `C89_memory_bounded` | PropHeld.v | Closed under the global context |
| C89 | proved | `C89_handler_bounded` | PropHeld.v | Closed under the global context |
| C89 | proved | `C89_bound_reached` | PropHeld.v | Closed under the global context |
| C89 | proved | `C89_memory_exact` | PropHeld.v | Closed under the global context |
| C89 | proved | `C89_every_connection` | PropHeld.v | Closed under the global context |
| C90 | proved | `C90_frame_protector` | PropCreate.v | Closed under the global context |
| C90 | proved | `C90_crypter` | PropCreate.v | Closed under the global context |
| C90 | proved | `C90_half_connection` | PropCreate.v | Closed under the global context |
| C90 | proved | `C90_aes_gcm` | PropCreate.v | Closed under the global context |
| C90 | proved | `C90_chacha_poly` | PropCreate.v | Closed under the global context |
| C90 | proved | `C90_derive_secret` | PropCreate.v | Closed under the global context |
| C90 | proved | `C90_update_key` | PropCreate.v | Closed under the global context |
| C90 | proved | `C90_update_outbound_key` | PropCreate.v | Closed under the global context |
| C91 | partial | `C91_frame_protectors_alike` | PropBuilds.v | Closed under the global context |
| C91 | partial | `C91_creation_alike` | PropBuilds.v | Closed under the global context |
| C91 | partial | `C91_crypters_alike` | PropBuilds.v | Closed under the global context |
| C91 | partial | `C91_aes_gcm_same` | PropBuilds.v | Closed under the global context |
| C91 | partial | `C91_encrypt_alike` | PropBuilds.v | Closed under the global context |
| C91 | partial | `C91_decrypt_alike_partial` | PropBuilds.v | Closed under the global context |
| C91 | partial | `C91_buffers_alike_refuted` | PropBuilds.v | Closed under the global context |
| C91 | partial | `C91_null_alike_refuted` | PropBuilds.v | Closed under the global context |
| C92 | partial | `C92_other_suites_same_partial` | PropNoChacha.v | Closed under the global context |
| C92 | partial | `C92_other_updates_same_partial` | PropNoChacha.v | Closed under the global context |
| C92 | partial | `C92_refused_partial` | PropNoChacha.v | Closed under the global context |
| C92 | partial | `C92_not_offered_refuted` | PropNoChacha.v | Closed under the global context |
| C93 | partial | `C93_readers_linearizable_partial` | PropConcRead.v | Closed under the global context |
| C93 | partial | `C93_check_before_lock_refuted` | PropConcRead.v | Closed under the global context |
| C93 | partial | `C93_single_record_not_linearizable_refuted` | PropConcRead.v | Closed under the global context |
| C94 | partial | `C94_create_partial` | PropNoMem.v | Closed under the global context |
| C94 | partial | `C94_update_partial` | PropNoMem.v | Closed under the global context |
| C94 | partial | `C94_checked` | PropNoMem.v | Closed under the global context |
| C94 | partial | `C94_checked_update` | PropNoMem.v | Closed under the global context |
| C94 | partial | `C94_failures_reported_refuted` | PropNoMem.v | Closed under the global context |
| C94 | partial | `C94_update_failures_refuted` | PropNoMem.v | Closed under the global context |
| C95 | partial | `C95_threads_linearizable_partial` | PropConcMix.v | Closed under the global context |
| C95 | partial | `C95_threads_linearizable_same_key` | PropConcMix.v | Closed under the global context |
| C95 | partial | `C95_threads_linearizable_no_handshake` | PropKeyChange.v | Closed under the global context |
| C95 | partial | `C95_mutexes_do_not_exclude_refuted` | PropConcMix.v | Closed under the global context |
| C96 | partial | `C96_only_handshake_changes_key_partial` | PropKeyChange.v | Closed under the global context |
| C96 | partial | `C96_only_key_update_changes_key_partial` | PropKeyChange.v | Closed under the global context |
| C96 | partial | `C96_frames_keep_key` | PropKeyChange.v | Closed under the global context |
| C96 | partial | `C96_key_changes_without_update_refuted` | PropKeyChange.v | Closed under the global context |
| C97 | partial | `C97_data_calls_linearizable_partial` | PropSingle.v | Closed under the global context |
| C97 | partial | `C97_data_after_close_refuted` | PropSingle.v | Closed under the global context |
| C97 | partial | `C97_use_after_free_refuted` | PropSingle.v | Closed under the global context |
| C97 | partial | `C97_records_between_refuted` | PropSingle.v | Closed under the global context |
| C97 | partial | `C97_deviation_on_every_protector` | PropSingle.v | Closed under the global context |
| C98 | partial | `C98_queue_changes_nothing` | PropErr.v | Closed under the global context |
| C98 | partial | `C98_queue_changes_nothing_in_create` | PropErr.v | Closed under the global context |
| C98 | partial | `C98_each_call` | PropErr.v | Closed under the global context |
| C98 | partial | `C98_crypter_creation_reports` | PropErr.v | Closed under the global context |
| C98 | partial | `C98_own_errors_partial` | PropErr.v | Closed under the global context |
| C98 | partial | `C98_nothing_lost` | PropErr.v | Closed under the global context |
| C98 | partial | `C98_stale_error_refuted` | PropErr.v | Closed under the global context |
| C98 | partial | `C98_deviation_on_every_half_connection` | PropErr.v | Closed under the global context |
| C98 | partial | `C98_deviation_in_create` | PropErr.v | Closed under the global context |
| C98 | partial | `C98_waiting_errors_taken_refuted` | PropErr.v | Closed under the global context |
| C99 | partial | `C99_queue_changes_nothing` | PropErrCrypt.v | Closed under the global context |
| C99 | partial | `C99_each_call` | PropErrCrypt.v | Closed under the global context |
| C99 | partial | `C99_nothing_lost_partial` | PropErrCrypt.v | Closed under the global context |
| C99 | partial | `C99_errors_lost_refuted` | PropErrCrypt.v | Closed under the global context |
| C99 | partial | `C99_errors_left_refuted` | PropErrCrypt.v | Closed under the global context |
| C99 | partial | `C99_deviation_on_every_key_update` | PropErrCrypt.v | Closed under the global context |
<!-- end theorems -->

## 6. What was found false

Each statement is in properties.jsonl; each line names what the code does
instead and the theorem with the witness. "Every" means the deviation is also
shown to occur on every connection, protector or proxy of the kind named.

Memory safety and undefined behaviour:

* C22: a handshake message with an empty body followed by at least four more
  bytes makes `GetMessageDataSizeFromHeader` shift by a negative amount
  (handshake_message_handler.cc 217-231; every connection):
  `C22_no_undefined_behaviour_refuted`; so does a well-formed message after a
  record reported as an error: `C22_undefined_after_reported_error_refuted`.
* C23: a failing `Protect` destroys its buffer twice, and `Protect` into a
  buffer of the caller destroys that (every protector): `C23_destroyed_once_refuted`, `C23_callers_buffer_refuted`.
* C24: `Unprotect` leaks the buffers of the records before something that is no
  record (every protector): `C24_buffers_released_refuted`.
* C27: an empty iovec where a header is read is read out of bounds or through a null pointer:
  `C27_reads_in_bounds_refuted`.
* C28: `TagLength` used by `Protect` races with the new key a KeyUpdate installs
  in `Unprotect`: a use after free, whenever a key changes: `C28_use_after_free_refuted`,
  `C28_every_key_change_races_refuted`. The public `UpdateOutboundKey`, which
  nothing in the repository calls, races likewise: `C29_update_outbound_key_refuted`.
* C93: `Unprotect` compares the length with `RecordOverhead` before it takes
  `unprotect_mu_`: a use after free between two `Unprotect` calls, whenever one
  of them changes the key; the `Unprotect` of a single record takes no lock and
  can deliver data after a close_notify: `C93_check_before_lock_refuted`,
  `C93_single_record_not_linearizable_refuted`.
* C94: the result of `EVP_CIPHER_CTX_new` is not checked: without memory, a null
  dereference in creation and key updates (AES-GCM, and ChaCha20-Poly1305 with
  OpenSSL): `C94_failures_reported_refuted`, `C94_update_failures_refuted`.
* C95: protect_mu_ and unprotect_mu_ do not exclude each other: with each held by
  a thread, Protect can use the inbound crypter that Unprotect has freed:
  `C95_mutexes_do_not_exclude_refuted`.
* C96: after a KeyUpdate without a body, any handshake record of one to three
  bytes is taken for a further KeyUpdate: `C96_key_changes_without_update_refuted`.
* C97: the single-record Unprotect does not take unprotect_mu_, which is said to
  guard against concurrent calls: a thread is given data after a close_notify,
  or uses a freed crypter, or is given the record between those of a call that
  holds the mutex: `C97_data_after_close_refuted`, `C97_use_after_free_refuted`,
  `C97_records_between_refuted`, `C97_deviation_on_every_protector`.
* C98: the key derivation never calls GetSSLErrors: errors of HMAC stay in the
  thread's error queue and are reported by a later call, of whatever half
  connection, that fails for another reason; Encrypt with too small a buffer
  takes errors that are not its own: `C98_stale_error_refuted`,
  `C98_deviation_on_every_half_connection`, `C98_deviation_in_create`,
  `C98_waiting_errors_taken_refuted`.
* C99: if a key update of the peer fails because the new cipher context cannot
  be set up, the errors of the library are lost: they are taken from the queue
  for a status that is then replaced by "Key update failed.":
  `C99_errors_lost_refuted`, `C99_errors_left_refuted`,
  `C99_deviation_on_every_key_update`.
* C100: so the application never learns why a key update of the peer failed, or
  finds the errors in the status of a later call in the other direction:
  `C100_errors_lost_refuted`, `C100_stale_error_refuted`,
  `C100_deviation_on_every_key_update`.
* C38: a result without session state is dereferenced as a null pointer, and
  one without local identity is refused but yields a protector: `C38_null_result_refuted`,
  `C38_protector_after_error_refuted`.
* C51, C58: a null ticket, and a null fragment in the last 16 bytes of a
  ciphertext: `C51_null_ticket`, `C58_no_undefined_behaviour_refuted`.
* C67: the proxy's unlocked methods race: `C67_use_after_free_refuted`,
  `C67_context_twice_refuted`, `C67_mixed_keys_refuted`, `C67_channel_twice_refuted`.
* C88: a null fragment of length 0 aborts a debug build: `C88_no_assertion_fails_refuted`.

Secrecy and authenticity:

* C12: with a too small output and a ciphertext in several fragments the
  streaming crypters leave unauthenticated plaintext: `C12_no_unauthenticated_plaintext_refuted`.
* C13: decrypted bytes stay behind on some errors (every connection): `C13_no_content_on_error_refuted`.
* C42: two protectors of one proxy use the same keys and nonces: `C42_two_protectors_refuted`.
* C44, C45: the local identity, version and suite of the result are not checked
  against what was offered: `C44_identity_mismatch_refuted`, `C45_version_refuted`, `C45_suite_refuted`.
* C56: Encrypt of a fragment of 2^32 bytes and more: `C56_no_truncation_refuted`.
* C66: records can be deleted from the stream by giving others several times: `C66_prefix_refuted`.
* C68: context and protector of different sessions: `C68_same_session_refuted`.

TLS 1.3 (all on every connection):

* C17: data inside a handshake message after the fifth ticket: `C17_no_data_inside_message_refuted`.
* C20: all tickets lost if the sixth begins in the record that ends the fifth: `C20_tickets_not_lost_refuted`.
* C21: a KeyUpdate cut into several records updates several times: `C21_one_update_per_message_refuted`.
* C71 - C76: requests to update are not answered, error alerts are not final,
  longer alert records, KeyUpdates with any body and empty handshake records
  are accepted, no limit on the use of a key: `C71_update_request_answered_refuted`, `C72_error_alerts_final_refuted`,
  `C73_one_alert_per_record_refuted`, `C74_proper_key_updates_refuted`,
  `C75_empty_handshake_rejected_refuted`, `C76_key_usage_limited_refuted`.

Interface:

* C25, C26, C31, C83, C84, C86: trailing bytes and further records are ignored,
  lengths with an error are left as they were, a refused call may use up
  sequence numbers or lose a record (every protector): `C25_partial_record_reported_refuted`,
  `C26_single_record_refuted`, `C31_no_bytes_with_error_refuted`, `C83_required_refuted`, `C84_read_refuted`, `C86_no_effect_refuted`.
* C40, C46 - C49, C51, C55: strings are cut at the first NUL, strings that are
  not text give messages that do not parse: `C40_nul_refuted`, `C46_nul_refuted`, `C47_nul_refuted`,
  `C48_fingerprint_refuted`, `C48_not_text_refuted`, `C49_identity_refuted`, `C51_identity_refuted`, `C55_not_text_refuted`.
* C91: the two ChaCha20-Poly1305 crypters differ in what they leave in the buffer of a
  failed Decrypt and on a null fragment in the tag: `C91_buffers_alike_refuted`, `C91_null_alike_refuted`.
* C92: a suite the build lacks is offered, and a session with it has no protector: `C92_not_offered_refuted`.
* C41: `GetS2AContext` reports success with a null pointer when called again
  or after a refused result: `C41_second_call_refuted`, `C41_failed_result_refuted`.
* C43: frames for the peer are dropped if the status is not 0: `C43_alert_lost_refuted`.
* C52: a token manager without a token is created and fails later: `C52_construction_refuted`.
* C63, C70: the channel of the tickets is given to the first protector only, and
  the sender is a stub: `C63_second_protector_refuted`, `C70_tickets_reach_s2a_refuted`.
* C77, C79 - C81: failures without a log line, alerts not named, idle lines: `C77_failures_logged_refuted`,
  `C77_update_logged_refuted`, `C79_alert_named_refuted`, `C80_failures_logged_refuted`, `C81_no_idle_lines_refuted`.
