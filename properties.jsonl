{"id": "C01", "title": "Frame protector round trip", "statement": "If one frame protector's outgoing traffic secret and sequence number are the other's incoming ones, then whatever bytes are passed to successive Protect calls on the first, feeding the produced bytes to Unprotect calls on the second in the same order - each call's output cut into non-empty buffers in any way - returns OK every time, and the bytes returned, concatenated, are exactly the bytes protected.", "quantifier": "every ciphersuite, traffic secret, starting sequence number with enough sequence space, every list of Protect calls, every fragmentation of the plaintext, every cutting of the ciphertext into non-empty iovecs", "why_tests_cant": "the input is an unbounded sequence of byte strings of unbounded length together with two arbitrary fragmentations; tests try a few strings and splits", "anchors": ["src/frame_protector/s2a_frame_protector.cc: Protect, Unprotect, ComputeTlsRecordSize, IsolateTlsPayload", "src/record_protocol/s2a_crypter.cc: Protect, Unprotect"]}
{"id": "C02", "title": "Protect fills exactly NumberBytesToProtect bytes", "statement": "For every input, NumberBytesToProtect(total length) is exactly the number of bytes a successful Protect writes, a buffer of that size is always large enough, and so Protect never fails for lack of space in the buffer it allocates itself.", "quantifier": "every list of iovecs (empty ones included) whose total length does not overflow size_t, every frame protector state", "why_tests_cant": "the boundary cases are at every multiple of 2^14 for an unbounded length", "anchors": ["src/frame_protector/s2a_frame_protector.cc: NumberBytesToProtect, Protect", "src/record_protocol/s2a_crypter.cc: Protect, RecordOverhead"]}
{"id": "C03", "title": "Protect emits well-formed TLS 1.3 records", "statement": "The output of a successful Protect parses as a sequence of TLS 1.3 records: each has header 17 03 03 and a 16-bit big-endian length equal to the following payload length, no record exceeds MaxRecordSize, each carries at most 2^14 plaintext bytes, all but the last carry exactly 2^14, and an empty input produces exactly one record.", "quantifier": "every input length and fragmentation, every ciphersuite", "why_tests_cant": "unbounded input length; tests check a handful of lengths", "anchors": ["src/frame_protector/s2a_frame_protector.cc: Protect, MaxRecordSize", "src/record_protocol/s2a_crypter.cc: Protect, WriteTls13RecordHeader"]}
{"id": "C04", "title": "No nonce is used twice with the same key", "statement": "Over the whole life of a connection, in whatever order Protect and outbound key updates are called and whichever library calls fail, two encryption operations never use the same nonce under the same installed key.", "quantifier": "every ciphersuite, every starting sequence number, every history of Protect / UpdateOutboundKey calls and of library failures", "why_tests_cant": "the bad event needs 2^64 operations or a particular failure at a particular call; only an invariant over all histories excludes it", "anchors": ["src/record_protocol/s2a_half_connection.cc: Encrypt, UpdateKey, NonceMask", "src/record_protocol/s2a_crypter.cc: Protect, UpdateOutboundKey"]}
{"id": "C05", "title": "Sequence numbers never wrap", "statement": "A direction of a connection that starts at sequence number s performs at most 2^64 - s record operations with one key; after that every operation returns an error without touching the cipher, until a key update succeeds.", "quantifier": "every starting sequence number and every history of operations", "why_tests_cant": "exhausting a 64-bit counter needs up to 2^64 operations", "anchors": ["src/record_protocol/s2a_half_connection.cc: Encrypt, Decrypt, NonceMask, UpdateKey"]}
{"id": "C06", "title": "Record nonces follow RFC 8446 section 5.3", "statement": "The n-th record operation since a key was installed with sequence number s uses nonce = static IV xor (0^32 || 64-bit big-endian (s + n)), and every attempted operation that reaches the cipher - also one that fails - consumes exactly one sequence number.", "quantifier": "every IV, sequence number and history of operations with arbitrary outcomes", "why_tests_cant": "quantifies over all histories and 2^64 sequence numbers", "anchors": ["src/record_protocol/s2a_half_connection.cc: NonceMask, Encrypt, Decrypt"]}
{"id": "C07", "title": "Traffic key schedule follows RFC 8446 sections 7.1-7.3", "statement": "After k successful key updates a direction that started from traffic secret S uses key and IV HKDF-Expand-Label(S_k, \"key\"/\"iv\", \"\", key/IV length), where S_0 = S and S_(i+1) = HKDF-Expand-Label(S_i, \"traffic upd\", \"\", Hash.length), and its sequence number restarts at 0.", "quantifier": "every ciphersuite, secret and number of updates", "why_tests_cant": "unbounded number of updates and arbitrary secrets; tests compare one or two vectors", "anchors": ["src/record_protocol/s2a_half_connection.cc: AdvanceSecret, DeriveSecret, DeriveKey, DeriveNonce, Create, UpdateKey"]}
{"id": "C08", "title": "A failed key update disables the direction for good", "statement": "If a key update fails, every later Encrypt or Decrypt in that direction returns an error and writes nothing, whatever is called afterwards (later successful-looking key updates included).", "quantifier": "every library failure point inside the update and every later history", "why_tests_cant": "needs injected failures at every library call and all later histories", "anchors": ["src/record_protocol/s2a_half_connection.cc: UpdateKey, Encrypt, Decrypt"]}
{"id": "C09", "title": "HkdfDeriveSecret is RFC 5869 HKDF-Expand", "statement": "HkdfDeriveSecret fills the whole output buffer with the first L bytes of T(1)||T(2)||... of RFC 5869, for every L up to 255 hash lengths, also when the output buffer is the buffer holding the secret; it returns an error without writing for a longer L or for a secret shorter than the hash.", "quantifier": "every secret, info string, output length and aliasing of secret and output", "why_tests_cant": "unbounded inputs; tests check published vectors", "anchors": ["src/crypto/hkdf.cc: HkdfDeriveSecret, HkdfDerivation", "src/record_protocol/s2a_half_connection.cc: AdvanceSecret"]}
{"id": "C10", "title": "AEAD crypters: decrypt inverts encrypt for all fragmentations", "statement": "For each AEAD crypter, encrypting any plaintext with any AAD writes |plaintext| + 16 bytes that depend only on the key, nonce and concatenated inputs (not on how they are split into iovecs, nor on null empty iovecs), and decrypting them - split in any way - returns OK and exactly the plaintext.", "quantifier": "every cipher and crypto library variant, key, nonce, and every fragmentation of AAD, plaintext and ciphertext", "why_tests_cant": "fragmentation space is unbounded; the tag may straddle any number of iovecs", "anchors": ["src/crypto/aes_gcm_crypter.cc: Encrypt, Decrypt", "src/crypto/chacha_poly_crypter_openssl.cc: Encrypt, Decrypt", "src/crypto/chacha_poly_crypter_boringssl.cc: Encrypt, Decrypt"]}
{"id": "C11", "title": "AEAD crypters accept only authentic input", "statement": "If an AEAD crypter's Decrypt returns OK then the last 16 input bytes are the authentication tag of the preceding bytes under that key, nonce and AAD, and the output is their decryption; so modified ciphertext, tag, AAD or nonce is rejected unless the MAC itself collides.", "quantifier": "every ciphertext, however fragmented, and every library outcome", "why_tests_cant": "all possible modifications of all messages", "anchors": ["src/crypto/aes_gcm_crypter.cc: Decrypt", "src/crypto/chacha_poly_crypter_openssl.cc: Decrypt", "src/crypto/chacha_poly_crypter_boringssl.cc: Decrypt"]}
{"id": "C12", "title": "AEAD crypters release no unauthenticated plaintext", "statement": "When an AEAD crypter's Decrypt returns an error, the caller's plaintext buffer holds no decrypted bytes.", "quantifier": "every input, buffer size, fragmentation and library failure", "why_tests_cant": "depends on which of many exits is taken after how many fragments", "anchors": ["src/crypto/aes_gcm_crypter.cc: Decrypt, DecryptCheckTagAndFinalize", "src/crypto/chacha_poly_crypter_openssl.cc: Decrypt", "src/crypto/chacha_poly_crypter_boringssl.cc: Decrypt"]}
{"id": "C13", "title": "A failed record Unprotect leaves no decrypted bytes behind", "statement": "Whenever the record-level Unprotect returns something other than OK, the caller's plaintext buffer contains no decrypted record content afterwards and the reported byte count is 0.", "quantifier": "every record, state and library outcome", "why_tests_cant": "many exits, each reachable only in particular connection histories", "anchors": ["src/record_protocol/s2a_crypter.cc: Unprotect, ZeroOutIovec"]}
{"id": "C14", "title": "close_notify is final", "statement": "Once Unprotect has reported a close_notify alert, every later Unprotect call reports close_notify, returns no bytes and leaves the buffer and the connection state untouched.", "quantifier": "every history after the alert", "why_tests_cant": "all later histories", "anchors": ["src/record_protocol/s2a_crypter.cc: Unprotect"]}
{"id": "C15", "title": "Record padding is removed", "statement": "A record whose inner plaintext is content, a content type byte and any number of zero bytes (total within the record limit) is unprotected to exactly that content; an inner plaintext of only zero bytes is rejected. In particular content ending in zero bytes is preserved.", "quantifier": "every content, every padding length", "why_tests_cant": "all contents (including ones ending in zeros) times all padding lengths", "anchors": ["src/record_protocol/s2a_crypter.cc: Unprotect"]}
{"id": "C16", "title": "Malformed records are rejected without any effect", "statement": "A record shorter than the overhead, longer than the limit, or whose header is not 17 03 03 with the exact payload length is rejected with the documented code, consumes no sequence number, changes no state and writes nothing; over-long records give ALERT_RECORD_OVERFLOW.", "quantifier": "every record bytes/length and connection state", "why_tests_cant": "all byte strings", "anchors": ["src/record_protocol/s2a_crypter.cc: Unprotect, ValidateTls13RecordHeader", "include/s2a_frame_protector.h: Unprotect"]}
{"id": "C17", "title": "No application data inside a fragmented handshake message", "statement": "While a handshake message received so far is incomplete, an application data record is rejected with INVALID_RECORD and no bytes are delivered.", "quantifier": "every history of records", "why_tests_cant": "depends on arbitrary histories of fragments", "anchors": ["src/record_protocol/s2a_crypter.cc: Unprotect", "src/record_protocol/handshake_message_handler.cc: ExpectingToReadMoreBytes"]}
{"id": "C18", "title": "Handshake messages are reassembled independently of fragmentation", "statement": "However a stream of session tickets with non-empty bodies is cut into handshake records, the messages recognised - type, length and bytes, in order - are exactly those of the stream, and the 'expecting more' indication is true exactly when the stream read so far ends inside a message.", "quantifier": "every list of messages, every cutting into records (including cuts inside the 4-byte header)", "why_tests_cant": "cuttings are exponential in the stream length", "anchors": ["src/record_protocol/handshake_message_handler.cc: ProcessHandshakeMessage, StoreMessageFragment, GetMessageDataSizeFromHeader"]}
{"id": "C19", "title": "Tickets are sent at most once, in order, at most five", "statement": "During the life of a connection the ticket sender is invoked at most once, with at most five tickets, which are the first complete session tickets received, in order and byte for byte, together with the configured S2A address, connection id and local identity; tickets received later are ignored.", "quantifier": "every history of records in any fragmentation and every interleaving with application data", "why_tests_cant": "all record histories", "anchors": ["src/record_protocol/s2a_crypter.cc: HandleProcessHandshakeMessageResult, RetrieveStoredTicketsAndSendToS2A, Unprotect", "src/record_protocol/handshake_message_handler.cc: GetStoredTickets, IgnoreFutureTickets"]}
{"id": "C20", "title": "Complete tickets are not lost", "statement": "Once five complete session tickets have been received, or application data follows at least one complete ticket, the tickets received are handed to the ticket sender.", "quantifier": "every cutting of the ticket stream into records", "why_tests_cant": "only particular cuttings (a record that also contains the beginning of a sixth ticket) lose the tickets", "anchors": ["src/record_protocol/s2a_crypter.cc: HandleProcessHandshakeMessageResult, RetrieveStoredTicketsAndSendToS2A", "src/record_protocol/handshake_message_handler.cc: GetStoredTickets"]}
{"id": "C21", "title": "One inbound key update per KeyUpdate message", "statement": "Receiving a KeyUpdate handshake message advances the inbound traffic key exactly once, however the message is cut into records.", "quantifier": "every cutting of the message into records", "why_tests_cant": "only messages split over records show the problem", "anchors": ["src/record_protocol/s2a_crypter.cc: HandleProcessHandshakeMessageResult", "src/record_protocol/handshake_message_handler.cc: ProcessHandshakeMessage"]}
{"id": "C22", "title": "No peer input causes undefined behaviour in Unprotect", "statement": "Whatever authenticated records the peer sends, in whatever order, Unprotect never performs an operation with undefined behaviour.", "quantifier": "every history of record contents", "why_tests_cant": "needs particular malformed messages in particular positions of a history", "anchors": ["src/record_protocol/s2a_crypter.cc: Unprotect", "src/record_protocol/handshake_message_handler.cc: ProcessHandshakeMessage, GetMessageDataSizeFromHeader"]}
{"id": "C23", "title": "Protect never destroys a buffer twice or one it does not own", "statement": "Every buffer Protect destroys was allocated by that Protect call through the allocator and is destroyed at most once; a buffer returned to the caller is not destroyed; a buffer supplied by the caller is never destroyed.", "quantifier": "every input, state and failure", "why_tests_cant": "needs a failing encryption; all failure points", "anchors": ["src/frame_protector/s2a_frame_protector.cc: Protect (both overloads)"]}
{"id": "C24", "title": "Unprotect releases every buffer it does not return", "statement": "When Unprotect returns OK, the buffers handed over are exactly the ones allocated during the call, none destroyed; when it returns an error, every buffer allocated during the call has been destroyed exactly once.", "quantifier": "every input and every failing position in a multi-record input", "why_tests_cant": "leaks only show for particular record sequences; accounting over all inputs", "anchors": ["src/frame_protector/s2a_frame_protector.cc: Unprotect(const std::vector<Iovec>&)"]}
{"id": "C25", "title": "Unprotect reports a trailing partial record", "statement": "If the bytes given to Unprotect do not end at a record boundary, Unprotect returns an error (documented in the header).", "quantifier": "every input, every cut position", "why_tests_cant": "every cut position of every input", "anchors": ["src/frame_protector/s2a_frame_protector.cc: Unprotect(const std::vector<Iovec>&)", "include/s2a_frame_protector.h: Unprotect"]}
{"id": "C26", "title": "Single-record Unprotect rejects more than one record", "statement": "If the bytes given to the buffer-filling Unprotect contain more than one TLS record, an error is returned (documented in the header).", "quantifier": "every pair of a record and trailing bytes", "why_tests_cant": "all inputs", "anchors": ["src/frame_protector/s2a_frame_protector.cc: Unprotect(const std::vector<Iovec>&, Iovec&)", "include/s2a_frame_protector.h: Unprotect"]}
{"id": "C27", "title": "Input buffers are never read out of bounds", "statement": "Protect and Unprotect read only inside the supplied iovecs, however the input is cut into iovecs, empty iovecs included.", "quantifier": "every list of iovecs", "why_tests_cant": "layouts with empty iovecs at particular offsets", "anchors": ["src/frame_protector/s2a_frame_protector.cc: ComputeTlsRecordSize, IsolateTlsPayload, Protect"]}
{"id": "C28", "title": "Protect and Unprotect may run concurrently", "statement": "As documented, a Protect call and an Unprotect call on the same frame protector may run concurrently: no interleaving makes Protect use memory that Unprotect has freed.", "quantifier": "every schedule of the two calls", "why_tests_cant": "needs one specific schedule (a key update between loading and using a pointer)", "anchors": ["src/record_protocol/s2a_crypter.cc: RecordOverhead, HandleProcessHandshakeMessageResult", "src/record_protocol/s2a_half_connection.cc: TagLength, UpdateKey", "include/s2a_frame_protector.h: class comment"]}
{"id": "C29", "title": "Concurrent Protect calls behave as some sequential order", "statement": "Any number of threads calling Encrypt-side operations on one connection: under every schedule the results and nonces are those of the calls executed one after another in some order, so no nonce is reused and no sequence number is skipped.", "quantifier": "every number of threads, every program of each thread, every schedule", "why_tests_cant": "all schedules", "anchors": ["src/record_protocol/s2a_half_connection.cc: Encrypt, UpdateKey, mu_", "src/frame_protector/s2a_frame_protector.cc: Protect, protect_mu_"]}
{"id": "C30", "title": "The two directions are independent", "statement": "Protect and outbound key updates never change what later Unprotect calls return, and Unprotect calls (inbound key updates and alerts included) never change what later Protect calls return.", "quantifier": "every history of operations in both directions", "why_tests_cant": "all interleavings of both directions", "anchors": ["src/record_protocol/s2a_crypter.cc: Protect, Unprotect, UpdateOutboundKey"]}
{"id": "C31", "title": "No bytes with an error", "statement": "Whenever Protect or Unprotect reports an error, it reports no output: zero bytes written / an empty result list / iov_len 0, and the public status code is the documented translation of the internal one.", "quantifier": "every input, state and library outcome", "why_tests_cant": "all failure paths", "anchors": ["src/frame_protector/s2a_frame_protector.cc: Protect, Unprotect, ConvertStatusCode", "src/record_protocol/s2a_crypter.cc: Protect, Unprotect"]}
{"id": "C32", "title": "Creation validates its arguments", "statement": "A record protocol object or frame protector is created only if the TLS version is 1.3, all mandatory callbacks are given, the S2A address is non-empty and both traffic secrets have exactly the hash length of the ciphersuite; otherwise an error is returned.", "quantifier": "every combination of arguments", "why_tests_cant": "combinations of arguments and secret lengths are unbounded", "anchors": ["src/record_protocol/s2a_crypter.cc: Create", "src/record_protocol/s2a_half_connection.cc: Create", "src/frame_protector/s2a_frame_protector.cc: Create"]}
{"id": "C33", "title": "Only the peer's records, in order, are accepted", "statement": "If Unprotect returns application data, then the record given is exactly a record that sealing that data (plus padding) with the current inbound key, at the current inbound sequence number, produces; replayed, reordered or altered records are rejected unless the MAC collides.", "quantifier": "every record and history", "why_tests_cant": "all forged inputs", "anchors": ["src/record_protocol/s2a_crypter.cc: Unprotect", "src/record_protocol/s2a_half_connection.cc: Decrypt"]}
{"id": "C34", "title": "Protect writes only its own region", "statement": "A successful record-level Protect writes exactly the record at the start of the supplied buffer and leaves the rest unchanged; a failure before encryption leaves the buffer unchanged and a failed encryption leaves it all zero.", "quantifier": "every buffer and input", "why_tests_cant": "all buffers and failure points", "anchors": ["src/record_protocol/s2a_crypter.cc: Protect"]}
{"id": "C35", "title": "Handshake messages to S2A are sequenced correctly", "statement": "The proxy sends exactly one successful start message, first, and only 'next' messages afterwards; a client start carries no peer bytes, and a rejected call changes nothing, so the start can be retried.", "quantifier": "every history of proxy calls", "why_tests_cant": "all call histories", "anchors": ["src/handshaker/s2a_proxy.cc: GetBytesForS2A, GetClientStart, GetServerStart, GetNext"]}
{"id": "C36", "title": "The handshake finishes only on a successful result", "statement": "IsHandshakeFinished becomes true only through a response that parses, has status code 0 and carries a result; once true it stays true.", "quantifier": "every history of proxy calls and responses", "why_tests_cant": "all histories of responses", "anchors": ["src/handshaker/s2a_proxy.cc: GetBytesForPeer, IsHandshakeFinished"]}
{"id": "C37", "title": "No frame protector or context before the handshake finishes", "statement": "CreateFrameProtector and GetS2AContext return an error in every state in which the handshake has not finished, and change nothing.", "quantifier": "every history of proxy calls", "why_tests_cant": "all histories", "anchors": ["src/handshaker/s2a_proxy.cc: CreateFrameProtector, GetS2AContext"]}
{"id": "C38", "title": "A failed handshake cannot yield a frame protector or a crash", "statement": "If GetBytesForPeer has returned an error for the result message, CreateFrameProtector returns an error; in particular it never dereferences a null or uninitialised result.", "quantifier": "every response message", "why_tests_cant": "needs a malformed result followed by a particular call", "anchors": ["src/handshaker/s2a_proxy.cc: GetBytesForPeer, CreateFrameProtector"]}
{"id": "C39", "title": "Session parameters reach the frame protector and the context unchanged", "statement": "After GetBytesForPeer succeeds on a result, the frame protector is created with exactly the TLS version, ciphersuite, traffic secrets, sequence numbers, connection id and local identity of that result, and the S2A context reports exactly its application protocol, version, ciphersuite, identities, fingerprints and resumption flag.", "quantifier": "every result message", "why_tests_cant": "all messages", "anchors": ["src/handshaker/s2a_proxy.cc: GetBytesForPeer, CreateFrameProtector, GetS2AContext"]}
{"id": "C40", "title": "Authentication tokens go only where they belong", "statement": "Every authentication mechanism sent to S2A pairs an identity with a token the token manager returned for that identity; once S2A has selected a local identity and the manager has a token for it, only that identity's token is sent.", "quantifier": "every history of calls and token manager behaviour", "why_tests_cant": "all histories and all token manager behaviours", "anchors": ["src/handshaker/s2a_proxy.cc: PopulateTokenCache, GetClientStart, GetServerStart, GetNext"]}
{"id": "C41", "title": "GetS2AContext returns a context whenever it reports success", "statement": "A GetS2AContext call that does not return an error returns a non-null context.", "quantifier": "every history of calls", "why_tests_cant": "depends on call history (second call, or after a failed result)", "anchors": ["src/handshaker/s2a_proxy.cc: GetS2AContext, GetBytesForPeer"]}
{"id": "C42", "title": "One handshake never yields two protectors sharing key and nonces", "statement": "Frame protectors created by one proxy never encrypt two records with the same key and nonce.", "quantifier": "every history of proxy calls and protector uses", "why_tests_cant": "depends on calling CreateFrameProtector twice", "anchors": ["src/handshaker/s2a_proxy.cc: CreateFrameProtector"]}
{"id": "C43", "title": "Frames for the peer are delivered even on failure", "statement": "As the protocol requires, non-empty out_frames of a response are handed to the caller to be sent to the peer even if the session status is not OK.", "quantifier": "every response", "why_tests_cant": "all responses", "anchors": ["src/handshaker/s2a_proxy.cc: GetBytesForPeer", "src/proto/s2a.proto: SessionResp.out_frames"]}
{"id": "C44", "title": "The local identity of the result must match the selected one", "statement": "As the protocol requires, if S2A announced a local identity in a response and the result carries a different one, the handshake fails.", "quantifier": "every pair of responses", "why_tests_cant": "all pairs of responses", "anchors": ["src/handshaker/s2a_proxy.cc: GetBytesForPeer", "src/proto/s2a.proto: SessionResp.local_identity"]}
{"id": "C45", "title": "The negotiated version and ciphersuite are among those offered", "statement": "A successful result whose TLS version lies outside [min, max] of the options or whose ciphersuite was not offered is rejected.", "quantifier": "every options and result", "why_tests_cant": "all combinations", "anchors": ["src/handshaker/s2a_proxy.cc: GetBytesForPeer, GetClientStart", "src/options/s2a_options.cc"]}
{"id": "C46", "title": "The client start message states the options", "statement": "A successful client start message carries exactly the application protocol, TLS version bounds, ciphersuites in order, target identities (as a set), the one local identity if configured, and the target hostname; it is refused if more than one local identity is configured.", "quantifier": "every options object", "why_tests_cant": "unbounded options", "anchors": ["src/handshaker/s2a_proxy.cc: GetClientStart", "src/handshaker/s2a_util.cc"]}
{"id": "C47", "title": "The server start message states the options", "statement": "A successful server start message carries exactly the application protocol, TLS version bounds, ciphersuites in order, all local identities (as a set) and the peer's bytes.", "quantifier": "every options object and peer bytes", "why_tests_cant": "unbounded options", "anchors": ["src/handshaker/s2a_proxy.cc: GetServerStart", "src/handshaker/s2a_util.cc"]}
{"id": "C48", "title": "The S2A context survives serialization", "statement": "Serializing an S2A context and parsing the bytes back yields a context with the same fields.", "quantifier": "every context", "why_tests_cant": "all string contents (embedded NUL bytes in fingerprints)", "anchors": ["src/handshaker/s2a_context.cc: GetSerializedContext, GetS2AContextFromSerializedContext"]}
{"id": "C49", "title": "Enumeration and identity conversions are lossless and total", "statement": "Conversions of TLS version, ciphersuite and identity to and from the protocol representation invert each other, and unknown protocol values are rejected with an error.", "quantifier": "every value", "why_tests_cant": "all enum numbers and all identity strings", "anchors": ["src/handshaker/s2a_util.cc: ConvertTlsVersionToProto, ConvertFromProtoToTlsVersion, ConvertCiphersuiteToProto, ConvertFromProtoToCiphersuite, ConvertIdentityToProto, ConvertFromProtoToIdentity"]}
{"id": "C50", "title": "Options behave as sets and copy faithfully", "statement": "After any sequence of setter calls, options hold exactly the last version bounds and address, all ciphersuites in call order and exactly the set of identities added (each once); Copy returns an equal, independent options object.", "quantifier": "every sequence of setter calls", "why_tests_cant": "all call sequences", "anchors": ["src/options/s2a_options.cc: S2AOptions, Identity, Copy"]}
{"id": "C51", "title": "Resumption ticket requests carry all tickets", "statement": "Preparing a resumption ticket request succeeds exactly when tickets are given and the local identity is of a supported type, and then it carries the connection id, the identity and all tickets in order.", "quantifier": "every ticket list and identity", "why_tests_cant": "unbounded inputs", "anchors": ["src/record_protocol/s2a_upb_ticket_sender.cc: PrepareResumptionTicketReq"]}
{"id": "C52", "title": "The single-token manager returns one fixed token", "statement": "The access token manager built from the environment returns, for every identity and for the default, the token that was in the environment at construction, whatever happens to the environment later; construction fails if there is none.", "quantifier": "every sequence of environment changes and calls", "why_tests_cant": "all histories", "anchors": ["src/token_manager/single_token_access_token_manager.cc"]}
{"id": "C53", "title": "AEAD length bounds are exact and do not wrap", "statement": "MaxCiphertextAndTagLength and MaxPlaintextLength bound what Encrypt writes and Decrypt produces, and are inverse to each other, for every length of at least the tag size.", "quantifier": "every length", "why_tests_cant": "all size_t values (wrap-around below the tag length)", "anchors": ["src/crypto/s2a_aead_crypter.cc: MaxPlaintextLength, MaxCiphertextAndTagLength"]}
{"id": "C54", "title": "AEAD calls do not influence each other", "statement": "The result of an Encrypt or Decrypt on an AEAD crypter is the same whatever calls (failed ones included) were made on it before.", "quantifier": "every history of calls", "why_tests_cant": "all earlier histories, failing ones included", "anchors": ["src/crypto/aes_gcm_crypter.cc: Encrypt, Decrypt, ctx_", "src/crypto/chacha_poly_crypter_openssl.cc: ctx_"]}
{"id": "C55", "title": "Protocol messages survive the wire", "statement": "Every message the library builds is parsed back to the same message from its serialized bytes.", "quantifier": "every message", "why_tests_cant": "all field contents", "anchors": ["src/proto/s2a.proto", "src/proto/upb-generated/proto/s2a.upb.c", "src/proto/upb-generated/proto/common.upb.c", "src/proto/upb-generated/proto/s2a_context.upb.c"]}
{"id": "C56", "title": "AEAD Encrypt never silently truncates", "statement": "An AEAD crypter's Encrypt that returns OK has encrypted every plaintext byte: the reported byte count is the total plaintext length plus the tag.", "quantifier": "every plaintext, including iovecs of 2^31 bytes and more", "why_tests_cant": "buffers of several GiB; lengths are narrowed to int", "anchors": ["src/crypto/aes_gcm_crypter.cc: Encrypt", "src/crypto/chacha_poly_crypter_openssl.cc: Encrypt"]}
{"id": "C57", "title": "AEAD factories accept exactly the supported keys", "statement": "CreateAesGcmAeadCrypter succeeds exactly for keys of 16 or 32 bytes and CreateChachaPolyAeadCrypter exactly for keys of 32 bytes, unless the SSL library fails; other keys are rejected without calling the library. KeyLength, NonceLength and TagLength of the crypter are the key's length, 12 and 16, for its whole life.", "quantifier": "every key, SSL library, failure of library calls and history of calls", "why_tests_cant": "all key lengths and histories; tests try one wrong length", "anchors": ["src/crypto/aes_gcm_crypter.cc: CreateAesGcmAeadCrypter", "src/crypto/chacha_poly_crypter_openssl.cc: CreateChachaPolyAeadCrypter", "src/crypto/chacha_poly_crypter_boringssl.cc: CreateChachaPolyAeadCrypter", "src/crypto/s2a_aead_crypter.h"]}
{"id": "C58", "title": "AEAD calls reject null fragments and have no undefined behaviour", "statement": "Encrypt and Decrypt of an AEAD crypter always return, whatever the fragments of their inputs; a null fragment of non-zero length anywhere in the AAD, plaintext or ciphertext makes them fail, with kInvalidArgument if the library works.", "quantifier": "every list of fragments of any sizes, output buffer, nonce, history and library failure", "why_tests_cant": "position of the null fragment relative to the tag; tests use a single null fragment", "anchors": ["src/crypto/aes_gcm_crypter.cc: Encrypt, Decrypt", "src/crypto/chacha_poly_crypter_openssl.cc: Encrypt, Decrypt", "src/crypto/chacha_poly_crypter_boringssl.cc: Encrypt, Decrypt"]}
{"id": "C59", "title": "Messages to and from S2A and serialized contexts follow the .proto definitions", "statement": "Every request the library sends, read by any protocol buffers implementation with src/proto/*.proto (field numbers, wire types, packing, oneofs), is the request it was meant to be (below the 2 GiB limit of the format). A response, and a serialized S2AContext handed to GetS2AContextFromSerializedContext, is understood exactly as the format prescribes whatever encoder produced it: any order of fields, numbers longer than necessary, the last of several scalars, merged submessages, enumerations packed or not, unknown fields and groups ignored; it is refused exactly if it is not a valid message (kInternal) or carries an unknown enumeration value (kFailedPrecondition).", "quantifier": "all requests, all byte strings received, all contexts", "why_tests_cant": "Tests parse what the same generated code has serialized, with a handful of messages: a swapped field number or a symmetric mistake stays invisible, and other encoders' choices (order, repetition, unknown fields, long varints) are unboundedly many.", "anchors": ["src/proto/common.proto", "src/proto/s2a.proto", "src/proto/s2a_context.proto", "src/proto/upb-generated/proto/*.upb.c", "src/handshaker/s2a_context.cc:GetSerializedContext", "src/handshaker/s2a_context.cc:GetS2AContextFromSerializedContext", "src/handshaker/s2a_proxy.cc:GetBytesForPeer"]}
{"id": "C60", "title": "The access token manager is asked only for what is due, and its answers are what is sent", "statement": "As long as S2A has announced no local identity, a call of GetBytesForS2A that returns bytes asks the manager exactly once for each configured local identity for which it has not yet returned a token (for the default token, if no local identity is configured and none was returned), and the request carries exactly one authentication mechanism for each identity with a token, with that token. Once S2A has announced identity i, the request carries only i's token, asked for at most once; if the manager refuses it, the configured identities are handled as before. With no manager nothing is asked and no mechanism is sent.", "quantifier": "every configuration, every manager (stateful, failing at will), every history of calls and responses, every enumeration order of the identity set", "why_tests_cant": "Tests use a manager with fixed answers and one or two calls; the caching of tokens and failures over sequences of calls is unboundedly varied.", "anchors": ["src/handshaker/s2a_proxy.cc:PopulateTokens (GetBytesForS2A)", "src/token_manager/access_token_manager.h"]}
{"id": "C61", "title": "What each response does", "statement": "A response that is empty gives kFailedPrecondition; one that is not a SessionResp, or has no status or a non-zero one, kInternal; both leave the proxy unchanged. Otherwise the code is kOk unless the result lacks a state (kInvalidArgument), names an unknown version or ciphersuite (kFailedPrecondition) or lacks the local identity (kInternal), an error returns no bytes and 0 bytes consumed, and only the selected identity and the handshake's outcome may change.", "quantifier": "every proxy state and byte string", "why_tests_cant": "Byte strings and states are unbounded.", "anchors": ["src/handshaker/s2a_proxy.cc:GetBytesForPeer"]}
{"id": "C62", "title": "A completed handshake gives a working channel", "statement": "When two proxies receive from S2A results describing the two ends of one TLS 1.3 connection, both create frame protectors, and these carry every interleaving of writes and reads in both directions: what one protects the other unprotects, in order and unaltered, until the sequence numbers are exhausted.", "quantifier": "every pair of configurations, every history before and after the result, every secret, every interleaving and fragmentation of the exchange", "why_tests_cant": "The tests of the proxy never use the protector they obtain; compositions across proxy, frame protector and record protocol are not exercised.", "anchors": ["src/handshaker/s2a_proxy.cc:CreateFrameProtector", "src/frame_protector/s2a_frame_protector.cc", "src/record_protocol/s2a_crypter.cc"]}
{"id": "C63", "title": "Resumption tickets are sent over the channel given to the proxy", "statement": "Every ticket message sent by a frame protector obtained from a proxy goes to the S2A address of the options and uses the channel factory the proxy was created with.", "quantifier": "every history of the proxy and of the protector", "why_tests_cant": "Depends on how many protectors were created before and on ticket histories.", "anchors": ["src/handshaker/s2a_proxy.cc:CreateFrameProtector (std::move(channel_factory_))", "src/record_protocol/s2a_crypter.cc"]}
{"id": "C64", "title": "The handshake message handler's answers are exact", "statement": "For every history of handshake records and ticket retrievals, the handler's answers are those of a reference that parses the concatenated byte stream: whether a further record is expected, whether the record mentions a KeyUpdate and the update_requested byte of the one it ends with, whether it mentions a ticket, how many tickets are complete, which tickets are handed over, and when they are refused. A null plaintext gives kInvalidArgument, an unreadable stream (unknown type, or bytes behind a KeyUpdate) kInternal; a message without body is never refused.", "quantifier": "every sequence of records and retrievals, every division of the stream into records", "why_tests_cant": "The unit tests feed a handful of fixed message sequences; the division of a stream into records and the order of retrievals are unbounded.", "anchors": ["src/record_protocol/handshake_message_handler.cc"]}
{"id": "C65", "title": "The frame protector refines a reference on byte strings", "statement": "For every history of Protect and Unprotect calls in both variants, every answer (status, contents returned, caller's buffer afterwards, length reported) is that of a reference made of a protection state for sending and a TLS 1.3 record receiver, which cuts data into records of at most 16384 bytes, reads records one after another and knows nothing of buffers, cursors or half connections. Without library failures and null pointers the reference leaves no choice. As long as the peer's handshake stream is well-formed the tickets sent are those of the reference, and undefined behaviour arises only for empty input buffers or a handshake message without body followed by more data.", "quantifier": "every history, division of the data into buffers, pattern of library failures", "why_tests_cant": "The tests check single calls and short exchanges; the answer of a call depends on the whole history and on the division of the input into buffers and records.", "anchors": ["src/frame_protector/s2a_frame_protector.cc", "src/record_protocol/s2a_crypter.cc"]}
{"id": "C66", "title": "An attacker on the wire who forges no record can only cut the stream short", "statement": "Let an attacker do anything to the bytes between the two sides of a connection - drop, repeat, reorder, cut, alter, invent - except produce a record that is authentic for a sequence number and is not the record sent with that number. Then the contents which the receiving frame protector hands over, over any history of calls and errors, are a prefix of the contents written at the sending side.", "quantifier": "every history at both sides, every division of the data into calls and buffers, every attacker behaviour without forgery, every pattern of library failures", "why_tests_cant": "It quantifies over all attacker behaviours between two unbounded histories; the tests deliver unmodified data or alter single records.", "anchors": ["src/frame_protector/s2a_frame_protector.cc", "src/record_protocol/s2a_crypter.cc", "src/crypto/s2a_half_connection.cc"]}
{"id": "C67", "title": "A proxy may be used from several threads", "statement": "When several threads call the public methods of one S2AProxy (GetBytesForS2A, GetBytesForPeer, IsHandshakeFinished, CreateFrameProtector, GetS2AContext), there is no data race and no undefined behaviour that the same calls would not have one after another; every thread gets the answers, and the proxy ends in the state, of some sequential order of all the calls that respects the order of calls that do not overlap; and no call blocks for ever.", "quantifier": "every reachable proxy, every number of threads, every list of calls per thread, every schedule", "why_tests_cant": "It quantifies over all interleavings of unboundedly many calls; the tests use one thread.", "anchors": ["include/s2a_proxy.h", "src/handshaker/s2a_proxy.cc"]}
{"id": "C68", "title": "Context and frame protector belong to the same session", "statement": "The S2AContext a proxy returns and the frame protector it creates at the same point of its life describe the same session: that of the latest session result S2A sent. Both are determined by the history alone: no answer before a result, the context of the latest accepted result once, and a frame protector with the keys of that result.", "quantifier": "every proxy, every history of calls and responses, every failure of the TLS library", "why_tests_cant": "It speaks about all sequences of responses, with accepted and refused results in any order; the tests give one result to a proxy.", "anchors": ["include/s2a_proxy.h", "src/handshaker/s2a_proxy.cc"]}
{"id": "C69", "title": "Destroying a connection waits for its ticket sending", "statement": "Destroying a connection calls every function that the ticket sender returned for it, exactly once and in order, and logs a failure exactly if one of them reports a failure.", "quantifier": "every history of a connection, every ticket sender, every outcome of the waiting", "why_tests_cant": "It relies on an invariant of all histories: the sender is called at most once, so no returned function is overwritten.", "anchors": ["src/record_protocol/s2a_crypter.cc: ~S2ACrypter, RetrieveStoredTicketsAndSendToS2A"]}
{"id": "C70", "title": "Resumption tickets reach S2A", "statement": "The tickets a client connection hands over are sent to S2A in a resumption ticket request that names the connection and the local identity and holds the tickets as received.", "quantifier": "every history of a connection, every ticket content and identity", "why_tests_cant": "The tests replace the ticket sender, so none of them sees the composition of receiver, sender and request encoding.", "anchors": ["src/record_protocol/s2a_crypter.cc", "src/record_protocol/s2a_upb_ticket_sender.cc", "src/frame_protector/s2a_frame_protector.cc: Create"]}
{"id": "C71", "title": "A requested key update is answered", "statement": "After a KeyUpdate with update_requested has been received, a KeyUpdate is sent with the current key and everything after it is protected with the next key (RFC 8446, section 4.6.3).", "quantifier": "every connection in every state that can receive, every primitives and keys, everything sent afterwards", "why_tests_cant": "The tests check that a KeyUpdate changes the inbound key; that nothing ever changes the outbound key is a statement about all continuations.", "anchors": ["src/record_protocol/s2a_crypter.cc: HandleProcessHandshakeMessageResult, UpdateOutboundKey", "src/frame_protector/s2a_frame_protector.cc"]}
{"id": "C72", "title": "Error alerts end the connection", "statement": "After an alert other than close_notify has been received, no application data is delivered any more (RFC 8446, section 6.2).", "quantifier": "every connection in every state that can receive, every primitives and keys, every error alert, everything received afterwards", "why_tests_cant": "A test shows the status of the alert, not what every later record does.", "anchors": ["src/record_protocol/s2a_crypter.cc: Unprotect"]}
{"id": "C73", "title": "An alert record holds exactly one alert", "statement": "The content of an alert record is reported by its description if it is exactly two bytes, and rejected otherwise (RFC 8446, sections 5.1 and 6).", "quantifier": "every connection in every state that can receive, every primitives and keys, every content and padding", "why_tests_cant": "The space of contents is infinite; tests use a few lengths.", "anchors": ["src/record_protocol/s2a_crypter.cc: Unprotect"]}
{"id": "C74", "title": "Only proper post-handshake messages are accepted", "statement": "A handshake record is accepted only if it consists of NewSessionTicket messages and KeyUpdate messages whose body is the single byte 0 or 1 (RFC 8446, sections 4.6.1 and 4.6.3).", "quantifier": "every connection in every state that can receive, every primitives and keys, every message", "why_tests_cant": "Every type, length and body has to be considered.", "anchors": ["src/record_protocol/s2a_crypter.cc: Unprotect", "src/handshake_message_handler/handshake_message_handler.cc"]}
{"id": "C75", "title": "Empty handshake records are rejected", "statement": "A handshake record with no content is rejected, whatever its padding (RFC 8446, section 5.1).", "quantifier": "every connection in every state that can receive, every primitives and keys, every padding", "why_tests_cant": "Needs every padding length and every state of the handshake message handler.", "anchors": ["src/record_protocol/s2a_crypter.cc: Unprotect"]}
{"id": "C76", "title": "Key usage is limited", "statement": "With one AES-GCM key no more than 2^24.5 full-size records are protected (RFC 8446, section 5.5).", "quantifier": "every connection in every state that can receive, every primitives and keys, every number of records", "why_tests_cant": "A test cannot protect tens of millions of full-size records.", "anchors": ["src/record_protocol/s2a_crypter.cc: Protect", "src/record_protocol/s2a_half_connection.cc"]}
{"id": "C77", "title": "Every failure of the record layer is logged", "statement": "Every call of a crypter or frame protector that fails logs at least one line, and logging has no influence on what the calls do.", "quantifier": "every state, every call, every failure of the TLS library", "why_tests_cant": "Tests pass a logger that discards or prints; no test looks at the lines.", "anchors": ["src/record_protocol/s2a_crypter.cc: Protect, Unprotect, UpdateOutboundKey", "src/frame_protector/s2a_frame_protector.cc"]}
{"id": "C78", "title": "The log of the record layer reveals no data", "statement": "Nothing that is logged depends on the keys or on the plaintext: when sending, the lines are a function of sizes and of whether the direction can be used; when receiving, of the record type and of whether an alert is close_notify.", "quantifier": "every connection, every data and keys", "why_tests_cant": "Non-interference compares all pairs of executions.", "anchors": ["src/record_protocol/s2a_crypter.cc: Protect, Unprotect", "src/frame_protector/s2a_frame_protector.cc"]}
{"id": "C79", "title": "The log names the alert received", "statement": "When an alert other than close_notify arrives, the line logged names its description.", "quantifier": "every connection that can receive, every alert", "why_tests_cant": "Only one alert is tested, and not its line.", "anchors": ["src/record_protocol/s2a_crypter.cc: Unprotect 430-432"]}
{"id": "C80", "title": "Every failure of the proxy is logged", "statement": "Every method call of a proxy that fails logs a line saying why; logging has no influence on what the calls do; no other lines than those for failed token requests, unnamed mechanisms and missing identities are logged.", "quantifier": "every history of calls, every token manager, every response of S2A", "why_tests_cant": "The tests' logger is a no-op; no test looks at the lines.", "anchors": ["src/handshaker/s2a_proxy.cc"]}
{"id": "C81", "title": "The proxy logs no errors when there are none", "statement": "A message to S2A for which all tokens were obtained is sent without a line in the log.", "quantifier": "every history of calls, every token manager that has the tokens", "why_tests_cant": "No test looks at the lines.", "anchors": ["src/handshaker/s2a_proxy.cc: PopulateTokenCache 111-168, 496-528, 647-679, 716-748"]}
{"id": "C82", "title": "The proxy's log reveals no secrets", "statement": "What a proxy logs does not depend on the tokens, on the traffic secrets and other content of the session result, on the bytes from and for the peer, or on the names used.", "quantifier": "every pair of histories that differ in these values only", "why_tests_cant": "Non-interference compares all pairs of executions.", "anchors": ["src/handshaker/s2a_proxy.cc"]}
{"id": "C83", "title": "NumberBytesToUnprotect is the buffer size required", "statement": "A buffer of NumberBytesToUnprotect bytes is enough to read the record, a larger one changes nothing, and a smaller one is not enough.", "quantifier": "every history of a frame protector, every input, every buffer, every library failure", "why_tests_cant": "The tests use buffers of exactly that size for a few records.", "anchors": ["src/frame_protector/s2a_frame_protector.cc: NumberBytesToUnprotect 491-502, Unprotect 319-377", "include/s2a_frame_protector.h: 103-106, 132-141"]}
{"id": "C84", "title": "A call refused because of the caller's buffers leaves the connection usable", "statement": "When Protect or Unprotect fails because the caller's buffer is too small or because the input is not a record, the call can be repeated with a proper buffer.", "quantifier": "every history of a frame protector, every input and buffer", "why_tests_cant": "No test calls the frame protector again after it refused a buffer.", "anchors": ["src/frame_protector/s2a_frame_protector.cc: Protect 243-317, Unprotect 319-377", "src/record_protocol/s2a_half_connection.cc"]}
{"id": "C85", "title": "An output buffer of length 0 may be null", "statement": "Every function that writes to a buffer of the caller does the same with a null pointer of length 0 as with an empty buffer; in particular the null pointer is not dereferenced, and the empty plaintext is decrypted into it.", "quantifier": "every history of a crypter, a record layer or a frame protector, every input, every library failure", "why_tests_cant": "The tests use a null output only for a few calls that fail early.", "anchors": ["src/crypto/aes_gcm_crypter.cc: Encrypt 168-270, Decrypt 272-398", "src/crypto/chacha_poly_crypter_boringssl.cc: 40-236", "src/record_protocol/s2a_crypter.cc: Protect 258-331, Unprotect 333-484", "src/frame_protector/s2a_frame_protector.cc: Protect 243-317, Unprotect 319-377"]}
{"id": "C86", "title": "Protect refuses null pointers without effect", "statement": "A Protect call whose input has a null pointer with a positive length is refused with kInvalidArgument and has no effect: nothing is written for the caller to send, and the next record sent has the sequence number it would have had.", "quantifier": "every frame protector history without library failures, every input and position of the null pointer, every large enough buffer", "why_tests_cant": "No test of the frame protector has a null pointer in its input; the effect shows only in the records sent later.", "anchors": ["src/frame_protector/s2a_frame_protector.cc: Protect 243-317", "src/record_protocol/s2a_crypter.cc: Protect 258-331", "src/crypto/aes_gcm_crypter.cc: Encrypt 168-270"]}
{"id": "C87", "title": "The status of an AEAD call tells what is wrong", "statement": "Encrypt and Decrypt return only OK, INVALID_ARGUMENT or INTERNAL. INVALID_ARGUMENT is returned only for arguments that are not in order: a nonce that is not 12 bytes, a null pointer with a length, an output that is too small, a ciphertext shorter than a tag. For fragments below 2^31 bytes INTERNAL is returned only if the SSL library failed or, by Decrypt, if the arguments are in order and the ciphertext is not authentic; and without library failures the status is determined by the arguments.", "quantifier": "every crypter of every factory and library after any history, every nonce, fragments and buffer, every library failure", "why_tests_cant": "The tests check the status of a dozen calls; which failures are told apart is a matter of every combination of wrong arguments and failures.", "anchors": ["src/crypto/aes_gcm_crypter.cc: 39-156, Encrypt 168-270, Decrypt 272-398", "src/crypto/chacha_poly_crypter_openssl.cc: 40-404", "src/crypto/chacha_poly_crypter_boringssl.cc: Encrypt 52-137, Decrypt 139-234"]}
{"id": "C88", "title": "No assertion of the record layer fails", "statement": "With ABSL_ASSERT enabled (a debug build) the process does not abort: whatever bytes the peer sends, however the SSL library fails and however the caller cuts its buffers, every call on a frame protector does exactly what it does in a release build.", "quantifier": "every frame protector, every history of calls with arguments a release build accepts, every library failure, every bytes from the peer", "why_tests_cant": "The assertions state what the authors take to be impossible; tests that never see one fail do not show that no message of a peer and no buffer of a caller makes one fail.", "anchors": ["src/frame_protector/s2a_frame_protector.cc: 104, 169, 270", "src/record_protocol/s2a_crypter.cc: 287, 382, 548", "src/record_protocol/handshake_message_handler.cc: 174, 185, 202, 238, 240", "src/crypto/aes_gcm_crypter.cc: 173, 278", "src/crypto/chacha_poly_crypter_openssl.cc: 183, 284", "src/crypto/chacha_poly_crypter_boringssl.cc: 57, 145"]}
{"id": "C89", "title": "The memory a peer can make a connection hold is bounded", "statement": "Whatever a peer sends, the handler of a connection keeps at most six handshake messages of the largest size (4+2^24-1 bytes) and three bytes, in at most as many fragments as bytes: the five tickets to store and the message being read. For well-formed messages it keeps exactly the tickets not yet handed over and what was read of the next message (only the header of a ticket that will not be stored).", "quantifier": "every frame protector, every history of calls, every record of the peer, every way it is cut, every library failure", "why_tests_cant": "That no sequence of records makes the store of tickets and fragments grow further is a statement over unbounded sequences of messages of up to 16 MiB; tests use a few short ones.", "anchors": ["src/record_protocol/handshake_message_handler.cc: 32-260", "src/record_protocol/handshake_message_handler.h: 130-175", "src/record_protocol/s2a_crypter.cc: 395-480"]}
{"id": "C90", "title": "The status of creation and key updates says what was wrong", "statement": "A refused creation of a frame protector, crypter or half connection reports kInvalidArgument only for an argument that is wrong and kInternal only if the SSL library failed, nothing else; an AEAD crypter reports a wrong key size (kFailedPrecondition for AES-GCM, kInvalidArgument for ChaCha20-Poly1305) or kInternal for a library failure; key derivation reports kInvalidArgument exactly for a secret that is too short; a key update reports kOk or, only if the library failed, kInternal, also after earlier failed updates.", "quantifier": "every argument, every library failure at any point, every history before a key update", "why_tests_cant": "The failures are inside the SSL library, which tests do not make fail; that no other status leaves these functions is a statement about all combinations of arguments and failures.", "anchors": ["src/frame_protector/s2a_frame_protector.cc: Create", "src/record_protocol/s2a_crypter.cc: Create, UpdateOutboundKey", "src/record_protocol/s2a_half_connection.cc: Create, UpdateKey", "src/crypto/hkdf.cc", "src/crypto/aes_gcm_crypter.cc: CreateAesGcmAeadCrypter", "src/crypto/chacha_poly_crypter_openssl.cc: CreateChachaPolyAeadCrypter", "src/crypto/chacha_poly_crypter_boringssl.cc: CreateChachaPolyAeadCrypter"]}
{"id": "C91", "title": "OpenSSL and BoringSSL builds behave alike", "statement": "The code has two ChaCha20-Poly1305 crypters, one for OpenSSL (streaming) and one for BoringSSL (one shot). As long as the library does not fail, a frame protector or crypter of one build answers every history exactly as one of the other build: statuses, buffers, lengths, allocations, destructions, tickets for S2A, creation, and which calls have undefined behaviour. With AES-GCM there is no difference even if the library fails. AEAD crypters give the same status, result and buffer on every input.", "quantifier": "every history, buffer, fragmentation, allocator, secret and peer behaviour", "why_tests_cant": "A test binary is linked with one of the libraries; comparing the builds on all histories, malformed and forged input included, is out of reach.", "anchors": ["src/crypto/chacha_poly_crypter_openssl.cc", "src/crypto/chacha_poly_crypter_boringssl.cc", "src/record_protocol/s2a_half_connection.cc: Create, UpdateKey", "src/frame_protector/s2a_frame_protector.cc"]}
{"id": "C92", "title": "A build without ChaCha20-Poly1305 refuses that suite and nothing else", "statement": "In a build against an OpenSSL without ChaCha20-Poly1305, creating a frame protector with that suite always returns a status, kFailedPrecondition if nothing else is wrong, and never a protector; with the other suites creation and key updates do exactly what they do in an ordinary build; and the suite the build lacks is not offered to S2A.", "quantifier": "every argument, state, library failure and options", "why_tests_cant": "The tests are built once, against a library that has the cipher; the #else branch is not compiled there.", "anchors": ["src/crypto/chacha_poly_crypter_openssl.cc: CreateChachaPolyAeadCrypter", "src/record_protocol/s2a_half_connection.cc: Create, UpdateKey", "src/record_protocol/s2a_crypter.cc: Create", "src/frame_protector/s2a_frame_protector.cc: Create", "src/handshaker/s2a_proxy.cc: GetClientStart, CreateFrameProtector"]}
{"id": "C93", "title": "The mutex makes concurrent Unprotect calls behave as some sequential order", "statement": "unprotect_mu_ is declared to guard against concurrent calls of Unprotect (the header advises against such calls): when any number of threads call Unprotect on one protector, every execution is explained by the calls made one after another, in an order that respects each thread and the calls that do not overlap, no object is used after it was freed, and no schedule gets stuck.", "quantifier": "every history, number of threads, lists of calls, data from the peer, library failures and schedules", "why_tests_cant": "The tests call Unprotect from one thread; the faulty schedules need a KeyUpdate or an alert between two particular accesses.", "anchors": ["include/s2a_frame_protector.h: unprotect_mu_", "src/frame_protector/s2a_frame_protector.cc: both Unprotect", "src/record_protocol/s2a_crypter.cc: Unprotect, RecordOverhead", "src/record_protocol/s2a_half_connection.cc: TagLength, UpdateKey"]}
{"id": "C94", "title": "A library call that finds no memory is reported by a status", "statement": "When a library call fails during the creation of a frame protector or a change of a key, also for lack of memory, the caller gets an error status and nothing undefined happens.", "quantifier": "every suite and library build, arguments, history and outcome of every library call, allocations of contexts included", "why_tests_cant": "A test cannot make EVP_CIPHER_CTX_new fail; the unit tests never run out of memory.", "anchors": ["src/crypto/aes_gcm_crypter.cc: CreateAesGcmAeadCrypter", "src/crypto/chacha_poly_crypter_openssl.cc and chacha_poly_crypter_boringssl.cc: CreateChachaPolyAeadCrypter", "src/crypto/hkdf.cc: HkdfDeriveSecret", "src/record_protocol/s2a_half_connection.cc: Create, UpdateKey"]}
{"id": "C95", "title": "Threads that mix Protect and Unprotect behave as some sequential order", "statement": "When any number of threads call Protect, Protect into a buffer and Unprotect on one protector, in any mixture, every execution is explained by all these calls made one after another, in an order that respects each thread and the calls that do not overlap; no object is used after it was freed, and no schedule gets stuck although there are two mutexes.", "quantifier": "every history, number of threads, mixed lists of calls, data from the peer, library failures and schedules", "why_tests_cant": "The tests call the protector from one thread, and no test can run all interleavings of two mutexes.", "anchors": ["include/s2a_frame_protector.h: protect_mu_, unprotect_mu_", "src/frame_protector/s2a_frame_protector.cc: both Protect, Unprotect of several records", "src/record_protocol/s2a_crypter.cc: Protect, Unprotect, RecordOverhead", "src/record_protocol/s2a_half_connection.cc: TagLength, UpdateKey"]}
{"id": "C96", "title": "Only a KeyUpdate of the peer changes the key for receiving", "statement": "Whatever is called on a connection, the key for receiving stays the same unless the call is given the next record of the peer, sealed with the current key, in which a KeyUpdate message begins (after complete tickets and the bytes left from earlier records); then it advances by exactly one. In particular no call that sends, no forged, reordered or malformed record and no application data or alert changes it.", "quantifier": "every connection, history, call, input, buffer and pattern of library failures; every frame protector; every number of threads and schedule without handshake records", "why_tests_cant": "The tests send a few well-formed KeyUpdates; they cannot try every input in every handler state, and the case that breaks the rule needs a message no test contains.", "anchors": ["src/record_protocol/s2a_crypter.cc: HandleHandshakeMessage, Unprotect, Protect", "src/record_protocol/handshake_message_handler.cc: ProcessHandshakeMessage", "src/record_protocol/s2a_half_connection.cc: UpdateKey"]}
{"id": "C97", "title": "unprotect_mu_ guards against concurrent calls to Unprotect", "statement": "include/s2a_frame_protector.h says of unprotect_mu_ that it guards against concurrent calls to Unprotect. When several threads call the single-record Unprotect on one protector, every execution should be explained by these calls made one after another, in an order that respects each thread and the calls that do not overlap, without undefined behaviour.", "quantifier": "every protector and history, any number of threads, lists of calls, data, library failures and schedules", "why_tests_cant": "The tests call the protector from one thread; the failing interleavings need a thread to pause between two particular accesses.", "anchors": ["include/s2a_frame_protector.h: Unprotect, unprotect_mu_", "src/frame_protector/s2a_frame_protector.cc: Unprotect of a single record", "src/record_protocol/s2a_crypter.cc: Unprotect, RecordOverhead"]}
{"id": "C98", "title": "A failed call reports its own library errors and leaves none behind", "statement": "When a call on a half connection fails in the SSL library, the text of its status contains exactly the errors that the library raised during this call, and the error queue of the thread is empty afterwards: GetSSLErrors prints the errors and clears the queue. So no status shows the errors of an earlier call, and the application's own use of the library does not find errors that are not its own.", "quantifier": "every sequence of calls of a thread on any number of half connections, every failing library call and the errors it raises", "why_tests_cant": "The tests make the library fail only by a wrong tag or key size; failures of HMAC and of the cipher calls cannot be provoked from outside.", "anchors": ["src/crypto/s2a_aead_crypter_util.cc: GetSSLErrors", "src/crypto/aes_gcm_crypter.cc", "src/crypto/chacha_poly_crypter_openssl.cc", "src/crypto/chacha_poly_crypter_boringssl.cc", "src/crypto/hkdf.cc: HkdfDerivation, HkdfDeriveSecret", "src/record_protocol/s2a_half_connection.cc: Create, UpdateKey"]}
{"id": "C99", "title": "Library errors in calls of the crypter are not lost", "statement": "When the SSL library fails during a call of S2ACrypter, the errors it raised reach the caller: they are in the text of the status that the call returns. At the very least none disappears: the texts returned by a sequence of calls and the error queue at its end contain every error raised, once and in order.", "quantifier": "every sequence of calls of Protect, Unprotect and UpdateOutboundKey on every crypter, every failing library call and the errors it raises", "why_tests_cant": "The tests cannot make the library calls of a key update fail, and no test looks at the text of a failed key update or at the error queue.", "anchors": ["src/record_protocol/s2a_crypter.cc: Protect, Unprotect, UpdateOutboundKey, HandleProcessHandshakeMessageResult", "src/record_protocol/s2a_half_connection.cc: UpdateKey", "src/crypto/s2a_aead_crypter_util.cc: GetSSLErrors"]}
{"id": "C100", "title": "The application gets the library errors of a failed call", "statement": "When the creation of a frame protector or a call on it fails in the SSL library, the status returned to the application contains the errors that the library raised in this call, and only those if no other user of the library left errors in the queue; afterwards the error queue of the thread is empty. A call that succeeds raises no errors and leaves the queue alone.", "quantifier": "every frame protector, every sequence of calls with any number of records each, every failing library call and the errors it raises", "why_tests_cant": "The tests cannot make the library calls fail between two records or during a key update, and look at codes, not at texts or at the error queue.", "anchors": ["src/frame_protector/s2a_frame_protector.cc: Create, Protect, Unprotect", "src/record_protocol/s2a_crypter.cc: Create, Protect, Unprotect, HandleProcessHandshakeMessageResult", "src/record_protocol/s2a_half_connection.cc: Create, UpdateKey"]}
