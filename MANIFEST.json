{
 "claims": [
  {
   "property": "C01",
   "status": "proved",
   "theorems": [
    "C01_round_trip"
   ],
   "note": "Full duplex: both directions interleaved; allocator returns buffers of the requested size; no library failure during the run; each direction has enough sequence numbers."
  },
  {
   "property": "C02",
   "status": "proved",
   "theorems": [
    "C02_number_bytes_to_protect_exact"
   ],
   "note": ""
  },
  {
   "property": "C03",
   "status": "proved",
   "theorems": [
    "C03_protect_emits_records",
    "C03_protect_into_emits_records",
    "C03_number_of_records"
   ],
   "note": ""
  },
  {
   "property": "C04",
   "status": "proved",
   "theorems": [
    "C04_no_nonce_reuse",
    "C04_connection_no_nonce_reuse",
    "C04_frame_no_nonce_reuse",
    "C04_threads_nonces_in_order"
   ],
   "note": "Per half connection, record protocol object and frame protector, and at every moment of every schedule of threads that call Protect and Unprotect."
  },
  {
   "property": "C05",
   "status": "proved",
   "theorems": [
    "C05_sequence_never_wraps"
   ],
   "note": ""
  },
  {
   "property": "C06",
   "status": "proved",
   "theorems": [
    "C06_nonces_follow_rfc8446"
   ],
   "note": ""
  },
  {
   "property": "C07",
   "status": "proved",
   "theorems": [
    "C07_key_schedule_follows_rfc8446"
   ],
   "note": ""
  },
  {
   "property": "C08",
   "status": "proved",
   "theorems": [
    "C08_failed_update_is_final"
   ],
   "note": ""
  },
  {
   "property": "C09",
   "status": "proved",
   "theorems": [
    "C09_derive_secret_is_hkdf_expand"
   ],
   "note": ""
  },
  {
   "property": "C10",
   "status": "proved",
   "theorems": [
    "C10_encrypt_is_seal",
    "C10_decrypt_inverts_encrypt"
   ],
   "note": "Single iovecs below 2^31 bytes (see C56)."
  },
  {
   "property": "C100",
   "status": "partial",
   "theorems": [
    "C100_queue_changes_nothing",
    "C100_queue_changes_nothing_in_create",
    "C100_each_call",
    "C100_refused_input",
    "C100_create",
    "C100_own_errors_partial",
    "C100_nothing_lost_partial",
    "C100_errors_lost_refuted",
    "C100_stale_error_refuted",
    "C100_deviation_on_every_key_update"
   ],
   "note": "False for a failed key update of the peer (its errors are lost, or returned by a later call) and for a creation that fails in the key derivation (its errors stay in the queue, C100_create). Proved: without a failed key update of the peer every call returns exactly its own errors and leaves none behind; a protector is created only if no library call failed."
  },
  {
   "property": "C11",
   "status": "proved",
   "theorems": [
    "C11_only_authentic_input_accepted"
   ],
   "note": "Any fragments, null and huge ones included; their total length below 2^64."
  },
  {
   "property": "C12",
   "status": "partial",
   "theorems": [
    "C12_no_unauthenticated_plaintext_partial",
    "C12_no_unauthenticated_plaintext_refuted",
    "C12_leak_for_all_primitives"
   ],
   "note": "For any fragments and library failures. False for the streaming crypters when the output buffer is too small and the ciphertext has several fragments."
  },
  {
   "property": "C13",
   "status": "partial",
   "theorems": [
    "C13_no_content_on_error_partial",
    "C13_no_content_on_error_refuted",
    "C13_deviation_on_every_connection"
   ],
   "note": "False as stated: on application data inside a handshake message (and two further cases) the decrypted bytes stay in the buffer. The partial theorem lists all exceptions; the refutation is a concrete run. The deviation occurs on every connection."
  },
  {
   "property": "C14",
   "status": "proved",
   "theorems": [
    "C14_close_notify_final",
    "C14_frame_close_notify_final"
   ],
   "note": ""
  },
  {
   "property": "C15",
   "status": "proved",
   "theorems": [
    "C15_padding_removed",
    "C15_all_zero_rejected"
   ],
   "note": ""
  },
  {
   "property": "C16",
   "status": "proved",
   "theorems": [
    "C16_malformed_rejected_without_effect"
   ],
   "note": "After close_notify such records get ALERT_CLOSE_NOTIFY instead."
  },
  {
   "property": "C17",
   "status": "partial",
   "theorems": [
    "C17_no_data_inside_message_partial",
    "C17_data_accepted_iff_not_waiting",
    "C17_waiting",
    "C17_exception_is_fifth_ticket",
    "C17_no_data_inside_message_refuted",
    "C17_deviation_on_every_connection"
   ],
   "note": "Exact: application data is accepted iff the reference receiver is not waiting; inside a handshake message that happens only if the last handshake bytes came with the call that completed the fifth ticket. In that case the property is false (refuted); otherwise it is proved. The deviation occurs on every connection."
  },
  {
   "property": "C18",
   "status": "proved",
   "theorems": [
    "C18_reassembly"
   ],
   "note": "The handler exposes at most five tickets, so the theorem is about the first five."
  },
  {
   "property": "C19",
   "status": "proved",
   "theorems": [
    "C19_sent_once_at_most_five",
    "C19_sent_tickets_are_first_received",
    "C19_channel_passed_on"
   ],
   "note": "For every history, also after a malformed handshake stream: at most one call, with at most five tickets, which are the first complete tickets received before any malformed place, in order; address, id and identity as configured."
  },
  {
   "property": "C20",
   "status": "partial",
   "theorems": [
    "C20_five_tickets_sent_partial",
    "C20_fifth_ticket_sends_partial",
    "C20_data_sends_tickets_partial",
    "C20_tickets_sent_exactly",
    "C20_tickets_not_lost_refuted",
    "C20_deviation_on_every_connection"
   ],
   "note": "Exact: what is handed over is r_sent of the reference receiver, for every history with a well-formed handshake stream. The property is false if a sixth ticket has begun in the record that completes the fifth: all tickets are lost. The deviation occurs on every connection."
  },
  {
   "property": "C21",
   "status": "partial",
   "theorems": [
    "C21_one_update_per_message_partial",
    "C21_one_update_per_message_refuted",
    "C21_deviation_on_every_connection"
   ],
   "note": "Proved for a KeyUpdate within one record; false for one cut into several records. The deviation occurs on every connection."
  },
  {
   "property": "C22",
   "status": "partial",
   "theorems": [
    "C22_no_undefined_behaviour_partial",
    "C22_undefined_iff_fatal",
    "C22_only_negative_shift_partial",
    "C22_no_undefined_behaviour_refuted",
    "C22_undefined_after_reported_error_refuted",
    "C22_deviation_on_every_connection"
   ],
   "note": "Full statement false (two refutations). Undefined behaviour is always a shift by a negative amount; in a well-formed history it occurs exactly on records that bring a message with an empty body and at least four more bytes. The deviation occurs on every connection."
  },
  {
   "property": "C23",
   "status": "partial",
   "theorems": [
    "C23_protect_destroys_partial",
    "C23_destroyed_once_refuted",
    "C23_callers_buffer_refuted",
    "C23_deviation_on_every_protector"
   ],
   "note": "False: after a failed Protect the allocated buffer is destroyed twice, and Protect into a caller's buffer destroys that buffer. The partial theorem states exactly what is destroyed. The deviation occurs with every frame protector."
  },
  {
   "property": "C24",
   "status": "partial",
   "theorems": [
    "C24_buffers_released_partial",
    "C24_buffers_released_or_no_record_partial",
    "C24_buffers_released_refuted",
    "C24_deviation_on_every_protector"
   ],
   "note": "False when the bytes after some records are not a record: the buffers of the records before are leaked. The deviation occurs with every frame protector."
  },
  {
   "property": "C25",
   "status": "partial",
   "theorems": [
    "C25_partial_record_reported_partial",
    "C25_partial_record_reported_refuted",
    "C25_deviation_on_every_protector"
   ],
   "note": "False: fewer than 22 trailing bytes are ignored. The deviation occurs with every frame protector."
  },
  {
   "property": "C26",
   "status": "partial",
   "theorems": [
    "C26_single_record_partial",
    "C26_single_record_refuted",
    "C26_deviation_on_every_protector"
   ],
   "note": "False: everything after the first record is ignored. The deviation occurs with every frame protector."
  },
  {
   "property": "C27",
   "status": "partial",
   "theorems": [
    "C27_reads_in_bounds_partial",
    "C27_reads_in_bounds_refuted",
    "C27_exact_single",
    "C27_exact"
   ],
   "note": "False for an empty iovec where a record header is read; proved for non-empty iovecs (any cutting) and for Protect with any iovecs. The inputs with an out-of-bounds or null read are characterised exactly."
  },
  {
   "property": "C28",
   "status": "partial",
   "theorems": [
    "C28_protect_and_unprotect_partial",
    "C28_writer_and_reader_partial",
    "C28_use_after_free_refuted",
    "C28_every_key_change_races_refuted",
    "C28_protect_alone",
    "C28_unprotect_alone",
    "C28_call_alone"
   ],
   "note": "The property is false: a schedule with a KeyUpdate between loading and using aead_crypter_ in TagLength is a use after free (refuted with a witness, and for all primitives, histories and data: whenever the reading thread installs a new key such a schedule exists). For every schedule of two calls, and of a thread with any list of Protect calls and one with any list of Unprotect calls, anything but that is excluded: results are the sequential ones, and the use after free needs a read that installs a new key."
  },
  {
   "property": "C29",
   "status": "proved",
   "theorems": [
    "C29_half_connection_linearizable",
    "C29_crypter_protect_linearizable",
    "C29_frame_protect_linearizable",
    "C29_update_outbound_key_refuted"
   ],
   "note": "Any number of threads and calls, every schedule; Encrypt, Decrypt and UpdateKey of one half connection, Protect of one crypter, Protect of one frame protector. The refuted theorem is about S2ACrypter::UpdateOutboundKey, which is not an anchor of C29: running it concurrently with Protect is a use after free."
  },
  {
   "property": "C30",
   "status": "proved",
   "theorems": [
    "C30_inbound_independent_of_outbound_calls",
    "C30_inbound_independent_of_outbound_state",
    "C30_outbound_independent_of_inbound_calls"
   ],
   "note": ""
  },
  {
   "property": "C31",
   "status": "partial",
   "theorems": [
    "C31_no_bytes_with_error_partial",
    "C31_public_status",
    "C31_no_bytes_with_error_refuted",
    "C31_deviation_on_every_protector"
   ],
   "note": "False for the single-record Unprotect given less than 22 bytes: iov_len stays what it was. The deviation occurs with every frame protector."
  },
  {
   "property": "C32",
   "status": "proved",
   "theorems": [
    "C32_creation_validates",
    "C32_frame_creation_validates",
    "C32_proxy_creation"
   ],
   "note": ""
  },
  {
   "property": "C33",
   "status": "proved",
   "theorems": [
    "C33_receiver_refines_reference",
    "C33_unprotect_refines_recv",
    "C33_only_peer_records_accepted",
    "C33_frame_only_peer_records"
   ],
   "note": ""
  },
  {
   "property": "C34",
   "status": "proved",
   "theorems": [
    "C34_protect_writes_its_record",
    "C34_protect_statuses"
   ],
   "note": ""
  },
  {
   "property": "C35",
   "status": "proved",
   "theorems": [
    "C35_start_then_next",
    "C35_call",
    "C35_kinds_differ"
   ],
   "note": ""
  },
  {
   "property": "C36",
   "status": "proved",
   "theorems": [
    "C36_finished_on_result",
    "C36_stays_finished"
   ],
   "note": ""
  },
  {
   "property": "C37",
   "status": "proved",
   "theorems": [
    "C37_nothing_before_finish"
   ],
   "note": ""
  },
  {
   "property": "C38",
   "status": "partial",
   "theorems": [
    "C38_failed_result_partial",
    "C38_null_result_refuted",
    "C38_protector_after_error_refuted"
   ],
   "note": "Proved for results with session state and local identity; false without state (null dereference) and without local identity (a protector is created)."
  },
  {
   "property": "C39",
   "status": "proved",
   "theorems": [
    "C39_parameters_delivered"
   ],
   "note": ""
  },
  {
   "property": "C40",
   "status": "partial",
   "theorems": [
    "C40_tokens_partial",
    "C40_uncut",
    "C40_nul_refuted"
   ],
   "note": "Exact up to cutting identities and tokens at the first NUL; false for strings with NUL bytes."
  },
  {
   "property": "C41",
   "status": "partial",
   "theorems": [
    "C41_first_context_partial",
    "C41_second_call_refuted",
    "C41_failed_result_refuted"
   ],
   "note": "Proved for the first call after a successful result; false for a second call and after a failed result."
  },
  {
   "property": "C42",
   "status": "partial",
   "theorems": [
    "C42_one_protector_partial",
    "C42_two_protectors_refuted",
    "C42_same_keys"
   ],
   "note": "Each single protector never repeats a nonce; two protectors of one proxy use the same keys and nonces."
  },
  {
   "property": "C43",
   "status": "partial",
   "theorems": [
    "C43_frames_partial",
    "C43_alert_lost_refuted",
    "C43_always_lost"
   ],
   "note": "Frames are delivered by successful calls; never if the status is not 0."
  },
  {
   "property": "C44",
   "status": "partial",
   "theorems": [
    "C44_identity_mismatch_refuted",
    "C45_accepted_partial"
   ],
   "note": "False: never checked (C45_accepted_partial is the exact acceptance condition)."
  },
  {
   "property": "C45",
   "status": "partial",
   "theorems": [
    "C45_accepted_partial",
    "C45_protector_version_partial",
    "C45_version_refuted",
    "C45_suite_refuted"
   ],
   "note": "Only unknown numbers are refused, and protectors use TLS 1.3 only; offered versions and suites are not checked."
  },
  {
   "property": "C46",
   "status": "partial",
   "theorems": [
    "C46_client_start_partial",
    "C46_nul_refuted"
   ],
   "note": "For strings without NUL bytes; others are cut."
  },
  {
   "property": "C47",
   "status": "partial",
   "theorems": [
    "C47_server_start_partial",
    "C47_nul_refuted"
   ],
   "note": "For strings without NUL bytes; others are cut."
  },
  {
   "property": "C48",
   "status": "partial",
   "theorems": [
    "C48_context_round_trip_partial",
    "C48_fingerprint_refuted",
    "C48_not_text_refuted"
   ],
   "note": "Round trip for contexts whose strings are text without NUL and whose fingerprints have no zero byte. The full statement is false: c_str()-based copying cuts fingerprints and strings at the first zero byte, and non-text strings are serialized to bytes the parser rejects."
  },
  {
   "property": "C49",
   "status": "partial",
   "theorems": [
    "C49_tls_version",
    "C49_ciphersuite",
    "C49_identity_partial",
    "C49_identity_received",
    "C49_identity_fails",
    "C49_identity_refuted"
   ],
   "note": "Enumerations in full; identities without NUL bytes; identities with a NUL byte are cut short (refuted)."
  },
  {
   "property": "C50",
   "status": "proved",
   "theorems": [
    "C50_options",
    "C50_copy"
   ],
   "note": ""
  },
  {
   "property": "C51",
   "status": "partial",
   "theorems": [
    "C51_ticket_request_partial",
    "C51_null_ticket",
    "C51_more_tickets",
    "C51_identity_refuted"
   ],
   "note": "Identities containing NUL are cut short (refuted). A null pointer in the list of tickets is undefined behaviour, exactly when the list is given and the identity is typed; a request that already has tickets keeps them."
  },
  {
   "property": "C52",
   "status": "partial",
   "theorems": [
    "C52_fixed_token_partial",
    "C52_construction_refuted"
   ],
   "note": "Fixed token proved for all histories; construction never fails (refuted), the calls fail with kNotFound instead."
  },
  {
   "property": "C53",
   "status": "proved",
   "theorems": [
    "C53_length_bounds_exact",
    "C53_encrypt_writes_bound",
    "C53_decrypt_writes_bound"
   ],
   "note": ""
  },
  {
   "property": "C54",
   "status": "proved",
   "theorems": [
    "C54_calls_independent"
   ],
   "note": ""
  },
  {
   "property": "C55",
   "status": "partial",
   "theorems": [
    "C55_wire_round_trip_partial",
    "C55_not_text_refuted"
   ],
   "note": "All request, response and context messages with text strings below 2 GiB; a message built with a non-text string is not parsed (refuted)."
  },
  {
   "property": "C56",
   "status": "partial",
   "theorems": [
    "C56_no_truncation_partial",
    "C56_no_truncation_refuted",
    "C56_truncation_for_all_primitives"
   ],
   "note": "False for iovecs of 2^32 bytes and more (static_cast<int> of the length)."
  },
  {
   "property": "C57",
   "status": "proved",
   "theorems": [
    "C57_supported_keys_accepted",
    "C57_other_keys_rejected",
    "C57_library_failures_reported",
    "C57_getters"
   ],
   "note": "An OpenSSL without ChaCha20-Poly1305 is not modelled."
  },
  {
   "property": "C58",
   "status": "partial",
   "theorems": [
    "C58_encrypt_no_undefined_behaviour",
    "C58_decrypt_no_undefined_behaviour_partial",
    "C58_null_tag_dereferenced",
    "C58_no_undefined_behaviour_refuted"
   ],
   "note": "False for Decrypt of the streaming crypters when a null fragment lies in the last 16 bytes: it is passed to memcpy."
  },
  {
   "property": "C59",
   "status": "proved",
   "theorems": [
    "C59_responses_read",
    "C59_requests_written",
    "C59_requests_text",
    "C59_meaning_unique",
    "C59_context_written",
    "C59_context_read"
   ],
   "note": "Meaning of bytes is SpecProto.v, written without the functions of the model. Requests: those with at most one field of the oneof (all the library writes). The contexts that can be written faithfully are those of C48."
  },
  {
   "property": "C60",
   "status": "proved",
   "theorems": [
    "C60_unselected",
    "C60_selected",
    "C60_selected_token_kept",
    "C60_no_manager"
   ],
   "note": ""
  },
  {
   "property": "C61",
   "status": "proved",
   "theorems": [
    "C61_unusable_response",
    "C61_response"
   ],
   "note": ""
  },
  {
   "property": "C62",
   "status": "proved",
   "theorems": [
    "C62_handshake_to_data"
   ],
   "note": ""
  },
  {
   "property": "C63",
   "status": "partial",
   "theorems": [
    "C63_channel_partial",
    "C63_second_protector_refuted"
   ],
   "note": "Exact characterisation: the address always, the channel factory only for the first protector asked for; false for later ones (the factory is moved out of the proxy)."
  },
  {
   "property": "C64",
   "status": "proved",
   "theorems": [
    "C64_results",
    "C64_records",
    "C64_unreadable",
    "C64_bodiless"
   ],
   "note": ""
  },
  {
   "property": "C65",
   "status": "proved",
   "theorems": [
    "C65_refines",
    "C65_answers_unique"
   ],
   "note": "Once the handshake stream is malformed the reference allows anything (C22)."
  },
  {
   "property": "C66",
   "status": "partial",
   "theorems": [
    "C66_prefix_until_error_partial",
    "C66_end_to_end_partial",
    "C66_prefix_refuted",
    "C66_any_number_lost",
    "C66_appended_bytes_lose_data"
   ],
   "note": "Proved: what is handed over is the sent contents in order with some possibly left out, and a prefix as long as no read reports an error. The full statement is false: a failed decryption is not fatal and uses up a sequence number, so giving record k to the receiver k+1 times deletes the k records before it; and an error in a call discards the contents of the good records before it in the same call (both shown for all primitives). A caller who stops at the first error is safe. RFC 8446 section 5.2 requires the connection to be terminated when decryption fails."
  },
  {
   "property": "C67",
   "status": "partial",
   "theorems": [
    "C67_locked_methods",
    "C67_proxy_threads_partial",
    "C67_accesses_written",
    "C67_accesses_read",
    "C67_context_twice_refuted",
    "C67_use_after_free_refuted",
    "C67_mixed_keys_refuted",
    "C67_channel_twice_refuted"
   ],
   "note": "Proved for the three methods that hold mu_, and for all methods if one thread makes the CreateFrameProtector calls, one the GetS2AContext calls, and either at most one session result arrives or those two methods are called only by the thread that brings the results. The full statement is false: the two methods release mu_ after their call of IsHandshakeFinished and use result_, context_, channel_factory_ without it. Two GetS2AContext calls can both get the one context; a GetBytesForPeer that brings another result frees the result CreateFrameProtector is reading (use after free), or makes it mix the keys of two sessions; two CreateFrameProtector calls can both get the channel factory. Each of these is shown for all worlds and states in which the calls succeed at all."
  },
  {
   "property": "C68",
   "status": "partial",
   "theorems": [
    "C68_context",
    "C68_protector",
    "C68_one_session",
    "C68_unknown_numbers",
    "C68_same_session_partial",
    "C68_same_session_refuted"
   ],
   "note": "The answers of GetS2AContext and CreateFrameProtector are characterised exactly for every history. They are about one session if the latest result with a session state was accepted. Otherwise the statement is false: a refused result has already replaced the keys, so after an accepted result and a refused one without local identity the context describes the first session and the frame protector has the keys of the second (shown for all primitives and token managers)."
  },
  {
   "property": "C69",
   "status": "proved",
   "theorems": [
    "C69_destructor_waits",
    "C69_latest_function"
   ],
   "note": ""
  },
  {
   "property": "C70",
   "status": "partial",
   "theorems": [
    "C70_request_partial",
    "C70_nothing_written",
    "C70_tickets_reach_s2a_refuted"
   ],
   "note": "The request prepared from what is handed over means exactly the first tickets received, the connection and the local identity (end to end, from decrypted records to the bytes of the request, size limit included). False as a whole: the sender the frame protector passes on is a stub that writes nothing, on every connection."
  },
  {
   "property": "C71",
   "status": "partial",
   "theorems": [
    "C71_update_can_be_answered_partial",
    "C71_protector_keeps_its_key",
    "C71_deviation_on_every_connection",
    "C71_update_request_answered_refuted"
   ],
   "note": "The user of a crypter can answer (KeyUpdate with the old key, then the next key). False as a whole: the request is ignored on every connection, and a frame protector never changes its key for sending in any history."
  },
  {
   "property": "C72",
   "status": "partial",
   "theorems": [
    "C73_alerts_reported_partial",
    "C14_close_notify_final",
    "C72_deviation_on_every_connection",
    "C72_error_alerts_final_refuted"
   ],
   "note": "An error alert is reported, delivers nothing and clears the buffer; close_notify is final. False as a whole: after any error alert the next application data is delivered, on every connection."
  },
  {
   "property": "C73",
   "status": "partial",
   "theorems": [
    "C73_alerts_reported_partial",
    "C73_deviation_on_every_connection",
    "C73_one_alert_per_record_refuted"
   ],
   "note": "Exact for contents of at most two bytes. False as a whole: longer contents are taken for their first two bytes."
  },
  {
   "property": "C74",
   "status": "partial",
   "theorems": [
    "C74_other_types_rejected_partial",
    "C74_deviation_on_every_connection",
    "C74_proper_key_updates_refuted"
   ],
   "note": "Other message types are rejected. False as a whole: a KeyUpdate with any non-empty body is accepted and advances the key, on every connection."
  },
  {
   "property": "C75",
   "status": "partial",
   "theorems": [
    "C75_empty_handshake_ignored_partial",
    "C75_empty_handshake_rejected_refuted"
   ],
   "note": "False: it is accepted, on every connection. It is harmless: nothing is delivered and the data after it is."
  },
  {
   "property": "C76",
   "status": "partial",
   "theorems": [
    "C05_sequence_never_wraps",
    "C76_deviation_on_every_connection",
    "C76_key_usage_limited_refuted"
   ],
   "note": "The only limit is the 64-bit sequence number (C05). False as a whole: any number of records up to that, on every connection."
  },
  {
   "property": "C77",
   "status": "partial",
   "theorems": [
    "C77_log_changes_nothing",
    "C77_frame_log_changes_nothing",
    "C77_crypter_logs_failures",
    "C77_crypter_lines",
    "C77_protector_logs_failures_partial",
    "C77_protector_lines",
    "C77_null_output_lines",
    "C77_short_input_not_logged",
    "C77_failures_logged_refuted",
    "C77_update_logged_refuted"
   ],
   "note": "Protect and Unprotect of a crypter log every failure; a frame protector every failure but one. False as a whole: inputs of fewer than 22 bytes are refused without a line, and a failing UpdateOutboundKey logs nothing."
  },
  {
   "property": "C78",
   "status": "proved",
   "theorems": [
    "C78_sending",
    "C78_sending_reveals_nothing",
    "C78_receiving",
    "C78_data_not_logged",
    "C77_crypter_lines",
    "C77_protector_lines"
   ],
   "note": "The lines are those of the inductive predicates of SpecLog, whose only decrypted value is an unknown record type; for calls without library failure the exact lines are given. Texts taken from an inner status are represented by its code."
  },
  {
   "property": "C79",
   "status": "partial",
   "theorems": [
    "C79_deviation_on_every_connection",
    "C79_alert_named_refuted"
   ],
   "note": "False: the line is the same for every alert, on every connection; it names the record type (21)."
  },
  {
   "property": "C80",
   "status": "partial",
   "theorems": [
    "C80_log_changes_nothing",
    "C80_failures_logged_partial",
    "C80_failures_logged_refuted",
    "C80_lines_to_s2a",
    "C80_lines_to_peer",
    "C80_empty_line"
   ],
   "note": "All failures but one; the exact lines of GetBytesForS2A and GetBytesForPeer. False as a whole: a frame protector that cannot be created after the handshake is not logged, and a response without status is logged by an empty line."
  },
  {
   "property": "C81",
   "status": "partial",
   "theorems": [
    "C81_no_idle_lines_partial",
    "C81_deviation_on_every_proxy",
    "C81_no_idle_lines_refuted"
   ],
   "note": "Holds with local identities. False as a whole: without local identities every message sent with the default token logs an unknown identity type, on every proxy."
  },
  {
   "property": "C82",
   "status": "proved",
   "theorems": [
    "C82_log_reveals_nothing"
   ],
   "note": "The status text S2A returns with an error is logged as it is; texts of token manager errors are not modelled."
  },
  {
   "property": "C83",
   "status": "partial",
   "theorems": [
    "C83_enough",
    "C83_exact_partial",
    "C83_required_refuted"
   ],
   "note": "Enough: for all inputs, histories and failures. False: that so many bytes are required; for application data the exact number is shown to be 16 less on every protector."
  },
  {
   "property": "C84",
   "status": "partial",
   "theorems": [
    "C84_read_refuted",
    "C84_read_on_every_protector",
    "C84_write_on_every_protector",
    "C84_no_record_partial"
   ],
   "note": "False: a record refused for a small buffer is lost on every protector, and Protect uses up the sequence numbers of the records that had room. True of input that is no record and of a buffer with no room for the first record."
  },
  {
   "property": "C85",
   "status": "proved",
   "theorems": [
    "C85_encrypt",
    "C85_decrypt",
    "C85_decrypt_empty",
    "C85_record_protect",
    "C85_record_unprotect",
    "C85_frame_protect",
    "C85_frame_unprotect"
   ],
   "note": "For all states, inputs and failures; memset and memcpy of 0 bytes at a null pointer are taken to be harmless, as stated in DESIGN.md."
  },
  {
   "property": "C86",
   "status": "partial",
   "theorems": [
    "C86_effect",
    "C86_no_effect_refuted"
   ],
   "note": "The call is refused, but the full blocks before the null pointer are sealed and one more sequence number is used up: exact effect for all protectors, with a refutation."
  },
  {
   "property": "C87",
   "status": "proved",
   "theorems": [
    "C87_encrypt_status",
    "C87_decrypt_status",
    "C87_encrypt_exact",
    "C87_decrypt_exact",
    "C87_large_fragment"
   ],
   "note": "Calls that end; C58 says which calls are undefined. C87_large_fragment shows that the bound of 2^31 bytes is needed."
  },
  {
   "property": "C88",
   "status": "partial",
   "theorems": [
    "C88_abort_or_same",
    "C88_no_assertion_fails_partial",
    "C88_no_assertion_fails_refuted",
    "C88_aborts_on_every_protector",
    "C88_protect_into_null",
    "C88_aead"
   ],
   "note": "False as stated: a null pointer of length 0 inside a payload given to Unprotect is accepted by a release build and aborts a debug build (C88_no_assertion_fails_refuted, and on every protector). Without null pointers given to Unprotect no assertion fails in any history, for any peer. Protect into a null buffer and AEAD Encrypt into a null buffer of length 0 abort."
  },
  {
   "property": "C89",
   "status": "proved",
   "theorems": [
    "C89_memory_bounded",
    "C89_handler_bounded",
    "C89_bound_reached",
    "C89_memory_exact",
    "C89_every_connection"
   ],
   "note": "The bound is reached up to four bytes by a handler (C89_bound_reached); on every connection without tickets yet a peer reaches five sixths of it with accepted records (C89_every_connection). Memory counted is the bytes of fragments, not the overhead of vectors."
  },
  {
   "property": "C90",
   "status": "proved",
   "theorems": [
    "C90_frame_protector",
    "C90_crypter",
    "C90_half_connection",
    "C90_aes_gcm",
    "C90_chacha_poly",
    "C90_derive_secret",
    "C90_update_key",
    "C90_update_outbound_key"
   ],
   "note": "The converse (without failures and with valid arguments creation succeeds) is in C32."
  },
  {
   "property": "C91",
   "status": "partial",
   "theorems": [
    "C91_frame_protectors_alike",
    "C91_creation_alike",
    "C91_crypters_alike",
    "C91_aes_gcm_same",
    "C91_encrypt_alike",
    "C91_decrypt_alike_partial",
    "C91_buffers_alike_refuted",
    "C91_null_alike_refuted"
   ],
   "note": "Frame protectors and crypters: in full. AEAD crypters: false for the bytes left in the buffer of a failed Decrypt and for a null fragment in the tag (refuted)."
  },
  {
   "property": "C92",
   "status": "partial",
   "theorems": [
    "C92_other_suites_same_partial",
    "C92_other_updates_same_partial",
    "C92_refused_partial",
    "C92_not_offered_refuted"
   ],
   "note": "False: the suite is offered if the options name it, S2A may choose it, and after a finished handshake no frame protector can be created. The rest is proved."
  },
  {
   "property": "C93",
   "status": "partial",
   "theorems": [
    "C93_readers_linearizable_partial",
    "C93_check_before_lock_refuted",
    "C93_single_record_not_linearizable_refuted"
   ],
   "note": "False: the length is compared with RecordOverhead before the mutex is taken, so whenever a call installs a new key another one can use the freed crypter; and the Unprotect of a single record takes no lock. Proved: everything else about the Unprotect of several records."
  },
  {
   "property": "C94",
   "status": "partial",
   "theorems": [
    "C94_create_partial",
    "C94_update_partial",
    "C94_checked",
    "C94_checked_update",
    "C94_failures_reported_refuted",
    "C94_update_failures_refuted"
   ],
   "note": "False: EVP_CIPHER_CTX_new is not checked for AES-GCM and for ChaCha20-Poly1305 with OpenSSL; if it fails, creation and every change of the key dereference a null pointer (for all primitives and histories). Every other failure is reported, and all failures with ChaCha20-Poly1305 on BoringSSL."
  },
  {
   "property": "C95",
   "status": "partial",
   "theorems": [
    "C95_threads_linearizable_partial",
    "C95_threads_linearizable_same_key",
    "C95_threads_linearizable_no_handshake",
    "C95_mutexes_do_not_exclude_refuted"
   ],
   "note": "False: Protect reads the inbound crypter (RecordOverhead) with protect_mu_ only, Unprotect replaces it with unprotect_mu_ only; for all primitives and histories a call that installs a new key can make Protect use the freed crypter. Everything else holds: executions without this are linearizable and can be completed, and if no order of the calls changes the key there is no other outcome. This is so in particular if no input contains handshake bytes of the peer."
  },
  {
   "property": "C96",
   "status": "partial",
   "theorems": [
    "C96_only_handshake_changes_key_partial",
    "C96_only_key_update_changes_key_partial",
    "C96_frames_keep_key",
    "C96_key_changes_without_update_refuted"
   ],
   "note": "False: after a KeyUpdate without a body (24 0 0 0) any handshake record of one to three bytes changes the key again. Proved: in every history the key changes only by one and only for an authentic next record with handshake bytes; these bring a KeyUpdate as long as the handshake messages received before were well-formed."
  },
  {
   "property": "C97",
   "status": "partial",
   "theorems": [
    "C97_data_calls_linearizable_partial",
    "C97_data_after_close_refuted",
    "C97_use_after_free_refuted",
    "C97_records_between_refuted",
    "C97_deviation_on_every_protector"
   ],
   "note": "False: the single-record Unprotect takes no mutex. With a close_notify in one thread, another is given data after it; with a KeyUpdate, another uses the freed crypter; with application data alone, its record is accepted between the records of an Unprotect of several. Proved: without close_notify alerts and handshake bytes of the peer, and with no ticket waiting, every execution of any number of threads is linearizable and can be completed, since mu_ of the half connection orders the calls of Decrypt. The header asks callers not to do this (line 113), while line 156 promises the guard. The delivery after close_notify happens on every open protector (C97_deviation_on_every_protector)."
  },
  {
   "property": "C98",
   "status": "partial",
   "theorems": [
    "C98_queue_changes_nothing",
    "C98_queue_changes_nothing_in_create",
    "C98_each_call",
    "C98_crypter_creation_reports",
    "C98_own_errors_partial",
    "C98_nothing_lost",
    "C98_stale_error_refuted",
    "C98_deviation_on_every_half_connection",
    "C98_deviation_in_create",
    "C98_waiting_errors_taken_refuted"
   ],
   "note": "False for Create and UpdateKey: hkdf.cc never calls GetSSLErrors, so errors of HMAC stay in the queue and the next failing call reports them. Proved: Encrypt, Decrypt and the creation of crypters leave no error behind; without a failing Create or UpdateKey every call reports exactly its own errors; in all sequences no error is lost, duplicated or reordered. The limit of 16 entries of the queue is not modelled."
  },
  {
   "property": "C99",
   "status": "partial",
   "theorems": [
    "C99_queue_changes_nothing",
    "C99_each_call",
    "C99_nothing_lost_partial",
    "C99_errors_lost_refuted",
    "C99_errors_left_refuted",
    "C99_deviation_on_every_key_update"
   ],
   "note": "False for a key update of the peer: HandleProcessHandshakeMessageResult replaces the status of UpdateKey, so the errors that GetSSLErrors took from the queue are lost, with those that were waiting there. C99_deviation_on_every_key_update shows that this can happen on every key update of the peer. Proved: what every call does to errors and queue; without a failed key update of the peer no error is lost, duplicated or reordered. S2ACrypter::Create is part of C100."
  }
 ]
}
