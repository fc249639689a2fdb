(* The record protocol (S2ACrypter): C03, C04, C13 - C17, C19 - C22, C30 - C34
   at the level of single records; C18 (handshake message handler). *)
From Coq Require Import List NArith Bool.
From Verif Require Import Base Aead Hkdf HalfConn SpecAead SpecTls HalfRun Options HsHandler
  Crypter SpecHs SpecRecord SpecRx CrypterRun HsRun HsRunProofs CrypterFinal CrypterLemmas3 CrypterChannel
  Toy ToyProofs RecordExamples RecordRefuted.
Import ListNotations.
Local Open Scope N_scope.

(* Throughout: [connection P lib a ops rs x]: x is reached by the history ops,
   with results rs, on a crypter created with arguments a; every call comes
   with its own library failures. [received P a ops rs r]: r is what the
   reference receiver of SpecRx.v has received in that history, and the
   handshake stream was well-formed. *)

(* Every history of Unprotect calls is a run of the reference receiver. *)
Theorem C33_receiver_refines_reference : forall P lib a ops rs x, connection P lib a ops rs x ->
  exists r, rx_run P (rx_start (d_in a)) ops rs r.
Proof. exact Wrx. Qed.
Print Assumptions C33_receiver_refines_reference.

Theorem C33_unprotect_refines_recv : forall P lib a ops rs x r, connection P lib a ops rs x -> received P a ops rs r ->
  forall hdr payload buf fs, cop_ok (CUnprotect hdr payload buf) ->
  match cstep P lib x (CUnprotect hdr payload buf) fs with
  | Done (x', CUnprotected st n out) =>
    exists r', recv P (fs <> []) r hdr (iov_concat payload) buf st n (iov_data out) r'
  | Done _ => False
  | Undef u => u = UbNegativeShift /\ r_closed r = false /\ exists c pad,
      iov_concat payload = dir_seal P (r_dir r) hdr (inner ty_handshake c pad) /\
      fatal (r_part r ++ c)
  | NoFuel => False
  end.
Proof. intros P lib a ops rs x r HC. exact (Wstep P lib a ops rs x HC r). Qed.
Print Assumptions C33_unprotect_refines_recv.

(* C04: outbound nonces of the connection. *)
Theorem C04_connection_no_nonce_reuse : forall P lib a ops rs x, connection P lib a ops rs x ->
  forall e, NoDup (nonces (cx_out x) e).
Proof. exact W04. Qed.
Print Assumptions C04_connection_no_nonce_reuse.

(* C13. Missing: the buffer is left as it was, or zeroed, except in the two
   cases at the end (application data inside a handshake message, handshake
   records with an internal error), where decrypted content stays in it; the
   third exception is content that is all zero. *)
Theorem C13_no_content_on_error_partial : forall P lib a ops rs x, connection P lib a ops rs x ->
  forall hdr payload buf fs x' st n out,
  cop_ok (CUnprotect hdr payload buf) ->
  cstep P lib x (CUnprotect hdr payload buf) fs = Done (x', CUnprotected st n out) ->
  st <> S_OK ->
  n = 0 /\
  (out = IoBuf buf \/ out = IoBuf (zeros (lenN buf)) \/
   exists k msg, iov_concat payload = dir_seal P k hdr msg /\
     out = IoBuf (msg ++ dropN (lenN msg) buf) /\
     (msg = zeros (lenN msg) \/
      (exists c pad, msg = inner ty_application_data c pad /\ st = S_INVALID_RECORD /\ cx_expecting x = true) \/
      (exists c pad, msg = inner ty_handshake c pad /\ st = S_INTERNAL_ERROR))).
Proof. exact W13. Qed.
Print Assumptions C13_no_content_on_error_partial.

Theorem C13_no_content_on_error_refuted : exists P lib a ops rs x hdr payload buf x' st out content,
  prims_ok P /\ creach P lib a ops rs x /\
  iov_concat payload = dir_seal P (dir_next (d_in a)) hdr (inner ty_application_data content 0) /\
  cstep P lib x (CUnprotect hdr payload buf) [] = Done (x', CUnprotected st 0 (IoBuf out)) /\
  st <> S_OK /\ content <> [] /\ takeN (lenN content) buf <> content /\ takeN (lenN content) out = content.
Proof. exact R13. Qed.
Print Assumptions C13_no_content_on_error_refuted.

(* C14. *)
Theorem C14_close_notify_final : forall P lib a ops rs x, connection P lib a ops rs x ->
  forall n0 b0, In (CUnprotected S_ALERT_CLOSE_NOTIFY n0 b0) rs ->
  forall hdr payload buf fs, cop_ok (CUnprotect hdr payload buf) ->
  cstep P lib x (CUnprotect hdr payload buf) fs =
    Done (x, CUnprotected S_ALERT_CLOSE_NOTIFY 0 (IoBuf buf)).
Proof. exact W14. Qed.
Print Assumptions C14_close_notify_final.

(* C15: content that ends in zeros included; any padding. *)
Theorem C15_padding_removed : forall P lib a ops rs x r, connection P lib a ops rs x -> received P a ops rs r ->
  forall content pad payload buf,
  let msg := inner ty_application_data content pad in
  open_rx r -> r_part r = [] -> bytes_ok content -> lenN content + pad <= 16384 ->
  lenN msg <= lenN buf -> next_record P r msg payload ->
  exists x' out, cstep P lib x (CUnprotect (tls_header (lenN msg + 16)) payload buf) [] =
      Done (x', CUnprotected S_OK (lenN content) out) /\
    takeN (lenN content) (iov_data out) = content.
Proof. intros P lib a ops rs x r HC. exact (W15 P lib a ops rs x HC r). Qed.
Print Assumptions C15_padding_removed.

Theorem C15_all_zero_rejected : forall P lib a ops rs x r, connection P lib a ops rs x -> received P a ops rs r ->
  forall k payload buf,
  open_rx r -> 1 <= k <= 16384 + 1 -> k <= lenN buf -> next_record P r (zeros k) payload ->
  exists x' out, cstep P lib x (CUnprotect (tls_header (k + 16)) payload buf) [] =
      Done (x', CUnprotected S_INVALID_RECORD 0 out).
Proof. intros P lib a ops rs x r HC. exact (W15z P lib a ops rs x HC r). Qed.
Print Assumptions C15_all_zero_rejected.

(* C16. The state [x] is unchanged: no sequence number is used. *)
Theorem C16_malformed_rejected_without_effect : forall P lib a ops rs x, connection P lib a ops rs x ->
  forall hdr payload buf fs, cop_ok (CUnprotect hdr payload buf) ->
  ~ well_formed hdr (sum_lens payload) ->
  exists c, cstep P lib x (CUnprotect hdr payload buf) fs =
    Done (x, CUnprotected c 0 (IoBuf buf)) /\
    (c = S_ALERT_CLOSE_NOTIFY \/
     c = (if 16384 + 22 <? lenN hdr + sum_lens payload
          then S_ALERT_RECORD_OVERFLOW else S_FAILED_PRECONDITION)) /\
    (c = S_ALERT_CLOSE_NOTIFY <-> cx_close x = true).
Proof. exact W16. Qed.
Print Assumptions C16_malformed_rejected_without_effect.

(* C17. Missing: five or more tickets received, where it is false. *)
Theorem C17_no_data_inside_message_partial : forall P lib a ops rs x r, connection P lib a ops rs x -> received P a ops rs r ->
  forall content pad payload buf,
  let msg := inner ty_application_data content pad in
  open_rx r -> r_part r <> [] -> lenN (tickets_of (r_msgs r)) < 5 -> bytes_ok content ->
  lenN content + pad <= 16384 -> lenN msg <= lenN buf -> next_record P r msg payload ->
  exists x' out, cstep P lib x (CUnprotect (tls_header (lenN msg + 16)) payload buf) [] =
      Done (x', CUnprotected S_INVALID_RECORD 0 out).
Proof. intros P lib a ops rs x r HC. exact (W17 P lib a ops rs x HC r). Qed.
Print Assumptions C17_no_data_inside_message_partial.

(* Exactly when application data is let through: [r_wait] of the reference
   receiver, and when that is false inside a handshake message. *)
Theorem C17_data_accepted_iff_not_waiting : forall P lib a ops rs x r, connection P lib a ops rs x -> received P a ops rs r ->
  forall content pad payload buf,
  let msg := inner ty_application_data content pad in
  open_rx r -> bytes_ok content ->
  lenN content + pad <= 16384 -> lenN msg <= lenN buf -> next_record P r msg payload ->
  exists x' out, cstep P lib x (CUnprotect (tls_header (lenN msg + 16)) payload buf) [] =
      Done (x', if r_wait r then CUnprotected S_INVALID_RECORD 0 out
                else CUnprotected S_OK (lenN content) out) /\
    (r_wait r = false -> takeN (lenN content) (iov_data out) = content).
Proof. intros P lib a ops rs x r HC. exact (W17x P lib a ops rs x HC r). Qed.
Print Assumptions C17_data_accepted_iff_not_waiting.

Theorem C17_waiting : forall P lib a ops rs x r, connection P lib a ops rs x -> received P a ops rs r ->
  d_broken (r_dir r) = false ->
  (r_part r = [] -> r_wait r = false) /\
  (r_part r <> [] -> lenN (tickets_of (r_msgs r)) < 5 -> r_wait r = true).
Proof. intros P lib a ops rs x r HC. exact (W17wait P lib a ops rs x HC r). Qed.
Print Assumptions C17_waiting.

(* The only exception: the last handshake bytes came with the call [op] that
   completed the fifth ticket. *)
Theorem C17_exception_is_fifth_ticket : forall P a ops rs r, received P a ops rs r -> r_part r <> [] -> r_wait r = false ->
  exists ops1 op ops2 rs1 re rs2 r1 r2, ops = ops1 ++ op :: ops2 /\ rs = rs1 ++ re :: rs2 /\
    received P a ops1 rs1 r1 /\ received P a (ops1 ++ [op]) (rs1 ++ [re]) r2 /\
    lenN (tickets_of (r_msgs r1)) < 5 <= lenN (tickets_of (r_msgs r2)) /\
    r_msgs r2 = r_msgs r /\ r_part r2 = r_part r.
Proof. exact W17fifth. Qed.
Print Assumptions C17_exception_is_fifth_ticket.

(* Five tickets and a part of a sixth in one record, then application data. *)
Theorem C17_no_data_inside_message_refuted : exists P lib a ms part data rs x,
  prims_ok P /\ ticket_stream ms part /\ part <> [] /\ data <> [] /\
  creach P lib a (peer_ops P (d_in a) [(22, concat ms ++ part); (23, data)]) rs x /\
  map status rs = [Some (S_OK, 0); Some (S_OK, lenN data)].
Proof. exact R17. Qed.
Print Assumptions C17_no_data_inside_message_refuted.

(* C18. [hs_feed] gives a new handler the records one after another; [c] is the
   last one. [ms] are the complete tickets of the stream, [part] its unfinished
   end. *)
Theorem C18_reassembly : forall ms part recs c, ticket_stream ms part ->
  Forall bytes_ok (recs ++ [c]) -> concat (recs ++ [c]) = concat ms ++ part ->
  exists h rs h' r,
    hs_feed new_handler recs = Done (h, map inr rs) /\
    process_handshake_message h c = Done (h', inr r) /\
    r_expecting r = negb (empty part) /\
    r_num r = N.min 5 (lenN ms) /\ r_key_update r = false /\
    (part = [] -> exists h'' ts, get_stored_tickets h' = Done (h'', inr ts) /\
       map (@concat N) ts = firstn 5 ms).
Proof. exact W18. Qed.
Print Assumptions C18_reassembly.

(* C19, in every history. Without the reference receiver: *)
Theorem C19_sent_once_at_most_five : forall P lib a ops rs x, connection P lib a ops rs x ->
  cx_sent x = [] \/
  exists s, cx_sent x = [s] /\ lenN (ts_tickets s) <= 5 /\ ts_url s = ca_url a /\
    ts_connection_id s = ca_connection_id a /\ ts_identity s = ca_identity a.
Proof. exact W19. Qed.
Print Assumptions C19_sent_once_at_most_five.

(* With it: [r] exists by C33_receiver_refines_reference; its messages end where
   the handshake stream is malformed, if it is. *)
Theorem C19_sent_tickets_are_first_received : forall P lib a ops rs x, connection P lib a ops rs x ->
  forall r, rx_run P (rx_start (d_in a)) ops rs r ->
  cx_sent x = [] \/
  exists s rest, cx_sent x = [s] /\ ts_tickets s <> [] /\ lenN (ts_tickets s) <= 5 /\
    tickets_of (r_msgs r) = ts_tickets s ++ rest /\
    ts_url s = ca_url a /\ ts_connection_id s = ca_connection_id a /\ ts_identity s = ca_identity a.
Proof. exact W19r. Qed.
Print Assumptions C19_sent_tickets_are_first_received.

(* Whether the sender is given the channel factory. *)
Theorem C19_channel_passed_on : forall P lib a ops rs x, connection P lib a ops rs x ->
  forall s, In s (cx_sent x) -> ts_channel s = ca_channel a.
Proof. exact C19_channel_lemma. Qed.
Print Assumptions C19_channel_passed_on.

(* C20. Missing: a sixth ticket that has begun when the fifth is complete, where
   it is false. The first two theorems: five complete tickets; the third:
   application data after one to four. *)
Theorem C20_five_tickets_sent_partial : forall P lib a ops rs x r, connection P lib a ops rs x -> received P a ops rs r ->
  d_broken (r_dir r) = false -> (5 <= length (tickets_of (r_msgs r)))%nat ->
  cx_sent x <> [] \/ (6 <= length (tickets_of (r_msgs r ++ [r_part r])))%nat.
Proof. intros P lib a ops rs x r HC. exact (W20five P lib a ops rs x HC r). Qed.
Print Assumptions C20_five_tickets_sent_partial.

Theorem C20_fifth_ticket_sends_partial : forall P lib a ops rs x r, connection P lib a ops rs x -> received P a ops rs r ->
  forall hdr payload buf fs x' st n out r',
  cop_ok (CUnprotect hdr payload buf) ->
  cstep P lib x (CUnprotect hdr payload buf) fs = Done (x', CUnprotected st n out) ->
  received P a (ops ++ [(CUnprotect hdr payload buf, fs)]) (rs ++ [CUnprotected st n out]) r' ->
  d_broken (r_dir r') = false ->
  (length (tickets_of (r_msgs r)) < 5 <= length (tickets_of (r_msgs r')))%nat ->
  is_ticket (r_part r') = false -> cx_sent x = [] ->
  exists s, cx_sent x' = [s] /\ ts_tickets s = firstn 5 (tickets_of (r_msgs r')).
Proof. intros P lib a ops rs x r HC. exact (W20fifth P lib a ops rs x HC r). Qed.
Print Assumptions C20_fifth_ticket_sends_partial.

Theorem C20_data_sends_tickets_partial : forall P lib a ops rs x r, connection P lib a ops rs x -> received P a ops rs r ->
  forall hdr payload buf fs x' n out,
  cop_ok (CUnprotect hdr payload buf) ->
  cstep P lib x (CUnprotect hdr payload buf) fs = Done (x', CUnprotected S_OK n out) -> n <> 0 ->
  (1 <= length (tickets_of (r_msgs r)) < 5)%nat ->
  exists s, cx_sent x' = [s] /\ (cx_sent x = [] -> ts_tickets s = tickets_of (r_msgs r)).
Proof. intros P lib a ops rs x r HC. exact (W20data P lib a ops rs x HC r). Qed.
Print Assumptions C20_data_sends_tickets_partial.

(* Exactly what is handed over, in every history with a well-formed handshake
   stream: [r_sent], defined in SpecRx.v by rx_read (fifth ticket) and rx_data
   (application data). *)
Theorem C20_tickets_sent_exactly : forall P lib a ops rs x r, connection P lib a ops rs x -> received P a ops rs r ->
  map ts_tickets (cx_sent x) = r_sent r.
Proof. intros P lib a ops rs x r HC. exact (W20x P lib a ops rs x HC r). Qed.
Print Assumptions C20_tickets_sent_exactly.

(* All six tickets are lost. *)
Theorem C20_tickets_not_lost_refuted : exists P lib a ms part rest data1 data2 rs x,
  prims_ok P /\ Forall hs_msg (ms ++ [part ++ rest]) /\
  Forall (fun m => is_ticket m = true) (ms ++ [part ++ rest]) /\ length ms = 5%nat /\
  creach P lib a (peer_ops P (d_in a)
    [(22, concat ms ++ part); (22, rest); (23, data1); (23, data2)]) rs x /\
  map status rs = [Some (S_OK, 0); Some (S_OK, 0); Some (S_OK, lenN data1); Some (S_OK, lenN data2)] /\
  data1 <> [] /\ cx_sent x = [].
Proof. exact R20. Qed.
Print Assumptions C20_tickets_not_lost_refuted.

(* C21: a KeyUpdate that lies within one record, possibly after tickets.
   Missing: a KeyUpdate cut into several records, where it is false. *)
Theorem C21_one_update_per_message_partial : forall P lib a ops rs x r content pad payload buf ms ku,
  connection P lib a ops rs x -> received P a ops rs r -> open_rx r ->
  let msg := inner ty_handshake content pad in
  next_record P r msg payload -> bytes_ok content -> lenN content + pad <= 16384 -> lenN msg <= lenN buf ->
  r_part r ++ content = concat ms ++ ku ->
  Forall hs_msg ms -> Forall (fun m => is_ticket m = true) ms -> hs_msg ku -> is_key_update ku = true ->
  is_key_update (r_part r) = false ->
  exists x' out r',
    let op := (CUnprotect (tls_header (lenN msg + 16)) payload buf, []) in
    cstep P lib x (fst op) [] = Done (x', CUnprotected S_OK 0 out) /\
    received P a (ops ++ [op]) (rs ++ [CUnprotected S_OK 0 out]) r' /\
    r_dir r' = dir_update P (dir_next (r_dir r)).
Proof. exact C21_once. Qed.
Print Assumptions C21_one_update_per_message_partial.

(* A KeyUpdate in two records: the second record is rejected, as the key has
   already been advanced. *)
Theorem C21_one_update_per_message_refuted : exists P lib a ku1 ku2 rs x,
  prims_ok P /\ hs_msg (ku1 ++ ku2) /\ is_key_update (ku1 ++ ku2) = true /\
  creach P lib a (peer_ops P (d_in a) [(22, ku1); (22, ku2)]) rs x /\
  map status rs = [Some (S_OK, 0); Some (S_INTERNAL_ERROR, 0)].
Proof. exact R21. Qed.
Print Assumptions C21_one_update_per_message_refuted.

(* C22: as long as the handshake stream is well-formed, undefined behaviour
   needs a record that brings a message with an empty body and four more bytes,
   and such a record always has undefined behaviour. Missing: these records, and
   records after a malformed stream, where it is false. *)
Theorem C22_no_undefined_behaviour_partial : forall P lib a ops rs x r, connection P lib a ops rs x -> received P a ops rs r ->
  forall op fs, cop_ok op ->
  (exists y, cstep P lib x op fs = Done y) \/
  (r_closed r = false /\ exists hdr payload buf c pad, op = CUnprotect hdr payload buf /\
    iov_concat payload = dir_seal P (r_dir r) hdr (inner ty_handshake c pad) /\
    fatal (r_part r ++ c)).
Proof. intros P lib a ops rs x r HC. exact (W22 P lib a ops rs x HC r). Qed.
Print Assumptions C22_no_undefined_behaviour_partial.

Theorem C22_undefined_iff_fatal : forall P lib a ops rs x r, connection P lib a ops rs x -> received P a ops rs r ->
  forall content pad payload buf,
  let msg := inner ty_handshake content pad in
  open_rx r -> bytes_ok content -> lenN content + pad <= 16384 ->
  lenN msg <= lenN buf -> next_record P r msg payload ->
  (cstep P lib x (CUnprotect (tls_header (lenN msg + 16)) payload buf) [] = Undef UbNegativeShift <->
   fatal (r_part r ++ content)).
Proof. intros P lib a ops rs x r HC. exact (W22x P lib a ops rs x HC r). Qed.
Print Assumptions C22_undefined_iff_fatal.

Theorem C22_no_undefined_behaviour_refuted : exists P lib a x0 u l,
  prims_ok P /\ crypt_create P lib a [] = Done (inr x0, []) /\
  crun P lib x0 (peer_ops P (d_in a) l) = Undef u.
Proof. exact R22. Qed.
Print Assumptions C22_no_undefined_behaviour_refuted.

(* After a record that was reported as an error, a well-formed message is
   undefined behaviour. *)
Theorem C22_undefined_after_reported_error_refuted : exists P lib a c1 c2 rs x u,
  prims_ok P /\ creach P lib a (peer_ops P (d_in a) [(22, c1)]) rs x /\
  map status rs = [Some (S_INTERNAL_ERROR, 0)] /\
  hs_msg c2 /\
  cstep P lib x (fst (peer_record P (dir_next (d_in a)) (inner 22 c2 0))) [] = Undef u.
Proof. exact R22b. Qed.
Print Assumptions C22_undefined_after_reported_error_refuted.

(* C30: the inbound calls of a history alone give the same results, even with
   a different outbound half; the outbound calls alone too. *)
Theorem C30_inbound_independent_of_outbound_calls : forall P lib ops x x' rs,
  crun P lib x ops = Done (x', rs) ->
  exists y, crun P lib x (filter is_inbound ops) = Done (y, filter is_inbound_res rs).
Proof. exact W30in'. Qed.
Print Assumptions C30_inbound_independent_of_outbound_calls.

Theorem C30_inbound_independent_of_outbound_state : forall P lib ops x h x' rs,
  crun P lib x ops = Done (x', rs) ->
  crun P lib (set_out x h) (filter is_inbound ops) = Done (set_out x' h, filter is_inbound_res rs).
Proof. exact W30in. Qed.
Print Assumptions C30_inbound_independent_of_outbound_state.

Theorem C30_outbound_independent_of_inbound_calls : forall P lib a ops x0 x' rs fs fs',
  prims_ok P -> ca_in_seq a < two64 -> ca_out_seq a < two64 -> cops_ok ops ->
  crypt_create P lib a fs = Done (inr x0, fs') -> crun P lib x0 ops = Done (x', rs) ->
  exists y', crun P lib x0 (filter is_outbound ops) = Done (y', filter is_outbound_res rs).
Proof. exact C30_out_lemma. Qed.
Print Assumptions C30_outbound_independent_of_inbound_calls.

(* C31, C34 and C03 for single records: [rec] is the TLS 1.3 record. *)
Theorem C34_protect_writes_its_record : forall P lib a ops rs x, connection P lib a ops rs x ->
  forall t pt buf fs, cop_ok (CProtect t pt buf) ->
  let d := tx_run P (d_out a) ops rs in
  let rec := tls_record P d (record_type_number t) (iov_concat pt) 0 in
  exists x' st n buf',
    cstep P lib x (CProtect t pt buf) fs = Done (x', CProtected st n (IoBuf buf')) /\
    lenN buf' = lenN buf /\
    (st = S_OK -> n = sum_lens pt + 22 /\ buf' = rec ++ dropN n buf /\ lenN rec = n) /\
    (st <> S_OK -> n = 0 /\ (buf' = buf \/ buf' = zeros (lenN buf))) /\
    (st = S_FAILED_PRECONDITION -> buf' = buf /\ x' = x) /\
    (fits_in pt buf = false -> st = S_FAILED_PRECONDITION) /\
    (fits_in pt buf = true -> ~ dir_usable d -> st = S_INTERNAL_ERROR) /\
    (fits_in pt buf = true -> dir_usable d -> Forall iov_valid pt -> fs = [] -> st = S_OK).
Proof. exact W31. Qed.
Print Assumptions C34_protect_writes_its_record.

(* The statuses of Protect. *)
Theorem C34_protect_statuses : forall P lib a ops rs x, connection P lib a ops rs x ->
  forall t pt buf fs x' st n out, cop_ok (CProtect t pt buf) ->
  cstep P lib x (CProtect t pt buf) fs = Done (x', CProtected st n out) ->
  (st = S_FAILED_PRECONDITION <-> fits_in pt buf = false) /\
  (st = S_OK \/ st = S_FAILED_PRECONDITION \/ st = S_INVALID_ARGUMENT \/ st = S_INTERNAL_ERROR) /\
  (st = S_OK -> Forall iov_valid pt) /\
  (fits_in pt buf = true -> dir_usable (tx_run P (d_out a) ops rs) -> ~ Forall iov_valid pt -> fs = [] ->
   st = S_INVALID_ARGUMENT).
Proof. exact C34_status_lemma. Qed.
Print Assumptions C34_protect_statuses.

(* C32. *)
Theorem C32_creation_validates : forall P lib a fs, prims_ok P -> ca_in_seq a < two64 -> ca_out_seq a < two64 ->
  let valid := ca_url a <> [] /\ ca_logger a = true /\ ca_sender a = true /\ ca_tls a = TLS1_3 /\
     lenN (ca_in_secret a) = spec_hash_len (ca_suite a) /\
     lenN (ca_out_secret a) = spec_hash_len (ca_suite a) in
  exists r fs', crypt_create P lib a fs = Done (r, fs') /\
    (forall c, r = inl c -> c <> kOk) /\
    ((exists x, r = inr x) -> valid) /\
    (valid -> fs = [] -> exists x, r = inr x).
Proof. exact W32. Qed.
Print Assumptions C32_creation_validates.

(* C33: what an accepted record is; [d] is the protection state of the
   inbound direction. *)
Theorem C33_only_peer_records_accepted : forall P lib a ops rs x, connection P lib a ops rs x ->
  forall hdr payload buf fs x' n out,
  cop_ok (CUnprotect hdr payload buf) ->
  cstep P lib x (CUnprotect hdr payload buf) fs = Done (x', CUnprotected S_OK n out) ->
  hc_always_fail (cx_in x) = false /\
  let k := hc_epoch (cx_in x) in
  let d := {| d_suite := ca_suite a;
              d_secret := nth_secret P (ca_suite a) (ca_in_secret a) (N.to_nat k);
              d_seq := key_start (ca_in_seq a) k + lenN (nonces (cx_in x) k);
              d_broken := false |} in
  hdr = tls_header (sum_lens payload) /\
  exists ty content pad, (ty = ty_application_data \/ ty = ty_handshake) /\
    iov_concat payload = dir_seal P d hdr (inner ty content pad) /\
    (ty = ty_application_data -> n = lenN content /\ takeN n (iov_data out) = content) /\
    (ty = ty_handshake -> n = 0).
Proof. exact W33. Qed.
Print Assumptions C33_only_peer_records_accepted.

(* Cases. A fresh connection, for every library and ciphersuite. *)
Example C15_C16_case : forall lib s, exists x, connection toy lib (arg s) [] [] x /\
  received toy (arg s) [] [] (rx_start (d_in (arg s))) /\ open_rx (rx_start (d_in (arg s))).
Proof. exact fresh_connection. Qed.

(* One complete ticket and two bytes of the next one have arrived; any message
   can be the next record. *)
Example C17_case : forall lib s, exists x rs r,
  connection toy lib (arg s) [hs_op (d_in (arg s)) two_cut] rs x /\
  received toy (arg s) [hs_op (d_in (arg s)) two_cut] rs r /\ open_rx r /\
  r_msgs r = [ticket [1; 2]] /\ r_part r = [4; 0].
Proof. exact cut_connection. Qed.

(* Five complete tickets and two bytes of the sixth: application data is let
   through, and nothing has been handed over. *)
Example C17_C20_exception_case : forall lib s, exists x rs r,
  connection toy lib (arg s) [hs_op (d_in (arg s)) five_cut] rs x /\
  received toy (arg s) [hs_op (d_in (arg s)) five_cut] rs r /\ open_rx r /\
  r_part r = [4; 0] /\ r_wait r = false /\ r_sent r = [].
Proof. exact five_cut_connection. Qed.

Example C17_next_record_case : forall r msg, next_record toy r msg
  (let s := dir_seal toy (r_dir r) (tls_header (lenN msg + 16)) msg in
   [IoBuf (takeN 3 s); IoNull 0; IoBuf (dropN 3 s)]).
Proof. exact next_exists. Qed.

Example C18_case : ticket_stream five_list [4].
Proof. exact five_stream. Qed.

Example C19_C20_five_case : exists x rs,
  creach toy OpenSSL (arg AES_128_GCM_SHA256) [hs_op (d_in (arg AES_128_GCM_SHA256)) five_tickets] rs x /\
  sent_tickets x = [[ticket [1]; ticket [2]; ticket [3]; ticket [4]; ticket [5]]].
Proof. exact five_sent. Qed.

(* A ticket, a second one followed by a message of unknown type, application
   data: both tickets are sent. *)
Example C19_malformed_case : forall lib s, exists x rs,
  creach toy lib (arg s) (broken_ops s) rs x /\
  map status rs = [Some (S_OK, 0); Some (S_INTERNAL_ERROR, 0); Some (S_OK, 3)] /\
  sent_tickets x = [[ticket [1]; ticket [2]]].
Proof. exact broken_sent. Qed.

(* C22 after C17_case, whose r_part is [4; 0]. *)
Example C22_case : fatal ([4; 0] ++ [0; 1; 7; 4; 0; 0; 0; 4; 0; 0; 1]) /\
  ~ fatal ([4; 0] ++ [0; 1; 7; 4; 0; 0; 0; 4; 0; 0]).
Proof. exact fatal_example. Qed.

(* A ticket, application data, close_notify, application data. *)
Example C14_C20_C33_case : forall lib s, exists x rs,
  creach toy lib (arg s) (data_ops s) rs x /\
  statuses_of rs = [Some (S_OK, 0); Some (S_OK, 3); Some (S_ALERT_CLOSE_NOTIFY, 0); Some (S_ALERT_CLOSE_NOTIFY, 0)] /\
  sent_tickets x = [[ticket [1]]].
Proof. exact data_sent. Qed.
