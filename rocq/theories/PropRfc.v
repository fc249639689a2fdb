(* Rules of RFC 8446 for an established connection: C71 - C76. Throughout, [x]
   is the crypter after any history [ops], [r] what it has received. *)
From Coq Require Import List NArith Bool.
From Verif Require Import Base Aead Hkdf HalfConn SpecAead SpecTls Options HsHandler Crypter SpecHs SpecRecord SpecRx
  CrypterRun FrameProt SpecFrame FrameRun FrameLink SpecRfc Rfc Toy CrypterRefuted FrameExamples EveryCases RfcCases.
Import ListNotations.
Local Open Scope N_scope.

(* C71: after KeyUpdate(update_requested), whatever is protected next is still
   sealed in the state [d] from before the request: no KeyUpdate is sent and
   the key for sending is not advanced. *)
Theorem C71_deviation_on_every_connection : forall P lib a ops rs x r payload buf,
  connection P lib a ops rs x -> received P a ops rs r -> open_rx r -> r_part r = [] ->
  let msg := inner ty_handshake (key_update 1) 0 in
  next_record P r msg payload -> lenN msg <= lenN buf ->
  exists x' out, cstep P lib x (CUnprotect (tls_header (lenN msg + 16)) payload buf) [] = Done (x', CUnprotected S_OK 0 out) /\
    (let d := tx_run P (d_out a) ops rs in dir_usable d ->
     forall t data buf2, lenN data <= 16384 -> lenN data + 22 <= lenN buf2 ->
      exists x2, cstep P lib x' (CProtect t [IoBuf data] buf2) [] =
        Done (x2, CProtected S_OK (lenN data + 22)
          (IoBuf (tls_record P d (record_type_number t) data 0 ++ dropN (lenN data + 22) buf2)))).
Proof. exact U71. Qed.
Print Assumptions C71_deviation_on_every_connection.

(* A frame protector never changes its key for sending, whatever it receives:
   every record it emits is sealed with the traffic secret it was created with. *)
Theorem C71_protector_keeps_its_key : forall P lib al a ops rs f, protector P lib al a ops rs f ->
  exists q, ca_out_seq (fa_crypt a) <= q /\
  let d := dir_start (ca_suite (fa_crypt a)) (ca_out_secret (fa_crypt a)) q in
  (forall input fs f' bs, protected_size (sum_lens input) < two64 ->
   fstep P lib al f (FProtect input) fs = Done (f', FProtected kOk bs) ->
   exists blocks, blocks_of (iov_concat input) blocks /\ out_bytes bs = records P d blocks) /\
  (forall input id buf fs f' out, protected_size (sum_lens input) < two64 ->
   fstep P lib al f (FProtectInto input id buf) fs = Done (f', FProtectedInto kOk out) ->
   exists blocks, blocks_of (iov_concat input) blocks /\
     iov_data out = records P d blocks ++ dropN (lenN (records P d blocks)) buf).
Proof. exact U71protector. Qed.
Print Assumptions C71_protector_keeps_its_key.

(* What is true: the user of a crypter can answer. Protecting a KeyUpdate and
   updating the outbound key does what section 4.6.3 asks for: the KeyUpdate is
   sealed with the old key, everything after it with the next one. *)
Theorem C71_update_can_be_answered_partial : forall P lib a ops rs x, connection P lib a ops rs x ->
  let d := tx_run P (d_out a) ops rs in dir_usable d ->
  forall buf, 27 <= lenN buf ->
  exists x1 x2, cstep P lib x (CProtect HANDSHAKE [IoBuf (key_update 0)] buf) [] =
      Done (x1, CProtected S_OK 27 (IoBuf (tls_record P d ty_handshake (key_update 0) 0 ++ dropN 27 buf))) /\
    cstep P lib x1 CUpdateKey [] = Done (x2, CUpdated kOk) /\
    forall t data buf2, lenN data <= 16384 -> lenN data + 22 <= lenN buf2 ->
      exists x3, cstep P lib x2 (CProtect t [IoBuf data] buf2) [] =
        Done (x3, CProtected S_OK (lenN data + 22)
          (IoBuf (tls_record P (dir_update P (dir_next d)) (record_type_number t) data 0 ++ dropN (lenN data + 22) buf2))).
Proof. exact U71answer. Qed.
Print Assumptions C71_update_can_be_answered_partial.

(* The frame protector has no means to do that: the first record after the
   request is application data sealed with the old key. *)
Theorem C71_update_request_answered_refuted : exists P lib al a rs f bs1 bs2,
  protector P lib al a
    [(FUnprotect [IoBuf (tls_record P (f_in a) ty_handshake (key_update 1) 0)], []); (FProtect [IoBuf [7; 7]], [])] rs f /\
  rs = [FUnprotected kOk bs1; FProtected kOk bs2] /\ out_bytes bs2 = tls_record P (f_out a) ty_application_data [7; 7] 0.
Proof. exact R71. Qed.
Print Assumptions C71_update_request_answered_refuted.

(* C72: an error alert does not end the connection. *)
Theorem C72_deviation_on_every_connection : forall P lib a ops rs x r level desc payload buf,
  connection P lib a ops rs x -> received P a ops rs r -> open_rx r ->
  d_seq (r_dir r) + 1 < two64 -> r_part r = [] -> level < 256 -> desc < 256 -> desc <> 0 ->
  let msg := inner ty_alert [level; desc] 0 in
  next_record P r msg payload -> lenN msg <= lenN buf ->
  exists x' out, cstep P lib x (CUnprotect (tls_header (lenN msg + 16)) payload buf) [] = Done (x', CUnprotected S_ALERT_OTHER 0 out) /\
    then_accepts P lib x' (dir_next (r_dir r)).
Proof. exact U72. Qed.
Print Assumptions C72_deviation_on_every_connection.

Theorem C72_error_alerts_final_refuted : exists P lib a x x1 x2 out out2, connection P lib a [] [] x /\
  cstep P lib x (receive_op P (d_in a) (inner ty_alert [2; 40] 0)) [] = Done (x1, CUnprotected S_ALERT_OTHER 0 out) /\
  cstep P lib x1 (receive_op P (dir_next (d_in a)) (inner ty_application_data [1; 2; 3] 0)) [] =
    Done (x2, CUnprotected S_OK 3 out2) /\ takeN 3 (iov_data out2) = [1; 2; 3].
Proof. exact R72. Qed.
Print Assumptions C72_error_alerts_final_refuted.

(* C73: alert records of at most two bytes are reported as they have to be, and
   the caller's buffer is cleared. *)
Theorem C73_alerts_reported_partial : forall P lib a ops rs x r c pad payload buf,
  connection P lib a ops rs x -> received P a ops rs r -> open_rx r ->
  bytes_ok c -> lenN c + pad <= 16384 -> lenN c <= 2 ->
  let msg := inner ty_alert c pad in
  next_record P r msg payload -> lenN msg <= lenN buf ->
  exists x' out, cstep P lib x (CUnprotect (tls_header (lenN msg + 16)) payload buf) [] =
      Done (x', CUnprotected (alert_status (alert_of c)) 0 out) /\ iov_data out = zeros (lenN buf).
Proof. exact U73. Qed.
Print Assumptions C73_alerts_reported_partial.

(* Longer ones are reported like their first two bytes. *)
Theorem C73_deviation_on_every_connection : forall P lib a ops rs x r level desc rest pad payload buf,
  connection P lib a ops rs x -> received P a ops rs r -> open_rx r ->
  bytes_ok (level :: desc :: rest) -> lenN (level :: desc :: rest) + pad <= 16384 ->
  let msg := inner ty_alert (level :: desc :: rest) pad in
  next_record P r msg payload -> lenN msg <= lenN buf ->
  exists x' out, cstep P lib x (CUnprotect (tls_header (lenN msg + 16)) payload buf) [] =
      Done (x', CUnprotected (alert_status (alert_of [level; desc])) 0 out).
Proof. exact U73long. Qed.
Print Assumptions C73_deviation_on_every_connection.

Theorem C73_one_alert_per_record_refuted : exists P lib a x x1 out c, connection P lib a [] [] x /\ alert_of c = AlertMalformed /\
  cstep P lib x (receive_op P (d_in a) (inner ty_alert c 0)) [] = Done (x1, CUnprotected S_ALERT_CLOSE_NOTIFY 0 out).
Proof. exact R73. Qed.
Print Assumptions C73_one_alert_per_record_refuted.

(* C74: handshake messages of other types than NewSessionTicket and KeyUpdate
   are rejected. *)
Theorem C74_other_types_rejected_partial : forall P lib a ops rs x r c pad payload buf,
  connection P lib a ops rs x -> received P a ops rs r -> open_rx r ->
  r_part r = [] -> bytes_ok c -> lenN c + pad <= 16384 -> c <> [] -> ~ known c ->
  let msg := inner ty_handshake c pad in
  next_record P r msg payload -> lenN msg <= lenN buf ->
  exists x' out, cstep P lib x (CUnprotect (tls_header (lenN msg + 16)) payload buf) [] = Done (x', CUnprotected S_INTERNAL_ERROR 0 out).
Proof. exact U74type. Qed.
Print Assumptions C74_other_types_rejected_partial.

(* A KeyUpdate is accepted, and the key for receiving is advanced, whatever its
   (non-empty) body is. *)
Theorem C74_deviation_on_every_connection : forall P lib a ops rs x r m pad payload buf,
  connection P lib a ops rs x -> received P a ops rs r -> open_rx r ->
  r_part r = [] -> hs_msg m -> is_key_update m = true -> lenN m + pad <= 16384 ->
  let msg := inner ty_handshake m pad in
  next_record P r msg payload -> lenN msg <= lenN buf ->
  exists x' out, cstep P lib x (CUnprotect (tls_header (lenN msg + 16)) payload buf) [] = Done (x', CUnprotected S_OK 0 out) /\
    then_accepts P lib x' (dir_update P (dir_next (r_dir r))) /\
    (let d := tx_run P (d_out a) ops rs in dir_usable d ->
     forall t data buf2, lenN data <= 16384 -> lenN data + 22 <= lenN buf2 ->
      exists x2, cstep P lib x' (CProtect t [IoBuf data] buf2) [] =
        Done (x2, CProtected S_OK (lenN data + 22)
          (IoBuf (tls_record P d (record_type_number t) data 0 ++ dropN (lenN data + 22) buf2)))).
Proof. exact U74. Qed.
Print Assumptions C74_deviation_on_every_connection.

Theorem C74_proper_key_updates_refuted : exists P lib a x x1 x2 out out2 m, connection P lib a [] [] x /\
  hs_msg m /\ is_key_update m = true /\ ~ proper_key_update m /\
  cstep P lib x (receive_op P (d_in a) (inner ty_handshake m 0)) [] = Done (x1, CUnprotected S_OK 0 out) /\
  cstep P lib x1 (receive_op P (dir_update P (dir_next (d_in a))) (inner ty_application_data [1; 2; 3] 0)) [] =
    Done (x2, CUnprotected S_OK 3 out2) /\ takeN 3 (iov_data out2) = [1; 2; 3].
Proof. exact R74. Qed.
Print Assumptions C74_proper_key_updates_refuted.

(* C75: a handshake record without content is accepted and ignored: the
   application data after it is delivered. *)
Theorem C75_empty_handshake_ignored_partial : forall P lib a ops rs x r pad payload buf,
  connection P lib a ops rs x -> received P a ops rs r -> open_rx r ->
  d_seq (r_dir r) + 1 < two64 -> r_part r = [] -> pad <= 16384 ->
  let msg := inner ty_handshake [] pad in
  next_record P r msg payload -> lenN msg <= lenN buf ->
  exists x' out, cstep P lib x (CUnprotect (tls_header (lenN msg + 16)) payload buf) [] = Done (x', CUnprotected S_OK 0 out) /\
    then_accepts P lib x' (dir_next (r_dir r)).
Proof. exact U75. Qed.
Print Assumptions C75_empty_handshake_ignored_partial.

Theorem C75_empty_handshake_rejected_refuted : exists P lib a x x1 out, connection P lib a [] [] x /\
  cstep P lib x (receive_op P (d_in a) (inner ty_handshake [] 0)) [] = Done (x1, CUnprotected S_OK 0 out).
Proof. exact R75. Qed.
Print Assumptions C75_empty_handshake_rejected_refuted.

(* C76: on every connection, any number of records can be protected with one
   key until the sequence numbers are exhausted; [d] and [dir_adv d i] have the
   same key. *)
Theorem C76_deviation_on_every_connection : forall n P lib a ops rs x data buf, connection P lib a ops rs x ->
  let d := tx_run P (d_out a) ops rs in
  d_broken d = false -> d_seq d + N.of_nat n <= two64 -> lenN data <= 16384 -> lenN data + 22 <= lenN buf ->
  exists x' rs', crun P lib x (repeat (CProtect APPLICATION_DATA [IoBuf data] buf, []) n) = Done (x', rs') /\ length rs' = n /\
    forall i, (i < n)%nat -> nth_error rs' i = Some (CProtected S_OK (lenN data + 22)
      (IoBuf (tls_record P (dir_adv d (N.of_nat i)) ty_application_data data 0 ++ dropN (lenN data + 22) buf))).
Proof. exact U76. Qed.
Print Assumptions C76_deviation_on_every_connection.

Theorem C76_key_usage_limited_refuted : exists P lib a x x' rs data buf, connection P lib a [] [] x /\
  ca_suite a = AES_128_GCM_SHA256 /\ lenN data = 16384 /\
  crun P lib x (repeat (CProtect APPLICATION_DATA [IoBuf data] buf, []) (N.to_nat (aes_gcm_limit + 1))) = Done (x', rs) /\
  lenN rs = aes_gcm_limit + 1 /\
  forall i, i <= aes_gcm_limit -> exists out, nth_error rs (N.to_nat i) = Some (CProtected S_OK (16384 + 22) (IoBuf out)) /\
    takeN (16384 + 22) out = tls_record P (dir_adv (d_out a) i) ty_application_data data 0.
Proof. exact R76. Qed.
Print Assumptions C76_key_usage_limited_refuted.

(* A new connection meets the hypotheses with any next record of the peer; the
   messages used above. *)
Example rfc_connection_case : exists x, connection toy OpenSSL A0 [] [] x /\ received toy A0 [] [] r0 /\ open_rx r0 /\
  d_seq (r_dir r0) + 1 < two64 /\ r_part r0 = [] /\ cx_sent x = [] /\ lenN (tickets_of (r_msgs r0)) < 5.
Proof. exact new_case. Qed.
Example rfc_record_case : forall P r msg, next_record P r msg [IoBuf (sealed P (r_dir r) msg)].
Proof. exact sealed_next. Qed.
Example rfc_key_update_case : hs_msg (key_update 7) /\ is_key_update (key_update 7) = true /\ ~ proper_key_update (key_update 7).
Proof. exact strange_update. Qed.
Example rfc_other_type_case : bytes_ok [11; 0; 0; 1; 5] /\ ~ known [11; 0; 0; 1; 5].
Proof. exact other_type. Qed.
Example rfc_protector_case : exists f rs, protector toy OpenSSL toy_al (fargs S0) ops2 rs f /\
  exists bs1 bs2, rs = [FUnprotected kOk bs1; FProtected kOk bs2] /\ map fb_bytes bs1 = [[1; 2; 3]; [4]] /\
    fp_events f = [EvAlloc 0 20; EvAlloc 1 18; EvAlloc 2 24].
Proof. exact two_received. Qed.
