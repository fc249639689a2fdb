(* The deviations found (C13, C17, C20 - C27, C31) are not peculiar to some
   primitives, keys or histories: they occur on every connection. *)
From Coq Require Import List NArith Bool.
From Verif Require Import Base Aead Hkdf HalfConn SpecAead SpecTls Options HsHandler Crypter SpecHs SpecRecord SpecRx
  CrypterRun FrameProt SpecFrame FrameRun FrameRef SpecGap Every EveryFrame GapProofs Toy FrameExamples CrypterRefuted EveryCases.
Import ListNotations.
Local Open Scope N_scope.

(* C13: after a record with the first byte of a ticket, any application data is
   rejected with its plaintext left in the caller's buffer. *)
Theorem C13_deviation_on_every_connection : forall P lib a ops rs x r payload buf,
  connection P lib a ops rs x -> received P a ops rs r -> open_rx r ->
  d_seq (r_dir r) + 1 < two64 -> r_part r = [] -> lenN (tickets_of (r_msgs r)) < 5 ->
  let msg := inner ty_handshake [4] 0 in
  next_record P r msg payload -> lenN msg <= lenN buf ->
  exists x' out, cstep P lib x (CUnprotect (tls_header (lenN msg + 16)) payload buf) [] = Done (x', CUnprotected S_OK 0 out) /\
    forall data payload2 buf2, let msg2 := inner ty_application_data data 0 in
      bytes_ok data -> lenN data <= 16384 -> lenN msg2 <= lenN buf2 -> Forall iov_valid payload2 ->
      iov_concat payload2 = dir_seal P (dir_next (r_dir r)) (tls_header (lenN msg2 + 16)) msg2 ->
      exists x2 out2, cstep P lib x' (CUnprotect (tls_header (lenN msg2 + 16)) payload2 buf2) [] =
        Done (x2, CUnprotected S_INVALID_RECORD 0 out2) /\ takeN (lenN data) (iov_data out2) = data.
Proof. exact U13. Qed.
Print Assumptions C13_deviation_on_every_connection.

(* C17: a record that completes the fifth ticket and begins another one lets
   application data through inside the message begun. *)
Theorem C17_deviation_on_every_connection : forall P lib a ops rs x r ms part payload buf,
  connection P lib a ops rs x -> received P a ops rs r -> open_rx r ->
  d_seq (r_dir r) + 1 < two64 -> r_part r = [] -> cx_sent x = [] ->
  ticket_stream ms part -> part <> [] -> bytes_ok (concat ms ++ part) -> lenN (concat ms ++ part) <= 16384 ->
  lenN (tickets_of (r_msgs r)) < 5 <= lenN (tickets_of (r_msgs r)) + lenN ms ->
  let msg := inner ty_handshake (concat ms ++ part) 0 in
  next_record P r msg payload -> lenN msg <= lenN buf ->
  exists x' out, cstep P lib x (CUnprotect (tls_header (lenN msg + 16)) payload buf) [] = Done (x', CUnprotected S_OK 0 out) /\
    forall data payload2 buf2, let msg2 := inner ty_application_data data 0 in
      bytes_ok data -> lenN data <= 16384 -> lenN msg2 <= lenN buf2 -> Forall iov_valid payload2 ->
      iov_concat payload2 = dir_seal P (dir_next (r_dir r)) (tls_header (lenN msg2 + 16)) msg2 ->
      exists x2 out2, cstep P lib x' (CUnprotect (tls_header (lenN msg2 + 16)) payload2 buf2) [] =
        Done (x2, CUnprotected S_OK (lenN data) out2) /\ takeN (lenN data) (iov_data out2) = data.
Proof. exact U17. Qed.
Print Assumptions C17_deviation_on_every_connection.

(* C20: the same record loses all tickets: nothing is handed over, whatever
   happens afterwards. *)
Theorem C20_deviation_on_every_connection : forall P lib a ops rs x r ms part payload buf,
  connection P lib a ops rs x -> received P a ops rs r -> open_rx r ->
  r_part r = [] -> cx_sent x = [] ->
  ticket_stream ms part -> part <> [] -> bytes_ok (concat ms ++ part) -> lenN (concat ms ++ part) <= 16384 ->
  lenN (tickets_of (r_msgs r)) < 5 <= lenN (tickets_of (r_msgs r)) + lenN ms ->
  let msg := inner ty_handshake (concat ms ++ part) 0 in
  next_record P r msg payload -> lenN msg <= lenN buf ->
  exists x' out, cstep P lib x (CUnprotect (tls_header (lenN msg + 16)) payload buf) [] = Done (x', CUnprotected S_OK 0 out) /\
    forall ops' rs' x2, crun P lib x' ops' = Done (x2, rs') -> cx_sent x2 = [].
Proof. exact U20. Qed.
Print Assumptions C20_deviation_on_every_connection.

(* C21: a KeyUpdate cut into two records. The second one is sealed with the
   same key as the first, as it must be, and is rejected (unless it happens to
   be authentic for the next key as well). *)
Theorem C21_deviation_on_every_connection : forall P lib a ops rs x r ku1 ku2 payload buf,
  connection P lib a ops rs x -> received P a ops rs r -> open_rx r ->
  r_part r = [] -> hs_msg (ku1 ++ ku2) -> is_key_update (ku1 ++ ku2) = true -> ku1 <> [] -> ku2 <> [] -> lenN (ku1 ++ ku2) <= 16384 ->
  let msg := inner ty_handshake ku1 0 in
  next_record P r msg payload -> lenN msg <= lenN buf ->
  exists x' out, cstep P lib x (CUnprotect (tls_header (lenN msg + 16)) payload buf) [] = Done (x', CUnprotected S_OK 0 out) /\
    forall payload2 buf2, let msg2 := inner ty_handshake ku2 0 in let hdr2 := tls_header (lenN msg2 + 16) in
      Forall iov_valid payload2 -> lenN msg2 <= lenN buf2 ->
      iov_concat payload2 = dir_seal P (dir_next (r_dir r)) hdr2 msg2 ->
      (forall m, iov_concat payload2 <> dir_seal P (dir_update P (dir_next (r_dir r))) hdr2 m) ->
      exists x2 out2, cstep P lib x' (CUnprotect hdr2 payload2 buf2) [] = Done (x2, CUnprotected S_INTERNAL_ERROR 0 out2).
Proof. exact U21. Qed.
Print Assumptions C21_deviation_on_every_connection.

(* C22: a ticket without a body, followed by four bytes. *)
Theorem C22_deviation_on_every_connection : forall P lib a ops rs x r payload buf,
  connection P lib a ops rs x -> received P a ops rs r -> open_rx r -> r_part r = [] ->
  let msg := inner ty_handshake [4; 0; 0; 0; 0; 0; 0; 0] 0 in
  next_record P r msg payload -> lenN msg <= lenN buf ->
  cstep P lib x (CUnprotect (tls_header (lenN msg + 16)) payload buf) [] = Undef UbNegativeShift.
Proof. exact U22. Qed.
Print Assumptions C22_deviation_on_every_connection.

(* A new connection, five tickets with the beginning of a sixth, a KeyUpdate in
   two parts. The records exist on every connection: they are sealed. *)
Example every_connection_case : exists x, connection toy OpenSSL A0 [] [] x /\ received toy A0 [] [] r0 /\ open_rx r0 /\
  d_seq (r_dir r0) + 1 < two64 /\ r_part r0 = [] /\ cx_sent x = [] /\ lenN (tickets_of (r_msgs r0)) < 5.
Proof. exact new_case. Qed.
Example five_tickets_case : ticket_stream five_tickets [4; 0] /\ bytes_ok (concat five_tickets ++ [4; 0]) /\
  lenN (concat five_tickets ++ [4; 0]) <= 16384 /\ lenN five_tickets = 5.
Proof. exact five_case. Qed.
Example key_update_case : hs_msg ([24; 0] ++ [0; 1; 0]) /\ is_key_update ([24; 0] ++ [0; 1; 0]) = true /\
  forall m, ku_record2 <> dir_seal toy (dir_update toy (dir_next (r_dir r0))) (tls_header (lenN ku_msg2 + 16)) m.
Proof. exact ku_case. Qed.

(* C23: a null pointer among the input, at any time: the buffer is destroyed
   twice, and the buffer of the caller is destroyed. *)
Theorem C23_deviation_on_every_protector : forall P lib al a ops rs f, protector P lib al a ops rs f ->
  forall input fs, ~ Forall iov_valid input -> protected_size (sum_lens input) < two64 ->
  (exists f' st es, fstep P lib al f (FProtect input) fs = Done (f', FProtected st []) /\ st <> kOk /\
     fp_events f' = fp_events f ++ es /\ ~ NoDup (destroys es)) /\
  (forall id buf, exists f' st out es, fstep P lib al f (FProtectInto input id buf) fs = Done (f', FProtectedInto st out) /\ st <> kOk /\
     fp_events f' = fp_events f ++ es /\ In id (destroys es) /\ allocs es = []).
Proof. exact UF23. Qed.
Print Assumptions C23_deviation_on_every_protector.

Example C23_input_case : ~ Forall iov_valid [IoBuf [1; 2]; IoNull 3] /\ protected_size (sum_lens [IoBuf [1; 2]; IoNull 3]) < two64.
Proof. exact null_case. Qed.

(* C24 - C26: [s] is the state of the reference of C65 after the history; the
   next record of the peer carries the data [c]. Whatever the protector: if 22
   bytes that are no record follow, its buffer is lost (C24); if fewer than 22
   bytes follow, they are dropped without an error (C25); reading a single
   record ignores all that follows (C26). *)
Theorem C24_deviation_on_every_protector : forall P lib al a ops rs f s, protector P lib al a ops rs f ->
  no_failures ops ->
  ref_run P (ref_start a) ops (map answer_of rs) s -> r_bad (f_rx s) = false -> open_rx (f_rx s) -> r_wait (f_rx s) = false ->
  forall c input, lenN c <= 16384 -> Forall nonempty_iov input ->
  forall junk, 22 <= lenN junk -> ~ starts_with_record junk -> fop_ok (FUnprotect input) ->
  iov_concat input = tls_record P (r_dir (f_rx s)) ty_application_data c 0 ++ junk ->
  exists f' id es, fstep P lib al f (FUnprotect input) [] = Done (f', FUnprotected kFailedPrecondition []) /\
    fp_events f' = fp_events f ++ es /\ allocs es = [id] /\ destroys es = [].
Proof. exact UF24. Qed.
Print Assumptions C24_deviation_on_every_protector.

Theorem C25_deviation_on_every_protector : forall P lib al a ops rs f s, protector P lib al a ops rs f ->
  no_failures ops ->
  ref_run P (ref_start a) ops (map answer_of rs) s -> r_bad (f_rx s) = false -> open_rx (f_rx s) -> r_wait (f_rx s) = false ->
  forall c input, lenN c <= 16384 -> Forall nonempty_iov input ->
  forall tail, lenN tail < 22 -> fop_ok (FUnprotect input) ->
  iov_concat input = tls_record P (r_dir (f_rx s)) ty_application_data c 0 ++ tail ->
  exists f' bs, fstep P lib al f (FUnprotect input) [] = Done (f', FUnprotected kOk bs) /\ map fb_bytes bs = [c].
Proof. exact UF25. Qed.
Print Assumptions C25_deviation_on_every_protector.

Theorem C26_deviation_on_every_protector : forall P lib al a ops rs f s, protector P lib al a ops rs f ->
  no_failures ops ->
  ref_run P (ref_start a) ops (map answer_of rs) s -> r_bad (f_rx s) = false -> open_rx (f_rx s) -> r_wait (f_rx s) = false ->
  forall c input, lenN c <= 16384 -> Forall nonempty_iov input ->
  forall rest buf, lenN c + 1 <= lenN buf -> fop_ok (FUnprotectInto input buf) ->
  iov_concat input = tls_record P (r_dir (f_rx s)) ty_application_data c 0 ++ rest ->
  exists f' out, fstep P lib al f (FUnprotectInto input buf) [] = Done (f', FUnprotectedInto kOk out (lenN c)) /\
    takeN (lenN c) (iov_data out) = c.
Proof. exact UF26. Qed.
Print Assumptions C26_deviation_on_every_protector.

(* A protector that has received a record, and inputs for it. *)
Example every_protector_case : exists rs f, protector toy OpenSSL toy_al (fargs S0) one_op rs f /\ no_failures one_op /\
  ref_run toy (ref_start (fargs S0)) one_op (map answer_of rs) ref_one /\
  r_bad (f_rx ref_one) = false /\ open_rx (f_rx ref_one) /\ r_wait (f_rx ref_one) = false.
Proof. exact one_case. Qed.
Example C25_C26_input_case : Forall nonempty_iov (with_tail [5; 6] [23; 3]) /\ fop_ok (FUnprotect (with_tail [5; 6] [23; 3])) /\
  iov_concat (with_tail [5; 6] [23; 3]) = next [5; 6] ++ [23; 3].
Proof. exact with_tail_case. Qed.
Example C24_input_case : Forall nonempty_iov (with_tail [5; 6] (zeros 22)) /\ fop_ok (FUnprotect (with_tail [5; 6] (zeros 22))) /\
  iov_concat (with_tail [5; 6] (zeros 22)) = next [5; 6] ++ zeros 22 /\ ~ starts_with_record (zeros 22).
Proof. exact with_junk_case. Qed.

(* C27: exactly which inputs make reading a single record read out of bounds
   (or through a null pointer): those with an empty buffer before one of the
   first five bytes, if these are the beginning of a header. Every protector,
   every history, every failure of the library. *)
Theorem C27_exact_single : forall P lib al a ops rs f, protector P lib al a ops rs f ->
  forall input buf fs, fop_ok (FUnprotectInto input buf) ->
  bad_read (fstep P lib al f (FUnprotectInto input buf) fs) <->
  22 <= lenN (iov_concat input) /\ empty_in_header input 0 (iov_concat input).
Proof. exact G27into. Qed.
Print Assumptions C27_exact_single.

(* The same for several records: there is an empty buffer in the header of a
   record after some that are accepted. As in C65, the reference says nothing
   after a malformed handshake stream. *)
Theorem C27_exact : forall P lib al a ops rs f s, protector P lib al a ops rs f ->
  no_failures ops ->
  ref_run P (ref_start a) ops (map answer_of rs) s -> r_bad (f_rx s) = false ->
  forall input, fop_ok (FUnprotect input) ->
  (forall ps rest r, iov_concat input = concat (map framed ps) ++ rest -> accepted P (f_rx s) ps r -> r_bad r = false ->
     22 <= lenN rest -> empty_in_header input (lenN (concat (map framed ps))) rest ->
     bad_read (fstep P lib al f (FUnprotect input) [])) /\
  (bad_read (fstep P lib al f (FUnprotect input) []) ->
     exists ps rest r, iov_concat input = concat (map framed ps) ++ rest /\ accepted P (f_rx s) ps r /\
       (r_bad r = true \/ (22 <= lenN rest /\ empty_in_header input (lenN (concat (map framed ps))) rest))).
Proof. exact G27. Qed.
Print Assumptions C27_exact.

Example C27_exact_case : fop_ok (FUnprotect with_gap) /\ exists p rest r, iov_concat with_gap = framed p ++ rest /\
  accepted toy rx_one [p] r /\ r_bad r = false /\ 22 <= lenN rest /\ empty_in_header with_gap (lenN (framed p)) rest.
Proof. exact gap_case. Qed.

(* C31: reading a single record from fewer than 22 bytes, at any time. *)
Theorem C31_deviation_on_every_protector : forall P lib al a ops rs f, protector P lib al a ops rs f ->
  forall input buf fs, fop_ok (FUnprotectInto input buf) -> lenN (iov_concat input) < 22 ->
  fstep P lib al f (FUnprotectInto input buf) fs = Done (f, FUnprotectedInto kFailedPrecondition (IoBuf buf) (lenN buf)).
Proof. exact UF31. Qed.
Print Assumptions C31_deviation_on_every_protector.

Example C31_input_case : fop_ok (FUnprotectInto [IoBuf [23; 3; 3; 0; 1]] (zeros 8)) /\ lenN (iov_concat [IoBuf [23; 3; 3; 0; 1]]) < 22.
Proof. exact short_case. Qed.
