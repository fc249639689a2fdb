(* C96: what can change the key for receiving. *)
From Coq Require Import List NArith Bool.
From Verif Require Import Base Aead Hkdf HalfConn SpecTls Options HsHandler Crypter SpecHs SpecRecord SpecRx CrypterRun FrameProt SpecFrame FrameRun
  Conc ConcRun ConcRead ConcMix SpecKeyChange KeyChange KeyTwice KeyThreads Toy CrypterRefuted FrameExamples ConcReadExamples EveryCases KeyCases.
Import ListNotations.
Local Open Scope N_scope.

(* C96. Whatever call is made on a connection, in whatever history and with
   whatever failures: the number of the key for receiving stays, or it grows by
   one and the call was given the next record of the peer, sealed with the key
   so far, with handshake bytes inside. Undefined behaviour needs such a record,
   too. Missing: that the handshake bytes are a KeyUpdate. *)
Theorem C96_only_handshake_changes_key_partial : forall P lib a ops rs x op fs,
  connection P lib a ops rs x -> cop_ok op ->
  match cstep P lib x op fs with
  | Done (x', _) =>
    hc_epoch (cx_in x') = hc_epoch (cx_in x) \/
    hc_epoch (cx_in x') = hc_epoch (cx_in x) + 1 /\ exists content, gives_handshake P a x op content
  | Undef _ => exists content, gives_handshake P a x op content
  | NoFuel => False
  end.
Proof. exact key_any. Qed.
Print Assumptions C96_only_handshake_changes_key_partial.

(* ... and they are, as long as the handshake messages received before were
   well-formed: with the bytes left over from earlier records, they consist of
   tickets and then a message of type KeyUpdate. *)
Theorem C96_only_key_update_changes_key_partial : forall P lib a ops rs x r op fs x' res,
  connection P lib a ops rs x -> received P a ops rs r -> cop_ok op ->
  cstep P lib x op fs = Done (x', res) -> hc_epoch (cx_in x') <> hc_epoch (cx_in x) ->
  exists content, gives_handshake P a x op content /\ content <> [] /\ brings_update (r_part r ++ content).
Proof. exact key_update_only. Qed.
Print Assumptions C96_only_key_update_changes_key_partial.

(* The hypotheses are met by a new connection that is given a record with a
   ticket and a KeyUpdate. *)
Example C96_case : exists x x' res, connection toy OpenSSL A0 [] [] x /\ received toy A0 [] [] r0 /\ cop_ok ku_op /\
  cstep toy OpenSSL x ku_op [] = Done (x', res) /\ hc_epoch (cx_in x) = 0 /\ hc_epoch (cx_in x') = 1.
Proof. exact case96. Qed.

(* C96 fails after a KeyUpdate without a body, 24 0 0 0, which is accepted: a
   further handshake record with one to three bytes, whatever they are, is
   accepted and changes the key again. This happens on every connection. *)
Theorem C96_key_changes_without_update_refuted : forall P lib a ops rs x r payload buf,
  connection P lib a ops rs x -> received P a ops rs r -> open_rx r -> r_part r = [] ->
  let msg := inner ty_handshake [24; 0; 0; 0] 0 in
  next_record P r msg payload -> lenN msg <= lenN buf ->
  exists x1 out1, cstep P lib x (CUnprotect (tls_header (lenN msg + 16)) payload buf) [] = Done (x1, CUnprotected S_OK 0 out1) /\
    hc_epoch (cx_in x1) = hc_epoch (cx_in x) + 1 /\
    forall q payload2 buf2, let msg2 := inner ty_handshake q 0 in let hdr2 := tls_header (lenN msg2 + 16) in
      bytes_ok q -> 1 <= lenN q <= 3 -> Forall iov_valid payload2 -> lenN msg2 <= lenN buf2 ->
      iov_concat payload2 = dir_seal P (dir_update P (dir_next (r_dir r))) hdr2 msg2 ->
      exists x2 out2, cstep P lib x1 (CUnprotect hdr2 payload2 buf2) [] = Done (x2, CUnprotected S_OK 0 out2) /\
        hc_epoch (cx_in x2) = hc_epoch (cx_in x1) + 1.
Proof. exact key_twice. Qed.
Print Assumptions C96_key_changes_without_update_refuted.

(* The second record here is the first byte of a ticket. *)
Example C96_twice_case : exists x, connection toy OpenSSL A0 [] [] x /\ received toy A0 [] [] r0 /\ open_rx r0 /\ r_part r0 = [] /\
  next_record toy r0 first_msg first_record /\ Forall iov_valid second_record /\
  iov_concat second_record = dir_seal toy (dir_update toy (dir_next (r_dir r0))) (tls_header (lenN second_msg + 16)) second_msg.
Proof. exact case96_twice. Qed.

(* C96, one call of a frame protector: without handshake bytes of the peer in
   its input it is defined, and the key for receiving stays. *)
Theorem C96_frames_keep_key : forall P lib al a ops rs f op fs,
  protector P lib al a ops rs f -> fop_ok op ->
  (forall input, op = FUnprotect input \/ (exists buf, op = FUnprotectInto input buf) ->
     Forall nonempty_iov input /\ no_handshake P (fa_crypt a) (fp_crypt f) (iov_concat input)) ->
  exists f' r, fstep P lib al f op fs = Done (f', r) /\ hc_epoch (cx_in (fp_crypt f')) = hc_epoch (cx_in (fp_crypt f)).
Proof. exact frame_same. Qed.
Print Assumptions C96_frames_keep_key.

(* C95 without handshake bytes of the peer: the threads' calls have no
   undefined behaviour in any schedule, and happen as if one after the other. *)
Theorem C95_threads_linearizable_no_handshake : forall P lib al a ops rs f calls,
  protector P lib al a ops rs f -> Forall (Forall m_ok) calls ->
  Forall (Forall (quiet P (fa_crypt a) (fp_crypt f))) calls ->
  let run := mrun m_lock (m_pre al) (m_body P lib al) in
  forall sched1 sched2, exists (c1 c2 : m_threads) l1 l2,
    run (mstart (fp_crypt f) calls) sched1 = Done c1 /\
    run c1 sched2 = Done c2 /\
    m_explains (seq_run (m_step P lib al (fp_max f))) (fp_crypt f) calls c1 l1 /\
    m_explains (seq_run (m_step P lib al (fp_max f))) (fp_crypt f) calls c2 (l1 ++ l2) /\
    exists sched3 c3, run c1 sched3 = Done c3 /\ m_finished c3.
Proof. exact quiet_threads. Qed.
Print Assumptions C95_threads_linearizable_no_handshake.

(* Two threads that send and receive; the data for one of them are two records
   with application data. The primitives are such that the tag shows the nonce. *)
Example C96_quiet_case : exists f, protector shown OpenSSL toy_al (fargs S0) [] [] f /\
  Forall (Forall m_ok) q_calls /\ Forall (Forall (quiet shown (fa_crypt (fargs S0)) (fp_crypt f))) q_calls /\
  fop_ok (FUnprotect [IoBuf q_data]) /\ Forall nonempty_iov [IoBuf q_data] /\
  no_handshake shown (fa_crypt (fargs S0)) (fp_crypt f) (iov_concat [IoBuf q_data]).
Proof. exact case96_quiet. Qed.
