(* C97: threads that call the single-record Unprotect. *)
From Coq Require Import List NArith Bool.
From Verif Require Import Base Aead Hkdf HalfConn SpecTls Options HsHandler Crypter SpecRecord SpecRx CrypterRun FrameProt SpecFrame FrameRun FrameRef
  Conc ConcRun ConcPair SpecKeyChange Single SingleTeam Toy FrameExamples KeyCases SingleCases SingleEvery.
Import ListNotations.
Local Open Scope N_scope.

(* C97 for threads without control records: any number of threads make any
   lists of calls of the single-record Unprotect on one protector, without a
   mutex; their data contain no close_notify alert and no handshake bytes of the
   peer, and no ticket is waiting to be sent. In every schedule there is no undefined
   behaviour, the calls happen as if one after the other, the order of calls
   that took effect never changes again, and the threads can always finish. *)
Theorem C97_data_calls_linearizable_partial : forall P lib al a ops rs f calls,
  protector P lib al a ops rs f -> nothing_to_send (fp_crypt f) ->
  Forall (Forall (data_call P (fa_crypt a) (fp_crypt f))) calls ->
  forall sched1 sched2, exists x1 ts1 x2 ts2 l1 l2,
    team_run P lib al (fp_crypt f) (team_start f calls) sched1 = Done (x1, ts1) /\
    team_run P lib al x1 ts1 sched2 = Done (x2, ts2) /\
    team_explained P lib al f calls x1 ts1 l1 /\ team_explained P lib al f calls x2 ts2 (l1 ++ l2) /\
    exists sched3 x3 ts3, team_run P lib al x1 ts1 sched3 = Done (x3, ts3) /\ Forall side_end ts3.
Proof. exact singles_explained. Qed.
Print Assumptions C97_data_calls_linearizable_partial.

(* Two threads, three records of application data; the primitives are such that
   the tag shows the nonce. *)
Example C97_case : exists f, protector shown OpenSSL toy_al (fargs S0) [] [] f /\ nothing_to_send (fp_crypt f) /\
  Forall (Forall (data_call shown (fa_crypt (fargs S0)) (fp_crypt f))) s_calls.
Proof. exact case97. Qed.

(* C97 fails with a close_notify alert of the peer: one thread is given the
   alert, the other the record after it. Both calls return, the connection is
   closed, and the second thread has been given the data of the record after
   the alert. No order of the two calls explains this. *)
Theorem C97_data_after_close_refuted : exists P lib al a f input0 buf0 input1 buf1 sched x ts,
  protector P lib al a [] [] f /\ nothing_to_send (fp_crypt f) /\
  fop_ok (FUnprotectInto input0 buf0) /\ Forall nonempty_iov input0 /\ fop_ok (FUnprotectInto input1 buf1) /\ Forall nonempty_iov input1 /\
  let calls := [[(FUnprotectInto input0 buf0, [])]; [(FUnprotectInto input1 buf1, [])]] in
  team_run P lib al (fp_crypt f) (team_start f calls) sched = Done (x, ts) /\ Forall side_end ts /\
  (forall l, ~ team_explained P lib al f calls x ts l) /\
  cx_close x = true /\ exists t out n, nth_error ts 1 = Some t /\ sd_done t = [FUnprotectedInto kOk out n] /\ n <> 0.
Proof. exact past97. Qed.
Print Assumptions C97_data_after_close_refuted.

(* C97 fails with a KeyUpdate of the peer: one thread installs the new key and
   frees the crypter the other is about to ask for its tag length. One after the
   other, in either order, the two calls are defined. *)
Theorem C97_use_after_free_refuted : exists P lib al a f input0 buf0 input1 buf1 sched,
  protector P lib al a [] [] f /\
  fop_ok (FUnprotectInto input0 buf0) /\ Forall nonempty_iov input0 /\ fop_ok (FUnprotectInto input1 buf1) /\ Forall nonempty_iov input1 /\
  let c0 := (FUnprotectInto input0 buf0, []) in let c1 := (FUnprotectInto input1 buf1, []) in
  team_run P lib al (fp_crypt f) (team_start f [[c0]; [c1]]) sched = Undef UbUseAfterFree /\
  (exists f1 rs1, frun P lib al f [c0; c1] = Done (f1, rs1)) /\ (exists f2 rs2, frun P lib al f [c1; c0] = Done (f2, rs2)).
Proof. exact freed97. Qed.
Print Assumptions C97_use_after_free_refuted.

(* C97 fails with application data alone if one of the threads calls Unprotect
   for several records (which holds unprotect_mu_, to no effect on the other):
   its two records are the first and the third of the peer, the other thread has
   the second, and all three are accepted. No order of the two calls explains
   this. *)
Theorem C97_records_between_refuted : exists P lib al a f input0 input1 buf1 sched x ts,
  protector P lib al a [] [] f /\ nothing_to_send (fp_crypt f) /\
  fop_ok (FUnprotect input0) /\ Forall nonempty_iov input0 /\ fop_ok (FUnprotectInto input1 buf1) /\ Forall nonempty_iov input1 /\
  let calls := [[(FUnprotect input0, [])]; [(FUnprotectInto input1 buf1, [])]] in
  team_run P lib al (fp_crypt f) (team_start f calls) sched = Done (x, ts) /\ Forall side_end ts /\
  (forall l, ~ team_explained P lib al f calls x ts l) /\
  exists t0 bufs t1 out n, ts = [t0; t1] /\ sd_done t0 = [FUnprotected kOk bufs] /\ lenN bufs = 2 /\ sd_done t1 = [FUnprotectedInto kOk out n] /\ n <> 0.
Proof. exact between97. Qed.
Print Assumptions C97_records_between_refuted.

(* C97 fails in this way on every protector, whatever the primitives, keys and
   history: if the connection is open for receiving, does not expect the rest of
   a handshake message and has no ticket to send, and the peer sends close_notify
   and then a record of application data (which is no record the peer could have
   sent instead of close_notify), then two threads, given one record each, have a
   schedule that delivers the data although the connection is closed. *)
Theorem C97_deviation_on_every_protector : forall P lib al a ops rs f s, protector P lib al a ops rs f -> no_failures ops ->
  ref_run P (ref_start a) ops (map answer_of rs) s -> r_bad (f_rx s) = false ->
  open_rx (f_rx s) -> r_wait (f_rx s) = false -> nothing_to_send (fp_crypt f) ->
  let d := r_dir (f_rx s) in dir_usable (dir_next d) ->
  forall level pad0 input0 buf0 c pad1 input1 buf1,
  2 + pad0 <= 16384 -> 3 + pad0 <= lenN buf0 -> fop_ok (FUnprotectInto input0 buf0) -> Forall nonempty_iov input0 ->
  iov_concat input0 = tls_record P d ty_alert [level; 0] pad0 ->
  lenN c + pad1 <= 16384 -> lenN c + 1 + pad1 <= lenN buf1 -> fop_ok (FUnprotectInto input1 buf1) -> Forall nonempty_iov input1 ->
  iov_concat input1 = tls_record P (dir_next d) ty_application_data c pad1 ->
  (forall msg, iov_concat input1 <> framed (dir_seal P d (tls_header (lenN msg + 16)) msg)) ->
  let calls := [[(FUnprotectInto input0 buf0, [])]; [(FUnprotectInto input1 buf1, [])]] in
  exists sched x ts, team_run P lib al (fp_crypt f) (team_start f calls) sched = Done (x, ts) /\ Forall side_end ts /\
    (forall l, ~ team_explained P lib al f calls x ts l) /\
    cx_close x = true /\ exists t out, nth_error ts 1 = Some t /\ sd_done t = [FUnprotectedInto kOk (IoBuf out) (lenN c)] /\ takeN (lenN c) out = c.
Proof. exact past_every. Qed.
Print Assumptions C97_deviation_on_every_protector.

(* A new protector, three bytes of application data. *)
Example C97_every_case : exists f s, protector shown OpenSSL toy_al (fargs S0) [] [] f /\ no_failures [] /\
  ref_run shown (ref_start (fargs S0)) [] (map answer_of []) s /\ r_bad (f_rx s) = false /\
  open_rx (f_rx s) /\ r_wait (f_rx s) = false /\ nothing_to_send (fp_crypt f) /\
  r_dir (f_rx s) = e_dir /\ dir_usable (dir_next e_dir) /\
  fop_ok (fst (into e_close)) /\ fop_ok (fst (into e_data)) /\ Forall nonempty_iov [IoBuf e_close] /\ Forall nonempty_iov [IoBuf e_data] /\
  iov_concat [IoBuf e_close] = tls_record shown e_dir ty_alert [1; 0] 0 /\
  iov_concat [IoBuf e_data] = tls_record shown (dir_next e_dir) ty_application_data [1; 2; 3] 0 /\
  (forall msg, iov_concat [IoBuf e_data] <> framed (dir_seal shown e_dir (tls_header (lenN msg + 16)) msg)).
Proof. exact case97_every. Qed.
