(* The sizes of the caller's buffers: C83, C84. *)
From Coq Require Import List NArith Bool.
From Verif Require Import Base Aead Hkdf HalfConn SpecAead SpecTls Options HsHandler Crypter SpecHs SpecRecord SpecRx
  CrypterRun FrameProt SpecFrame FrameRun FrameRef SpecBuf Toy FrameExamples SpecStream StreamExample BufProofs BufFinal BufCases.
Import ListNotations.
Local Open Scope N_scope.

(* C83. NumberBytesToUnprotect bytes are always enough: any two buffers of at
   least that size give the same status, the same state and, on success, the
   same bytes, whatever the history, the input and the failures of the library.
   Refuted: that so many bytes are required. Partial: the number that is, which
   is 16 less, is shown for records of application data. *)
Theorem C83_enough : forall P lib al a ops rs f, protector P lib al a ops rs f ->
  forall input fs n buf1 buf2, fop_ok (FUnprotectInto input buf1) ->
  number_bytes_to_unprotect f (sum_lens input) = Done n -> n <= lenN buf1 -> n <= lenN buf2 ->
  same_reading (fstep P lib al f (FUnprotectInto input buf1) fs) (fstep P lib al f (FUnprotectInto input buf2) fs).
Proof. exact B83. Qed.
Print Assumptions C83_enough.

(* [s] is the state of the reference of C65 after the history; the next record
   carries the data [c] and [pad] bytes of padding. *)
Theorem C83_exact_partial : forall P lib al a ops rs f s, protector P lib al a ops rs f ->
  no_failures ops ->
  ref_run P (ref_start a) ops (map answer_of rs) s -> r_bad (f_rx s) = false ->
  open_rx (f_rx s) -> r_wait (f_rx s) = false ->
  forall c pad input buf, lenN c + pad <= 16384 -> Forall nonempty_iov input ->
  iov_concat input = tls_record P (r_dir (f_rx s)) ty_application_data c pad -> fop_ok (FUnprotectInto input buf) ->
  number_bytes_to_unprotect f (total_len input) = Done (lenN c + pad + 17) /\
  exists f' st out n, fstep P lib al f (FUnprotectInto input buf) [] = Done (f', FUnprotectedInto st out n) /\
    ((lenN c + pad + 1 <= lenN buf /\ st = kOk /\ n = lenN c /\ takeN n (iov_data out) = c) \/
     (lenN buf < lenN c + pad + 1 /\ st = kInternal /\ n = 0 /\ iov_data out = zeros (lenN buf))).
Proof. exact B83exact. Qed.
Print Assumptions C83_exact_partial.

Theorem C83_required_refuted : exists P lib al a ops rs f input buf n f' out len, protector P lib al a ops rs f /\
  fop_ok (FUnprotectInto input buf) /\ number_bytes_to_unprotect f (total_len input) = Done n /\ lenN buf < n /\
  fstep P lib al f (FUnprotectInto input buf) [] = Done (f', FUnprotectedInto kOk out len).
Proof. exact B83refuted. Qed.
Print Assumptions C83_required_refuted.

Example C83_C84_case : exists rs f, protector marked OpenSSL toy_al (fargs S0) b_ops rs f /\ no_failures b_ops /\
  ref_run marked (ref_start (fargs S0)) b_ops (map answer_of rs) b_ref /\
  r_bad (f_rx b_ref) = false /\ open_rx (f_rx b_ref) /\ r_wait (f_rx b_ref) = false /\ dir_usable (dir_next (r_dir (f_rx b_ref))).
Proof. exact b_case. Qed.
Example C83_C84_input_case : Forall nonempty_iov b_input /\
  iov_concat b_input = tls_record marked (r_dir (f_rx b_ref)) ty_application_data [1; 2; 3] 0 /\
  (forall buf, fop_ok (FUnprotectInto b_input buf)) /\
  (forall m, dropN 5 (iov_concat b_input) <> dir_seal marked (dir_next (r_dir (f_rx b_ref))) (takeN 5 (iov_concat b_input)) m).
Proof. exact b_input_case. Qed.

(* C84. Refuted for reading: a record that was refused because the buffer is too
   small is refused again when the buffer is large. *)
Theorem C84_read_refuted : exists P lib al a ops rs f input small large f1 out1 f2 out2 f3 out3 n, protector P lib al a ops rs f /\
  (forall buf, fop_ok (FUnprotectInto input buf)) /\
  fstep P lib al f (FUnprotectInto input large) [] = Done (f1, FUnprotectedInto kOk out1 n) /\
  fstep P lib al f (FUnprotectInto input small) [] = Done (f2, FUnprotectedInto kInternal out2 0) /\
  fstep P lib al f2 (FUnprotectInto input large) [] = Done (f3, FUnprotectedInto kInternal out3 0).
Proof. exact B84refuted. Qed.
Print Assumptions C84_read_refuted.

(* On every protector: the record is lost unless it is also authentic with the
   next sequence number; the record after it is delivered as if nothing were
   missing. *)
Theorem C84_read_on_every_protector : forall P lib al a ops rs f s, protector P lib al a ops rs f ->
  no_failures ops ->
  ref_run P (ref_start a) ops (map answer_of rs) s -> r_bad (f_rx s) = false ->
  open_rx (f_rx s) -> r_wait (f_rx s) = false -> dir_usable (dir_next (r_dir (f_rx s))) ->
  forall c pad input buf, lenN c + pad <= 16384 -> Forall nonempty_iov input ->
  iov_concat input = tls_record P (r_dir (f_rx s)) ty_application_data c pad -> fop_ok (FUnprotectInto input buf) ->
  lenN buf <= lenN c + pad ->
  exists f1 out, fstep P lib al f (FUnprotectInto input buf) [] = Done (f1, FUnprotectedInto kInternal out 0) /\
    (* the same record again, now into any buffer *)
    ((forall m, dropN 5 (iov_concat input) <> dir_seal P (dir_next (r_dir (f_rx s))) (takeN 5 (iov_concat input)) m) ->
     forall buf2, exists f2 out2,
       fstep P lib al f1 (FUnprotectInto input buf2) [] = Done (f2, FUnprotectedInto kInternal out2 0)) /\
    (* the record after it *)
    (forall c2 pad2 input2 buf2, lenN c2 + pad2 <= 16384 -> Forall nonempty_iov input2 ->
     iov_concat input2 = tls_record P (dir_next (r_dir (f_rx s))) ty_application_data c2 pad2 ->
     fop_ok (FUnprotectInto input2 buf2) -> lenN c2 + pad2 < lenN buf2 ->
     exists f2 out2, fstep P lib al f1 (FUnprotectInto input2 buf2) [] = Done (f2, FUnprotectedInto kOk out2 (lenN c2)) /\
       takeN (lenN c2) (iov_data out2) = c2).
Proof. exact B84read. Qed.
Print Assumptions C84_read_on_every_protector.

(* Writing into a buffer in which the records of the blocks [init] have room,
   but not the one after them: the call fails, and the next record sent has the
   number after those of [init]. With [init = []] nothing has changed. *)
Theorem C84_write_on_every_protector : forall P lib al a ops rs f s, protector P lib al a ops rs f ->
  no_failures ops ->
  ref_run P (ref_start a) ops (map answer_of rs) s -> r_bad (f_rx s) = false ->
  forall input id buf init b more, Forall iov_valid input -> fop_ok (FProtectInto input id buf) ->
  blocks_of (iov_concat input) (init ++ b :: more) ->
  lenN (concat init) + 22 * lenN init <= lenN buf -> lenN buf < lenN (concat init) + 22 * lenN init + lenN b + 22 ->
  dir_usable (dir_adv (f_tx s) (lenN init)) ->
  exists f1 out, fstep P lib al f (FProtectInto input id buf) [] = Done (f1, FProtectedInto kFailedPrecondition out) /\
    (* the next record sent *)
    forall c, lenN c <= 16384 -> exists f2 m, fstep P lib al f1 (FProtect [IoBuf c]) [] = Done (f2, FProtected kOk [m]) /\
      fb_bytes m = tls_record P (dir_adv (f_tx s) (lenN init)) ty_application_data c 0.
Proof. exact B84write. Qed.
Print Assumptions C84_write_on_every_protector.

Example C84_write_case : Forall iov_valid b_long /\ fop_ok (FProtectInto b_long 0 (zeros 16420)) /\
  blocks_of (iov_concat b_long) ([zeros 16384] ++ [7] :: []) /\
  lenN (concat [zeros 16384]) + 22 * lenN [zeros 16384] <= lenN (zeros 16420) /\
  lenN (zeros 16420) < lenN (concat [zeros 16384]) + 22 * lenN [zeros 16384] + lenN [7] + 22 /\
  dir_usable (dir_adv (f_tx b_ref) (lenN [zeros 16384])).
Proof. exact b_long_case. Qed.

(* What holds: bytes that are no record are refused without any effect. *)
Theorem C84_no_record_partial : forall P lib al a ops rs f, protector P lib al a ops rs f -> forall input buf fs,
  fop_ok (FUnprotectInto input buf) -> Forall nonempty_iov input ->
  lenN (iov_concat input) < 22 \/ ~ starts_with_record (iov_concat input) ->
  exists n, fstep P lib al f (FUnprotectInto input buf) fs = Done (f, FUnprotectedInto kFailedPrecondition (IoBuf buf) n).
Proof. exact B84none. Qed.
Print Assumptions C84_no_record_partial.

Example C84_no_record_case : fop_ok (FUnprotectInto [IoBuf (takeN 24 (s_rec 0 [1; 2; 3]))] [0; 0]) /\
  Forall nonempty_iov [IoBuf (takeN 24 (s_rec 0 [1; 2; 3]))] /\ ~ starts_with_record (takeN 24 (s_rec 0 [1; 2; 3])).
Proof. exact b_no_record_case. Qed.
