(* The frame protector (S2AFrameProtector): C01 - C04, C14, C23 - C27, C31 -
   C33. *)
From Coq Require Import List NArith Bool Permutation.
From Verif Require Import Base Aead Hkdf HalfConn SpecAead SpecTls HalfRun Options HsHandler
  Crypter SpecHs SpecRecord SpecRx CrypterRun FrameProt SpecFrame FrameRun FrameLink FrameTrip FrameFinal
  Toy ToyProofs FrameExamples FrameRefuted.
Import ListNotations.
Local Open Scope N_scope.

(* Throughout: [protector P lib al a ops rs f]: f is reached by the history
   ops, with results rs, on a frame protector created with arguments a; every
   call comes with its own library failures. *)

(* C01. Two protectors with mirrored secrets and sequence numbers behave as two
   queues of plaintext ([channel]): every call succeeds, and what is delivered
   is what was sent, in order, however the calls in the two directions
   interleave, however many Protect outputs one Unprotect call gets, and
   however these are cut into non-empty buffers. *)
Theorem C01_round_trip : forall P liba libb ala alb aa ab fsa fsb fsa' fsb' f g es,
  prims_ok P -> alloc_ok ala -> alloc_ok alb ->
  fp_create P liba aa fsa = Done (inr f, fsa') -> fp_create P libb ab fsb = Done (inr g, fsb') ->
  f_out aa = f_in ab -> f_in aa = f_out ab ->
  d_seq (f_out aa) < two64 -> d_seq (f_in aa) < two64 ->
  levents_ok [] [] es ->
  d_seq (f_out aa) + records_sent true es <= two64 -> d_seq (f_in aa) + records_sent false es <= two64 ->
  exists l', link_run P liba libb ala alb {| l_a := f; l_b := g; l_up := []; l_down := [] |} es =
    Done (l', channel [] [] es).
Proof. exact round_trip. Qed.
Print Assumptions C01_round_trip.

Example C01_case : forall liba libb s, exists f g fsa' fsb',
  fp_create toy liba (fargs s) [] = Done (inr f, fsa') /\ fp_create toy libb (fargs_peer s) [] = Done (inr g, fsb') /\
  f_out (fargs s) = f_in (fargs_peer s) /\ f_in (fargs s) = f_out (fargs_peer s) /\ levents_ok [] [] some_events /\
  channel [] [] some_events = [Sent kOk; Sent kOk; Sent kOk; Delivered kOk [1; 2; 3]; Delivered kOk [9]; Idle].
Proof.
  intros liba libb s. destruct (fargs_create liba s) as (f & fs1 & E1), (fargs_peer_create libb s) as (g & fs2 & E2).
  exists f, g, fs1, fs2. exact (conj E1 (conj E2 (conj eq_refl (conj eq_refl (conj some_events_ok some_results))))).
Qed.

(* C02. *)
Theorem C02_number_bytes_to_protect_exact : forall P lib al a ops rs f, protector P lib al a ops rs f ->
  forall input fs, protected_size (sum_lens input) < two64 ->
  exists size, number_bytes_to_protect f (sum_lens input) = Done size /\
  (forall id buf, exists f' st out,
     fstep P lib al f (FProtectInto input id buf) fs = Done (f', FProtectedInto st (IoBuf out)) /\
     lenN out = lenN buf /\
     (st = kOk -> exists w, out = w ++ dropN size buf /\ lenN w = size) /\
     (size <= lenN buf -> st <> kFailedPrecondition) /\
     (lenN buf < size -> st <> kOk)) /\
  (exists f' st bs, fstep P lib al f (FProtect input) fs = Done (f', FProtected st bs) /\
     st <> kFailedPrecondition /\
     (st = kOk -> exists b w, bs = [b] /\ fb_len b = size /\ fb_mem b = IoBuf w /\ lenN w = size)).
Proof. exact F02. Qed.
Print Assumptions C02_number_bytes_to_protect_exact.

(* C03. [blocks]: the plaintexts of the records; [ps]: their payloads. *)
Theorem C03_protect_emits_records : forall P lib al a ops rs f, protector P lib al a ops rs f ->
  forall input fs f' bs, protected_size (sum_lens input) < two64 ->
  fstep P lib al f (FProtect input) fs = Done (f', FProtected kOk bs) ->
  exists blocks ps, blocks_of (iov_concat input) blocks /\ whole_records ps (out_bytes bs) /\
    Forall2 (fun b p => lenN p = lenN b + 17) blocks ps /\
    Forall (fun p => lenN (framed p) <= max_record_size f) ps.
Proof. exact F03. Qed.
Print Assumptions C03_protect_emits_records.

Theorem C03_protect_into_emits_records : forall P lib al a ops rs f, protector P lib al a ops rs f ->
  forall input id buf fs f' out, protected_size (sum_lens input) < two64 ->
  fstep P lib al f (FProtectInto input id buf) fs = Done (f', FProtectedInto kOk out) ->
  exists blocks ps written, blocks_of (iov_concat input) blocks /\ whole_records ps written /\
    out = IoBuf (written ++ dropN (lenN written) buf) /\
    Forall2 (fun b p => lenN p = lenN b + 17) blocks ps /\
    Forall (fun p => lenN (framed p) <= max_record_size f) ps.
Proof. exact F03into. Qed.
Print Assumptions C03_protect_into_emits_records.

Theorem C03_number_of_records : forall data bs, blocks_of data bs -> lenN bs = record_count (lenN data).
Proof. exact F03count. Qed.
Print Assumptions C03_number_of_records.

(* C04. *)
Theorem C04_frame_no_nonce_reuse : forall P lib al a ops rs f, protector P lib al a ops rs f ->
  forall e, NoDup (nonces (cx_out (fp_crypt f)) e).
Proof. exact F04. Qed.
Print Assumptions C04_frame_no_nonce_reuse.

(* C14: once close_notify has been received. *)
Theorem C14_frame_close_notify_final : forall P lib al a ops rs f, protector P lib al a ops rs f -> cx_close (fp_crypt f) = true ->
  forall input fs, fop_ok (FUnprotect input) -> Forall nonempty_iov input ->
  (exists f' st, fstep P lib al f (FUnprotect input) fs = Done (f', FUnprotected st []) /\ st <> kOk /\ fp_crypt f' = fp_crypt f) /\
  (forall buf, exists f' st len, fstep P lib al f (FUnprotectInto input buf) fs = Done (f', FUnprotectedInto st (IoBuf buf) len) /\
     st <> kOk /\ fp_crypt f' = fp_crypt f).
Proof. exact F14. Qed.
Print Assumptions C14_frame_close_notify_final.

(* C22: undefined behaviour of the crypter is only ever a shift by a negative
   amount, in every history. *)
Theorem C22_only_negative_shift_partial : forall P lib a ops rs x, connection P lib a ops rs x ->
  forall op fs, cop_ok op ->
  (exists y, cstep P lib x op fs = Done y) \/ cstep P lib x op fs = Undef UbNegativeShift.
Proof. exact W22u. Qed.
Print Assumptions C22_only_negative_shift_partial.

(* C23: exactly what is destroyed. Missing: on errors, the allocated buffer is
   destroyed twice, and a buffer of the caller is destroyed. *)
Theorem C23_protect_destroys_partial : forall P lib al a ops rs f, protector P lib al a ops rs f ->
  forall input fs, protected_size (sum_lens input) < two64 ->
  (exists f' st bs size es, fstep P lib al f (FProtect input) fs = Done (f', FProtected st bs) /\
     fp_events f' = fp_events f ++ EvAlloc (fp_next f) size :: es /\
     allocs es = [] /\
     (st = kOk -> es = [] /\ exists b, bs = [b] /\ fb_id b = fp_next f) /\
     (st <> kOk -> bs = [] /\ destroys es = [fp_next f; fp_next f])) /\
  (forall id buf, exists f' st out es, fstep P lib al f (FProtectInto input id buf) fs = Done (f', FProtectedInto st out) /\
     fp_events f' = fp_events f ++ es /\ allocs es = [] /\
     (st = kOk -> es = []) /\ (st <> kOk -> destroys es = [id])).
Proof. exact F23. Qed.
Print Assumptions C23_protect_destroys_partial.

Theorem C23_destroyed_once_refuted : exists P lib al a f input f' st bs es,
  protector P lib al a [] [] f /\ fop_ok (FProtect input) /\
  fstep P lib al f (FProtect input) [] = Done (f', FProtected st bs) /\
  fp_events f' = fp_events f ++ es /\ ~ NoDup (destroys es).
Proof. exact R23a. Qed.
Print Assumptions C23_destroyed_once_refuted.

Theorem C23_callers_buffer_refuted : exists P lib al a f input id buf f' st out,
  protector P lib al a [] [] f /\ fop_ok (FProtectInto input id buf) /\
  fstep P lib al f (FProtectInto input id buf) [] = Done (f', FProtectedInto st out) /\
  In id (destroys (fp_events f')) /\ ~ In id (allocs (fp_events f')).
Proof. exact R23b. Qed.
Print Assumptions C23_callers_buffer_refuted.

(* C24. Missing: errors because the bytes after some records are not a record;
   the first theorem excludes this by its hypothesis, the second says what
   happens then. *)
Theorem C24_buffers_released_partial : forall P lib al a ops rs f, protector P lib al a ops rs f ->
  forall input fs f' st bs ps tail, fop_ok (FUnprotect input) ->
  iov_concat input = concat (map framed ps) ++ tail -> Forall (fun p => lenN p < 65536) ps -> lenN tail < 22 ->
  fstep P lib al f (FUnprotect input) fs = Done (f', FUnprotected st bs) ->
  exists es, fp_events f' = fp_events f ++ es /\ NoDup (allocs es) /\
    (st = kOk -> map fb_id bs = allocs es /\ destroys es = []) /\
    (st <> kOk -> bs = [] /\ Permutation (destroys es) (allocs es)).
Proof. exact F24whole. Qed.
Print Assumptions C24_buffers_released_partial.

Theorem C24_buffers_released_or_no_record_partial : forall P lib al a ops rs f, protector P lib al a ops rs f ->
  forall input fs f' st bs, fop_ok (FUnprotect input) ->
  fstep P lib al f (FUnprotect input) fs = Done (f', FUnprotected st bs) ->
  exists es, fp_events f' = fp_events f ++ es /\ NoDup (allocs es) /\
    (st = kOk -> map fb_id bs = allocs es /\ destroys es = []) /\
    (st <> kOk -> bs = [] /\
      (Permutation (destroys es) (allocs es) \/
       (st = kFailedPrecondition /\ destroys es = [] /\
        exists ps rest, iov_concat input = concat (map framed ps) ++ rest /\ length ps = length (allocs es) /\
          Forall (fun p => lenN p < 65536) ps /\ 22 <= lenN rest /\ ~ starts_with_record rest))).
Proof. exact F24. Qed.
Print Assumptions C24_buffers_released_or_no_record_partial.

Theorem C24_buffers_released_refuted : exists P lib al a f input f' st bs es,
  protector P lib al a [] [] f /\ fop_ok (FUnprotect input) /\
  fstep P lib al f (FUnprotect input) [] = Done (f', FUnprotected st bs) /\ st <> kOk /\ bs = [] /\
  fp_events f' = fp_events f ++ es /\ allocs es <> [] /\ destroys es = [].
Proof. exact R24. Qed.
Print Assumptions C24_buffers_released_refuted.

(* C25. Missing: fewer than 22 bytes after the last record are ignored. *)
Theorem C25_partial_record_reported_partial : forall P lib al a ops rs f, protector P lib al a ops rs f ->
  forall input fs f' bs, fop_ok (FUnprotect input) ->
  fstep P lib al f (FUnprotect input) fs = Done (f', FUnprotected kOk bs) ->
  exists ps rest, iov_concat input = concat (map framed ps) ++ rest /\ Forall (fun p => lenN p < 65536) ps /\
    length ps = length bs /\ ps <> [] /\ lenN rest < 22.
Proof. exact F25. Qed.
Print Assumptions C25_partial_record_reported_partial.

Theorem C25_partial_record_reported_refuted : exists P lib al a f input f' bs,
  protector P lib al a [] [] f /\ fop_ok (FUnprotect input) /\
  fstep P lib al f (FUnprotect input) [] = Done (f', FUnprotected kOk bs) /\
  ~ (exists ps, whole_records ps (iov_concat input)).
Proof. exact R25. Qed.
Print Assumptions C25_partial_record_reported_refuted.

(* C26. Missing: [rest] need not be empty. *)
Theorem C26_single_record_partial : forall P lib al a ops rs f, protector P lib al a ops rs f ->
  forall input buf fs f' out len, fop_ok (FUnprotectInto input buf) ->
  fstep P lib al f (FUnprotectInto input buf) fs = Done (f', FUnprotectedInto kOk out len) ->
  exists p rest, iov_concat input = framed p ++ rest /\ lenN p < 65536 /\
    authentic P a p (takeN len (iov_data out)).
Proof. exact F26. Qed.
Print Assumptions C26_single_record_partial.

Theorem C26_single_record_refuted : exists P lib al a f input buf f' out len ps,
  protector P lib al a [] [] f /\ fop_ok (FUnprotectInto input buf) /\
  whole_records ps (iov_concat input) /\ length ps = 2%nat /\
  fstep P lib al f (FUnprotectInto input buf) [] = Done (f', FUnprotectedInto kOk out len).
Proof. exact R26. Qed.
Print Assumptions C26_single_record_refuted.

(* C27. Missing: empty buffers given to Unprotect. *)
Theorem C27_reads_in_bounds_partial : forall P lib al a ops rs f, protector P lib al a ops rs f ->
  forall op fs, fop_ok op ->
  (forall input, op = FProtect input \/ (exists id buf, op = FProtectInto input id buf) ->
     exists y, fstep P lib al f op fs = Done y) /\
  (forall input, op = FUnprotect input \/ (exists buf, op = FUnprotectInto input buf) ->
     Forall nonempty_iov input ->
     (exists y, fstep P lib al f op fs = Done y) \/ fstep P lib al f op fs = Undef UbNegativeShift).
Proof. exact F27. Qed.
Print Assumptions C27_reads_in_bounds_partial.

Theorem C27_reads_in_bounds_refuted : exists P lib al a f input,
  protector P lib al a [] [] f /\ fop_ok (FUnprotect input) /\
  fstep P lib al f (FUnprotect input) [] = Undef UbOutOfBounds.
Proof. exact R27. Qed.
Print Assumptions C27_reads_in_bounds_refuted.

(* C31. Missing: the single-record Unprotect with less than 22 bytes. *)
Theorem C31_no_bytes_with_error_partial : forall P lib al a ops rs f, protector P lib al a ops rs f ->
  forall op fs f' r, fop_ok op -> fstep P lib al f op fs = Done (f', r) ->
  match r with
  | FProtected st bs | FUnprotected st bs => st <> kOk -> bs = []
  | FProtectedInto st out => True
  | FUnprotectedInto st out len => st <> kOk -> len = 0 \/
      exists input buf, op = FUnprotectInto input buf /\ sum_lens input < 22 /\ out = IoBuf buf /\ len = lenN buf
  end.
Proof. exact F31. Qed.
Print Assumptions C31_no_bytes_with_error_partial.

Theorem C31_public_status : forall P lib al a ops rs f, protector P lib al a ops rs f ->
  forall hdr p rest input buf fs f' st out len, fop_ok (FUnprotectInto input buf) ->
  iov_concat input = hdr ++ p ++ rest -> is_record hdr p -> 22 <= sum_lens input ->
  fstep P lib al f (FUnprotectInto input buf) fs = Done (f', FUnprotectedInto st out len) ->
  exists ps s n, iov_concat ps = p /\ cop_ok (CUnprotect hdr ps buf) /\
    cstep P lib (fp_crypt f) (CUnprotect hdr ps buf) fs = Done (fp_crypt f', CUnprotected s n out) /\
    st = public_code s.
Proof. exact F31code. Qed.
Print Assumptions C31_public_status.

Theorem C31_no_bytes_with_error_refuted : exists P lib al a f input buf f' st out len,
  protector P lib al a [] [] f /\ fop_ok (FUnprotectInto input buf) /\
  fstep P lib al f (FUnprotectInto input buf) [] = Done (f', FUnprotectedInto st out len) /\ st <> kOk /\ len <> 0.
Proof. exact R31. Qed.
Print Assumptions C31_no_bytes_with_error_refuted.

(* C32. *)
Theorem C32_frame_creation_validates : forall P lib a fs,
  prims_ok P -> ca_in_seq (fa_crypt a) < two64 -> ca_out_seq (fa_crypt a) < two64 ->
  let c := fa_crypt a in
  let valid := fa_allocator a = true /\ fa_destroy a = true /\ fa_logger a = true /\
     ca_url c <> [] /\ ca_tls c = TLS1_3 /\
     lenN (ca_in_secret c) = spec_hash_len (ca_suite c) /\
     lenN (ca_out_secret c) = spec_hash_len (ca_suite c) in
  exists r fs', fp_create P lib a fs = Done (r, fs') /\
    (forall c, r = inl c -> c <> kOk) /\
    ((exists f, r = inr f) -> valid) /\
    (valid -> fs = [] -> exists f, r = inr f).
Proof. exact F32. Qed.
Print Assumptions C32_frame_creation_validates.

(* C33: what Unprotect returns is the content of records made with the keys of
   the inbound direction. *)
Theorem C33_frame_only_peer_records : forall P lib al a ops rs f, protector P lib al a ops rs f ->
  forall input fs f' bs, fop_ok (FUnprotect input) ->
  fstep P lib al f (FUnprotect input) fs = Done (f', FUnprotected kOk bs) ->
  exists ps rest, iov_concat input = concat (map framed ps) ++ rest /\ lenN rest < 22 /\
    Forall (fun p => lenN p < 65536) ps /\ Forall2 (authentic P a) ps (map fb_bytes bs).
Proof. exact F33. Qed.
Print Assumptions C33_frame_only_peer_records.

(* Cases: a fresh protector; one that has received two records and sent one. *)
Example C02_case : forall lib s, exists f, protector toy lib toy_al (fargs s) [] [] f.
Proof. exact fresh_protector. Qed.

Example C24_C25_C33_case : exists f rs, protector toy OpenSSL toy_al (fargs S0) ops2 rs f /\
  exists bs1 bs2, rs = [FUnprotected kOk bs1; FProtected kOk bs2] /\ map fb_bytes bs1 = [[1; 2; 3]; [4]] /\
    fp_events f = [EvAlloc 0 20; EvAlloc 1 18; EvAlloc 2 24].
Proof. exact two_received. Qed.
