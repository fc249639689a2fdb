(* Threads: C28, C29. *)
From Coq Require Import List NArith Bool.
From Verif Require Import Base Aead Hkdf HalfConn SpecTls HalfRun Options HsHandler Crypter CrypterRun
  FrameProt SpecFrame FrameRun Conc ConcAlone ConcRun ConcInst ConcInst2
  Toy ToyProofs HalfExamples FrameExamples RecordExamples ConcRefuted
  FrameRef ConcPair ConcPairProofs ConcPairExample.
Import ListNotations.
Local Open Scope N_scope.

(* The programs whose steps are interleaved below are the functions of the
   sequential model. *)
Theorem C28_protect_alone : forall P al f input fs,
  alone (fp_protect_c P al (heap_of f) input fs) (fp_crypt f) =
  obind (fp_protect P al f input fs) (fun '((f', st, bs), gs) => Done (fp_crypt f', ((heap_of f', st, bs), gs))).
Proof. exact protect_program. Qed.
Print Assumptions C28_protect_alone.

Theorem C28_unprotect_alone : forall P lib al f input fs,
  alone (fp_unprotect_c P lib al (heap_of f) input fs) (fp_crypt f) =
  obind (fp_unprotect P lib al f input fs) (fun '((f', st, bs), gs) => Done (fp_crypt f', ((heap_of f', st, bs), gs))).
Proof. exact unprotect_program. Qed.
Print Assumptions C28_unprotect_alone.

(* The same for any of the four operations. *)
Theorem C28_call_alone : forall P lib al f op fs,
  match fstep P lib al f op fs with
  | Done (f', r) => exists gs, alone (call_c P lib al (heap_of f) op fs) (fp_crypt f) = Done (fp_crypt f', ((heap_of f', r), gs))
  | Undef u => alone (call_c P lib al (heap_of f) op fs) (fp_crypt f) = Undef u
  | NoFuel => alone (call_c P lib al (heap_of f) op fs) (fp_crypt f) = NoFuel
  end.
Proof. exact call_alone. Qed.
Print Assumptions C28_call_alone.

(* C28. A Protect call and an Unprotect call on the same protector in two
   threads, for every schedule: each call that has returned has its sequential
   result, the final state is that of the two calls made one after the other
   (Unprotect changes everything but the outbound half connection, Protect only
   that), and every schedule can be completed; or the code uses a freed object,
   and this happens only if the Unprotect call installs a new key. Missing:
   that last case. *)
Theorem C28_protect_and_unprotect_partial : forall P lib al a ops rs f, protector P lib al a ops rs f ->
  forall in1 fs1 in2 fs2 fu st2 bs2 gs2, fop_ok (FProtect in1) ->
  fp_unprotect P lib al f in2 fs2 = Done ((fu, st2, bs2), gs2) ->
  exists fp st1 bs1 gs1, fp_protect P al f in1 fs1 = Done ((fp, st1, bs1), gs1) /\
  forall sched,
  match both sched (fp_protect_c P al (heap_of f) in1 fs1) (fp_unprotect_c P lib al (heap_of f) in2 fs2) (fp_crypt f) with
  | Done (x, p, q) =>
    (forall r, p = Ret r -> r = ((heap_of fp, st1, bs1), gs1)) /\
    (forall r, q = Ret r -> r = ((heap_of fu, st2, bs2), gs2)) /\
    (forall r r', p = Ret r -> q = Ret r' -> x = set_out (fp_crypt fu) (cx_out (fp_crypt fp))) /\
    (exists sched', match both sched' p q x with
                    | Done (_, p', q') => (exists r, p' = Ret r) /\ (exists r, q' = Ret r)
                    | _ => True
                    end)
  | Undef u => u = UbUseAfterFree /\ hc_epoch (cx_in (fp_crypt f)) < hc_epoch (cx_in (fp_crypt fu))
  | NoFuel => False
  end.
Proof. exact two_calls. Qed.
Print Assumptions C28_protect_and_unprotect_partial.

Example C28_case : forall lib s, exists f fu bs2 gs2, protector toy lib toy_al (fargs s) [] [] f /\
  fop_ok (FProtect [IoBuf [1; 2]; IoBuf [3]]) /\
  fp_unprotect toy lib toy_al f [IoBuf (from_peer s [[5]; [6; 7]])] [] = Done ((fu, kOk, bs2), gs2) /\
  map fb_bytes bs2 = [[5]; [6; 7]] /\
  both_done (both weave (fp_protect_c toy toy_al (heap_of f) [IoBuf [1; 2]; IoBuf [3]] [])
    (fp_unprotect_c toy lib toy_al (heap_of f) [IoBuf (from_peer s [[5]; [6; 7]])] []) (fp_crypt f)) = true.
Proof. exact case28. Qed.

(* The last case happens: Protect loads aead_crypter_ of the inbound half
   connection in RecordOverhead, the other thread receives a KeyUpdate, Protect
   uses the freed crypter. *)
Theorem C28_use_after_free_refuted : exists P lib al a f in1 in2 sched fp bs1 gs1 fu bs2 gs2,
  protector P lib al a [] [] f /\ fop_ok (FProtect in1) /\ fop_ok (FUnprotect in2) /\
  fp_protect P al f in1 [] = Done ((fp, kOk, bs1), gs1) /\
  fp_unprotect P lib al f in2 [] = Done ((fu, kOk, bs2), gs2) /\
  both sched (fp_protect_c P al (heap_of f) in1 []) (fp_unprotect_c P lib al (heap_of f) in2 []) (fp_crypt f) =
    Undef UbUseAfterFree.
Proof. exact R28. Qed.
Print Assumptions C28_use_after_free_refuted.

(* C28 for whole threads: one makes any list of Protect calls, the other any
   list of Unprotect calls (into buffers of the allocator or of the caller).
   For every schedule and at every moment the calls that have returned have the
   results they have when each thread runs alone, and when both threads are at
   their end the state is that of the two lists run one after the other; every
   schedule can be completed; or the code uses a freed object, and this happens
   only if the reading thread installs a new key. Missing: that last case. *)
Theorem C28_writer_and_reader_partial : forall P lib al a ops rs f, protector P lib al a ops rs f ->
  forall ws rds fu ru, Forall (fun p => writes (fst p)) ws -> fops_ok ws -> Forall (fun p => reads (fst p)) rds ->
  frun P lib al f rds = Done (fu, ru) ->
  exists fp rw, frun P lib al f ws = Done (fp, rw) /\
  forall sched,
  match pair_run P lib al sched (fp_crypt f) (side_start f ws) (side_start f rds) with
  | Done (x, t, u) =>
    (exists later, rw = sd_done t ++ later) /\ (exists later, ru = sd_done u ++ later) /\
    (side_end t -> sd_done t = rw) /\ (side_end u -> sd_done u = ru) /\
    (side_end t -> side_end u -> x = set_out (fp_crypt fu) (cx_out (fp_crypt fp))) /\
    (exists sched', match pair_run P lib al sched' x t u with
                    | Done (_, t', u') => side_end t' /\ side_end u'
                    | Undef v => v = UbUseAfterFree
                    | NoFuel => False
                    end)
  | Undef v => v = UbUseAfterFree /\ hc_epoch (cx_in (fp_crypt f)) < hc_epoch (cx_in (fp_crypt fu))
  | NoFuel => False
  end.
Proof. exact two_threads. Qed.
Print Assumptions C28_writer_and_reader_partial.

(* And in that last case there always is such a schedule, whatever the
   primitives, the history and the data. *)
Theorem C28_every_key_change_races_refuted : forall P lib al a ops rs f, protector P lib al a ops rs f ->
  forall input fs ws rds fu ru, frun P lib al f rds = Done (fu, ru) ->
  hc_epoch (cx_in (fp_crypt f)) <> hc_epoch (cx_in (fp_crypt fu)) ->
  exists sched, pair_run P lib al sched (fp_crypt f) (side_start f ((FProtect input, fs) :: ws)) (side_start f rds) =
    Undef UbUseAfterFree.
Proof. exact race_always. Qed.
Print Assumptions C28_every_key_change_races_refuted.

(* Two writes and two reads, alternating; and a KeyUpdate, which changes the
   key. *)
Example C28_threads_case : exists f fu ru fk rk x t u, protector toy OpenSSL toy_al (fargs S0) [] [] f /\
  Forall (fun p => writes (fst p)) p_writes /\ fops_ok p_writes /\ Forall (fun p => reads (fst p)) p_reads /\
  frun toy OpenSSL toy_al f p_reads = Done (fu, ru) /\
  map answer_of ru = [ABuffers kOk [[5]; [6; 7]]; ARead kOk ([8; 23] ++ zeros 18) 1] /\
  pair_run toy OpenSSL toy_al p_weave (fp_crypt f) (side_start f p_writes) (side_start f p_reads) = Done (x, t, u) /\
  side_end t /\ side_end u /\
  frun toy OpenSSL toy_al f p_update = Done (fk, rk) /\
  hc_epoch (cx_in (fp_crypt f)) <> hc_epoch (cx_in (fp_crypt fk)).
Proof. exact p_case. Qed.

(* C29. Any number of threads, each with its list of calls, and any schedule:
   what has happened so far is explained by a sequential execution [l1], what
   happens later by its extension [l1 ++ l2] (so calls that do not overlap
   keep their order). At every moment, also inside a call, no nonce has been
   used twice and no sequence number has been skipped. Every schedule can be
   completed. *)
Theorem C29_half_connection_linearizable : forall P lib s q S ops rs h calls,
  prims_ok P -> q < two64 -> hops_ok ops -> hreach P lib s q S ops rs h -> Forall hops_ok calls ->
  forall sched1 sched2, exists (c1 c2 : h_threads) l1 l2,
    trun h_pre (h_body P lib) (tstart h calls) sched1 = Done c1 /\
    trun h_pre (h_body P lib) c1 sched2 = Done c2 /\
    explains (hrun P lib) h calls c1 l1 /\ explains (hrun P lib) h calls c2 (l1 ++ l2) /\
    in_order P s q S (cf_mem c2) /\
    exists sched3 c3, trun h_pre (h_body P lib) c2 sched3 = Done c3 /\ finished c3.
Proof. exact half_linear. Qed.
Print Assumptions C29_half_connection_linearizable.

Example C29_half_case : forall lib s, exists h rs (c : h_threads),
  hreach toy lib s 7 (secret_for s) good_ops rs h /\ Forall hops_ok h_calls /\
  trun h_pre (h_body toy lib) (tstart h h_calls) round_robin = Done c /\ finished c /\
  map (fun t => map hstatus (th_done t)) (cf_threads c) = [[kOk; kOk]; [kOk]; [kOk]] /\
  map fst (skipn 3 (hc_used (cf_mem c))) = [1; 1; 2].
Proof. exact case29_half. Qed.

Theorem C29_crypter_protect_linearizable : forall P lib a ops rs x calls,
  connection P lib a ops rs x -> Forall (Forall x_ok) calls ->
  forall sched1 sched2, exists (c1 c2 : x_threads) l1 l2,
    trun x_pre (x_body P lib) (tstart x calls) sched1 = Done c1 /\
    trun x_pre (x_body P lib) c1 sched2 = Done c2 /\
    explains (x_run P lib) x calls c1 l1 /\ explains (x_run P lib) x calls c2 (l1 ++ l2) /\
    in_order P (ca_suite a) (ca_out_seq a) (ca_out_secret a) (cx_out (cf_mem c2)) /\
    exists sched3 c3, trun x_pre (x_body P lib) c2 sched3 = Done c3 /\ finished c3.
Proof. exact crypter_linear. Qed.
Print Assumptions C29_crypter_protect_linearizable.

Example C29_crypter_case : forall lib s, exists x (c : x_threads), connection toy lib (arg s) [] [] x /\
  Forall (Forall x_ok) x_calls /\
  trun x_pre (x_body toy lib) (tstart x x_calls) two_robin = Done c /\ finished c /\
  map (fun t => map xstatus (th_done t)) (cf_threads c) = [[S_OK]; [S_FAILED_PRECONDITION; S_OK]].
Proof. exact case29_crypter. Qed.

Theorem C29_frame_protect_linearizable : forall P lib al a ops rs f calls,
  protector P lib al a ops rs f -> Forall (Forall f_ok) calls ->
  forall sched1 sched2, exists (c1 c2 : f_threads) l1 l2,
    trun (f_pre al) (f_body P) (tstart (fp_crypt f) calls) sched1 = Done c1 /\
    trun (f_pre al) (f_body P) c1 sched2 = Done c2 /\
    explains (seq_run (f_step P al (fp_max f))) (fp_crypt f) calls c1 l1 /\
    explains (seq_run (f_step P al (fp_max f))) (fp_crypt f) calls c2 (l1 ++ l2) /\
    in_order P (ca_suite (fa_crypt a)) (ca_out_seq (fa_crypt a)) (ca_out_secret (fa_crypt a)) (cx_out (cf_mem c2)) /\
    exists sched3 c3, trun (f_pre al) (f_body P) c2 sched3 = Done c3 /\ finished c3.
Proof. exact frame_linear. Qed.
Print Assumptions C29_frame_protect_linearizable.

Example C29_frame_case : forall lib s, exists f (c : f_threads), protector toy lib toy_al (fargs s) [] [] f /\
  Forall (Forall f_ok) f_calls /\
  trun (f_pre toy_al) (f_body toy) (tstart (fp_crypt f) f_calls) two_robin = Done c /\
  finished c /\ map (fun t => map (fun r => fst (fst r)) (th_done t)) (cf_threads c) = [[kOk]; [kOk; kOk]].
Proof. exact case29_frame. Qed.

(* Beyond C29: S2ACrypter::UpdateOutboundKey, a public method that no other
   code in the repository calls, must not run concurrently with Protect: Protect
   reads the tag length through a pointer it loads without the mutex. *)
Theorem C29_update_outbound_key_refuted : exists P lib a x calls sched, connection P lib a [] [] x /\
  (forall i os, nth_error calls i = Some os -> exists y, x_run P lib x os = Done y) /\
  trun x_pre (x_body P lib) (tstart x calls) sched = Undef UbUseAfterFree.
Proof. exact R29. Qed.
Print Assumptions C29_update_outbound_key_refuted.
