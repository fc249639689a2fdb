(* Threads that call Unprotect at the same time: C93. *)
From Coq Require Import List NArith Bool.
From Verif Require Import Base Aead Hkdf HalfConn SpecTls Options HsHandler Crypter CrypterRun
  FrameProt SpecFrame FrameRun Conc ConcPair ConcRun ConcRead ConcReadProofs
  Toy FrameExamples RecordExamples ConcReadExamples.
Import ListNotations.
Local Open Scope N_scope.

(* C93. Any number of threads, each with its list of Unprotect calls, and any
   schedule: what has happened so far is explained by a sequential execution
   [l1], what happens later by its extension; every schedule can be completed.
   Or there is undefined behaviour that is excused: a sequential execution of
   some of the calls has it too, or it is the use of a freed object and such a
   sequential execution installs a new key (or is undefined). Missing: that
   use of a freed object. *)
Theorem C93_readers_linearizable_partial : forall P lib al a ops rs f calls,
  protector P lib al a ops rs f -> Forall (Forall r_ok) calls ->
  forall sched1 sched2,
  match trun r_pre (r_body P lib al) (tstart (fp_crypt f) calls : r_threads) sched1 with
  | Done c1 =>
    exists l1, explains (seq_run (r_step P lib al (fp_max f))) (fp_crypt f) calls c1 l1 /\
    match trun r_pre (r_body P lib al) c1 sched2 with
    | Done c2 => exists l2, explains (seq_run (r_step P lib al (fp_max f))) (fp_crypt f) calls c2 (l1 ++ l2)
    | Undef u => excused P lib al (fp_max f) (fp_crypt f) calls u
    | NoFuel => False
    end /\
    exists sched3,
    match trun r_pre (r_body P lib al) c1 sched3 with
    | Done c3 => finished c3
    | Undef u => excused P lib al (fp_max f) (fp_crypt f) calls u
    | NoFuel => False
    end
  | Undef u => excused P lib al (fp_max f) (fp_crypt f) calls u
  | NoFuel => False
  end.
Proof. exact readers_linear. Qed.
Print Assumptions C93_readers_linearizable_partial.

(* Three threads in turns, and a KeyUpdate. *)
Example C93_case : exists f (c : r_threads) x' bs evs, protector toy OpenSSL toy_al (fargs S0) [] [] f /\
  Forall (Forall r_ok) r_calls /\
  trun r_pre (r_body toy OpenSSL toy_al) (tstart (fp_crypt f) r_calls) r_robin = Done c /\ finished c /\
  r_answers c = [[(kOk, [[5]; [6; 7]])]; [(kOk, [[8]]); (kFailedPrecondition, [])]; [(kFailedPrecondition, [])]] /\
  r_ok r_ku /\ r_step toy OpenSSL toy_al (fp_max f) (fp_crypt f) r_ku = Done (x', (kOk, bs, evs)) /\
  hc_epoch (cx_in (fp_crypt f)) <> hc_epoch (cx_in x').
Proof. exact case93. Qed.

(* The use of a freed object happens: the length is compared with
   RecordOverhead before unprotect_mu_ is taken, so whenever a call installs a
   new key, whatever the primitives, the history and the data, any other call
   made at the same time can use the freed crypter. *)
Theorem C93_check_before_lock_refuted : forall P lib al a ops rs f, protector P lib al a ops rs f ->
  forall o o' ws rds x' r, r_step P lib al (fp_max f) (fp_crypt f) o = Done (x', r) ->
  hc_epoch (cx_in (fp_crypt f)) <> hc_epoch (cx_in x') ->
  exists sched, trun r_pre (r_body P lib al) (tstart (fp_crypt f) [o' :: ws; o :: rds] : r_threads) sched = Undef UbUseAfterFree.
Proof. exact readers_race. Qed.
Print Assumptions C93_check_before_lock_refuted.

(* Unprotect of a single record takes no lock at all: two calls, both of which
   return, where the second has a result that it has in neither order (it
   delivers data after the close_notify the first has decrypted). *)
Theorem C93_single_record_not_linearizable_refuted :
  exists P lib al a f op1 op2 sched x h1 h2 r1 r2 g1 g2 f12 s1 s2 f21 t1 t2,
  protector P lib al a [] [] f /\ (exists i b, op1 = FUnprotectInto i b) /\ (exists i b, op2 = FUnprotectInto i b) /\
  fop_ok op1 /\ fop_ok op2 /\
  both sched (call_c P lib al (heap_of f) op1 []) (call_c P lib al (heap_of f) op2 []) (fp_crypt f) =
    Done (x, Ret ((h1, r1), g1), Ret ((h2, r2), g2)) /\
  frun P lib al f [(op1, []); (op2, [])] = Done (f12, [s1; s2]) /\
  frun P lib al f [(op2, []); (op1, [])] = Done (f21, [t2; t1]) /\
  r2 <> s2 /\ r2 <> t2.
Proof. exact R93. Qed.
Print Assumptions C93_single_record_not_linearizable_refuted.
