(* Threads that call Protect and Unprotect at the same time: C95. *)
From Coq Require Import List NArith Bool.
From Verif Require Import Base Aead Hkdf HalfConn SpecTls Options HsHandler Crypter CrypterRun
  FrameProt SpecFrame FrameRun Conc ConcRun ConcRead ConcMix ConcMixProofs ConcMixNonce
  Toy FrameExamples RecordExamples ConcMixExamples.
Import ListNotations.
Local Open Scope N_scope.

(* C95. Any number of threads, each with its list of calls of Protect, of
   Protect into a buffer and of Unprotect, and any schedule: what has happened so
   far is explained by a sequential execution [l1] of all these calls, what
   happens later by its extension; every schedule can be completed. Or there is
   undefined behaviour that is excused: a sequential execution of some of the
   calls has it too, or it is the use of a freed object and such a sequential
   execution installs a new inbound key (or is undefined). Missing: that use of
   a freed object. *)
Theorem C95_threads_linearizable_partial : forall P lib al a ops rs f calls,
  protector P lib al a ops rs f -> Forall (Forall m_ok) calls ->
  let run := mrun m_lock (m_pre al) (m_body P lib al) in
  forall sched1 sched2,
  match run (mstart (fp_crypt f) calls : m_threads) sched1 with
  | Done c1 =>
    exists l1, m_explains (seq_run (m_step P lib al (fp_max f))) (fp_crypt f) calls c1 l1 /\
    match run c1 sched2 with
    | Done c2 => exists l2, m_explains (seq_run (m_step P lib al (fp_max f))) (fp_crypt f) calls c2 (l1 ++ l2)
    | Undef u => m_excused P lib al (fp_max f) (fp_crypt f) calls u
    | NoFuel => False
    end /\
    exists sched3,
    match run c1 sched3 with
    | Done c3 => m_finished c3
    | Undef u => m_excused P lib al (fp_max f) (fp_crypt f) calls u
    | NoFuel => False
    end
  | Undef u => m_excused P lib al (fp_max f) (fp_crypt f) calls u
  | NoFuel => False
  end.
Proof. exact threads_linear. Qed.
Print Assumptions C95_threads_linearizable_partial.

(* If no selection of the calls, made one after another in the order of the
   threads, installs a new inbound key or has undefined behaviour, then no
   schedule has undefined behaviour either, and every one is explained by a
   sequential execution and can be completed. *)
Theorem C95_threads_linearizable_same_key : forall P lib al a ops rs f calls,
  protector P lib al a ops rs f -> Forall (Forall m_ok) calls ->
  (forall ps, drawn calls ps -> exists x' r,
     seq_run (m_step P lib al (fp_max f)) (fp_crypt f) (map snd ps) = Done (x', r) /\
     hc_epoch (cx_in x') = hc_epoch (cx_in (fp_crypt f))) ->
  let run := mrun m_lock (m_pre al) (m_body P lib al) in
  forall sched1 sched2, exists (c1 c2 : m_threads) l1 l2,
    run (mstart (fp_crypt f) calls) sched1 = Done c1 /\
    run c1 sched2 = Done c2 /\
    m_explains (seq_run (m_step P lib al (fp_max f))) (fp_crypt f) calls c1 l1 /\
    m_explains (seq_run (m_step P lib al (fp_max f))) (fp_crypt f) calls c2 (l1 ++ l2) /\
    exists sched3 c3, run c1 sched3 = Done c3 /\ m_finished c3.
Proof. exact threads_linear_calm. Qed.
Print Assumptions C95_threads_linearizable_same_key.

(* Three threads in turns, each making two calls; the records come out in the
   order in which the threads got protect_mu_. And two threads to which the
   second theorem applies. *)
Example C95_case : exists f (c : m_threads), protector toy OpenSSL toy_al (fargs S0) [] [] f /\
  Forall (Forall m_ok) m_calls /\
  mrun m_lock (m_pre toy_al) (m_body toy OpenSSL toy_al) (mstart (fp_crypt f) m_calls) m_robin = Done c /\ m_finished c /\
  m_answers c =
    [[(kOk, [sent 2 1]); (kOk, [[5]; [6; 7]])];
     [(kOk, [sent 0 2]); (kFailedPrecondition, [[0; 0]])];
     [(kFailedPrecondition, []); (kOk, [sent 1 3])]] /\
  Forall (Forall m_ok) two_calls /\
  forall ps, drawn two_calls ps -> exists x' r,
    seq_run (m_step toy OpenSSL toy_al (fp_max f)) (fp_crypt f) (map snd ps) = Done (x', r) /\
    hc_epoch (cx_in x') = hc_epoch (cx_in (fp_crypt f)).
Proof. exact case95. Qed.

(* The mutexes do not exclude each other: whenever an Unprotect call installs a
   new key, whatever the primitives, the history and the data, there is a moment
   when one thread is inside Protect and another inside this Unprotect, each
   holding its mutex, from which Protect can go on to use the freed crypter. *)
Theorem C95_mutexes_do_not_exclude_refuted : forall P lib al a ops rs f, protector P lib al a ops rs f ->
  forall o n buf fs ws rds x' r, r_step P lib al (fp_max f) (fp_crypt f) o = Done (x', r) ->
  hc_epoch (cx_in (fp_crypt f)) <> hc_epoch (cx_in x') ->
  exists sched1 sched2 (c : m_threads),
    mrun m_lock (m_pre al) (m_body P lib al) (mstart (fp_crypt f)
      [MProtectInto {| fc_input := []; fc_id := n; fc_faults := fs |} buf :: ws; MUnprotect o :: rds]) sched1 = Done c /\
    mc_writer c = Some 0%nat /\ mc_reader c = Some 1%nat /\
    mrun m_lock (m_pre al) (m_body P lib al) c sched2 = Undef UbUseAfterFree.
Proof. exact threads_race. Qed.
Print Assumptions C95_mutexes_do_not_exclude_refuted.

(* C04, C06 with threads that send and receive: at every moment of every
   execution, also inside the calls, no pair of key and nonce has been used twice,
   and the nonces used with a key are those of its sequence numbers in order and
   without gaps. *)
Theorem C04_threads_nonces_in_order : forall P lib al a ops rs f calls,
  protector P lib al a ops rs f -> Forall (Forall m_ok) calls ->
  forall sched (c : m_threads),
  mrun m_lock (m_pre al) (m_body P lib al) (mstart (fp_crypt f) calls) sched = Done c ->
  in_order P (ca_suite (fa_crypt a)) (ca_out_seq (fa_crypt a)) (ca_out_secret (fa_crypt a)) (cx_out (mc_mem c)).
Proof. exact threads_in_order. Qed.
Print Assumptions C04_threads_nonces_in_order.

Example C04_threads_case : exists f (c : m_threads), protector toy OpenSSL toy_al (fargs S0) [] [] f /\
  Forall (Forall m_ok) m_calls /\
  mrun m_lock (m_pre toy_al) (m_body toy OpenSSL toy_al) (mstart (fp_crypt f) m_calls) m_half = Done c /\
  mc_writer c = Some 2%nat /\ length (hc_used (cx_out (mc_mem c))) = 2%nat.
Proof. exact case95_nonces. Qed.
