(* Threads that call the single-record Unprotect of one S2AFrameProtector.
   include/s2a_frame_protector.h 113 says that it should not be called
   concurrently, 156 that "|unprotect_mu_| guards against concurrent calls to
   |Unprotect|". This form of Unprotect (s2a_frame_protector.cc 319-377) does not
   take it. Model, and what it means that such an execution is
   explained by sequential ones. *)
From Coq Require Import List NArith Bool PeanoNat.
From Verif Require Import Base Aead Hkdf HalfConn SpecTls Options HsHandler Crypter SpecRecord FrameProt SpecFrame FrameRun
  Conc ConcRun ConcPair SpecKeyChange.
Import ListNotations.
Local Open Scope N_scope.

(* ---- Any number of threads without a mutex; ConcPair.v has the steps of one
   thread. Thread number [i] makes a step. ---- *)
Definition team_step (P : prims) (lib : ssl_lib) (al : allocator) (x : crypt) (ts : list side) (i : nat)
  : outcome (crypt * list side) :=
  match nth_error ts i with
  | None => Done (x, ts)
  | Some t => obind (side_step P lib al x t) (fun '(x, t) => Done (x, set_nth i t ts))
  end.
Fixpoint team_run (P : prims) (lib : ssl_lib) (al : allocator) (x : crypt) (ts : list side) (sched : list nat)
  : outcome (crypt * list side) :=
  match sched with
  | [] => Done (x, ts)
  | i :: r => obind (team_step P lib al x ts i) (fun '(x, ts) => team_run P lib al x ts r)
  end.
Definition team_start (f : fprot) (calls : list (list (fop * faults))) : list side := map (side_start f) calls.

(* The plaintext of a record that carries handshake bytes, or of a close_notify
   alert (RFC 8446, 6: a level, then the description 0; s2a_crypter.cc reads
   these two bytes only). *)
Definition control (msg : bytes) : Prop :=
  (exists content pad, msg = inner ty_handshake content pad) \/
  (exists level rest pad, msg = inner ty_alert (level :: 0 :: rest) pad).

(* No record in [data], sealed with the current key of the peer, whatever the
   sequence number, is such a record. *)
Definition no_control (P : prims) (a : create_args) (x : crypt) (data : bytes) : Prop :=
  forall p seq msg, control msg -> has_record data p ->
    p <> dir_seal P {| d_suite := ca_suite a; d_secret := nth_secret P (ca_suite a) (ca_in_secret a) (N.to_nat (hc_epoch (cx_in x)));
                       d_seq := seq; d_broken := false |} (tls_header (lenN p)) msg.

(* A call of the single-record Unprotect with such data. *)
Definition data_call (P : prims) (a : create_args) (x : crypt) (c : fop * faults) : Prop :=
  exists input buf, fst c = FUnprotectInto input buf /\ fop_ok (fst c) /\ Forall nonempty_iov input /\
    no_control P a x (iov_concat input).

(* No ticket is waiting to be sent (s2a_crypter.cc 463-466). Otherwise the first
   application data make Unprotect send the tickets, which Conc.v counts as one
   access: true of calls with the mutex only, so not assumed here. *)
Definition nothing_to_send (x : crypt) : Prop := cx_phase x <> RECEIVING.

(* The calls of [l], made one after another on [f] in this order, explain the
   memory [x] and the threads [ts] that were given the calls [calls]: every
   result returned is the one in [l]; besides the calls that have returned, [l]
   contains at most one call of each thread, the one it is inside of. *)
Definition team_explained (P : prims) (lib : ssl_lib) (al : allocator) (f : fprot) (calls : list (list (fop * faults)))
  (x : crypt) (ts : list side) (l : list (entry (fop * faults) fres)) : Prop :=
  exists f1, frun P lib al f (map e_op l) = Done (f1, map e_res l) /\
  (Forall side_end ts -> x = fp_crypt f1) /\
  length ts = length calls /\
  (forall e, In e l -> (e_thread e < length calls)%nat) /\
  forall i t, nth_error ts i = Some t -> exists pending begun,
    map e_res (of_thread i l) = sd_done t ++ pending /\
    nth_error calls i = Some (map e_op (of_thread i l) ++ begun ++ sd_todo t) /\
    (length pending + length begun)%nat = match sd_now t with Some _ => 1 | None => 0 end%nat.
