(* Two threads with one S2AFrameProtector: one makes a list of Protect calls,
   the other a list of Unprotect calls, as include/s2a_frame_protector.h 72-114
   allows. Model. *)
From Coq Require Import List NArith Bool.
From Verif Require Import Base Aead Hkdf HalfConn Options HsHandler Crypter FrameProt FrameRun Conc.
Import ListNotations.
Local Open Scope N_scope.

(* NumberBytesToUnprotect (s2a_frame_protector.cc 496-502) as a program. *)
Definition number_unprotect_c (len : N) : C crypt N :=
  o <~ overhead_c ;;
  cret (if len <? o then 0 else len - kTlsRecordHeaderSize).

(* Unprotect of a single record into a caller-provided buffer
   (s2a_frame_protector.cc 319-377) as a program. The function takes no lock. *)
Definition fp_unprotect_into_c (P : prims) (lib : ssl_lib) (m : heap)
  (input : list iovec) (out : iovec) : C crypt (heap * code * iovec * N) :=
  n <~ number_unprotect_c (total_len input) ;;
  if n =? 0 then cret (m, kFailedPrecondition, out, iov_len out) else
  r <~ own (compute_record_size (input, 0)) ;;
  match r with
  | inl st => cret (m, st, out, 0)
  | inr (hdr, (vs, on)) =>
    r <~ own (isolate_payload vs on (header_payload_size hdr)) ;;
    match r with
    | inl st => cret (m, st, out, 0)
    | inr (payload, _) =>
      '((st, written), out) <~ crypt_unprotect_c P lib (IoBuf hdr) payload out ;;
      match st with
      | S_OK => cret (m, kOk, out, written)
      | _ => cret (m, fp_code st, out, 0)
      end
    end
  end.

(* Any of the four operations (include/s2a_frame_protector.h 74-117) as a
   program. *)
Definition call_c (P : prims) (lib : ssl_lib) (al : allocator) (m : heap)
  (op : fop) : C crypt (heap * fres) :=
  match op with
  | FProtect input =>
    '(m, st, bs) <~ fp_protect_c P al m input ;; cret (m, FProtected st bs)
  | FProtectInto input id buf =>
    '(m, st, out) <~ fp_protect_into_c P m input id (IoBuf buf) ;;
    cret (m, FProtectedInto st out)
  | FUnprotect input =>
    '(m, st, bs) <~ fp_unprotect_c P lib al m input ;; cret (m, FUnprotected st bs)
  | FUnprotectInto input buf =>
    '(m, st, out, n) <~ fp_unprotect_into_c P lib m input (IoBuf buf) ;;
    cret (m, FUnprotectedInto st out n)
  end.

(* A thread: its bookkeeping of the buffers it has obtained (simplification:
   each thread numbers its own buffers), the call it is inside of, the calls it
   has yet to make, and the results of those that have returned. *)
Record side := {
  sd_heap : heap;
  sd_now : option (prog crypt (heap * fres * faults));
  sd_todo : list (fop * faults);
  sd_done : list fres
}.

(* The thread makes a step: it calls, or makes a step of the call, or returns
   from it; having nothing left to do, it does nothing. *)
Definition side_step (P : prims) (lib : ssl_lib) (al : allocator) (x : crypt)
  (t : side) : outcome (crypt * side) :=
  match sd_now t with
  | None =>
    match sd_todo t with
    | [] => Done (x, t)
    | (op, fs) :: r =>
      Done (x, {| sd_heap := sd_heap t;
                  sd_now := Some (call_c P lib al (sd_heap t) op fs);
                  sd_todo := r; sd_done := sd_done t |})
    end
  | Some (Ret ((m, res), _)) =>
    Done (x, {| sd_heap := m; sd_now := None; sd_todo := sd_todo t;
                sd_done := sd_done t ++ [res] |})
  | Some (Step f k) =>
    obind (f x) (fun '(x, b) =>
      Done (x, {| sd_heap := sd_heap t; sd_now := Some (k b);
                  sd_todo := sd_todo t; sd_done := sd_done t |}))
  end.

(* The two threads; at every moment of the schedule one of them makes a step
   ([true]: the first). *)
Fixpoint pair_run (P : prims) (lib : ssl_lib) (al : allocator)
  (sched : list bool) (x : crypt) (t u : side) : outcome (crypt * side * side) :=
  match sched with
  | [] => Done (x, t, u)
  | true :: r => obind (side_step P lib al x t) (fun '(x, t) => pair_run P lib al r x t u)
  | false :: r => obind (side_step P lib al x u) (fun '(x, u) => pair_run P lib al r x t u)
  end.

(* A thread before its first call. *)
Definition side_start (f : fprot) (ops : list (fop * faults)) : side :=
  {| sd_heap := heap_of f; sd_now := None; sd_todo := ops; sd_done := [] |}.

(* A thread after its last call. *)
Definition side_end (t : side) : Prop := sd_now t = None /\ sd_todo t = [].

(* The calls of the two threads. *)
Definition writes (op : fop) : Prop :=
  match op with FProtect _ | FProtectInto _ _ _ => True | _ => False end.
Definition reads (op : fop) : Prop :=
  match op with FUnprotect _ | FUnprotectInto _ _ => True | _ => False end.
