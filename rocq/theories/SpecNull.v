(* Output buffers of length 0: specification of C85. *)
From Coq Require Import List NArith.
From Verif Require Import Base FrameProt.
Import ListNotations.
Local Open Scope N_scope.

(* Two computations, the first given a null pointer of length 0 and the second
   an empty buffer, end in the same way: same result, same failures consumed,
   and each still has the buffer it was given. *)
Definition ends_same {A} (x y : outcome (A * iovec * faults)) : Prop :=
  match x, y with
  | Done (a1, o1, fs1), Done (a2, o2, fs2) => a1 = a2 /\ o1 = IoNull 0 /\ o2 = IoBuf [] /\ fs1 = fs2
  | Undef u1, Undef u2 => u1 = u2
  | _, _ => False
  end.

(* The result of the single-record Unprotect, with the buffer last. *)
Definition buffer_last (x : outcome (fprot * code * iovec * N * faults)) : outcome (fprot * code * N * iovec * faults) :=
  match x with
  | Done (f, st, out, n, fs) => Done (f, st, n, out, fs)
  | Undef u => Undef u
  | NoFuel => NoFuel
  end.
