(* What the size of a caller's buffer may change: specification of C83. *)
From Coq Require Import List NArith Bool.
From Verif Require Import Base FrameProt FrameRun.
Import ListNotations.
Local Open Scope N_scope.

(* Two calls of the single-record Unprotect end in the same way, and on success
   the bytes reported are the same. *)
Definition same_reading (x y : outcome (fprot * fres)) : Prop :=
  match x, y with
  | Done (f1, FUnprotectedInto st1 out1 n1), Done (f2, FUnprotectedInto st2 out2 n2) =>
    f1 = f2 /\ st1 = st2 /\
    (st1 = kOk -> n1 = n2 /\ n1 <= iov_len out1 /\ n1 <= iov_len out2 /\
       takeN n1 (iov_data out1) = takeN n1 (iov_data out2))
  | Undef u1, Undef u2 => u1 = u2
  | _, _ => False
  end.
