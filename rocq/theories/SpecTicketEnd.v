(* What the ticket sender has done in all its calls. *)
From Coq Require Import List NArith Bool.
From Verif Require Import Base Crypter TicketEnd.
Import ListNotations.
Local Open Scope N_scope.

(* [results sd k sent rs]: the calls [sent], numbered from [k], had the results [rs]. *)
Inductive results (sd : sender) : nat -> list ticket_send -> list sender_result -> Prop :=
| ResNil : forall k, results sd k [] []
| ResCall : forall k s r rs, results sd (S k) r rs -> results sd k (s :: r) (sd k s :: rs).
Definition all_writes (rs : list sender_result) : list bytes := flat_map sr_writes rs.
Definition all_waits (rs : list sender_result) : list N :=
  flat_map (fun r => match sr_wait r with Some w => [w] | None => [] end) rs.

(* The functions called and the failures logged by the destructor. *)
Definition waited (es : list end_event) : list N :=
  flat_map (fun e => match e with EvWait w => [w] | EvLogFailure => [] end) es.
