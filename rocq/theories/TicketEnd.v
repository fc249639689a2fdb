(* Model of the end of a connection's ticket sending: the function pointer kept
   from the ticket sender, the destructor of S2ACrypter
   (src/record_protocol/s2a_crypter.cc 184-190, 590-591; s2a_crypter.h 181-186)
   and the sender the frame protector uses (s2a_upb_ticket_sender.cc 27-30,
   s2a_frame_protector.cc 206). *)
From Coq Require Import List NArith Bool.
From Verif Require Import Base Crypter.
Import ListNotations.
Local Open Scope N_scope.

(* What a call of a ticket sender (s2a_ticket_sender.h 45-58) does as far as it
   can be seen: the messages it writes to S2A, and the function pointer it
   returns, a number here, or null. *)
Record sender_result := { sr_writes : list bytes; sr_wait : option N }.
(* The sender is external: it may answer every call differently. *)
Definition sender := nat -> ticket_send -> sender_result.

(* SendTicketsToS2A: s2a_upb_ticket_sender.cc 27-30. A stub. *)
Definition send_tickets_to_s2a : sender := fun _ _ => {| sr_writes := []; sr_wait := None |}.

(* wait_on_ticket_sender_function_ after the calls [sent] of the sender: null at
   first (s2a_crypter.h 184-186), then what the latest call returned
   (s2a_crypter.cc 590-591). [k]: calls made already. *)
Fixpoint wait_function (sd : sender) (k : nat) (w : option N) (sent : list ticket_send) : option N :=
  match sent with
  | [] => w
  | s :: r => wait_function sd (S k) (sr_wait (sd k s)) r
  end.

Inductive end_event := EvWait (w : N) | EvLogFailure.

(* ~S2ACrypter: s2a_crypter.cc 184-190. [finish w]: what calling [w] returns. *)
Definition crypt_destroy (sd : sender) (finish : N -> bool) (x : crypt) : list end_event :=
  match wait_function sd 0 None (cx_sent x) with
  | None => []
  | Some w => EvWait w :: if finish w then [] else [EvLogFailure]
  end.
