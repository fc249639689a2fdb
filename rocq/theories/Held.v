(* What a handler keeps of the bytes a peer sent: handshake_message_handler.h
   140-172. *)
From Coq Require Import List NArith Bool.
From Verif Require Import Base HsHandler.
Import ListNotations.
Local Open Scope N_scope.

(* The fragments kept (message_fragments_ and those of full_tickets_); their
   bytes. *)
Definition kept_fragments (h : handler) : list bytes :=
  hs_frags h ++ match hs_tickets h with Some ts => concat ts | None => [] end.
Definition held (h : handler) : N := lenN (concat (kept_fragments h)).

(* The size of the longest handshake message: 4 bytes of header, 2^24-1 of
   body. *)
Definition longest_message : N := 4 + 16777215.

(* How much is kept of a well-formed stream of handshake messages: [tickets]
   received, [part] of the next message, whether tickets have been handed over.
   Of tickets that will not be kept only the header is. *)
Definition kept_size (handed_over : bool) (tickets : list bytes) (part_is_ticket : bool) (part : bytes) : N :=
  (if handed_over then 0 else lenN (concat (firstn 5 tickets))) +
  (if (handed_over || (5 <=? lenN tickets)) && part_is_ticket then N.min 4 (lenN part) else lenN part).
