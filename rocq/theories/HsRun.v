(* Feeding a list of handshake records to one HandshakeMessageHandler. *)
From Coq Require Import List NArith Bool.
From Verif Require Import Base HsHandler.
Import ListNotations.
Local Open Scope N_scope.

Fixpoint hs_feed (h : handler) (recs : list bytes)
  : outcome (handler * list (code + hs_result)) :=
  match recs with
  | [] => Done (h, [])
  | c :: recs' =>
    obind (process_handshake_message h c) (fun '(h, r) =>
    obind (hs_feed h recs') (fun '(h, rs) => Done (h, r :: rs)))
  end.
