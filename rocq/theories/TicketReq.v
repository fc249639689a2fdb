(* Model of src/record_protocol/s2a_upb_ticket_sender.cc 32-80 (for 27-30 see
   TicketEnd.v). *)
From Coq Require Import List NArith Bool.
From Verif Require Import Base Aead Hkdf Options Wire Util.
Import ListNotations.
Local Open Scope N_scope.

(* The loop over the tickets: 74-78. The assertion that a ticket is not null is
   off in release builds. *)
Fixpoint add_tickets (ts : list (option bytes)) (m : p_ticket) : outcome p_ticket :=
  match ts with
  | [] => Done m
  | None :: _ => Undef UbNullDeref
  | Some t :: r =>
    add_tickets r {| pt_in_bytes := pt_in_bytes m ++ [t];
                     pt_connection_id := pt_connection_id m; pt_local := pt_local m |}
  end.

(* PrepareResumptionTicketReq: 32-80. [tickets = None] is a null pointer. The
   message of a oneof case already chosen is kept (mutable_resumption_ticket).
   A null arena or request is outside the model. *)
Definition prepare_resumption_ticket_req (connection_id : N) (local : identity)
  (tickets : option (list (option bytes))) (req : p_req) : outcome (bool * p_req) :=
  match tickets with
  | None => Done (false, req)
  | Some ts =>
    let old := match rq_oneof req with ReqTicket t => t | _ => p_ticket_new end in
    let with_ticket t := {| rq_oneof := ReqTicket t; rq_auth := rq_auth req |} in
    let old_id := match pt_local old with Some i => i | None => p_identity_new end in
    match fill_identity local with
    | None =>
      Done (false, with_ticket {| pt_in_bytes := pt_in_bytes old; pt_connection_id := connection_id;
                                  pt_local := Some old_id |})
    | Some i =>
      obind (add_tickets ts
               {| pt_in_bytes := pt_in_bytes old; pt_connection_id := connection_id;
                  pt_local := Some {| pi_id := pi_id i; pi_attrs := pi_attrs old_id |} |})
        (fun t => Done (true, with_ticket t))
    end
  end.
