(* C69, C70: what becomes of the tickets handed over to the ticket sender. *)
From Coq Require Import List NArith Bool.
From Verif Require Import Base Aead Hkdf Options Wire SpecWire SpecProto TicketReq SpecOptions SpecAead SpecTls Crypter SpecHs SpecRecord SpecRx
  CrypterRun TicketEnd SpecTicketEnd TicketEndProofs Toy CrypterRefuted RecordExamples TicketEndCases.
Import ListNotations.
Local Open Scope N_scope.

(* C69. [sd]: any sender, which may answer every call differently; [finish w]:
   what the function [w] it returned answers when it is called. *)
Theorem C69_destructor_waits : forall P lib a ops rs x, connection P lib a ops rs x ->
  forall sd finish res, results sd 0 (cx_sent x) res ->
  waited (crypt_destroy sd finish x) = all_waits res /\
  (In EvLogFailure (crypt_destroy sd finish x) <-> exists w, In w (all_waits res) /\ finish w = false).
Proof. exact T69. Qed.
Print Assumptions C69_destructor_waits.

(* In any state, reachable or not: the function that the latest call returned,
   null or not, decides. *)
Theorem C69_latest_function : forall x sd finish res, results sd 0 (cx_sent x) res ->
  crypt_destroy sd finish x =
    match last (map sr_wait res) None with Some w => if finish w then [EvWait w] else [EvWait w; EvLogFailure] | None => [] end.
Proof. exact T69latest. Qed.
Print Assumptions C69_latest_function.

Example C69_case : exists rs x res, connection toy OpenSSL A70 ops70 rs x /\ results failing_sender 0 (cx_sent x) res /\
  all_waits res = [9] /\ crypt_destroy failing_sender (fun _ => false) x = [EvWait 9; EvLogFailure].
Proof. exact destroy_case. Qed.

(* C70. The request prepared from what the sender is given, serialised, means
   the first tickets received, this connection and the local identity. Missing:
   that it is sent; identities without type or with NUL bytes. [V]: the check
   for text of the receiver. *)
Theorem C70_request_partial : forall P lib a ops rs x r, connection P lib a ops rs x -> rx_run P (rx_start (d_in a)) ops rs r ->
  forall V s, In s (cx_sent x) -> id_type_of (ca_identity a) <> NONE -> nul_free (id_string (ca_identity a)) ->
  text V (id_string (ca_identity a)) -> lenN (id_string (ca_identity a)) < 1073741824 -> ca_connection_id a < two64 ->
  exists req t p rest, prepare_resumption_ticket_req (ts_connection_id s) (ts_identity s) (Some (map Some (ts_tickets s))) p_req_new = Done (true, req) /\
    means (reads_req V) (enc_req req) {| rq_oneof := ReqTicket t; rq_auth := [] |} /\
    tickets_of (r_msgs r) = pt_in_bytes t ++ rest /\ pt_in_bytes t <> [] /\ pt_connection_id t = ca_connection_id a /\
    pt_local t = Some p /\ names p (ca_identity a).
Proof. exact T70. Qed.
Print Assumptions C70_request_partial.

Example C70_case : (exists rs x r s, connection toy OpenSSL A70 ops70 rs x /\ rx_run toy (rx_start (d_in A70)) ops70 rs r /\
    cx_sent x = [s] /\ ts_tickets s = [ticket [1]; ticket [2]; ticket [3]; ticket [4]; ticket [5]]) /\
  id_type_of (ca_identity A70) <> NONE /\ nul_free (id_string (ca_identity A70)) /\
  text is_utf8 (id_string (ca_identity A70)) /\ lenN (id_string (ca_identity A70)) < 1073741824 /\ ca_connection_id A70 < two64.
Proof. exact (conj sent_case identity_case). Qed.

(* The sender the frame protector uses writes nothing and starts nothing, on
   every connection; so five tickets received are lost. *)
Theorem C70_nothing_written : forall P lib a ops rs x, connection P lib a ops rs x ->
  forall res, results send_tickets_to_s2a 0 (cx_sent x) res -> all_writes res = [] /\ all_waits res = [].
Proof. exact T70shipped. Qed.
Print Assumptions C70_nothing_written.

Theorem C70_tickets_reach_s2a_refuted : exists P lib a ops rs x r res, connection P lib a ops rs x /\ rx_run P (rx_start (d_in a)) ops rs r /\
  5 <= lenN (tickets_of (r_msgs r)) /\ cx_sent x <> [] /\ results send_tickets_to_s2a 0 (cx_sent x) res /\ all_writes res = [].
Proof. exact R70. Qed.
Print Assumptions C70_tickets_reach_s2a_refuted.
