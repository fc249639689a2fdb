(* C59: the messages exchanged with S2A, and serialized contexts, follow the
   protocol buffers encoding and the .proto files, as written down in
   SpecProto.v. V is the check for valid text of the message parser. *)
From Coq Require Import List NArith Bool.
From Verif Require Import Base Aead Hkdf Options Wire SpecWire SpecProto Util Context SpecOptions ProxyRun WireConform.
Import ListNotations.
Local Open Scope N_scope.

(* A parsed response is what the bytes mean, whatever the order of the fields,
   the length of the numbers, repetitions, unknown fields and groups; bytes
   that are refused mean nothing. *)
Theorem C59_responses_read : forall V b m, parse_resp V b = Some m <-> means (reads_resp V) b m.
Proof. exact M59_resp. Qed.
Print Assumptions C59_responses_read.

Example C59_responses_case : means (reads_resp is_utf8) odd_response
  {| rs_local := Some {| pi_id := IdUid [117; 49]; pi_attrs := [([107], [118])] |}; rs_out_frames := [7]; rs_consumed := 0;
     rs_result := None; rs_status := Some {| pst_code := 0; pst_details := [] |} |}.
Proof. exact odd_response_means. Qed.

(* The messages of the other theorems: what the client library sends means the
   request it encodes. *)
Theorem C59_requests_written : forall b r, encodes b r -> wire_size_ok b -> means (reads_req any_text) b r.
Proof. exact M59_sent. Qed.
Print Assumptions C59_requests_written.

(* client_start with two protocols, ciphersuites packed, a target identity and
   a token. *)
Example C59_requests_case :
  let r := {| rq_oneof := ReqClient {| pc_protocols := [[104; 50]; [103]]; pc_min := 1; pc_max := 1; pc_suites := [0; 2];
                 pc_targets := [{| pi_id := IdSpiffe [115]; pi_attrs := [] |}]; pc_local := None; pc_target_name := [] |};
              rq_auth := [{| pa_identity := None; pa_token := Some [116] |}] |} in
  let b := [10; 20; 10; 2; 104; 50; 10; 1; 103; 16; 1; 24; 1; 34; 2; 0; 2; 42; 3; 10; 1; 115; 42; 3; 18; 1; 116] in
  encodes b r /\ wire_size_ok b.
Proof. split; [split; [vm_compute; reflexivity|cbn; repeat constructor]|reflexivity]. Qed.

(* For every check of text; and requests as S2A would read them. *)
Theorem C59_requests_text : forall V m, valid_req V m -> wire_size_ok (enc_req m) -> means (reads_req V) (enc_req m) m.
Proof. exact M59_req_written. Qed.
Print Assumptions C59_requests_text.

Theorem C59_meaning_unique : forall V b m m', means (reads_req V) b m -> means (reads_req V) b m' -> m = m'.
Proof. exact M59_unique. Qed.
Print Assumptions C59_meaning_unique.

(* Contexts: what a serialized context says, and what bytes given to the
   application's side say. *)
Theorem C59_context_written : forall V c, context_clean V c -> exists b, get_serialized_context c = inr b /\
  (wire_size_ok b -> exists m, means (reads_context V) b m /\ context_says m c).
Proof. exact M59_context_to. Qed.
Print Assumptions C59_context_written.

Theorem C59_context_read : forall V b, match context_from_serialized V b with
  | inr c => exists m, means (reads_context V) b m /\ context_says m c
  | inl st =>
    (st = kInternal /\ forall m, ~ means (reads_context V) b m) \/
    (st = kFailedPrecondition /\ exists m, means (reads_context V) b m /\ forall c, ~ context_says m c)
  end.
Proof. exact M59_context_from. Qed.
Print Assumptions C59_context_read.

(* Unknown TLS version 7; a length that runs past the end. *)
Example C59_context_case : context_from_serialized is_utf8 [16; 7] = inl kFailedPrecondition /\
  context_from_serialized is_utf8 [10; 3; 104] = inl kInternal /\
  context_from_serialized is_utf8 [24; 1; 16; 1; 34; 3; 34; 1; 97] = inr
    {| x_protocol := []; x_tls := TLS1_3; x_suite := AES_256_GCM_SHA384; x_peer := from_uid [97]; x_local := empty_identity;
       x_peer_fp := []; x_local_fp := []; x_resumed := false |}.
Proof. repeat split. Qed.
