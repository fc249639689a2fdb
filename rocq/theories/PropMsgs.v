(* Options, conversions, contexts, ticket requests, tokens and messages:
   C48 - C52, C55. V is the check for valid text of the message parser. *)
From Coq Require Import List NArith Bool.
From Verif Require Import Base Aead Hkdf Options Wire SpecWire Util Context TicketReq Token SpecOptions HsMsgProofs.
Import ListNotations.
Local Open Scope N_scope.

(* C48. Missing: contexts with a zero byte in a string or fingerprint, and
   with strings that are not text. *)
Theorem C48_context_round_trip_partial : forall V c, context_clean V c -> exists b, get_serialized_context c = inr b /\
  (wire_size_ok b -> context_from_serialized V b = inr c).
Proof. exact M48. Qed.
Print Assumptions C48_context_round_trip_partial.

Definition clean_context : s2a_context :=
  {| x_protocol := [104; 50]; x_tls := TLS1_3; x_suite := AES_256_GCM_SHA384;
     x_peer := from_hostname [97; 98]; x_local := from_spiffe_id [195; 169];
     x_peer_fp := [17; 255]; x_local_fp := [51]; x_resumed := true |}.
Example C48_case : context_clean is_utf8 clean_context /\
  exists b, get_serialized_context clean_context = inr b /\ wire_size_ok b /\ lenN b = 29.
Proof.
  split; [unfold context_clean, nul_free, made_identity, text; cbn; intuition discriminate|].
  eexists. split; [reflexivity|]. split; [apply N.ltb_lt; vm_compute; reflexivity|vm_compute; reflexivity].
Qed.

(* A certificate fingerprint with a zero byte comes back cut short. *)
Theorem C48_fingerprint_refuted : forall V, V [] = true -> exists c b c',
  get_serialized_context c = inr b /\ context_from_serialized V b = inr c' /\
  x_peer_fp c = [17; 0; 34] /\ x_peer_fp c' = [17] /\ c' <> c.
Proof. exact R48. Qed.
Print Assumptions C48_fingerprint_refuted.

(* A context whose protocol is not text is serialized to bytes that are
   rejected. *)
Theorem C48_not_text_refuted : forall V s, V [s] = false -> s <> 0 -> s < 256 -> exists c b, x_protocol c = [s] /\
  get_serialized_context c = inr b /\ context_from_serialized V b = inl kInternal.
Proof. exact R48b. Qed.
Print Assumptions C48_not_text_refuted.
Example C48_not_text_case : is_utf8 [] = true /\ is_utf8 [255] = false.
Proof. split; reflexivity. Qed.

(* C49: enumerations. *)
Theorem C49_tls_version : (forall v, exists n, tls_number v n) /\ forall v n,
  (tls_to_proto v = inr n <-> tls_number v n) /\ (tls_from_proto n = inr v <-> tls_number v n) /\
  ((exists v, tls_number v n) \/ tls_from_proto n = inl kFailedPrecondition).
Proof.
  exact (conj (fun v => match tls_total v with ex_intro _ n (conj _ H) => ex_intro _ n H end)
    (fun v n => conj (tls_to_ok v n) (conj (tls_from_ok v n) (tls_from_cases n)))).
Qed.
Print Assumptions C49_tls_version.

Theorem C49_ciphersuite : (forall s, exists n, suite_number s n) /\ forall s n,
  (suite_to_proto s = inr n <-> suite_number s n) /\ (suite_from_proto n = inr s <-> suite_number s n) /\
  ((exists s, suite_number s n) \/ suite_from_proto n = inl kFailedPrecondition).
Proof.
  exact (conj (fun v => match suite_total v with ex_intro _ n (conj _ H) => ex_intro _ n H end)
    (fun v n => conj (suite_to_ok v n) (conj (suite_from_ok v n) (suite_from_cases n)))).
Qed.
Print Assumptions C49_ciphersuite.

(* Identities; missing: identities containing a NUL byte. *)
Theorem C49_identity_partial : forall i, made_identity i -> nul_free (id_string i) ->
  exists p, identity_to_proto true i = inr p /\ identity_from_proto p = i /\
    (forall m, p = Some m -> names m i) /\ (p = None <-> i = empty_identity).
Proof. exact M49. Qed.
Print Assumptions C49_identity_partial.

Example C49_case : let i := from_uid [117; 49] in made_identity i /\ nul_free (id_string i) /\
  identity_to_proto true i = inr (Some {| pi_id := IdUid [117; 49]; pi_attrs := [] |}).
Proof. split; [discriminate|]. split; [unfold nul_free; cbn; intuition discriminate|reflexivity]. Qed.

Theorem C49_identity_received : forall p, meant p (identity_from_proto p).
Proof. exact identity_from_meant. Qed.
Print Assumptions C49_identity_received.

(* A conversion without an arena is the caller's mistake and reported as such;
   it is the only failing one. *)
Theorem C49_identity_fails : forall arena i e,
  identity_to_proto arena i = inl e <-> arena = false /\ e = kInvalidArgument.
Proof. exact M49fails. Qed.
Print Assumptions C49_identity_fails.

Theorem C49_identity_refuted : exists i p, made_identity i /\ identity_to_proto true i = inr p /\ identity_from_proto p <> i.
Proof. exact R49. Qed.
Print Assumptions C49_identity_refuted.

(* C50. *)
Theorem C50_options : forall cs, let o := options_after cs in
  o_min o = last (mins cs) TLS1_3 /\ o_max o = last (maxs cs) TLS1_3 /\ o_address o = last (addresses cs) [] /\
  o_suites o = suites_added cs /\
  NoDup (o_local o) /\ (forall i, In i (o_local o) <-> In i (locals_added cs)) /\
  NoDup (o_target o) /\ (forall i, In i (o_target o) <-> In i (targets_added cs)).
Proof. exact options_inv. Qed.
Print Assumptions C50_options.

Theorem C50_copy : forall cs, options_copy (options_after cs) = options_after cs.
Proof. exact (fun cs => copy_same (options_after cs)). Qed.
Print Assumptions C50_copy.

Example C50_case : options_copy (options_after
    [AddLocalUid [1]; SetMin TLS1_2; AddSuite CHACHA20_POLY1305_SHA256; AddLocalHost [1]; AddLocalUid [1];
     SetMin TLS1_3; AddSuite AES_128_GCM_SHA256; AddTargetSpiffe [2]; SetAddress [9]]) =
  {| o_min := TLS1_3; o_max := TLS1_3; o_address := [9]; o_suites := [CHACHA20_POLY1305_SHA256; AES_128_GCM_SHA256];
     o_target := [from_spiffe_id [2]]; o_local := [from_uid [1]; from_hostname [1]] |}.
Proof. reflexivity. Qed.

(* C51. [ts = None]: no ticket list given. Missing: local identities containing
   a NUL byte. *)
Theorem C51_ticket_request_partial : forall conn local ts req, no_ticket_yet req ->
  exists ok req', prepare_resumption_ticket_req conn local (option_map (map Some) ts) req = Done (ok, req') /\
    (ok = true <-> ts <> None /\ id_type_of local <> NONE) /\
    (ok = true -> nul_free (id_string local) -> rq_auth req' = rq_auth req /\
       exists t p, rq_oneof req' = ReqTicket t /\ Some (pt_in_bytes t) = ts /\ pt_connection_id t = conn /\
         pt_local t = Some p /\ names p local).
Proof. exact M51. Qed.
Print Assumptions C51_ticket_request_partial.

(* A ticket list with a null pointer in it. *)
Theorem C51_null_ticket : forall conn local tickets req u, prepare_resumption_ticket_req conn local tickets req = Undef u <->
  u = UbNullDeref /\ id_type_of local <> NONE /\ exists ts, tickets = Some ts /\ In None ts.
Proof. exact M51undef. Qed.
Print Assumptions C51_null_ticket.
(* A request that has tickets already: they are kept. *)
Theorem C51_more_tickets : forall conn local ts req t, rq_oneof req = ReqTicket t -> id_type_of local <> NONE -> nul_free (id_string local) ->
  exists t' p, prepare_resumption_ticket_req conn local (Some (map Some ts)) req = Done (true, {| rq_oneof := ReqTicket t'; rq_auth := rq_auth req |}) /\
    pt_in_bytes t' = pt_in_bytes t ++ ts /\ pt_connection_id t' = conn /\ names p local /\
    pt_local t' = Some {| pi_id := pi_id p; pi_attrs := match pt_local t with Some q => pi_attrs q | None => [] end |}.
Proof. exact M51again. Qed.
Print Assumptions C51_more_tickets.
Example C51_more_case :
  prepare_resumption_ticket_req 9 (from_hostname [104]) (Some [Some [4]])
    {| rq_oneof := ReqTicket {| pt_in_bytes := [[1]]; pt_connection_id := 7; pt_local := None |}; rq_auth := [] |} =
  Done (true, {| rq_oneof := ReqTicket {| pt_in_bytes := [[1]; [4]]; pt_connection_id := 9;
                   pt_local := Some {| pi_id := IdHostname [104]; pi_attrs := [] |} |}; rq_auth := [] |}) /\
  prepare_resumption_ticket_req 9 (from_hostname [104]) (Some [Some [4]; None]) p_req_new = Undef UbNullDeref.
Proof. vm_compute. auto. Qed.

Example C51_case : no_ticket_yet p_req_new /\
  prepare_resumption_ticket_req 7 (from_uid [117]) (Some [Some [1; 2]; Some []; Some [3]]) p_req_new =
  Done (true, {| rq_oneof := ReqTicket {| pt_in_bytes := [[1; 2]; []; [3]]; pt_connection_id := 7;
                   pt_local := Some {| pi_id := IdUid [117]; pi_attrs := [] |} |}; rq_auth := [] |}).
Proof. split; [discriminate|reflexivity]. Qed.

Theorem C51_identity_refuted : exists conn local ts req',
  prepare_resumption_ticket_req conn local (Some (map Some ts)) p_req_new = Done (true, req') /\
  exists t, rq_oneof req' = ReqTicket t /\ local = from_hostname [97; 0; 98] /\
    pt_local t = Some {| pi_id := IdHostname [97]; pi_attrs := [] |}.
Proof. exact R51. Qed.
Print Assumptions C51_identity_refuted.

(* C52. [e]: the environment variable at construction; [evs]: later changes of
   it and calls. Missing: construction does not fail without a token; the calls
   do. *)
Theorem C52_fixed_token_partial : forall e, exists m, build_access_token_manager e = inr m /\
  (forall t evs, e = Some t -> nul_free t -> trun m e evs = repeat (inr t) (asks evs)) /\
  (forall evs, e = None -> trun m e evs = repeat (inl kNotFound) (asks evs)).
Proof. exact M52. Qed.
Print Assumptions C52_fixed_token_partial.

Example C52_case : trun (single_token_new (Some [116])) (Some [116]) [AskDefault; SetEnv (Some [120]); AskToken (from_uid [1]); SetEnv None; AskDefault] =
  [inr [116]; inr [116]; inr [116]].
Proof. reflexivity. Qed.

Theorem C52_construction_refuted : exists m, build_access_token_manager None = inr m.
Proof. exact R52. Qed.
Print Assumptions C52_construction_refuted.

(* C55. Missing: messages with a string that is not text, and messages of
   2 GiB. *)
Theorem C55_wire_round_trip_partial : forall V,
  (forall m, valid_req V m -> wire_size_ok (enc_req m) -> parse_req V (enc_req m) = Some m) /\
  (forall m, valid_resp V m -> wire_size_ok (enc_resp m) -> parse_resp V (enc_resp m) = Some m) /\
  (forall m, valid_context V m -> wire_size_ok (enc_context m) -> parse_context V (enc_context m) = Some m).
Proof. exact M55. Qed.
Print Assumptions C55_wire_round_trip_partial.

Definition sample_req : p_req :=
  {| rq_oneof := ReqServer {| ps_protocols := [[104; 50]]; ps_min := 1; ps_max := 1; ps_suites := [2; 0];
       ps_locals := [{| pi_id := IdHostname [97]; pi_attrs := [([107], [118])] |}; {| pi_id := IdUid []; pi_attrs := [] |}];
       ps_in_bytes := [0; 255] |};
     rq_auth := [{| pa_identity := None; pa_token := Some [116] |}] |}.
Example C55_case : valid_req is_utf8 sample_req /\ wire_size_ok (enc_req sample_req) /\ lenN (enc_req sample_req) = 40.
Proof.
  split; [|split; [apply N.ltb_lt; vm_compute; reflexivity|vm_compute; reflexivity]].
  unfold valid_req, valid_server, valid_auth, valid_identity. cbn.
  repeat first [split | apply Forall_cons | apply Forall_nil | reflexivity | (apply N.ltb_lt; reflexivity)].
Qed.

(* A start message with a string that is not text is not parsed. *)
Theorem C55_not_text_refuted : forall V s, V [s] = false -> s < 256 -> exists m,
  rq_oneof m = ReqClient {| pc_protocols := [[s]]; pc_min := 1; pc_max := 1; pc_suites := []; pc_targets := [];
                            pc_local := None; pc_target_name := [] |} /\
  parse_req V (enc_req m) = None.
Proof. exact R55. Qed.
Print Assumptions C55_not_text_refuted.
Example C55_not_text_case : is_utf8 [255] = false.
Proof. reflexivity. Qed.
