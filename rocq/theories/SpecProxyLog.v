(* What the proxy's log must look like (C80 - C82). *)
From Coq Require Import List NArith Bool Permutation.
From Verif Require Import Base Aead Hkdf HalfConn Options HsHandler Crypter FrameProt Wire SpecWire Util Context SpecOptions Proxy ProxyRun
  SpecProxy ProxyLog.
Import ListNotations.
Local Open Scope N_scope.

Definition pres_failed (r : pres) : Prop :=
  match r with
  | RToS2A (c, _, _) | RToPeer (c, _, _) => c <> kOk
  | RFinished _ => False
  | RProtector x => exists c, x = inl c
  | RContext x => exists c, x = inl c
  end.

(* ---- GetBytesForS2A ---- *)

(* No message was sent yet. *)
Definition is_first (rs : list pres) : bool := match sent rs with [] => true | _ => false end.

(* The call is refused, and why. *)
Inductive refused (client first : bool) (locals : list identity) : bytes -> pline -> Prop :=
| RefNotBegun : forall b, client = true -> first = true -> b <> [] -> refused client first locals b YNotBegun
| RefLocals : client = true -> first = true -> 1 < lenN locals -> refused client first locals [] YLocals
| RefNeedPeer : first = false -> refused client first locals [] YNeedPeer.

(* A line for each call of the manager that brought no token. *)
Definition call_lines (e : tcall * option bytes) : list pline :=
  match e with
  | (_, Some _) => []
  | (GetToken _, None) => [YNoToken]
  | (GetDefaultToken, None) => [YNoDefaultToken]
  end.
Definition token_lines (manager : bool) (new : tlog) : list pline :=
  if manager then flat_map call_lines new else [YNoManager].
(* A line for each mechanism of the message that names no identity. *)
Definition mechanism_lines (l : list p_auth) : list pline :=
  flat_map (fun m => match pa_identity m with None => [YUnknown 0] | Some _ => [] end) l.

(* Every identity S2A selected has a type. *)
Definition all_named (l : list p_identity) : Prop := forall p, In p l -> ~ meant (Some p) empty_identity.

(* ---- GetBytesForPeer ---- *)

(* Bytes that are no usable response, and the line for them. *)
Inductive bad_response (V : bytes -> bool) : bytes -> pline -> Prop :=
| BadEmpty : bad_response V [] YNeedS2A
| BadBytes : forall b, b <> [] -> parse_resp V b = None -> bad_response V b YNoResponse
| BadNoStatus : forall b r, b <> [] -> parse_resp V b = Some r -> rs_status r = None -> bad_response V b YEmpty
| BadStatus : forall b r st, b <> [] -> parse_resp V b = Some r -> rs_status r = Some st -> pst_code st <> 0 ->
    bad_response V b (YError (pst_details st)).

(* The lines for a result: one for what makes it unusable; a missing peer
   identity is no failure but has a line. *)
Inductive result_lines (r : p_result) : list pline -> Prop :=
| RlNoState : pr_state r = None -> result_lines r [YResult]
| RlTls : forall st, pr_state r = Some st -> ~ (exists v, tls_number v (pt_tls st)) -> result_lines r [YTls]
| RlSuite : forall st v, pr_state r = Some st -> tls_number v (pt_tls st) -> ~ (exists u, suite_number u (pt_suite st)) ->
    result_lines r [YSuite]
| RlPeer : forall st v u, pr_state r = Some st -> tls_number v (pt_tls st) -> suite_number u (pt_suite st) ->
    result_lines r ((match pr_peer r with None => [YNoPeer] | Some _ => [] end) ++
                    (match pr_local r with None => [YNoLocal] | Some _ => [] end)).

(* ---- what the log must not depend on ---- *)

(* The same calls with the same success, whatever the tokens. *)
Definition same_call (e f : tcall * option bytes) : Prop := fst e = fst f /\ (snd e = None <-> snd f = None).
Definition same_calls (l m : tlog) : Prop := Forall2 same_call l m.
(* Two managers that have tokens for the same identities. *)
Definition same_tokens_known (tm tm' : manager) : Prop :=
  forall l m c, same_calls l m -> (tm l c = None <-> tm' m c = None).

(* Two results that differ in secrets, sequence numbers, connection identifier,
   identities, protocol and fingerprints only. *)
Definition same_kind {A B} (x : option A) (y : option B) : Prop := x = None <-> y = None.
Definition same_result (r r' : p_result) : Prop :=
  same_kind (pr_peer r) (pr_peer r') /\ same_kind (pr_local r) (pr_local r') /\
  match pr_state r, pr_state r' with
  | None, None => True
  | Some st, Some st' => pt_tls st = pt_tls st' /\ pt_suite st = pt_suite st'
  | _, _ => False
  end.
(* Two buffers from S2A: both no response, or the same status and, if it is a
   success, the same selected identity and results as above. The bytes for the
   peer may be anything. *)
Definition same_response (V V' : bytes -> bool) (b b' : bytes) : Prop :=
  (b = [] <-> b' = []) /\
  (b <> [] ->
   match parse_resp V b, parse_resp V' b' with
   | None, None => True
   | Some r, Some r' =>
     rs_status r = rs_status r' /\ rs_local r = rs_local r' /\
     match rs_result r, rs_result r' with
     | None, None => True
     | Some x, Some x' => same_result x x'
     | _, _ => False
     end
   | _, _ => False
   end).
(* Two calls. The bytes from the peer may be anything. *)
Definition same_op (w w' : world) (op op' : pop) : Prop :=
  match op, op' with
  | PToS2A i o ser, PToS2A i' o' ser' =>
    (bytes_of i = [] <-> bytes_of i' = []) /\ ser = ser' /\ (forall l, ho_ids o l = ho_ids o' l)
  | PToPeer i, PToPeer i' => same_response (w_text w) (w_text w') (bytes_of i) (bytes_of i')
  | PFinished, PFinished => True
  | PProtector _, PProtector _ => True
  | PContext, PContext => True
  | _, _ => False
  end.
(* Two proxies created with the same options; name and protocol may differ. *)
Definition same_args (a a' : proxy_args) : Prop := ya_client a = ya_client a' /\ ya_manager a = ya_manager a'.
