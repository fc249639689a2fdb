(* What further properties of the proxy say: tokens (C60), responses that
   cannot be used (C61), the channel factory (C63). *)
From Coq Require Import List NArith Bool Permutation.
From Verif Require Import Base Aead Hkdf HalfConn Options HsHandler Crypter FrameProt Wire SpecWire Util Context SpecOptions Proxy ProxyRun SpecTls.
Import ListNotations.
Local Open Scope N_scope.

(* ---- tokens, while S2A has selected no identity ---- *)

(* The last default token the manager returned. *)
Definition default_token (l : tlog) (t : bytes) : Prop :=
  exists p q, l = p ++ (GetDefaultToken, Some t) :: q /\ forall t', ~ In (GetDefaultToken, Some t') q.
(* The token for an identity; the default token belongs to the empty one. *)
Definition token_held (l : tlog) (i : identity) (t : bytes) : Prop :=
  In (GetToken i, Some t) l \/ (i = empty_identity /\ default_token l t).
(* The mechanism states identity [i] and token [t], both cut at the first NUL. *)
Definition mechanism_of (i : identity) (t : bytes) (m : p_auth) : Prop :=
  exists i' t', cut_identity i i' /\ cut t t' /\ mechanism_states m i' t'.

(* The calls due: one for each local identity without token, or one for the
   default token if there are no local identities. *)
Definition calls_due (locals : list identity) (l : tlog) (c : tcall) : Prop :=
  match c with
  | GetToken i => In i locals /\ forall t, ~ In (GetToken i, Some t) l
  | GetDefaultToken => locals = []
  end.

(* ---- responses ---- *)

(* The status for a result. *)
Definition result_code (r : p_result) (c : code) : Prop :=
  match pr_state r with
  | None => c = kInvalidArgument
  | Some st =>
    (~ (exists v, tls_number v (pt_tls st)) \/ ~ (exists u, suite_number u (pt_suite st))) /\ c = kFailedPrecondition \/
    (exists v u, tls_number v (pt_tls st) /\ suite_number u (pt_suite st)) /\
      c = match pr_local r with None => kInternal | Some _ => kOk end
  end.

(* Everything but what S2A said is the same. *)
Definition same_but_session (s s' : proxy) : Prop :=
  s' = {| y_client := y_client s; y_protocol := y_protocol s; y_hostname := y_hostname s;
          y_options := y_options s; y_channel := y_channel s; y_manager := y_manager s;
          y_cache := y_cache s; y_selected := y_selected s'; y_first := y_first s;
          y_finished := y_finished s'; y_context := y_context s'; y_result := y_result s'; y_log := y_log s |}.

(* ---- the channel factory ---- *)

(* No frame protector was asked for since the handshake finished. *)
Definition no_protector_yet (V : bytes -> bool) (ops : list pop) : Prop :=
  forall p fs q, ops = p ++ PProtector fs :: q -> ~ result_received V p.

(* ---- two proxies ---- *)

(* [s] has received a result with session state [st], accepted, and then
   nothing more from S2A. *)
Definition handshaken (w : world) (a : proxy_args) (cs : list setter) (st : p_state) (s : proxy) : Prop :=
  exists ops rs s0 b r res n buf s1 later rs',
    proxied w a cs ops rs s0 /\ good_response (w_text w) b r /\ rs_result r = Some res /\ pr_state res = Some st /\
    pstep w s0 (PToPeer (Some b)) = Done (s1, RToPeer (kOk, n, buf)) /\
    Forall quiet later /\ Forall pop_ok later /\ prun w s1 later = Done (s, rs').

(* TLS 1.3 with suite [u] and secrets of the right length. *)
Definition usable (u : suite) (st : p_state) : Prop :=
  tls_number TLS1_3 (pt_tls st) /\ suite_number u (pt_suite st) /\
  lenN (pt_in_key st) = spec_hash_len u /\ lenN (pt_out_key st) = spec_hash_len u.
(* The two ends of one connection. *)
Definition two_ends (x y : p_state) : Prop :=
  pt_in_key x = pt_out_key y /\ pt_out_key x = pt_in_key y /\ pt_in_seq x = pt_out_seq y /\ pt_out_seq x = pt_in_seq y.
