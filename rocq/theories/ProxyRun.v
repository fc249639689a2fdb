(* Histories of calls on one S2AProxy, and what its properties say. *)
From Coq Require Import List NArith Bool Permutation.
From Verif Require Import Base Aead Hkdf HalfConn Options HsHandler Crypter FrameProt Wire SpecWire Util Context SpecOptions Proxy.
Import ListNotations.
Local Open Scope N_scope.

(* The public methods. A call of GetBytesForS2A comes with the iteration order
   of the hash containers and with whether there is memory for serializing; a
   call of CreateFrameProtector with the failures of the TLS library. *)
Inductive pop :=
| PToS2A (inp : option bytes) (o : hash_order) (ser : bool)
| PToPeer (inp : option bytes)
| PFinished
| PProtector (fs : faults)
| PContext.
Inductive pres :=
| RToS2A (st : pstatus)
| RToPeer (st : pstatus)
| RFinished (b : bool)
| RProtector (r : code + fprot)
| RContext (r : code + option s2a_context).

(* What is outside: the TLS library, the parser's check for text, the token
   manager. *)
Record world := { w_prims : prims; w_lib : ssl_lib; w_text : bytes -> bool; w_manager : manager }.

Definition pstep (w : world) (s : proxy) (op : pop) : outcome (proxy * pres) :=
  match op with
  | PToS2A inp o ser =>
    let '(s, st) := get_bytes_for_s2a (w_manager w) o ser s inp in Done (s, RToS2A st)
  | PToPeer inp => let '(s, st) := get_bytes_for_peer (w_text w) s inp in Done (s, RToPeer st)
  | PFinished => Done (s, RFinished (y_finished s))
  | PProtector fs =>
    obind (create_frame_protector (w_prims w) (w_lib w) s fs) (fun '((s, r), _) => Done (s, RProtector r))
  | PContext => let '(s, r) := get_s2a_context s in Done (s, RContext r)
  end.

Fixpoint prun (w : world) (s : proxy) (ops : list pop) : outcome (proxy * list pres) :=
  match ops with
  | [] => Done (s, [])
  | op :: r =>
    obind (pstep w s op) (fun '(s, x) => obind (prun w s r) (fun '(s, xs) => Done (s, x :: xs)))
  end.

(* Iteration visits each element once. *)
Definition order_ok (o : hash_order) : Prop :=
  (forall l, Permutation (ho_ids o l) l) /\ (forall l, Permutation (ho_tokens o l) l).
Definition pop_ok (op : pop) : Prop := match op with PToS2A _ o _ => order_ok o | _ => True end.

(* [s] is a proxy created with arguments [a] from options made by the setter
   calls [cs], after the history [ops] with results [rs]. *)
Definition proxied (w : world) (a : proxy_args) (cs : list setter) (ops : list pop) (rs : list pres) (s : proxy) : Prop :=
  ya_options a = Some (options_after cs) /\ Forall pop_ok ops /\
  exists s0, proxy_create a = Some s0 /\ prun w s0 ops = Done (s, rs).

(* ---- messages to S2A ---- *)

(* The messages a history sends, in order. *)
Definition sent_of (r : pres) : list bytes :=
  match r with RToS2A (kOk, _, Some b) => [b] | _ => [] end.
Definition sent (rs : list pres) : list bytes := flat_map sent_of rs.

(* What a message is; the numbers are in range. *)
Definition any_text (s : bytes) : bool := true.
Definition encodes (b : bytes) (r : p_req) : Prop := b = enc_req r /\ valid_req any_text r.
Definition client_start (b : bytes) : Prop := exists c l, encodes b {| rq_oneof := ReqClient c; rq_auth := l |}.
Definition server_start (inp b : bytes) : Prop :=
  exists c l, encodes b {| rq_oneof := ReqServer c; rq_auth := l |} /\ ps_in_bytes c = inp.
Definition next_message (inp b : bytes) : Prop := exists l, encodes b {| rq_oneof := ReqNext inp; rq_auth := l |}.

(* ---- responses ---- *)

(* The response in a buffer from S2A that parses and reports success. *)
Definition good_response (V : bytes -> bool) (b : bytes) (r : p_resp) : Prop :=
  b <> [] /\ parse_resp V b = Some r /\ exists st, rs_status r = Some st /\ pst_code st = 0.

(* Successful responses so far, in order. *)
Fixpoint responses (V : bytes -> bool) (ops : list pop) : list p_resp :=
  match ops with
  | [] => []
  | PToPeer (Some (b :: bs)) :: r =>
    match parse_resp V (b :: bs) with
    | Some m => match rs_status m with
                | Some st => if pst_code st =? 0 then m :: responses V r else responses V r
                | None => responses V r
                end
    | None => responses V r
    end
  | _ :: r => responses V r
  end.

(* The identity S2A has selected: that of the last response with one. *)
Definition selections (V : bytes -> bool) (ops : list pop) : list p_identity :=
  flat_map (fun m => match rs_local m with Some i => [i] | None => [] end) (responses V ops).

Definition selects (l : list p_identity) (i : identity) : Prop := exists k p, l = k ++ [p] /\ meant (Some p) i.

(* ---- results ---- *)

(* What a session result says about the protector. *)
Definition protector_matches (r : p_result) (a : fp_args) : Prop :=
  exists st p, pr_state r = Some st /\ pr_local r = Some p /\
    let c := fa_crypt a in
    tls_number (ca_tls c) (pt_tls st) /\ suite_number (ca_suite c) (pt_suite st) /\
    ca_in_secret c = pt_in_key st /\ ca_out_secret c = pt_out_key st /\
    ca_in_seq c = pt_in_seq st /\ ca_out_seq c = pt_out_seq st /\
    ca_connection_id c = pt_conn st /\ meant (Some p) (ca_identity c) /\
    fa_allocator a = true /\ fa_destroy a = true /\ fa_logger a = true.

Definition context_matches (r : p_result) (c : s2a_context) : Prop :=
  exists st p, pr_state r = Some st /\ pr_local r = Some p /\
    x_protocol c = pr_protocol r /\ tls_number (x_tls c) (pt_tls st) /\ suite_number (x_suite c) (pt_suite st) /\
    meant (pr_peer r) (x_peer c) /\ meant (Some p) (x_local c) /\
    x_peer_fp c = pr_peer_fp r /\ x_local_fp c = pr_local_fp r /\ x_resumed c = pt_resumed st.

(* ---- tokens ---- *)

(* The manager returned token [t] when asked for identity [i]; the default
   token belongs to the empty identity. *)
Definition returned (l : tlog) (i : identity) (t : bytes) : Prop :=
  In (GetToken i, Some t) l \/ (i = empty_identity /\ In (GetDefaultToken, Some t) l).
(* The recorded calls are calls of this manager. *)
Definition log_of (tm : manager) (l : tlog) : Prop :=
  forall p c a q, l = p ++ (c, a) :: q -> a = tm p c.

(* The mechanism states identity [i] (none for the empty one) and token [t]. *)
Definition mechanism_states (m : p_auth) (i : identity) (t : bytes) : Prop :=
  pa_token m = Some t /\
  match pa_identity m with Some p => names p i | None => i = empty_identity end.
(* What is left of a string if it is cut at its first NUL. *)
Definition cut (s s' : bytes) : Prop := nul_free s' /\ (s = s' \/ exists r, s = s' ++ 0 :: r).
Definition cut_identity (i i' : identity) : Prop := id_type_of i' = id_type_of i /\ cut (id_string i) (id_string i').
(* The mechanism states identity [i] and a token returned for it, both cut. *)
Definition mechanism_for (l : tlog) (i : identity) (m : p_auth) : Prop :=
  exists t i' t', returned l i t /\ cut_identity i i' /\ cut t t' /\ mechanism_states m i' t'.
Definition mechanism_ok (l : tlog) (m : p_auth) : Prop := exists i, mechanism_for l i m.

(* ---- start messages ---- *)

Definition client_states (host prot : bytes) (o : options) (m : p_client) : Prop :=
  pc_protocols m = [prot] /\ tls_number (o_min o) (pc_min m) /\ tls_number (o_max o) (pc_max m) /\
  Forall2 suite_number (o_suites o) (pc_suites m) /\
  (exists l, Permutation l (o_target o) /\ Forall2 names (pc_targets m) l) /\
  match o_local o with [] => pc_local m = None | i :: _ => o_local o = [i] /\ exists p, pc_local m = Some p /\ names p i end /\
  pc_target_name m = host.

Definition server_states (inp prot : bytes) (o : options) (m : p_server) : Prop :=
  ps_protocols m = [prot] /\ tls_number (o_min o) (ps_min m) /\ tls_number (o_max o) (ps_max m) /\
  Forall2 suite_number (o_suites o) (ps_suites m) /\
  (exists l, Permutation l (o_local o) /\ Forall2 names (ps_locals m) l) /\
  ps_in_bytes m = inp.

Definition options_nul_free (o : options) : Prop :=
  Forall (fun i => nul_free (id_string i)) (o_local o) /\ Forall (fun i => nul_free (id_string i)) (o_target o).

(* The calls that sent a message: what the peer's bytes were and what was sent. *)
Definition exchange (p : pop * pres) : list (option bytes * bytes) :=
  match p with (PToS2A inp _ _, RToS2A (kOk, _, Some b)) => [(inp, b)] | _ => [] end.
Definition exchanges (ops : list pop) (rs : list pres) : list (option bytes * bytes) :=
  flat_map exchange (combine ops rs).
Definition bytes_of (inp : option bytes) : bytes := match inp with Some b => b | None => [] end.
Definition start_message (client : bool) (inp : option bytes) (b : bytes) : Prop :=
  if client then client_start b /\ bytes_of inp = [] else server_start (bytes_of inp) b.

(* One start message, then only next messages. *)
Definition start_then_next (client : bool) (es : list (option bytes * bytes)) : Prop :=
  match es with
  | [] => True
  | (inp, b) :: r => start_message client inp b /\ Forall (fun e => bytes_of (fst e) <> [] /\ next_message (bytes_of (fst e)) (snd e)) r
  end.

(* Everything but the tokens is the same. *)
Definition same_but_tokens (s s' : proxy) : Prop :=
  s' = {| y_client := y_client s; y_protocol := y_protocol s; y_hostname := y_hostname s;
          y_options := y_options s; y_channel := y_channel s; y_manager := y_manager s;
          y_cache := y_cache s'; y_selected := y_selected s; y_first := y_first s;
          y_finished := y_finished s; y_context := y_context s; y_result := y_result s; y_log := y_log s' |}.

(* Some call so far brought a successful response with a result. *)
Definition result_received (V : bytes -> bool) (ops : list pop) : Prop :=
  exists b r res, In (PToPeer (Some b)) ops /\ good_response V b r /\ rs_result r = Some res.

Definition quiet (op : pop) : Prop := match op with PToPeer _ => False | _ => True end.
