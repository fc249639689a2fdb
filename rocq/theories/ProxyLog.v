(* Model of what the proxy writes to its log: the calls of logger_ in
   src/handshaker/s2a_proxy.cc. The functions below are those of Proxy.v with
   these calls put back; ProxyLogProofs.v shows that without the log they are
   the same functions. *)
From Coq Require Import List NArith Bool.
From Verif Require Import Base Aead Hkdf HalfConn Options HsHandler Crypter FrameProt Wire Util Context Proxy ProxyRun.
Import ListNotations.
Local Open Scope N_scope.

(* One call of logger_, one constructor for each text. The texts of the statuses
   included at 274 and 293 are constants of s2a_util.cc; those at 138, 150 and
   162 are the token manager's and left out. *)
Inductive pline :=
| YNoManager                        (* 113: No access token manager is registered ... *)
| YNoToken                          (* 138, 150: Unable to retrieve access token: %s *)
| YNoDefaultToken                   (* 162: Unable to retrieve default access token: %s *)
| YNotBegun                         (* 179: Handshake has not begun, not expecting bytes. *)
| YNeedPeer                         (* 197: Handshake requires bytes from peer. *)
| YNeedS2A                          (* 208: Need bytes from S2A. *)
| YNoResponse                       (* 223: Deserializing response from the S2A failed. *)
| YEmpty                            (* 240, no status: the empty text *)
| YError (details : bytes)          (* 240: Error from the S2A: %s *)
| YResult                           (* 260: |s2a_proto_SessionResult| is invalid. *)
| YTls                              (* 274: Error parsing TLS version ... *)
| YSuite                            (* 293: Error parsing ciphersuite ... *)
| YNoPeer                           (* 328: No peer identity set ... *)
| YNoLocal                          (* 335: No local identity set ... *)
| YConvert (c : code)               (* 381, 395, 417, 563, 577, 599: texts of s2a_util.cc *)
| YIdentity                         (* 449, 484, 632: Unsupported identity format. *)
| YLocals                           (* 460: Client should have at most 1 local identity. *)
| YUnknown (n : N)                  (* 522, 673, 742: Encountered unknown identity type %d ... *)
| YSerialize                        (* 536, 687, 756: Error when serializing ... *)
| YNotFinished.                     (* 787, 811: Handshake is not finished. *)

(* The loop 144-155. *)
Fixpoint fetch_tokens_l (tm : manager) (ids : list identity) (c : list (identity * bytes)) (l : tlog)
  : list (identity * bytes) * tlog * list pline :=
  match ids with
  | [] => (c, l, [])
  | i :: r =>
    if cache_mem i c then fetch_tokens_l tm r c l else
    let a := tm l (GetToken i) in
    let l := l ++ [(GetToken i, a)] in
    match a with
    | Some t => fetch_tokens_l tm r (cache_put i t c) l
    | None => let '(c, l, ls) := fetch_tokens_l tm r c l in (c, l, YNoToken :: ls)
    end
  end.

(* Lines 142-167. *)
Definition fetch_all_l (tm : manager) (o : hash_order) (s : proxy) (c : list (identity * bytes)) (l : tlog)
  : proxy * list pline :=
  let '(c, l, ls) := fetch_tokens_l tm (ho_ids o (o_local (y_options s))) c l in
  match o_local (y_options s) with
  | [] =>
    let a := tm l GetDefaultToken in
    let l := l ++ [(GetDefaultToken, a)] in
    match a with
    | Some t => (set_cache s (cache_put empty_identity t c) l, ls)
    | None => (set_cache s c l, ls ++ [YNoDefaultToken])
    end
  | _ => (set_cache s c l, ls)
  end.

(* PopulateTokenCache: 111-168. *)
Definition populate_token_cache_l (tm : manager) (o : hash_order) (s : proxy) : proxy * list pline :=
  if negb (y_manager s) then (s, [YNoManager]) else
  match y_selected s with
  | Some i =>
    if cache_mem i (y_cache s) && (lenN (y_cache s) =? 1) then (s, []) else
    let a := tm (y_log s) (GetToken i) in
    let l := y_log s ++ [(GetToken i, a)] in
    match a with
    | Some t => (set_cache s [(i, t)] l, [])
    | None => let '(s, ls) := fetch_all_l tm o s (y_cache s) l in (s, YNoToken :: ls)
    end
  | None => fetch_all_l tm o s (y_cache s) (y_log s)
  end.

(* static_cast<int> of the enumeration: s2a_options.h 44. *)
Definition type_number (t : id_type) : N :=
  match t with NONE => 0 | SPIFFE_ID => 1 | HOSTNAME => 2 | UID => 3 end.

(* The default branches of the loops 496-528, 647-679, 716-748. *)
Definition auth_lines (o : hash_order) (s : proxy) : list pline :=
  flat_map (fun e => match fill_identity (fst e) with
                     | Some _ => []
                     | None => [YUnknown (type_number (id_type_of (fst e)))]
                     end) (ho_tokens o (y_cache s)).

(* Serialization: 530-544, 681-695, 750-764. *)
Definition serialize_req_l (ser : bool) (r : p_req) : pstatus * list pline :=
  (serialize_req ser r, if ser then [] else [YSerialize]).

(* GetClientStart: 365-545. *)
Definition get_client_start_l (tm : manager) (o : hash_order) (ser : bool) (s : proxy) : proxy * pstatus * list pline :=
  let opts := y_options s in
  match tls_to_proto (o_min opts) with
  | inl c => (s, proxy_error c, [YConvert c])
  | inr mn =>
  match tls_to_proto (o_max opts) with
  | inl c => (s, proxy_error c, [YConvert c])
  | inr mx =>
  match suites_to_proto (o_suites opts) with
  | inl c => (s, proxy_error c, [YConvert c])
  | inr su =>
  match all_some (map fill_identity (ho_ids o (o_target opts))) with
  | None => (s, proxy_error kFailedPrecondition, [YIdentity])
  | Some targets =>
  if 1 <? lenN (o_local opts) then (s, proxy_error kFailedPrecondition, [YLocals]) else
  match
    match ho_ids o (o_local opts) with
    | i :: _ => match fill_identity i with Some p => Some (Some p) | None => None end
    | [] => Some None
    end
  with
  | None => (s, proxy_error kFailedPrecondition, [YIdentity])
  | Some local =>
    let '(s, ls) := populate_token_cache_l tm o s in
    let '(st, ls') := serialize_req_l ser
      {| rq_oneof := ReqClient
           {| pc_protocols := [c_str (y_protocol s)]; pc_min := mn; pc_max := mx; pc_suites := su;
              pc_targets := targets; pc_local := local; pc_target_name := c_str (y_hostname s) |};
         rq_auth := auth_mechanisms o s |} in
    (s, st, ls ++ auth_lines o s ++ ls')
  end end end end end.

(* GetServerStart: 547-696. *)
Definition get_server_start_l (tm : manager) (o : hash_order) (ser : bool) (s : proxy) (inp : option bytes)
  : proxy * pstatus * list pline :=
  let opts := y_options s in
  match tls_to_proto (o_min opts) with
  | inl c => (s, proxy_error c, [YConvert c])
  | inr mn =>
  match tls_to_proto (o_max opts) with
  | inl c => (s, proxy_error c, [YConvert c])
  | inr mx =>
  match suites_to_proto (o_suites opts) with
  | inl c => (s, proxy_error c, [YConvert c])
  | inr su =>
  match all_some (map fill_identity (ho_ids o (o_local opts))) with
  | None => (s, proxy_error kFailedPrecondition, [YIdentity])
  | Some locals =>
    let '(s, ls) := populate_token_cache_l tm o s in
    let '(st, ls') := serialize_req_l ser
      {| rq_oneof := ReqServer
           {| ps_protocols := [c_str (y_protocol s)]; ps_min := mn; ps_max := mx; ps_suites := su;
              ps_locals := locals; ps_in_bytes := match inp with Some b => b | None => [] end |};
         rq_auth := auth_mechanisms o s |} in
    (s, st, ls ++ auth_lines o s ++ ls')
  end end end end.

(* GetNext: 698-765. *)
Definition get_next_l (tm : manager) (o : hash_order) (ser : bool) (s : proxy) (inp : option bytes)
  : proxy * pstatus * list pline :=
  let '(s, ls) := populate_token_cache_l tm o s in
  let '(st, ls') := serialize_req_l ser
    {| rq_oneof := ReqNext (match inp with Some b => b | None => [] end);
       rq_auth := auth_mechanisms o s |} in
  (s, st, ls ++ auth_lines o s ++ ls').

(* GetBytesForS2A: 170-202. *)
Definition get_bytes_for_s2a_l (tm : manager) (o : hash_order) (ser : bool) (s : proxy) (inp : option bytes)
  : proxy * pstatus * list pline :=
  if y_first s then
    if y_client s && negb (null_or_empty inp) then (s, proxy_error kFailedPrecondition, [YNotBegun]) else
    let '(s, st, ls) := if y_client s then get_client_start_l tm o ser s else get_server_start_l tm o ser s inp in
    (if is_ok (fst (fst st)) then set_first s false else s, st, ls)
  else if null_or_empty inp then (s, proxy_error kFailedPrecondition, [YNeedPeer])
  else get_next_l tm o ser s inp.

(* The part of GetBytesForPeer that handles a result: 254-355. The state is that
   of take_result; the lines in between are these. *)
Definition take_result_l (s : proxy) (result : p_result) : proxy * option code * list pline :=
  (take_result s result,
   match pr_state result with
   | None => [YResult]
   | Some state =>
     match tls_from_proto (pt_tls state) with
     | inl _ => [YTls]
     | inr _ =>
       match suite_from_proto (pt_suite state) with
       | inl _ => [YSuite]
       | inr _ =>
         (match pr_peer result with None => [YNoPeer] | Some _ => [] end) ++
         (match pr_local result with None => [YNoLocal] | Some _ => [] end)
       end
     end
   end).

(* GetBytesForPeer: 204-363. *)
Definition get_bytes_for_peer_l (V : bytes -> bool) (s : proxy) (inp : option bytes) : proxy * pstatus * list pline :=
  match inp with
  | None | Some [] => (s, proxy_error kFailedPrecondition, [YNeedS2A])
  | Some b =>
    match parse_resp V b with
    | None => (s, proxy_error kInternal, [YNoResponse])
    | Some r =>
      match rs_status r with
      | None => (s, proxy_error kInternal, [YEmpty])
      | Some st =>
        if negb (pst_code st =? 0) then (s, proxy_error kInternal, [YError (pst_details st)]) else
        let s := match rs_local r with
                 | Some i => set_selected s (Some (identity_from_proto (Some i)))
                 | None => s
                 end in
        let '(s, err, ls) := match rs_result r with
                             | Some res => take_result_l s res
                             | None => (s, None, [])
                             end in
        match err with
        | Some c => (s, proxy_error c, ls)
        | None => (s, (kOk, rs_consumed r, Some (rs_out_frames r)), ls)
        end
      end
    end
  end.

(* The public methods. CreateFrameProtector and GetS2AContext log only at 787
   and 811; S2AFrameProtector::Create and S2ACrypter::Create log nothing. *)
Definition plstep (w : world) (s : proxy) (op : pop) : outcome (proxy * pres * list pline) :=
  match op with
  | PToS2A inp o ser =>
    let '(s, st, ls) := get_bytes_for_s2a_l (w_manager w) o ser s inp in Done (s, RToS2A st, ls)
  | PToPeer inp => let '(s, st, ls) := get_bytes_for_peer_l (w_text w) s inp in Done (s, RToPeer st, ls)
  | PFinished => Done (s, RFinished (y_finished s), [])
  | PProtector fs =>
    obind (create_frame_protector (w_prims w) (w_lib w) s fs)
      (fun '((s', r), _) => Done (s', RProtector r, if y_finished s then [] else [YNotFinished]))
  | PContext =>
    let '(s', r) := get_s2a_context s in Done (s', RContext r, if y_finished s then [] else [YNotFinished])
  end.

(* A history and the lines each call logged. *)
Fixpoint plrun (w : world) (s : proxy) (ops : list pop) : outcome (proxy * list pres * list (list pline)) :=
  match ops with
  | [] => Done (s, [], [])
  | op :: r =>
    obind (plstep w s op) (fun '(s, x, ls) =>
    obind (plrun w s r) (fun '(s, xs, lss) => Done (s, x :: xs, ls :: lss)))
  end.
