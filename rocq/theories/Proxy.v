(* Model of include/s2a_proxy.h and src/handshaker/s2a_proxy.cc. *)
From Coq Require Import List NArith Bool.
From Verif Require Import Base Aead Hkdf HalfConn Options HsHandler Crypter FrameProt Wire Util Context.
Import ListNotations.
Local Open Scope N_scope.

(* ------------------------------------------------------------------ *)
(* Calls to the AccessTokenManagerInterface. The manager is arbitrary: its
   answer may depend on all earlier calls and answers. None is an error. *)
Inductive tcall := GetToken (i : identity) | GetDefaultToken.
Definition tlog := list (tcall * option bytes).
Definition manager := tlog -> tcall -> option bytes.

(* The iteration order of absl's hash containers, unspecified and possibly
   different at each call: one per method call. *)
Record hash_order := {
  ho_ids : list identity -> list identity;
  ho_tokens : list (identity * bytes) -> list (identity * bytes)
}.

(* S2AHandshakeResult: s2a_proxy.h 132-142. *)
Record session_result := {
  h_tls : tls_version;
  h_suite : suite;
  h_in_secret : bytes;
  h_out_secret : bytes;
  h_in_seq : N;
  h_out_seq : N;
  h_conn : N;
  h_local : identity
}.

(* absl::make_unique<S2AHandshakeResult>() value-initialises: all scalars are
   zero (the implicit default constructor is not user-provided). *)
Definition session_result_new : session_result :=
  {| h_tls := TLS1_2; h_suite := AES_128_GCM_SHA256; h_in_secret := []; h_out_secret := [];
     h_in_seq := 0; h_out_seq := 0; h_conn := 0; h_local := empty_identity |}.

(* S2AProxy: s2a_proxy.h 116-148. [y_manager]: a token manager is registered;
   [y_selected]: selected_local_identity_; [y_log]: the calls made to the token
   manager so far (not part of the C++ object). *)
Record proxy := {
  y_client : bool;
  y_protocol : bytes;
  y_hostname : bytes;
  y_options : options;
  y_channel : bool;
  y_manager : bool;
  y_cache : list (identity * bytes);
  y_selected : option identity;
  y_first : bool;
  y_finished : bool;
  y_context : option s2a_context;
  y_result : option session_result;
  y_log : tlog
}.

Definition set_cache (s : proxy) (c : list (identity * bytes)) (l : tlog) : proxy :=
  {| y_client := y_client s; y_protocol := y_protocol s; y_hostname := y_hostname s;
     y_options := y_options s; y_channel := y_channel s; y_manager := y_manager s;
     y_cache := c; y_selected := y_selected s; y_first := y_first s;
     y_finished := y_finished s; y_context := y_context s; y_result := y_result s; y_log := l |}.
Definition set_first (s : proxy) (b : bool) : proxy :=
  {| y_client := y_client s; y_protocol := y_protocol s; y_hostname := y_hostname s;
     y_options := y_options s; y_channel := y_channel s; y_manager := y_manager s;
     y_cache := y_cache s; y_selected := y_selected s; y_first := b;
     y_finished := y_finished s; y_context := y_context s; y_result := y_result s; y_log := y_log s |}.
Definition set_selected (s : proxy) (i : option identity) : proxy :=
  {| y_client := y_client s; y_protocol := y_protocol s; y_hostname := y_hostname s;
     y_options := y_options s; y_channel := y_channel s; y_manager := y_manager s;
     y_cache := y_cache s; y_selected := i; y_first := y_first s;
     y_finished := y_finished s; y_context := y_context s; y_result := y_result s; y_log := y_log s |}.
Definition set_finished (s : proxy) : proxy :=
  {| y_client := y_client s; y_protocol := y_protocol s; y_hostname := y_hostname s;
     y_options := y_options s; y_channel := y_channel s; y_manager := y_manager s;
     y_cache := y_cache s; y_selected := y_selected s; y_first := y_first s;
     y_finished := true; y_context := y_context s; y_result := y_result s; y_log := y_log s |}.
Definition set_result (s : proxy) (r : session_result) : proxy :=
  {| y_client := y_client s; y_protocol := y_protocol s; y_hostname := y_hostname s;
     y_options := y_options s; y_channel := y_channel s; y_manager := y_manager s;
     y_cache := y_cache s; y_selected := y_selected s; y_first := y_first s;
     y_finished := y_finished s; y_context := y_context s; y_result := Some r; y_log := y_log s |}.
Definition set_context (s : proxy) (c : option s2a_context) : proxy :=
  {| y_client := y_client s; y_protocol := y_protocol s; y_hostname := y_hostname s;
     y_options := y_options s; y_channel := y_channel s; y_manager := y_manager s;
     y_cache := y_cache s; y_selected := y_selected s; y_first := y_first s;
     y_finished := y_finished s; y_context := c; y_result := y_result s; y_log := y_log s |}.
Definition move_channel (s : proxy) : proxy :=
  {| y_client := y_client s; y_protocol := y_protocol s; y_hostname := y_hostname s;
     y_options := y_options s; y_channel := false; y_manager := y_manager s;
     y_cache := y_cache s; y_selected := y_selected s; y_first := y_first s;
     y_finished := y_finished s; y_context := y_context s; y_result := y_result s; y_log := y_log s |}.

(* S2AProxyOptions: s2a_proxy.h 50-61. *)
Record proxy_args := {
  ya_logger : bool;
  ya_client : bool;
  ya_protocol : bytes;
  ya_hostname : bytes;
  ya_options : option options;
  ya_channel : bool;
  ya_manager : bool
}.

(* Create and the constructor: s2a_proxy.cc 52-80. *)
Definition proxy_create (a : proxy_args) : option proxy :=
  if ya_logger a then
    match ya_options a with
    | None => None
    | Some o =>
      Some {| y_client := ya_client a; y_protocol := ya_protocol a; y_hostname := ya_hostname a;
              y_options := o; y_channel := ya_channel a; y_manager := ya_manager a;
              y_cache := []; y_selected := None; y_first := true; y_finished := false;
              y_context := None; y_result := None; y_log := [] |}
    end
  else None.

(* ------------------------------------------------------------------ *)
(* token_cache_, an absl::flat_hash_map: contains, operator[]= *)
Definition cache_mem (i : identity) (c : list (identity * bytes)) : bool :=
  existsb (fun e => identity_eqb i (fst e)) c.
Fixpoint cache_put (i : identity) (t : bytes) (c : list (identity * bytes)) : list (identity * bytes) :=
  match c with
  | [] => [(i, t)]
  | e :: r => if identity_eqb i (fst e) then (fst e, t) :: r else e :: cache_put i t r
  end.

(* The loop 144-155: tokens for the local identities not in the cache. *)
Fixpoint fetch_tokens (tm : manager) (ids : list identity) (c : list (identity * bytes)) (l : tlog)
  : list (identity * bytes) * tlog :=
  match ids with
  | [] => (c, l)
  | i :: r =>
    if cache_mem i c then fetch_tokens tm r c l else
    let a := tm l (GetToken i) in
    let l := l ++ [(GetToken i, a)] in
    match a with
    | Some t => fetch_tokens tm r (cache_put i t c) l
    | None => fetch_tokens tm r c l
    end
  end.

(* Lines 142-167: tokens for all local identities, or the default token. *)
Definition fetch_all (tm : manager) (o : hash_order) (s : proxy) (c : list (identity * bytes)) (l : tlog)
  : proxy :=
  let '(c, l) := fetch_tokens tm (ho_ids o (o_local (y_options s))) c l in
  match o_local (y_options s) with
  | [] =>
    let a := tm l GetDefaultToken in
    let l := l ++ [(GetDefaultToken, a)] in
    match a with
    | Some t => set_cache s (cache_put empty_identity t c) l
    | None => set_cache s c l
    end
  | _ => set_cache s c l
  end.

(* PopulateTokenCache: 111-168. *)
Definition populate_token_cache (tm : manager) (o : hash_order) (s : proxy) : proxy :=
  if negb (y_manager s) then s else
  match y_selected s with
  | Some i =>
    if cache_mem i (y_cache s) && (lenN (y_cache s) =? 1) then s else
    let a := tm (y_log s) (GetToken i) in
    let l := y_log s ++ [(GetToken i, a)] in
    match a with
    | Some t => set_cache s [(i, t)] l
    | None => fetch_all tm o s (y_cache s) l
    end
  | None => fetch_all tm o s (y_cache s) (y_log s)
  end.

(* The loops 496-528, 647-679, 716-748: one authentication mechanism per cached
   token; the identity is left out if it is of no known type. *)
Definition auth_mechanism (e : identity * bytes) : p_auth :=
  {| pa_identity := fill_identity (fst e); pa_token := Some (c_str (snd e)) |}.
Definition auth_mechanisms (o : hash_order) (s : proxy) : list p_auth :=
  map auth_mechanism (ho_tokens o (y_cache s)).

(* ProxyStatus: s2a_proxy.h 44-48. A null buffer is None. *)
Definition pstatus := (code * N * option bytes)%type.
Definition proxy_error (c : code) : pstatus := (c, 0, None).

(* Serialization 530-544 (681-695, 750-764); upb_encode fails ([ser] is false)
   only if memory runs out. *)
Definition serialize_req (ser : bool) (r : p_req) : pstatus :=
  if ser then (kOk, 0, Some (enc_req r)) else proxy_error kInternal.

Fixpoint all_some {A} (l : list (option A)) : option (list A) :=
  match l with
  | [] => Some []
  | None :: _ => None
  | Some x :: r => match all_some r with Some r' => Some (x :: r') | None => None end
  end.

(* The suites: 406-427. Conversion never fails. *)
Definition suites_to_proto (l : list suite) : code + list N :=
  fold_right (fun s acc =>
    match suite_to_proto s, acc with
    | inl c, _ => inl c
    | inr n, inl c => inl c
    | inr n, inr r => inr (n :: r)
    end) (inr []) l.

(* GetClientStart: 365-545. *)
Definition get_client_start (tm : manager) (o : hash_order) (ser : bool) (s : proxy) : proxy * pstatus :=
  let opts := y_options s in
  match tls_to_proto (o_min opts) with
  | inl c => (s, proxy_error c)
  | inr mn =>
  match tls_to_proto (o_max opts) with
  | inl c => (s, proxy_error c)
  | inr mx =>
  match suites_to_proto (o_suites opts) with
  | inl c => (s, proxy_error c)
  | inr su =>
  match all_some (map fill_identity (ho_ids o (o_target opts))) with
  | None => (s, proxy_error kFailedPrecondition)
  | Some targets =>
  if 1 <? lenN (o_local opts) then (s, proxy_error kFailedPrecondition) else
  match
    match ho_ids o (o_local opts) with
    | i :: _ => match fill_identity i with Some p => Some (Some p) | None => None end
    | [] => Some None
    end
  with
  | None => (s, proxy_error kFailedPrecondition)
  | Some local =>
    let s := populate_token_cache tm o s in
    (s, serialize_req ser
      {| rq_oneof := ReqClient
           {| pc_protocols := [c_str (y_protocol s)]; pc_min := mn; pc_max := mx; pc_suites := su;
              pc_targets := targets; pc_local := local; pc_target_name := c_str (y_hostname s) |};
         rq_auth := auth_mechanisms o s |})
  end end end end end.

(* GetServerStart: 547-696. A null buffer leaves in_bytes empty. *)
Definition get_server_start (tm : manager) (o : hash_order) (ser : bool) (s : proxy) (inp : option bytes)
  : proxy * pstatus :=
  let opts := y_options s in
  match tls_to_proto (o_min opts) with
  | inl c => (s, proxy_error c)
  | inr mn =>
  match tls_to_proto (o_max opts) with
  | inl c => (s, proxy_error c)
  | inr mx =>
  match suites_to_proto (o_suites opts) with
  | inl c => (s, proxy_error c)
  | inr su =>
  match all_some (map fill_identity (ho_ids o (o_local opts))) with
  | None => (s, proxy_error kFailedPrecondition)
  | Some locals =>
    let s := populate_token_cache tm o s in
    (s, serialize_req ser
      {| rq_oneof := ReqServer
           {| ps_protocols := [c_str (y_protocol s)]; ps_min := mn; ps_max := mx; ps_suites := su;
              ps_locals := locals; ps_in_bytes := match inp with Some b => b | None => [] end |};
         rq_auth := auth_mechanisms o s |})
  end end end end.

(* GetNext: 698-765. *)
Definition get_next (tm : manager) (o : hash_order) (ser : bool) (s : proxy) (inp : option bytes)
  : proxy * pstatus :=
  let s := populate_token_cache tm o s in
  (s, serialize_req ser
    {| rq_oneof := ReqNext (match inp with Some b => b | None => [] end);
       rq_auth := auth_mechanisms o s |}).

Definition null_or_empty (inp : option bytes) : bool :=
  match inp with None | Some [] => true | _ => false end.

(* GetBytesForS2A: 170-202. *)
Definition get_bytes_for_s2a (tm : manager) (o : hash_order) (ser : bool) (s : proxy) (inp : option bytes)
  : proxy * pstatus :=
  if y_first s then
    if y_client s && negb (null_or_empty inp) then (s, proxy_error kFailedPrecondition) else
    let '(s, st) := if y_client s then get_client_start tm o ser s else get_server_start tm o ser s inp in
    (if is_ok (fst (fst st)) then set_first s false else s, st)
  else if null_or_empty inp then (s, proxy_error kFailedPrecondition)
  else get_next tm o ser s inp.

(* The part of GetBytesForPeer that handles a result: 254-355. inl is an early
   return. *)
Definition take_result (s : proxy) (result : p_result) : proxy * option code :=
  let s := set_finished s in
  match pr_state result with
  | None => (s, Some kInvalidArgument)
  | Some state =>
    let r := session_result_new in
    let s := set_result s r in
    match tls_from_proto (pt_tls state) with
    | inl c => (s, Some c)
    | inr tls =>
      let r := {| h_tls := tls; h_suite := h_suite r; h_in_secret := h_in_secret r;
                  h_out_secret := h_out_secret r; h_in_seq := h_in_seq r; h_out_seq := h_out_seq r;
                  h_conn := h_conn r; h_local := h_local r |} in
      let s := set_result s r in
      match suite_from_proto (pt_suite state) with
      | inl c => (s, Some c)
      | inr su =>
        let r := {| h_tls := tls; h_suite := su; h_in_secret := pt_in_key state;
                    h_out_secret := pt_out_key state; h_in_seq := pt_in_seq state;
                    h_out_seq := pt_out_seq state; h_conn := h_conn r; h_local := h_local r |} in
        let s := set_result s r in
        match pr_local result with
        | None => (s, Some kInternal)
        | Some local =>
          let s := set_result s
            {| h_tls := tls; h_suite := su; h_in_secret := pt_in_key state;
               h_out_secret := pt_out_key state; h_in_seq := pt_in_seq state;
               h_out_seq := pt_out_seq state; h_conn := pt_conn state;
               h_local := identity_from_proto (Some local) |} in
          (set_context s (Some
             {| x_protocol := pr_protocol result; x_tls := tls; x_suite := su;
                x_peer := identity_from_proto (pr_peer result);
                x_local := identity_from_proto (Some local);
                x_peer_fp := pr_peer_fp result; x_local_fp := pr_local_fp result;
                x_resumed := pt_resumed state |}), None)
        end
      end
    end
  end.

(* GetBytesForPeer: 204-363. *)
Definition get_bytes_for_peer (V : bytes -> bool) (s : proxy) (inp : option bytes) : proxy * pstatus :=
  match inp with
  | None | Some [] => (s, proxy_error kFailedPrecondition)
  | Some b =>
    match parse_resp V b with
    | None => (s, proxy_error kInternal)
    | Some r =>
      match rs_status r with
      | None => (s, proxy_error kInternal)
      | Some st =>
        if negb (pst_code st =? 0) then (s, proxy_error kInternal) else
        let s := match rs_local r with
                 | Some i => set_selected s (Some (identity_from_proto (Some i)))
                 | None => s
                 end in
        let '(s, err) := match rs_result r with
                         | Some res => take_result s res
                         | None => (s, None)
                         end in
        match err with
        | Some c => (s, proxy_error c)
        | None => (s, (kOk, rs_consumed r, Some (rs_out_frames r)))
        end
      end
    end
  end.

(* CreateFrameProtector: 784-807. *)
Definition frame_args (s : proxy) (r : session_result) : fp_args :=
  {| fa_allocator := true; fa_destroy := true; fa_logger := true;
     fa_crypt :=
       {| ca_tls := h_tls r; ca_suite := h_suite r; ca_connection_id := h_conn r;
          ca_url := o_address (y_options s); ca_identity := h_local r;
          ca_in_secret := h_in_secret r; ca_out_secret := h_out_secret r;
          ca_in_seq := h_in_seq r; ca_out_seq := h_out_seq r; ca_sender := true;
          ca_channel := y_channel s; ca_logger := true |} |}.
Definition create_frame_protector (P : prims) (lib : ssl_lib) (s : proxy) : M (proxy * (code + fprot)) :=
  if negb (y_finished s) then ret (s, inl kFailedPrecondition) else
  match y_result s with
  | None => undef UbNullDeref
  | Some r =>
    x <- fp_create P lib (frame_args s r) ;;
    ret (move_channel s, x)
  end.

(* GetS2AContext: 809-816. inr None is a null unique_ptr. *)
Definition get_s2a_context (s : proxy) : proxy * (code + option s2a_context) :=
  if negb (y_finished s) then (s, inl kFailedPrecondition) else
  (set_context s None, inr (y_context s)).
