(* The proxy's log: C80 - C82. [plstep] and [plrun] are the methods of the proxy
   and histories of calls, with the lines logged. *)
From Coq Require Import List NArith Bool Permutation.
From Verif Require Import Base Aead Hkdf HalfConn Options HsHandler Crypter FrameProt Wire SpecWire Util Context SpecOptions Proxy ProxyRun
  SpecProxy ProxyRefuted ProxyLog SpecProxyLog ProxyLogProofs ProxyLogMore ProxyLogSame ProxyLogCases.
Import ListNotations.
Local Open Scope N_scope.

(* C80: every failure is logged. First: with the log left out, these are the
   functions all other properties are about. *)
Theorem C80_log_changes_nothing : forall w ops s,
  match plrun w s ops with
  | Done (s', rs, lss) => prun w s ops = Done (s', rs) /\ length lss = length ops
  | Undef u => prun w s ops = Undef u
  | NoFuel => prun w s ops = NoFuel
  end.
Proof. exact plrun_prun. Qed.
Print Assumptions C80_log_changes_nothing.

(* All failures but one: a frame protector that cannot be created although the
   handshake has finished. *)
Theorem C80_failures_logged_partial : forall w a cs ops rs s op s' r ls, proxied w a cs ops rs s -> pop_ok op ->
  plstep w s op = Done (s', r, ls) -> pres_failed r ->
  (ls = [] <-> (exists fs, op = PProtector fs) /\ result_received (w_text w) ops).
Proof. exact U80failed. Qed.
Print Assumptions C80_failures_logged_partial.

Theorem C80_failures_logged_refuted : exists w a cs ops rs s s' c, proxied w a cs ops rs s /\
  plstep w s (PProtector []) = Done (s', RProtector (inl c), []) /\ c <> kOk.
Proof. exact R80. Qed.
Print Assumptions C80_failures_logged_refuted.

(* The lines of GetBytesForS2A: one if the call is refused; else one for each
   call of the token manager that failed, and one for each authentication
   mechanism in the message that names no identity. *)
Theorem C80_lines_to_s2a : forall w a cs ops rs s inp o ser s' st ls, proxied w a cs ops rs s -> order_ok o ->
  plstep w s (PToS2A inp o ser) = Done (s', RToS2A st, ls) ->
  (exists l, refused (ya_client a) (is_first rs) (o_local (options_after cs)) (bytes_of inp) l /\
     s' = s /\ st = (kFailedPrecondition, 0, None) /\ ls = [l]) \/
  ((forall l, ~ refused (ya_client a) (is_first rs) (o_local (options_after cs)) (bytes_of inp) l) /\
   exists new auth, y_log s' = y_log s ++ new /\
     ls = token_lines (ya_manager a) new ++ mechanism_lines auth ++ (if ser then [] else [YSerialize]) /\
     if ser then exists q b, st = (kOk, 0, Some b) /\ encodes b {| rq_oneof := q; rq_auth := auth |}
     else st = (kInternal, 0, None)).
Proof. exact U80s2a. Qed.
Print Assumptions C80_lines_to_s2a.

(* The lines of GetBytesForPeer: one for what is wrong, and one for a result
   without peer identity, which is accepted. *)
Theorem C80_lines_to_peer : forall w s inp s' r ls, plstep w s (PToPeer inp) = Done (s', r, ls) ->
  (exists l, bad_response (w_text w) (bytes_of inp) l /\ ls = [l] /\ pres_failed r) \/
  (exists m, good_response (w_text w) (bytes_of inp) m /\
     match rs_result m with
     | None => ls = [] /\ ~ pres_failed r
     | Some res => result_lines res ls /\ (pres_failed r <-> exists l, In l ls /\ l <> YNoPeer)
     end).
Proof. exact U80peer. Qed.
Print Assumptions C80_lines_to_peer.

(* A response without status is logged, but by a line without text. *)
Theorem C80_empty_line : forall w s b r, b <> [] -> parse_resp (w_text w) b = Some r -> rs_status r = None ->
  plstep w s (PToPeer (Some b)) = Done (s, RToPeer (kInternal, 0, None), [YEmpty]).
Proof. exact U80empty. Qed.
Print Assumptions C80_empty_line.
Example C80_case_empty : exists w a cs s b, proxied w a cs [] [] s /\
  plstep w s (PToPeer (Some b)) = Done (s, RToPeer (kInternal, 0, None), [YEmpty]).
Proof. exact R80empty. Qed.

(* C81: when all tokens were obtained, nothing is logged. Missing: proxies
   without local identities. *)
Theorem C81_no_idle_lines_partial : forall w a cs ops rs s inp o ser s' n b ls, proxied w a cs ops rs s -> order_ok o ->
  ya_manager a = true -> locals_added cs <> [] -> all_named (selections (w_text w) ops) ->
  plstep w s (PToS2A inp o ser) = Done (s', RToS2A (kOk, n, Some b), ls) ->
  exists new, y_log s' = y_log s ++ new /\ ls = flat_map call_lines new.
Proof. exact U81. Qed.
Print Assumptions C81_no_idle_lines_partial.

Example C81_case : exists s s' b, proxied (token_of [116]) args0 setters0 [] [] s /\ locals_added setters0 <> [] /\
  plstep (token_of [116]) s (PToS2A None id_order true) = Done (s', RToS2A (kOk, 0, Some b), []).
Proof.
  eexists (proxy0 args0 setters0), _, _. split; [split; [reflexivity|split; [constructor|eexists; split; reflexivity]]|].
  split; [discriminate|]. vm_compute. reflexivity.
Qed.

(* Without local identities the default token is used as intended, and every
   message sent with it has a line about an unknown identity type. *)
Theorem C81_deviation_on_every_proxy : forall w a cs ops rs s inp o ser s' n b ls t, proxied w a cs ops rs s -> order_ok o ->
  ya_manager a = true -> locals_added cs = [] -> selections (w_text w) ops = [] ->
  plstep w s (PToS2A inp o ser) = Done (s', RToS2A (kOk, n, Some b), ls) -> w_manager w (y_log s) GetDefaultToken = Some t ->
  y_log s' = y_log s ++ [(GetDefaultToken, Some t)] /\ ls = [YUnknown 0].
Proof. exact U81every. Qed.
Print Assumptions C81_deviation_on_every_proxy.

Theorem C81_no_idle_lines_refuted : exists w a cs s s' n b, proxied w a cs [] [] s /\ ya_manager a = true /\
  (forall l c, w_manager w l c <> None) /\
  plstep w s (PToS2A None id_order true) = Done (s', RToS2A (kOk, n, Some b), [YUnknown 0]).
Proof. exact R81. Qed.
Print Assumptions C81_no_idle_lines_refuted.

(* C82: two proxies with the same options whose managers have tokens for the
   same identities, and which see the same kinds of calls and responses, log the
   same; whatever the tokens, the secrets, the bytes from and for the peer, the
   names. *)
Theorem C82_log_reveals_nothing : forall w w' a a' cs ops ops' s0 s0' s rs lss s' rs' lss',
  ya_options a = Some (options_after cs) -> ya_options a' = Some (options_after cs) -> same_args a a' ->
  same_tokens_known (w_manager w) (w_manager w') -> Forall2 (same_op w w') ops ops' -> Forall pop_ok ops -> Forall pop_ok ops' ->
  proxy_create a = Some s0 -> proxy_create a' = Some s0' ->
  plrun w s0 ops = Done (s, rs, lss) -> plrun w' s0' ops' = Done (s', rs', lss') -> lss = lss'.
Proof. exact U82. Qed.
Print Assumptions C82_log_reveals_nothing.

Example C82_case : let a := args_for true [104] [SetAddress Toy.ascii_url] in let a' := args_for true [105] [SetAddress Toy.ascii_url] in
  same_args a a' /\ same_tokens_known (w_manager (token_of [116])) (w_manager (token_of [117; 117])) /\
  Forall2 (same_op (token_of [116]) (token_of [117; 117])) run1 run2 /\ Forall pop_ok run1 /\ Forall pop_ok run2 /\
  exists s s0 rs s' s0' rs', proxy_create a = Some s0 /\ proxy_create a' = Some s0' /\
    plrun (token_of [116]) s0 run1 = Done (s, rs, [[YUnknown 0]; []; [YUnknown 0]; []]) /\
    plrun (token_of [117; 117]) s0' run2 = Done (s', rs', [[YUnknown 0]; []; [YUnknown 0]; []]).
Proof. exact same_case. Qed.
