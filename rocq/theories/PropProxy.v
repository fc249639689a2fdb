(* The handshake proxy (S2AProxy): C35 - C47.
   [proxied w a cs ops rs s]: s is a proxy created with arguments a, whose
   options were made by the setter calls cs, after the calls ops with results
   rs; w is the TLS library, the parser's check for text and the token manager. *)
From Coq Require Import List NArith Bool Permutation.
From Verif Require Import Base Aead Hkdf HalfConn Options HsHandler Crypter FrameProt Wire SpecWire Util Context SpecOptions Proxy ProxyRun
  ProxyProofs ProxyFinal ProxyTokens SpecTls SpecRecord SpecRx HalfRun SpecFrame FrameRun FrameLink Toy ToyProofs FrameExamples ProxyRefuted.
Import ListNotations.
Local Open Scope N_scope.

(* Cases are shown in this world. *)
Definition world0 : world :=
  {| w_prims := toy; w_lib := OpenSSL; w_text := is_utf8; w_manager := fun _ _ => Some [116] |}.

(* C35. What is sent: one start message, then next messages. *)
Theorem C35_start_then_next : forall w a cs ops rs s, proxied w a cs ops rs s -> start_then_next (ya_client a) (exchanges ops rs).
Proof. exact (fun w a cs ops rs s H => proj1 (P35 w a cs ops rs s H)). Qed.
Print Assumptions C35_start_then_next.

(* C35. When a message is sent; a refused call changes nothing, and if memory
   runs out only tokens have been fetched. *)
Theorem C35_call : forall w a cs ops rs s, proxied w a cs ops rs s -> forall inp o ser, order_ok o ->
  exists s' c buf, pstep w s (PToS2A inp o ser) = Done (s', RToS2A (c, 0, buf)) /\
    (c = kOk <-> buf <> None) /\
    (c = kOk <-> ser = true /\
       match exchanges ops rs with
       | [] => ya_client a = true -> bytes_of inp = [] /\ lenN (o_local (options_after cs)) <= 1
       | _ => bytes_of inp <> []
       end) /\
    (c <> kOk -> ser = true -> s' = s) /\
    (c <> kOk -> same_but_tokens s s').
Proof. exact P35b. Qed.
Print Assumptions C35_call.

(* C35. No message is of two kinds. *)
Theorem C35_kinds_differ : forall b, wire_size_ok b -> forall i j,
  ~ (client_start b /\ server_start i b) /\ ~ (client_start b /\ next_message i b) /\ ~ (server_start i b /\ next_message j b).
Proof. exact P35c. Qed.
Print Assumptions C35_kinds_differ.

Definition some_calls : list pop :=
  [PToS2A (Some [5]) id_order true; PToS2A None id_order false; PToS2A None id_order true; PToS2A None id_order true;
   PToS2A (Some [22; 3]) id_order true].
Definition answers (r : outcome (proxy * list pres)) : list (code * bool) :=
  match r with
  | Done (_, l) => map (fun x => match x with RToS2A (c, _, Some b) => (c, lenN b <? 100) | RToS2A (c, _, None) => (c, false) | _ => (kUnknown, false) end) l
  | _ => []
  end.
Example C35_case : (exists rs s, proxied world0 args0 setters0 some_calls rs s) /\
  answers (prun world0 (proxy0 args0 setters0) some_calls) =
    [(kFailedPrecondition, false); (kInternal, false); (kOk, true); (kFailedPrecondition, false); (kOk, true)].
Proof.
  split; [|reflexivity]. eexists _, _. split; [reflexivity|].
  split; [repeat (constructor; [exact id_order_ok|]); constructor|]. eexists. split; [apply created|]. reflexivity.
Qed.

(* C36. *)
Theorem C36_finished_on_result : forall w a cs ops rs s, proxied w a cs ops rs s ->
  exists b, pstep w s PFinished = Done (s, RFinished b) /\ (b = true <-> result_received (w_text w) ops).
Proof. exact P36. Qed.
Print Assumptions C36_finished_on_result.
Theorem C36_stays_finished : forall V ops more, result_received V ops -> result_received V (ops ++ more).
Proof. exact (fun V ops more H => match H with ex_intro _ b (ex_intro _ r (ex_intro _ x (conj Hi K))) =>
  ex_intro _ b (ex_intro _ r (ex_intro _ x (conj (in_or_app ops more _ (or_introl Hi)) K))) end). Qed.
Print Assumptions C36_stays_finished.
Example C36_case : exists b, proxied world0 args0 setters0 [PToPeer (Some b)] [RToPeer (kOk, 9, Some [])] done0 /\
  result_received is_utf8 [PToPeer (Some b)].
Proof.
  exists (enc_resp good_reply). split; [exact (handshake world0 utf8_texts)|].
  eexists _, _, _. split; [left; reflexivity|]. split; [exact (good_reply_good _ utf8_texts)|reflexivity].
Qed.

(* C37. *)
Theorem C37_nothing_before_finish : forall w a cs ops rs s, proxied w a cs ops rs s -> ~ result_received (w_text w) ops ->
  (forall fs, pstep w s (PProtector fs) = Done (s, RProtector (inl kFailedPrecondition))) /\
  pstep w s PContext = Done (s, RContext (inl kFailedPrecondition)).
Proof. exact P37. Qed.
Print Assumptions C37_nothing_before_finish.
Example C37_case : exists rs s, proxied world0 args0 setters0 some_calls rs s /\ ~ result_received is_utf8 some_calls.
Proof.
  destruct C35_case as [(rs & s & H) _]. exists rs, s. split; [exact H|].
  intros (b & r & res & Hi & _). cbn in Hi. intuition discriminate.
Qed.

(* C38. Missing: results without a session state and results without a local
   identity. *)
Theorem C38_failed_result_partial : forall w a cs ops rs s, prims_ok (w_prims w) -> w_text w [] = true -> proxied w a cs ops rs s ->
  forall b r res s1 c n buf, good_response (w_text w) b r -> rs_result r = Some res -> pr_state res <> None -> pr_local res <> None ->
  pstep w s (PToPeer (Some b)) = Done (s1, RToPeer (c, n, buf)) -> c <> kOk ->
  forall fs, exists s2 e, pstep w s1 (PProtector fs) = Done (s2, RProtector (inl e)) /\ e <> kOk.
Proof. exact P38. Qed.
Print Assumptions C38_failed_result_partial.
(* A result without session state: the error is reported, the handshake counts
   as finished, and creating a frame protector dereferences a null pointer. *)
Theorem C38_null_result_refuted : forall w, texts (w_text w) -> exists b s,
  proxied w args0 setters0 [PToPeer (Some b)] [RToPeer (kInvalidArgument, 0, None)] s /\
  forall fs, pstep w s (PProtector fs) = Undef UbNullDeref.
Proof. exact R38. Qed.
Print Assumptions C38_null_result_refuted.
(* A result without local identity: the error is reported, yet there is a frame
   protector. *)
Theorem C38_protector_after_error_refuted : forall w, prims_ok (w_prims w) -> texts (w_text w) -> exists b s s' f,
  proxied w args0 setters0 [PToPeer (Some b)] [RToPeer (kInternal, 0, None)] s /\
  pstep w s (PProtector []) = Done (s', RProtector (inr f)).
Proof. exact R38b. Qed.
Print Assumptions C38_protector_after_error_refuted.
(* An unknown ciphersuite in an otherwise complete result. *)
Definition unknown_suite : p_resp := reply 0 None [] (Some (result_of (Some (state_of 1 9)) (Some (host_of [97])))).
Example C38_case : prims_ok (w_prims world0) /\ texts (w_text world0) /\
  parse_resp is_utf8 (enc_resp unknown_suite) = Some unknown_suite /\
  match pstep world0 (proxy0 args0 setters0) (PToPeer (Some (enc_resp unknown_suite))) with
  | Done (s, RToPeer (c, _, _)) => c = kFailedPrecondition /\ y_finished s = true
  | _ => False
  end.
Proof.
  split; [exact toy_ok|]. split; [exact utf8_texts|]. split; [vm_compute; reflexivity|]. vm_compute. split; reflexivity.
Qed.

(* C39. [later]: calls other than GetBytesForPeer. *)
Theorem C39_parameters_delivered : forall w a cs ops rs s, proxied w a cs ops rs s ->
  forall b r res s1 n buf, good_response (w_text w) b r -> rs_result r = Some res ->
  pstep w s (PToPeer (Some b)) = Done (s1, RToPeer (kOk, n, buf)) ->
  forall later rs' s2, Forall quiet later -> Forall pop_ok later -> prun w s1 later = Done (s2, rs') ->
  (exists args, protector_matches res args /\ ca_url (fa_crypt args) = last (addresses cs) [] /\
     forall fs x, (exists s3, pstep w s2 (PProtector fs) = Done (s3, RProtector x)) <->
                  (exists fs', fp_create (w_prims w) (w_lib w) args fs = Done (x, fs'))) /\
  (~ In PContext later -> exists c s3, context_matches res c /\ pstep w s2 PContext = Done (s3, RContext (inr (Some c)))).
Proof. exact P39. Qed.
Print Assumptions C39_parameters_delivered.
Example C39_case : exists b r res,
  good_response is_utf8 b r /\ rs_result r = Some res /\
  pstep world0 (proxy0 args0 setters0) (PToPeer (Some b)) = Done (done0, RToPeer (kOk, 9, Some [])) /\
  prun world0 done0 [PFinished; PToS2A None id_order true] <> NoFuel.
Proof.
  exists (enc_resp good_reply), good_reply. eexists. split; [exact (good_reply_good _ utf8_texts)|]. split; [reflexivity|].
  split; [vm_compute; reflexivity|]. vm_compute. discriminate.
Qed.

(* C40. Every mechanism states an identity the manager was asked about and the
   token returned for it, both cut at the first NUL; the log is that of the
   token manager. Missing: strings with NUL bytes are not sent whole. *)
Theorem C40_tokens_partial : forall w a cs ops rs s, proxied w a cs ops rs s ->
  forall inp o ser s' c n b, order_ok o -> pstep w s (PToS2A inp o ser) = Done (s', RToS2A (c, n, Some b)) ->
  log_of (w_manager w) (y_log s') /\
  exists q l, encodes b {| rq_oneof := q; rq_auth := l |} /\ Forall (mechanism_ok (y_log s')) l /\
    (forall i, ya_manager a = true -> selects (selections (w_text w) ops) i -> w_manager w (y_log s) (GetToken i) <> None ->
       exists m, l = [m] /\ mechanism_for (y_log s') i m).
Proof. exact P40. Qed.
Print Assumptions C40_tokens_partial.
Theorem C40_uncut : forall s s', nul_free s -> cut s s' -> s' = s.
Proof. exact cut_whole. Qed.
Print Assumptions C40_uncut.
(* The manager is asked for a token of "a\0b" and returns "t\0u"; token "t" is
   sent for identity "a". *)
Theorem C40_nul_refuted : forall w0, let w := token_world w0 in exists b s s' q m, let a := args_for true [104] cut_setters in
  proxied w a cut_setters [] [] s /\ pstep w s (PToS2A None id_order true) = Done (s', RToS2A (kOk, 0, Some b)) /\
  encodes b {| rq_oneof := q; rq_auth := [m] |} /\
  pa_identity m = Some (host_of [97]) /\ pa_token m = Some [116] /\
  y_log s' = [(GetToken (from_hostname [97; 0; 98]), Some [116; 0; 117])].
Proof. exact R40. Qed.
Print Assumptions C40_nul_refuted.
Example C40_case : exists s b1 b2, let ops := [PToPeer (Some (enc_resp announce_a))] in
  proxied world0 args0 setters0 ops [RToPeer (kOk, 9, Some [])] s /\
  ya_manager args0 = true /\ selects (selections is_utf8 ops) (from_hostname [97]) /\
  w_manager world0 (y_log s) (GetToken (from_hostname [97])) <> None /\
  exists s', pstep world0 s (PToS2A None id_order true) = Done (s', RToS2A (kOk, b1, Some b2)).
Proof.
  eexists _, _, _. split.
  { eapply one_step; [reflexivity|apply created|exact I|]. cbn [pstep]. rewrite (peer_is _ _ _ _ (announce_good is_utf8 utf8_texts)). reflexivity. }
  split; [reflexivity|]. split; [exists [], (host_of [97]); split; [vm_compute; reflexivity|constructor]|]. split; [discriminate|].
  eexists. vm_compute. reflexivity.
Qed.

(* C41. The first context call after a successful result (C39) has a context.
   Missing: later calls, and calls after a failed result. *)
Theorem C41_first_context_partial : forall w a cs ops rs s, proxied w a cs ops rs s ->
  forall b r res s1 n buf, good_response (w_text w) b r -> rs_result r = Some res ->
  pstep w s (PToPeer (Some b)) = Done (s1, RToPeer (kOk, n, buf)) ->
  forall later rs' s2, Forall quiet later -> Forall pop_ok later -> prun w s1 later = Done (s2, rs') ->
  ~ In PContext later -> exists c s3, context_matches res c /\ pstep w s2 PContext = Done (s3, RContext (inr (Some c))).
Proof. exact (fun w a cs ops rs s H b r res s1 n buf G R E later rs' s2 Q O X => proj2 (P39 w a cs ops rs s H b r res s1 n buf G R E later rs' s2 Q O X)). Qed.
Print Assumptions C41_first_context_partial.
Theorem C41_second_call_refuted : forall w, texts (w_text w) -> exists b s c,
  proxied w args0 setters0 [PToPeer (Some b); PContext; PContext]
    [RToPeer (kOk, 9, Some []); RContext (inr (Some c)); RContext (inr None)] s.
Proof. exact R41. Qed.
Print Assumptions C41_second_call_refuted.
Theorem C41_failed_result_refuted : forall w, texts (w_text w) -> exists b s,
  proxied w args0 setters0 [PToPeer (Some b); PContext] [RToPeer (kInvalidArgument, 0, None); RContext (inr None)] s.
Proof. exact R41b. Qed.
Print Assumptions C41_failed_result_refuted.

(* C42. Each single protector never repeats a nonce under one key (epoch e).
   Missing: two protectors of one proxy. *)
Theorem C42_one_protector_partial : forall w a cs ops rs s, prims_ok (w_prims w) -> w_text w [] = true -> proxied w a cs ops rs s ->
  forall fs s' f, pstep w s (PProtector fs) = Done (s', RProtector (inr f)) ->
  forall al uses frs f', alloc_ok al -> fops_ok uses -> frun (w_prims w) (w_lib w) al f uses = Done (f', frs) ->
  forall e, NoDup (nonces (cx_out (fp_crypt f')) e).
Proof. exact P42. Qed.
Print Assumptions C42_one_protector_partial.
(* Two protectors seal different data in the same direction state d: same
   secret, same sequence number. *)
Theorem C42_two_protectors_refuted : forall w al, prims_ok (w_prims w) -> alloc_ok al -> texts (w_text w) ->
  exists b s f g d f' g' bf bg,
  proxied w args0 setters0 [PToPeer (Some b); PProtector []; PProtector []]
    [RToPeer (kOk, 9, Some []); RProtector (inr f); RProtector (inr g)] s /\
  fstep (w_prims w) (w_lib w) al f (FProtect [IoBuf [1]]) [] = Done (f', FProtected kOk bf) /\
  fstep (w_prims w) (w_lib w) al g (FProtect [IoBuf [2]]) [] = Done (g', FProtected kOk bg) /\
  out_bytes bf = tls_record (w_prims w) d ty_application_data [1] 0 /\
  out_bytes bg = tls_record (w_prims w) d ty_application_data [2] 0.
Proof. exact R42. Qed.
Print Assumptions C42_two_protectors_refuted.
(* This is so for any two protectors with no response in between. *)
Theorem C42_same_keys : forall w a cs ops rs0 s, proxied w a cs ops rs0 s ->
  forall fs1 fs2 s1 s2 x f1 f2 later rs, Forall quiet later -> Forall pop_ok later ->
  pstep w s (PProtector fs1) = Done (s1, RProtector (inr f1)) -> prun w s1 later = Done (x, rs) ->
  pstep w x (PProtector fs2) = Done (s2, RProtector (inr f2)) ->
  exists a1 a2 fs1' fs2', fp_create (w_prims w) (w_lib w) a1 fs1 = Done (inr f1, fs1') /\
    fp_create (w_prims w) (w_lib w) a2 fs2 = Done (inr f2, fs2') /\ f_out a1 = f_out a2 /\ f_in a1 = f_in a2.
Proof. exact (fun w a cs ops rs0 s H fs1 fs2 s1 s2 x f1 f2 later rs => P42b w s fs1 fs2 s1 s2 x f1 f2 later rs (proj2 (proxied_config w a cs ops rs0 s H))). Qed.
Print Assumptions C42_same_keys.
Example C42_case : prims_ok (w_prims world0) /\ alloc_ok toy_al /\ texts (w_text world0) /\
  exists f g, pstep world0 done0 (PProtector []) = Done (move_channel done0, RProtector (inr f)) /\
    pstep world0 (move_channel done0) (PProtector []) = Done (move_channel (move_channel done0), RProtector (inr g)).
Proof.
  split; [exact toy_ok|]. split; [exact toy_al_ok|]. split; [exact utf8_texts|].
  destruct (protector_made world0 done0 result0 toy_ok) as (f & fs1 & E1 & _); try reflexivity.
  destruct (protector_made world0 (move_channel done0) result0 toy_ok) as (g & fs2 & E2 & _); try reflexivity.
  exists f, g. split; [exact E1|exact E2].
Qed.

(* C43. If the call succeeds, the frames and the count are delivered. Missing:
   failed calls. *)
Theorem C43_frames_partial : forall w s b s1 c n buf r, good_response (w_text w) b r ->
  pstep w s (PToPeer (Some b)) = Done (s1, RToPeer (c, n, buf)) ->
  (rs_result r = None -> c = kOk) /\ (c = kOk -> n = rs_consumed r /\ buf = Some (rs_out_frames r)).
Proof. exact P43. Qed.
Print Assumptions C43_frames_partial.
(* With another status, no frames are delivered. *)
Theorem C43_alert_lost_refuted : forall w, texts (w_text w) -> exists b r s,
  parse_resp (w_text w) b = Some r /\ rs_out_frames r = [21; 3; 3; 0; 2; 2; 40] /\
  (exists st, rs_status r = Some st /\ pst_code st <> 0) /\
  proxied w args0 setters0 [PToPeer (Some b)] [RToPeer (kInternal, 0, None)] s.
Proof. exact R43. Qed.
Print Assumptions C43_alert_lost_refuted.
Theorem C43_always_lost : forall w s b r st, b <> [] -> parse_resp (w_text w) b = Some r -> rs_status r = Some st -> pst_code st <> 0 ->
  pstep w s (PToPeer (Some b)) = Done (s, RToPeer (kInternal, 0, None)).
Proof. exact P43b. Qed.
Print Assumptions C43_always_lost.

(* C44, C45. When a result is accepted: the identity announced earlier, the
   versions and the suites offered play no role. Missing from C45: only
   numbers that mean nothing, and (second theorem) TLS 1.2, are refused. *)
Theorem C45_accepted_partial : forall w s b r res, good_response (w_text w) b r -> rs_result r = Some res ->
  exists s' c n buf, pstep w s (PToPeer (Some b)) = Done (s', RToPeer (c, n, buf)) /\
    (c = kOk <-> exists st v u, pr_state res = Some st /\ tls_number v (pt_tls st) /\ suite_number u (pt_suite st) /\ pr_local res <> None).
Proof. exact P44. Qed.
Print Assumptions C45_accepted_partial.
Theorem C45_protector_version_partial : forall w a cs ops rs s, prims_ok (w_prims w) -> w_text w [] = true -> proxied w a cs ops rs s ->
  forall fs s' f, pstep w s (PProtector fs) = Done (s', RProtector (inr f)) ->
  exists args fs', fp_create (w_prims w) (w_lib w) args fs = Done (inr f, fs') /\ ca_tls (fa_crypt args) = TLS1_3.
Proof. exact P45. Qed.
Print Assumptions C45_protector_version_partial.
(* S2A announces "a"; the result has local identity "b". *)
Theorem C44_identity_mismatch_refuted : forall w, prims_ok (w_prims w) -> texts (w_text w) -> exists b1 b2 r1 r2 res s s' f,
  good_response (w_text w) b1 r1 /\ good_response (w_text w) b2 r2 /\ rs_local r1 = Some (host_of [97]) /\
  rs_result r2 = Some res /\ pr_local res = Some (host_of [98]) /\
  proxied w args0 setters0 [PToPeer (Some b1); PToPeer (Some b2)] [RToPeer (kOk, 9, Some []); RToPeer (kOk, 9, Some [])] s /\
  pstep w s (PProtector []) = Done (s', RProtector (inr f)).
Proof. exact R44. Qed.
Print Assumptions C44_identity_mismatch_refuted.
(* Only TLS 1.3 offered, TLS 1.2 accepted. *)
Theorem C45_version_refuted : forall w, texts (w_text w) -> exists b s c,
  o_min (options_after setters0) = TLS1_3 /\ o_max (options_after setters0) = TLS1_3 /\ x_tls c = TLS1_2 /\
  proxied w args0 setters0 [PToPeer (Some b); PFinished; PContext]
    [RToPeer (kOk, 9, Some []); RFinished true; RContext (inr (Some c))] s.
Proof. exact R45. Qed.
Print Assumptions C45_version_refuted.
(* A suite that was not offered is used. *)
Theorem C45_suite_refuted : forall w, prims_ok (w_prims w) -> texts (w_text w) -> exists b s s' f args,
  ~ In (ca_suite (fa_crypt args)) (o_suites (options_after setters0)) /\
  proxied w args0 setters0 [PToPeer (Some b)] [RToPeer (kOk, 9, Some [])] s /\
  pstep w s (PProtector []) = Done (s', RProtector (inr f)) /\
  exists fs', fp_create (w_prims w) (w_lib w) args [] = Done (inr f, fs').
Proof. exact R45b. Qed.
Print Assumptions C45_suite_refuted.

(* C46. Missing: strings with NUL bytes. *)
Theorem C46_client_start_partial : forall w a cs ops rs s, proxied w a cs ops rs s -> ya_client a = true -> exchanges ops rs = [] ->
  forall inp o ser s' c n buf, order_ok o -> pstep w s (PToS2A inp o ser) = Done (s', RToS2A (c, n, buf)) ->
  let opts := options_after cs in
  (1 < lenN (o_local opts) -> c <> kOk) /\
  (c = kOk -> options_nul_free opts -> nul_free (ya_protocol a) -> nul_free (ya_hostname a) ->
     exists b m l, buf = Some b /\ encodes b {| rq_oneof := ReqClient m; rq_auth := l |} /\
       client_states (ya_hostname a) (ya_protocol a) opts m).
Proof. exact P46. Qed.
Print Assumptions C46_client_start_partial.
Theorem C46_nul_refuted : forall w, exists b s s' m l, let a := args_for true [97; 0; 98] [] in
  proxied w a [] [] [] s /\ pstep w s (PToS2A None id_order true) = Done (s', RToS2A (kOk, 0, Some b)) /\
  encodes b {| rq_oneof := ReqClient m; rq_auth := l |} /\ pc_target_name m = [97].
Proof. exact R46. Qed.
Print Assumptions C46_nul_refuted.
Example C46_case : options_nul_free (options_after setters0) /\ nul_free (ya_protocol args0) /\ nul_free (ya_hostname args0) /\
  exists s' b, pstep world0 (proxy0 args0 setters0) (PToS2A None id_order true) = Done (s', RToS2A (kOk, 0, Some b)).
Proof.
  split; [|split; [|split; [|eexists _, _; vm_compute; reflexivity]]].
  - split; repeat constructor. intros [K|[]]. discriminate.
  - intros K. cbn in K. intuition discriminate.
  - intros [K|[]]. discriminate.
Qed.

(* C47. Missing: strings with NUL bytes. *)
Theorem C47_server_start_partial : forall w a cs ops rs s, proxied w a cs ops rs s -> ya_client a = false -> exchanges ops rs = [] ->
  forall inp o ser s' c n buf, order_ok o -> pstep w s (PToS2A inp o ser) = Done (s', RToS2A (c, n, buf)) ->
  let opts := options_after cs in
  c = kOk -> options_nul_free opts -> nul_free (ya_protocol a) ->
     exists b m l, buf = Some b /\ encodes b {| rq_oneof := ReqServer m; rq_auth := l |} /\
       server_states (bytes_of inp) (ya_protocol a) opts m.
Proof. exact P47. Qed.
Print Assumptions C47_server_start_partial.
Theorem C47_nul_refuted : forall w, exists b s s' m l, let a := args_for false [] [AddLocalUid [97; 0; 98]] in
  proxied w a [AddLocalUid [97; 0; 98]] [] [] s /\ pstep w s (PToS2A (Some [1]) id_order true) = Done (s', RToS2A (kOk, 0, Some b)) /\
  encodes b {| rq_oneof := ReqServer m; rq_auth := l |} /\ ps_locals m = [{| pi_id := IdUid [97]; pi_attrs := [] |}].
Proof. exact R47. Qed.
Print Assumptions C47_nul_refuted.
Definition setters2 : list setter := [AddLocalHost [97]; AddLocalUid [98]; AddLocalHost [97]; AddSuite CHACHA20_POLY1305_SHA256].
Example C47_case : lenN (o_local (options_after setters2)) = 2 /\ options_nul_free (options_after setters2) /\
  exists s' b, pstep world0 (proxy0 (args_for false [] setters2) setters2) (PToS2A (Some [1; 2]) id_order true) = Done (s', RToS2A (kOk, 0, Some b)).
Proof.
  split; [reflexivity|]. split; [|eexists _, _; vm_compute; reflexivity].
  split; repeat constructor; intros [K|[]]; discriminate.
Qed.
