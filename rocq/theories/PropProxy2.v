(* The handshake proxy (S2AProxy), continued: C32, C60 - C63. For [proxied] see
   PropProxy.v. *)
From Coq Require Import List NArith Bool Permutation.
From Verif Require Import Base Aead Hkdf HalfConn Options HsHandler Crypter FrameProt Wire SpecWire Util Context SpecOptions Proxy ProxyRun SpecProxy
  ProxyProofs ProxyFinal ProxyTokens ProxyMore ProxyEnd SpecTls SpecRecord SpecRx CrypterRun HalfRun SpecFrame FrameRun FrameLink Toy ToyProofs
  FrameExamples ProxyRefuted.
Import ListNotations.
Local Open Scope N_scope.

(* C32. When there is a proxy. *)
Theorem C32_proxy_creation : forall a, proxy_create a = None <-> ya_logger a = false \/ ya_options a = None.
Proof. exact Q32. Qed.
Print Assumptions C32_proxy_creation.

(* C60. Nothing is selected: the manager is asked once for each local identity
   without token (or for the default token if there are no local identities),
   and each token it has is sent once, with its identity. *)
Theorem C60_unselected : forall w a cs ops rs s, proxied w a cs ops rs s -> ya_manager a = true -> selections (w_text w) ops = [] ->
  forall inp o ser s' c n b, order_ok o -> pstep w s (PToS2A inp o ser) = Done (s', RToS2A (c, n, Some b)) ->
  exists new q ids l, y_log s' = y_log s ++ new /\ NoDup (map fst new) /\
    (forall x, In x (map fst new) <-> calls_due (o_local (options_after cs)) (y_log s) x) /\
    encodes b {| rq_oneof := q; rq_auth := l |} /\ NoDup ids /\
    (forall i, In i ids <-> exists t, token_held (y_log s') i t) /\
    Forall2 (fun i m => exists t, token_held (y_log s') i t /\ mechanism_of i t m) ids l.
Proof. exact Q60. Qed.
Print Assumptions C60_unselected.

(* Identity i is selected: only its token is sent, asked for now or earlier;
   or the manager has none, and all local identities have their token sent or
   are asked for in vain. *)
Theorem C60_selected : forall w a cs ops rs s, proxied w a cs ops rs s -> ya_manager a = true ->
  forall i, selects (selections (w_text w) ops) i ->
  forall inp o ser s' c n b, order_ok o -> pstep w s (PToS2A inp o ser) = Done (s', RToS2A (c, n, Some b)) ->
  exists new q ids l, y_log s' = y_log s ++ new /\ encodes b {| rq_oneof := q; rq_auth := l |} /\ NoDup ids /\
    Forall2 (mechanism_for (y_log s')) ids l /\
    (ids = [i] /\ (new = [] \/ exists t, new = [(GetToken i, Some t)] /\ Forall (mechanism_of i t) l) \/
     exists rest, new = (GetToken i, None) :: rest /\
       (forall x, In x (map fst rest) -> match x with GetToken j => In j (locals_added cs) | GetDefaultToken => locals_added cs = [] end) /\
       (forall j, In j (locals_added cs) -> In j ids \/ In (GetToken j, None) rest) /\
       (locals_added cs = [] -> exists r, rest = [(GetDefaultToken, r)] /\ (r <> None -> In empty_identity ids))).
Proof. exact Q60sel. Qed.
Print Assumptions C60_selected.

(* After that the manager is not asked again until S2A says something. *)
Theorem C60_selected_token_kept : forall w a cs ops rs s, proxied w a cs ops rs s -> ya_manager a = true ->
  forall i, selects (selections (w_text w) ops) i ->
  forall inp o ser s' x t, order_ok o -> pstep w s (PToS2A inp o ser) = Done (s', x) -> y_log s' = y_log s ++ [(GetToken i, Some t)] ->
  forall later rs' s2, Forall quiet later -> Forall pop_ok later -> prun w s' later = Done (s2, rs') -> y_log s2 = y_log s'.
Proof. exact Q60kept. Qed.
Print Assumptions C60_selected_token_kept.

(* No manager, no tokens. *)
Theorem C60_no_manager : forall w a cs ops rs s, proxied w a cs ops rs s -> ya_manager a = false ->
  forall inp o ser s' c n b, order_ok o -> pstep w s (PToS2A inp o ser) = Done (s', RToS2A (c, n, Some b)) ->
  y_log s' = [] /\ exists q, encodes b {| rq_oneof := q; rq_auth := [] |}.
Proof. exact Q60nothing. Qed.
Print Assumptions C60_no_manager.

(* A server with identities "a" and "b"; the manager has a token for "a" only,
   and is asked for "b" again. *)
Definition two_locals : list setter := [SetAddress ascii_url; AddLocalHost [97]; AddLocalHost [98]].
Definition half_world : world :=
  {| w_prims := toy; w_lib := OpenSSL; w_text := is_utf8;
     w_manager := fun _ c => match c with GetToken i => if identity_eqb i (from_hostname [97]) then Some [116] else None | _ => None end |}.
Example C60_case : let a := args_for false [] two_locals in
  exists rs s s' b, let ops := [PToS2A (Some [1]) id_order true] in
  proxied half_world a two_locals ops rs s /\ ya_manager a = true /\ selections is_utf8 ops = [] /\
  pstep half_world s (PToS2A (Some [2]) id_order true) = Done (s', RToS2A (kOk, 0, Some b)) /\
  y_log s' = [(GetToken (from_hostname [97]), Some [116]); (GetToken (from_hostname [98]), None); (GetToken (from_hostname [98]), None)].
Proof.
  eexists _, _, _, _. split.
  { eapply one_step; [reflexivity|apply created|exact id_order_ok|]. vm_compute. reflexivity. }
  repeat (split; [vm_compute; reflexivity|]). vm_compute. reflexivity.
Qed.
(* A client for which S2A selects "a". *)
Example C60_case_selected : exists rs s s' b, let ops := [PToS2A None id_order true; PToPeer (Some (enc_resp announce_a))] in
  proxied half_world args0 setters0 ops rs s /\ ya_manager args0 = true /\ selects (selections is_utf8 ops) (from_hostname [97]) /\
  pstep half_world s (PToS2A (Some [2]) id_order true) = Done (s', RToS2A (kOk, 0, Some b)) /\
  y_log s' = [(GetToken (from_hostname [97]), Some [116])].
Proof.
  eexists _, _, _, _. split.
  { eapply (next_step _ _ _ [_] [_]); [eapply one_step; [reflexivity|apply created|exact id_order_ok|vm_compute; reflexivity]|exact I|vm_compute; reflexivity]. }
  split; [reflexivity|]. split; [exists [], (host_of [97]); split; [vm_compute; reflexivity|constructor]|].
  split; vm_compute; reflexivity.
Qed.

(* C61. No bytes, bytes that are no response, a response without status or with
   another status than 0. *)
Theorem C61_unusable_response : forall w s inp, (forall r, ~ good_response (w_text w) (bytes_of inp) r) ->
  pstep w s (PToPeer inp) = Done (s, RToPeer (match bytes_of inp with [] => kFailedPrecondition | _ => kInternal end, 0, None)).
Proof. exact Q61. Qed.
Print Assumptions C61_unusable_response.
(* All other responses. *)
Theorem C61_response : forall w s b r, good_response (w_text w) b r ->
  exists s' c n buf, pstep w s (PToPeer (Some b)) = Done (s', RToPeer (c, n, buf)) /\ same_but_session s s' /\
    match rs_result r with Some res => result_code res c | None => c = kOk end /\
    (c <> kOk -> n = 0 /\ buf = None) /\
    (rs_result r = None -> y_finished s' = y_finished s /\ y_context s' = y_context s /\ y_result s' = y_result s).
Proof. exact Q61result. Qed.
Print Assumptions C61_response.
Definition suite_nine : p_resp := reply 0 None [] (Some (result_of (Some (state_of 1 9)) (Some (host_of [97])))).
Example C61_case : (forall r, ~ good_response is_utf8 [255; 255] r) /\ (forall r, ~ good_response is_utf8 (enc_resp alert_reply) r) /\
  (exists r res st, good_response is_utf8 (enc_resp suite_nine) r /\ rs_result r = Some res /\ pr_state res = Some st /\
     ~ (exists u, suite_number u (pt_suite st))).
Proof.
  split; [intros r (_ & K & _); vm_compute in K; discriminate|]. split.
  - intros r (_ & K & st & Hs & Hc). vm_compute in K. injection K as <-. cbn in Hs. injection Hs as <-. cbn in Hc. discriminate.
  - exists suite_nine. do 2 eexists. split; [split; [vm_compute; discriminate|split; [vm_compute; reflexivity|eexists; split; reflexivity]]|].
    split; [reflexivity|]. split; [reflexivity|]. intros (u & K). inversion K.
Qed.

(* C62. Two proxies that were given the two ends of one connection. *)
Theorem C62_handshake_to_data : forall wa wb aa ab csa csb x y sa sb u ala alb,
  prims_ok (w_prims wa) -> w_prims wb = w_prims wa -> w_text wa [] = true -> w_text wb [] = true ->
  last (addresses csa) [] <> [] -> last (addresses csb) [] <> [] ->
  handshaken wa aa csa x sa -> handshaken wb ab csb y sb -> usable u x -> usable u y -> two_ends x y -> alloc_ok ala -> alloc_ok alb ->
  exists sa' sb' f g, pstep wa sa (PProtector []) = Done (sa', RProtector (inr f)) /\
    pstep wb sb (PProtector []) = Done (sb', RProtector (inr g)) /\
    forall es, levents_ok [] [] es -> pt_out_seq x + records_sent true es <= two64 -> pt_in_seq x + records_sent false es <= two64 ->
    exists l', link_run (w_prims wa) (w_lib wa) (w_lib wb) ala alb {| l_a := f; l_b := g; l_up := []; l_down := [] |} es =
      Done (l', channel [] [] es).
Proof. exact Q62. Qed.
Print Assumptions C62_handshake_to_data.
Example C62_case : exists sa sb, handshaken ticket_world args0 setters0 (state_of 1 0) sa /\ handshaken ticket_world args1 setters0 peer_state sb /\
  usable AES_128_GCM_SHA256 (state_of 1 0) /\ usable AES_128_GCM_SHA256 peer_state /\ two_ends (state_of 1 0) peer_state.
Proof. exact case62. Qed.

(* C63. Missing: protectors other than the first one asked for. *)
Theorem C63_channel_partial : forall w a cs ops rs s, prims_ok (w_prims w) -> w_text w [] = true -> proxied w a cs ops rs s ->
  forall fs s' f, pstep w s (PProtector fs) = Done (s', RProtector (inr f)) ->
  forall al uses frs f', alloc_ok al -> fops_ok uses -> frun (w_prims w) (w_lib w) al f uses = Done (f', frs) ->
  forall t, In t (cx_sent (fp_crypt f')) ->
  (ts_channel t = true <-> ya_channel a = true /\ no_protector_yet (w_text w) ops) /\ ts_url t = last (addresses cs) [].
Proof. exact Q63. Qed.
Print Assumptions C63_channel_partial.
(* The tickets received by a second protector are sent without channel. *)
Theorem C63_second_protector_refuted : exists w a cs b r rs s s' f al uses frs f' t,
  prims_ok (w_prims w) /\ alloc_ok al /\ fops_ok uses /\ ya_channel a = true /\ good_response (w_text w) b r /\
  proxied w a cs [PToPeer (Some b); PProtector []] rs s /\
  pstep w s (PProtector []) = Done (s', RProtector (inr f)) /\ frun (w_prims w) (w_lib w) al f uses = Done (f', frs) /\
  In t (cx_sent (fp_crypt f')) /\ ts_channel t = false.
Proof. exact R63. Qed.
Print Assumptions C63_second_protector_refuted.
Example C63_case : fops_ok ticket_uses /\ exists s' f f' frs t, pstep ticket_world done0 (PProtector []) = Done (s', RProtector (inr f)) /\
    frun toy OpenSSL toy_al f ticket_uses = Done (f', frs) /\ cx_sent (fp_crypt f') = [t] /\ ts_channel t = true.
Proof. exact (conj ticket_uses_ok (ticket_checked _ _ first_ticket)). Qed.
