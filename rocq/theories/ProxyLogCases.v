(* Refutations and cases for PropProxyLog.v. *)
From Coq Require Import List NArith ZArith Bool Permutation Lia.
From Verif Require Import Base Aead AeadProofs Hkdf HalfConn Options HsHandler Crypter FrameProt Wire SpecWire WireProofs WireMsgs
  Util Context SpecOptions HsMsgProofs Proxy ProxyRun SpecProxy ProxyProofs ProxyFinal ProxyTokens ProxyMore Toy ToyProofs ProxyRefuted
  ProxyLog SpecProxyLog ProxyLogProofs ProxyLogMore ProxyLogSame.
Import ListNotations.
Local Open Scope N_scope.

(* A manager that has the token [t] for everything. *)
Definition token_of (t : bytes) : world :=
  {| w_prims := toy; w_lib := OpenSSL; w_text := is_utf8; w_manager := fun _ _ => Some t |}.

Lemma R80 : exists w a cs ops rs s s' c, proxied w a cs ops rs s /\ plstep w s (PProtector []) = Done (s', RProtector (inl c), []) /\ c <> kOk.
Proof.
  eexists (token_of [116]), args0, setters0, [PToPeer (Some (enc_resp tls12_reply))], _, _, _, _. split.
  { eapply one_step; [reflexivity|apply created|exact I|]. vm_compute. reflexivity. }
  split; [vm_compute; reflexivity|discriminate].
Qed.

Lemma U80empty : forall w s b r, b <> [] -> parse_resp (w_text w) b = Some r -> rs_status r = None ->
  plstep w s (PToPeer (Some b)) = Done (s, RToPeer (kInternal, 0, None), [YEmpty]).
Proof. intros w s [|x b] r Hb Hp Hs; [congruence|]. cbn [plstep get_bytes_for_peer_l]. rewrite Hp, Hs. reflexivity. Qed.
Definition no_status : p_resp := {| rs_local := None; rs_out_frames := [1]; rs_consumed := 9; rs_result := None; rs_status := None |}.
Lemma R80empty : exists w a cs s b, proxied w a cs [] [] s /\ plstep w s (PToPeer (Some b)) = Done (s, RToPeer (kInternal, 0, None), [YEmpty]).
Proof.
  exists (token_of [116]), args0, setters0, (proxy0 args0 setters0), (enc_resp no_status). split.
  - split; [reflexivity|]. split; [constructor|]. exists (proxy0 args0 setters0). split; reflexivity.
  - apply (U80empty _ _ _ no_status); vm_compute; congruence.
Qed.

(* A client without local identities, whose manager has a default token. *)
Lemma R81 : exists w a cs s s' n b, proxied w a cs [] [] s /\ ya_manager a = true /\ (forall l c, w_manager w l c <> None) /\
  plstep w s (PToS2A None id_order true) = Done (s', RToS2A (kOk, n, Some b), [YUnknown 0]).
Proof.
  eexists (token_of [116]), (args_for true [104] [SetAddress ascii_url]), [SetAddress ascii_url], _, _, _, _. split.
  { split; [reflexivity|]. split; [constructor|]. eexists. split; [apply created|]. cbn [prun]. reflexivity. }
  split; [reflexivity|]. split; [intros; discriminate|]. vm_compute. reflexivity.
Qed.

(* Two handshakes with different tokens, host names, bytes and secrets. *)
Definition other_state : p_state :=
  {| pt_tls := 1; pt_suite := 0; pt_in_seq := 0; pt_out_seq := 8; pt_in_key := repeat 33 32; pt_out_key := repeat 44 32;
     pt_in_nonce := []; pt_out_nonce := []; pt_conn := 78; pt_resumed := false |}.
Definition other_reply : p_resp := reply 0 None [5; 6] (Some (result_of (Some other_state) (Some (host_of [98])))).
Definition run1 : list pop := [PToS2A None id_order true; PToPeer (Some (enc_resp good_reply)); PToS2A (Some [1; 2]) id_order true; PContext].
Definition run2 : list pop := [PToS2A None id_order true; PToPeer (Some (enc_resp other_reply)); PToS2A (Some [3]) id_order true; PContext].
Lemma same_case : let a := args_for true [104] [SetAddress ascii_url] in let a' := args_for true [105] [SetAddress ascii_url] in
  same_args a a' /\ same_tokens_known (w_manager (token_of [116])) (w_manager (token_of [117; 117])) /\
  Forall2 (same_op (token_of [116]) (token_of [117; 117])) run1 run2 /\ Forall pop_ok run1 /\ Forall pop_ok run2 /\
  exists s s0 rs s' s0' rs', proxy_create a = Some s0 /\ proxy_create a' = Some s0' /\
    plrun (token_of [116]) s0 run1 = Done (s, rs, [[YUnknown 0]; []; [YUnknown 0]; []]) /\
    plrun (token_of [117; 117]) s0' run2 = Done (s', rs', [[YUnknown 0]; []; [YUnknown 0]; []]).
Proof.
  cbn zeta. split; [split; reflexivity|]. split; [intros l m c _; cbn; split; discriminate|]. split.
  { unfold run1, run2. constructor; [|constructor; [|constructor; [|constructor; [|constructor]]]].
    - cbn. tauto.
    - split; [split; vm_compute; discriminate|]. intros _. cbn [bytes_of w_text token_of].
      rewrite (proj1 (proj2 (good_reply_good _ utf8_texts))).
      assert (E : parse_resp is_utf8 (enc_resp other_reply) = Some other_reply) by (vm_compute; reflexivity). rewrite E.
      split; [reflexivity|]. split; [reflexivity|]. cbn. split; [split; discriminate|]. split; [split; discriminate|]. split; reflexivity.
    - split; [split; discriminate|]. split; reflexivity.
    - exact I. }
  split; [repeat constructor; apply id_order_ok|]. split; [repeat constructor; apply id_order_ok|].
  do 6 eexists. split; [apply created|]. split; [apply created|]. split; vm_compute; reflexivity.
Qed.
