(* Which session the answers of a proxy are about: C68. For [proxied] see
   PropProxy.v. *)
From Coq Require Import List NArith Bool.
From Verif Require Import Base Aead Hkdf HalfConn Options HsHandler Crypter FrameProt Wire SpecWire Util Context SpecOptions Proxy ProxyRun SpecProxy
  ProxyProofs SpecTls Toy ToyProofs ProxyRefuted SpecSession SessionProofs SessionFinal.
Import ListNotations.
Local Open Scope N_scope.

(* C68. What GetS2AContext answers: the context of the latest accepted result
   if it was not asked for since. *)
Theorem C68_context : forall w a cs ops rs s, proxied w a cs ops rs s ->
  exists s' x, pstep w s PContext = Done (s', RContext x) /\
  match x with
  | inl e => e = kFailedPrecondition /\ ~ result_received (w_text w) ops
  | inr None => result_received (w_text w) ops /\ forall res, ~ context_waits (w_text w) ops res
  | inr (Some c) => exists res, context_waits (w_text w) ops res /\ context_matches res c
  end.
Proof. exact S68context. Qed.
Print Assumptions C68_context.

(* What CreateFrameProtector answers: a protector made from the latest result
   with session state, accepted or not. *)
Theorem C68_protector : forall w a cs ops rs s, prims_ok (w_prims w) -> w_text w [] = true -> proxied w a cs ops rs s -> forall fs,
  match pstep w s (PProtector fs) with
  | Done (_, RProtector x) =>
      x = inl kFailedPrecondition /\ ~ result_received (w_text w) ops \/
      exists res args fs', session (w_text w) ops res /\ session_args res args /\ ca_url (fa_crypt args) = last (addresses cs) [] /\
        (ca_channel (fa_crypt args) = true <-> ya_channel a = true /\ no_protector_yet (w_text w) ops) /\
        fp_create (w_prims w) (w_lib w) args fs = Done (x, fs')
  | Undef u => u = UbNullDeref /\ result_received (w_text w) ops /\ forall res, ~ session (w_text w) ops res
  | _ => False
  end.
Proof. exact S68protector. Qed.
Print Assumptions C68_protector.
Theorem C68_one_session : forall V ops r r', session V ops r -> session V ops r' -> r = r'.
Proof. exact session_fun. Qed.
Print Assumptions C68_one_session.

(* None if the result has numbers without meaning. *)
Theorem C68_unknown_numbers : forall w a cs ops rs s, prims_ok (w_prims w) -> w_text w [] = true -> proxied w a cs ops rs s ->
  forall res st, session (w_text w) ops res -> pr_state res = Some st -> ~ (known_tls st /\ known_suite st) ->
  forall fs, exists s' e, pstep w s (PProtector fs) = Done (s', RProtector (inl e)) /\ e <> kOk.
Proof. exact S68unknown. Qed.
Print Assumptions C68_unknown_numbers.

(* Context and protector are about one session. Missing: the latest result with
   session state was refused. *)
Theorem C68_same_session_partial : forall w a cs ops rs s, prims_ok (w_prims w) -> w_text w [] = true -> proxied w a cs ops rs s ->
  forall res, session (w_text w) ops res -> complete res ->
  (forall s' c, pstep w s PContext = Done (s', RContext (inr (Some c))) -> context_matches res c) /\
  exists args, protector_matches res args /\
    forall fs, exists s' x fs', pstep w s (PProtector fs) = Done (s', RProtector x) /\ fp_create (w_prims w) (w_lib w) args fs = Done (x, fs').
Proof. exact S68same. Qed.
Print Assumptions C68_same_session_partial.

(* After a complete result, one without local identity: the call fails, the
   context names peer "b" and AES-128, the protector has the ChaCha20 keys of
   the session with peer "a". *)
Theorem C68_same_session_refuted : forall w, prims_ok (w_prims w) -> texts (w_text w) -> exists b1 b2 r1 r2 res1 res2 s s1 s2 c f args fs',
  good_response (w_text w) b1 r1 /\ rs_result r1 = Some res1 /\ good_response (w_text w) b2 r2 /\ rs_result r2 = Some res2 /\
  proxied w args0 setters0 [PToPeer (Some b1); PToPeer (Some b2)] [RToPeer (kOk, 9, Some []); RToPeer (kInternal, 0, None)] s /\
  pstep w s PContext = Done (s1, RContext (inr (Some c))) /\ context_matches res1 c /\
  pstep w s (PProtector []) = Done (s2, RProtector (inr f)) /\ session_args res2 args /\
  fp_create (w_prims w) (w_lib w) args [] = Done (inr f, fs') /\
  x_suite c = AES_128_GCM_SHA256 /\ ca_suite (fa_crypt args) = CHACHA20_POLY1305_SHA256 /\
  x_peer c = from_hostname [98] /\ meant (pr_peer res2) (from_hostname [97]).
Proof. exact R68. Qed.
Print Assumptions C68_same_session_refuted.

(* A complete result, and one that has a suite without meaning. *)
Definition session_world : world :=
  {| w_prims := toy; w_lib := OpenSSL; w_text := is_utf8; w_manager := fun _ _ => Some [116] |}.
Definition unknown_result : p_result := result_of (Some (state_of 1 9)) (Some (host_of [97])).
Definition unknown_reply : p_resp := reply 0 None [] (Some unknown_result).
Example C68_case : prims_ok (w_prims session_world) /\ w_text session_world [] = true /\
  (exists rs s, let ops := [PToPeer (Some (enc_resp good_reply)); PFinished] in
     proxied session_world args0 setters0 ops rs s /\ session is_utf8 ops first_result /\ complete first_result /\ context_waits is_utf8 ops first_result) /\
  (exists rs s st, let ops := [PToPeer (Some (enc_resp unknown_reply))] in
     proxied session_world args0 setters0 ops rs s /\ session is_utf8 ops unknown_result /\ pr_state unknown_result = Some st /\
     ~ (known_tls st /\ known_suite st)).
Proof.
  split; [exact toy_ok|]. split; [reflexivity|].
  assert (C : complete first_result). { eexists. split; [reflexivity|]. repeat split; [eexists; constructor|eexists; constructor|discriminate]. }
  assert (B : brings is_utf8 (PToPeer (Some (enc_resp good_reply))) first_result).
  { do 2 eexists. split; [reflexivity|]. split; [exact (good_reply_good _ utf8_texts)|reflexivity]. }
  assert (NB : forall op res, In op [PFinished] -> ~ brings is_utf8 op res). { intros op res [<-|[]] (b & r & K & _). discriminate. }
  split.
  - eexists _, _. split; [eapply (next_step session_world _ _ [_] [_]); [exact (handshake session_world utf8_texts)|exact I|reflexivity]|].
    split; [|split; [exact C|]]; exists [PFinished].
    + split; [exists [], (PToPeer (Some (enc_resp good_reply))); auto|]. split; [discriminate|]. intros op res Hi Hb. destruct (NB op res Hi Hb).
    + split; [|intros [K|[]]; discriminate].
      split; [exists [], (PToPeer (Some (enc_resp good_reply))); auto|]. split; [exact C|]. intros op res Hi Hb. destruct (NB op res Hi Hb).
  - eexists _, _, _. split; [eapply one_step; [reflexivity|apply created|exact I|vm_compute; reflexivity]|]. split.
    + exists []. split; [|split; [discriminate|intros op res []]]. exists [], (PToPeer (Some (enc_resp unknown_reply))). split; [reflexivity|].
      exists (enc_resp unknown_reply), unknown_reply. split; [reflexivity|]. split; [|reflexivity].
      split; [vm_compute; discriminate|]. split; [vm_compute; reflexivity|]. eexists. split; reflexivity.
    + split; [reflexivity|]. intros [_ (u & K)]. inversion K.
Qed.
