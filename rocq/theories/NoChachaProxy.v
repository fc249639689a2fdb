(* Proofs for C92: a session with a suite the build lacks. *)
From Coq Require Import List NArith Bool Permutation Lia.
From Verif Require Import Base BaseProofs Aead Hkdf HalfConn Options HsHandler Crypter FrameProt Wire SpecWire WireProofs WireMsgs
  Util Context SpecOptions Proxy ProxyRun ProxyProofs ProxyFinal ProxyRefuted SpecTls Toy ToyProofs NoChacha NoChachaProofs.
Import ListNotations.
Local Open Scope N_scope.

Definition chacha_setters : list setter := [SetAddress ascii_url; AddSuite CHACHA20_POLY1305_SHA256; AddLocalHost [97]].
Definition chacha_args : proxy_args := args_for true [104] chacha_setters.

Lemma nc_protector : forall P s r fs, prims_ok P -> y_finished s = true -> y_result s = Some r -> h_suite r = CHACHA20_POLY1305_SHA256 ->
  exists c fs', nc_create_frame_protector P s fs = Done ((move_channel s, inl c), fs').
Proof.
  intros P s r fs HP Hf Hr Hs. unfold nc_create_frame_protector. rewrite Hf, Hr. cbn [negb].
  destruct (N92refused P (frame_args s r) fs HP Hs) as (c & f & E & _). rewrite (bind_done _ _ _ _ _ _ _ E). exists c, f. reflexivity.
Qed.

(* S2A is asked for the suite, chooses it, and no protector can be had. *)
Lemma R92 : forall w, prims_ok (w_prims w) -> texts (w_text w) -> exists b b' m l s,
  proxied w chacha_args chacha_setters [PToS2A None id_order true; PToPeer (Some b'); PFinished]
    [RToS2A (kOk, 0, Some b); RToPeer (kOk, 9, Some []); RFinished true] s /\
  encodes b {| rq_oneof := ReqClient m; rq_auth := l |} /\ pc_suites m = [2] /\ suite_number CHACHA20_POLY1305_SHA256 2 /\
  forall fs, exists c fs', nc_create_frame_protector (w_prims w) s fs = Done ((move_channel s, inl c), fs').
Proof.
  intros w HP H. set (s0 := proxy0 chacha_args chacha_setters).
  destruct (populate_frame (w_manager w) id_order s0) as (c & l & E).
  set (au := auth_mechanisms id_order (set_cache s0 c l)).
  set (m := {| pc_protocols := [[104; 50]]; pc_min := 1; pc_max := 1; pc_suites := [2]; pc_targets := []; pc_local := Some (host_of [97]); pc_target_name := [104] |}).
  set (s1 := set_first (set_cache s0 c l) false).
  assert (E1 : pstep w s0 (PToS2A None id_order true) = Done (s1, RToS2A (kOk, 0, Some (enc_req {| rq_oneof := ReqClient m; rq_auth := au |})))).
  { cbn [pstep]. unfold get_bytes_for_s2a, get_client_start. cbn -[populate_token_cache enc_req]. rewrite E. reflexivity. }
  assert (E2 : exists s2 r, pstep w s1 (PToPeer (Some (enc_resp chacha_reply))) = Done (s2, RToPeer (kOk, 9, Some [])) /\
    y_finished s2 = true /\ y_result s2 = Some r /\ h_suite r = CHACHA20_POLY1305_SHA256).
  { eexists _, _. split; [cbn [pstep]; rewrite (peer_is _ _ _ _ (chacha_good _ H)); reflexivity|]. split; [reflexivity|]. split; reflexivity. }
  destruct E2 as (s2 & r & E2 & Hf & Hr & Hs).
  exists (enc_req {| rq_oneof := ReqClient m; rq_auth := au |}), (enc_resp chacha_reply), m, au, s2.
  split; [|split; [split; [reflexivity|]|]].
  - eapply (next_step w _ _ [_; _] [_; _]); [|exact I|cbn [pstep]; rewrite Hf; reflexivity].
    eapply (next_step w _ _ [_] [_]); [|exact I|exact E2].
    eapply one_step; [reflexivity|apply created|exact id_order_ok|exact E1].
  - split; [|exact (auth_valid id_order (set_cache s0 c l))]. unfold valid_client, any_text, text. cbn. repeat split; repeat constructor.
  - split; [reflexivity|]. split; [repeat constructor|]. intros fs. exact (nc_protector _ _ r fs HP Hf Hr Hs).
Qed.
