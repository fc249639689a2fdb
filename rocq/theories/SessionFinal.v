(* C68. *)
From Coq Require Import List NArith Bool Lia.
From Verif Require Import Base BaseProofs Aead AeadProofs Hkdf HalfConn Options HsHandler Crypter FrameProt Wire SpecWire WireProofs WireMsgs WireValid
  Util Context SpecOptions HsMsgProofs Proxy ProxyRun SpecProxy ProxyProofs SpecTls SpecHs SpecRecord SpecRx CrypterRun HalfRun SpecFrame FrameRun
  FrameFinal ProxyFinal ProxyMore ProxyRefuted SpecSession SessionProofs.
Import ListNotations.
Local Open Scope N_scope.

Lemma S68context : forall w a cs ops rs s, proxied w a cs ops rs s ->
  exists s' x, pstep w s PContext = Done (s', RContext x) /\
  match x with
  | inl e => e = kFailedPrecondition /\ ~ result_received (w_text w) ops
  | inr None => result_received (w_text w) ops /\ forall res, ~ context_waits (w_text w) ops res
  | inr (Some c) => exists res, context_waits (w_text w) ops res /\ context_matches res c
  end.
Proof.
  intros w a cs ops rs s Hp. pose proof (finished_iff _ _ _ _ _ _ Hp) as F. destruct (stored_inv _ _ _ _ _ _ Hp) as [_ Hc].
  cbn [pstep]. unfold get_s2a_context. destruct (y_finished s); eexists _, _; (split; [reflexivity|]).
  - destruct (y_context s); [exact Hc|]. split; [apply F; reflexivity|exact Hc].
  - split; [reflexivity|]. intros K. apply F in K. discriminate.
Qed.

Lemma session_received : forall V ops res, session V ops res -> result_received V ops.
Proof.
  intros V ops res (rest & (p & op & -> & b & r & -> & G & E) & _). exists b, r, res. split; [apply in_or_app; right; left; reflexivity|auto].
Qed.

Lemma S68protector : forall w a cs ops rs s, prims_ok (w_prims w) -> w_text w [] = true -> proxied w a cs ops rs s -> forall fs,
  match pstep w s (PProtector fs) with
  | Done (_, RProtector x) =>
      x = inl kFailedPrecondition /\ ~ result_received (w_text w) ops \/
      exists res args fs', session (w_text w) ops res /\ session_args res args /\ ca_url (fa_crypt args) = last (addresses cs) [] /\
        (ca_channel (fa_crypt args) = true <-> ya_channel a = true /\ no_protector_yet (w_text w) ops) /\
        fp_create (w_prims w) (w_lib w) args fs = Done (x, fs')
  | Undef u => u = UbNullDeref /\ result_received (w_text w) ops /\ forall res, ~ session (w_text w) ops res
  | _ => False
  end.
Proof.
  intros w a cs ops rs s HP HV Hp fs. pose proof (finished_iff _ _ _ _ _ _ Hp) as F. destruct (stored_inv _ _ _ _ _ _ Hp) as [Hs _].
  pose proof (proxied_result _ _ _ _ _ _ HV Hp) as Hr. destruct (proxied_config _ _ _ _ _ _ Hp) as [Hcfg _].
  pose proof (proxied_channel _ _ _ _ _ _ Hp) as Hch.
  cbn [pstep]. unfold create_frame_protector. destruct (y_finished s).
  2: { cbn. left. split; [reflexivity|]. intros K. apply F in K. discriminate. }
  cbn [negb]. destruct (y_result s) as [x|].
  2: { cbn. split; [reflexivity|]. split; [apply F; reflexivity|exact Hs]. }
  destruct Hs as (res & H1 & H2). destruct Hr as [Hi Ho].
  destruct (F32 (w_prims w) (w_lib w) (frame_args s x) fs HP Hi Ho) as (rr & fs' & Ef & _).
  unfold bind. rewrite Ef. cbn [ret obind]. right. exists res, (frame_args s x), fs'. split; [exact H1|]. split; [apply H2|].
  split; [|split; [exact Hch|exact Ef]].
  cbn. unfold config, config_of in Hcfg. injection Hcfg as _ _ _ -> _. apply (options_inv cs).
Qed.

Lemma session_fun : forall V ops r r', session V ops r -> session V ops r' -> r = r'.
Proof. intros V ops r r' (s & H) (s' & H'). exact (proj1 (latest_fun _ _ _ _ _ _ _ H H')). Qed.

(* Numbers without meaning: no protector. *)
Lemma S68unknown : forall w a cs ops rs s, prims_ok (w_prims w) -> w_text w [] = true -> proxied w a cs ops rs s ->
  forall res st, session (w_text w) ops res -> pr_state res = Some st -> ~ (known_tls st /\ known_suite st) ->
  forall fs, exists s' e, pstep w s (PProtector fs) = Done (s', RProtector (inl e)) /\ e <> kOk.
Proof.
  intros w a cs ops rs s HP HV Hp res st Hs Hst Hn fs.
  pose proof (S68protector _ _ _ _ _ _ HP HV Hp fs) as H. destruct (pstep w s (PProtector fs)) as [[s' r]|u|]; [|destruct H as (_ & _ & H); destruct (H _ Hs)|destruct H].
  destruct r as [| | |x|]; try destruct H. { destruct H as [-> H]. eexists _, _. split; [reflexivity|discriminate]. }
  destruct H as (res' & args & fs' & Hs' & Ha & _ & _ & E). rewrite <- (session_fun _ _ _ _ Hs Hs') in *.
  destruct Ha as (_ & _ & _ & st' & Est & _ & _ & _ & K). rewrite Hst in Est. injection Est as <-. specialize (K Hn).
  destruct K as (K1 & K2 & _ & K4 & K5 & _). assert (Q : 0 < two64) by reflexivity.
  destruct (F32 (w_prims w) (w_lib w) args fs HP) as (rr & f2 & Ef & Hne & Hv & _); [rewrite K4; exact Q|rewrite K5; exact Q|].
  rewrite E in Ef. injection Ef as <- <-. destruct x as [e|f]; [eexists _, e; split; [reflexivity|apply Hne; reflexivity]|].
  exfalso. destruct Hv as (_ & _ & _ & _ & _ & V & _); [eauto|]. rewrite K1, K2 in V. discriminate.
Qed.

(* If the latest result with state was accepted, all is about it. *)
Lemma S68same : forall w a cs ops rs s, prims_ok (w_prims w) -> w_text w [] = true -> proxied w a cs ops rs s ->
  forall res, session (w_text w) ops res -> complete res ->
  (forall s' c, pstep w s PContext = Done (s', RContext (inr (Some c))) -> context_matches res c) /\
  exists args, protector_matches res args /\
    forall fs, exists s' x fs', pstep w s (PProtector fs) = Done (s', RProtector x) /\ fp_create (w_prims w) (w_lib w) args fs = Done (x, fs').
Proof.
  intros w a cs ops rs s HP HV Hp res Hs Hk. split.
  - intros s' c E. destruct (S68context _ _ _ _ _ _ Hp) as (s1 & x & E' & H). rewrite E in E'. injection E' as <- <-.
    destruct H as (res' & (rest' & L' & _) & M). destruct Hs as (rest & L). enough (res' = res) by congruence.
    assert (L2 : latest (w_text w) complete ops res rest).
    { destruct L as (A & _ & B). split; [exact A|]. split; [exact Hk|]. intros op r Hi Hb (st & K & _). apply (B op r Hi Hb). unfold with_state. congruence. }
    exact (proj1 (latest_fun _ _ _ _ _ _ _ L' L2)).
  - destruct (stored_inv _ _ _ _ _ _ Hp) as [Hst _]. pose proof (proxied_result _ _ _ _ _ _ HV Hp) as Hr.
    destruct (y_result s) as [x|] eqn:Ex; [|destruct (Hst _ Hs)]. destruct Hst as (res' & Hs' & Hx).
    rewrite (session_fun _ _ _ _ Hs' Hs) in Hx. exists (frame_args s x). split.
    + destruct Hk as (st & E & Kt & Ku & Kl). destruct (Hx s) as (A1 & A2 & A3 & st' & E' & B1 & _ & B3 & _). rewrite E in E'. injection E' as <-.
      destruct (pr_local res) as [p|] eqn:El; [|contradiction]. exists st, p. destruct (B3 (conj Kt Ku)) as (C1 & C2 & C3 & C4 & C5 & C6).
      cbn zeta. tauto.
    + intros fs. destruct Hr as [Hi Ho]. destruct (F32 (w_prims w) (w_lib w) (frame_args s x) fs HP Hi Ho) as (rr & fs' & Ef & _).
      exists (move_channel s), rr, fs'. split; [|exact Ef]. cbn [pstep]. unfold create_frame_protector.
      assert (F : y_finished s = true) by (eapply finished_iff; [exact Hp|eapply session_received; exact Hs]).
      rewrite F, Ex. cbn [negb]. unfold bind. rewrite Ef. reflexivity.
Qed.

(* ---- a second result, without local identity ---- *)
Definition second_state : p_state :=
  {| pt_tls := 1; pt_suite := 2; pt_in_seq := 0; pt_out_seq := 0; pt_in_key := repeat 33 32; pt_out_key := repeat 44 32;
     pt_in_nonce := []; pt_out_nonce := []; pt_conn := 78; pt_resumed := false |}.
Definition second_result : p_result :=
  {| pr_protocol := [104; 50]; pr_state := Some second_state; pr_peer := Some (host_of [97]); pr_local := None; pr_local_fp := []; pr_peer_fp := [] |}.
Definition second_reply : p_resp := reply 0 None [] (Some second_result).
Lemma second_good : forall V, texts V -> good_response V (enc_resp second_reply) second_reply.
Proof.
  intros V (T1 & T2 & T3 & T4). split; [vm_compute; discriminate|]. split; [|eexists; split; reflexivity].
  apply reply_parses; [|small]. split; [exact I|]. split; [reflexivity|]. split; [|split; [reflexivity|exact T1]].
  split; [exact T4|]. split; [cbn; unfold valid_state, two32, two64; cbn; lia|]. split; [split; [exact T2|constructor]|exact I].
Qed.
Definition first_result : p_result := result_of (Some (state_of 1 0)) (Some (host_of [97])).

Lemma R68 : forall w, prims_ok (w_prims w) -> texts (w_text w) -> exists b1 b2 r1 r2 res1 res2 s s1 s2 c f args fs',
  good_response (w_text w) b1 r1 /\ rs_result r1 = Some res1 /\ good_response (w_text w) b2 r2 /\ rs_result r2 = Some res2 /\
  proxied w args0 setters0 [PToPeer (Some b1); PToPeer (Some b2)] [RToPeer (kOk, 9, Some []); RToPeer (kInternal, 0, None)] s /\
  pstep w s PContext = Done (s1, RContext (inr (Some c))) /\ context_matches res1 c /\
  pstep w s (PProtector []) = Done (s2, RProtector (inr f)) /\ session_args res2 args /\
  fp_create (w_prims w) (w_lib w) args [] = Done (inr f, fs') /\
  x_suite c = AES_128_GCM_SHA256 /\ ca_suite (fa_crypt args) = CHACHA20_POLY1305_SHA256 /\
  x_peer c = from_hostname [98] /\ meant (pr_peer res2) (from_hostname [97]).
Proof.
  intros w HP H. pose proof (second_good _ H) as G2.
  assert (E : exists s x, pstep w done0 (PToPeer (Some (enc_resp second_reply))) = Done (s, RToPeer (kInternal, 0, None)) /\
     y_result s = Some x /\ session_is second_result x /\ h_suite x = CHACHA20_POLY1305_SHA256 /\ y_finished s = true /\ y_context s = Some context0 /\
     exists f fs', pstep w s (PProtector []) = Done (move_channel s, RProtector (inr f)) /\
       fp_create (w_prims w) (w_lib w) (frame_args s x) [] = Done (inr f, fs')).
  { eexists _, _. split; [cbn [pstep]; rewrite (peer_is _ _ _ _ G2); reflexivity|]. split; [reflexivity|].
    split. { destruct (take_result_stores done0 second_result _ _ eq_refl) as [(x & Hx & K) _]. cbn in Hx. injection Hx as <-. exact K. }
    split; [reflexivity|]. split; [reflexivity|]. split; [reflexivity|].
    match goal with |- context [move_channel ?s] => edestruct (protector_made w s) as (f & fs' & E & E');
      [exact HP|reflexivity|reflexivity|reflexivity|reflexivity|reflexivity|reflexivity|reflexivity|reflexivity|] end.
    exists f, fs'. split; [exact E|exact E']. }
  destruct E as (s & x & E & Hx & Hses & Hsu & Hf & Hcx & f & fs' & E1 & E2).
  exists (enc_resp good_reply), (enc_resp second_reply), good_reply, second_reply, first_result, second_result.
  exists s, (set_context s None), (move_channel s), context0, f, (frame_args s x), fs'.
  split; [exact (good_reply_good _ H)|]. split; [reflexivity|]. split; [exact G2|]. split; [reflexivity|].
  split; [eapply (next_step w _ _ [_] [_]); [exact (handshake w H)|exact I|exact E]|].
  split; [cbn [pstep]; unfold get_s2a_context; rewrite Hf, Hcx; reflexivity|].
  split. { destruct (take_result_stores (proxy0 args0 setters0) first_result _ _ eq_refl) as [_ [[K _]|(_ & c & Hc & M)]].
    - destruct K. eexists. split; [reflexivity|]. repeat split; [eexists; constructor|eexists; constructor|discriminate].
    - cbn in Hc. injection Hc as <-. exact M. }
  split; [exact E1|]. split; [apply Hses|]. split; [exact E2|]. split; [reflexivity|]. split; [exact Hsu|]. split; [reflexivity|constructor].
Qed.
