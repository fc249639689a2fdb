(* Concrete proxies: cases for PropProxy.v, and counterexamples. *)
From Coq Require Import List NArith ZArith Bool Permutation Lia ZifyBool ZifyNat ZifyN.
From Verif Require Import Base BaseProofs Aead AeadProofs Hkdf HalfConn Options HsHandler Crypter FrameProt Wire SpecWire WireProofs WireMsgs WireValid
  Util Context SpecOptions HsMsgProofs Proxy ProxyRun ProxyProofs ProxyFinal ProxyTokens SpecTls SpecHs SpecRecord SpecRx CrypterRun CrypterRunProofs HalfRun
  SpecFrame FrameRun FrameProofs FrameSim FrameLink FrameTrip FrameFinal Toy ToyProofs.
Import ListNotations.
Local Open Scope N_scope.

(* The options: TLS 1.3 only, one suite, one local identity "a". *)
Definition setters0 : list setter := [SetAddress ascii_url; AddSuite AES_128_GCM_SHA256; AddLocalHost [97]].
Definition args_for (client : bool) (host : bytes) (cs : list setter) : proxy_args :=
  {| ya_logger := true; ya_client := client; ya_protocol := [104; 50]; ya_hostname := host;
     ya_options := Some (options_after cs); ya_channel := true; ya_manager := true |}.
Definition args0 : proxy_args := args_for true [104] setters0.

Definition host_of (s : bytes) : p_identity := {| pi_id := IdHostname s; pi_attrs := [] |}.
Definition state_of (tls su : N) : p_state :=
  {| pt_tls := tls; pt_suite := su; pt_in_seq := 3; pt_out_seq := 5; pt_in_key := repeat 11 32; pt_out_key := repeat 22 32;
     pt_in_nonce := []; pt_out_nonce := []; pt_conn := 77; pt_resumed := true |}.
Definition result_of (st : option p_state) (local : option p_identity) : p_result :=
  {| pr_protocol := [104; 50]; pr_state := st; pr_peer := Some (host_of [98]); pr_local := local; pr_local_fp := [1]; pr_peer_fp := [2] |}.
Definition reply (c : N) (announced : option p_identity) (frames : bytes) (res : option p_result) : p_resp :=
  {| rs_local := announced; rs_out_frames := frames; rs_consumed := 9; rs_result := res;
     rs_status := Some {| pst_code := c; pst_details := [] |} |}.

(* The texts used here are accepted. *)
Definition texts (V : bytes -> bool) : Prop := V [] = true /\ V [97] = true /\ V [98] = true /\ V [104; 50] = true.
Lemma utf8_texts : texts is_utf8.
Proof. repeat split. Qed.

Lemma reply_parses : forall V r, valid_resp V r -> wire_size_ok (enc_resp r) -> parse_resp V (enc_resp r) = Some r.
Proof. exact rt_resp. Qed.

Lemma reply_good : forall V announced frames res, texts V ->
  (announced = None \/ announced = Some (host_of [97])) ->
  (res = None \/ (exists st l, res = Some (result_of st l) /\ (st = None \/ exists t u, st = Some (state_of t u) /\ t < 3 /\ u < 3) /\
     (l = None \/ l = Some (host_of [97]) \/ l = Some (host_of [98])))) ->
  enc_resp (reply 0 announced frames res) <> [] -> wire_size_ok (enc_resp (reply 0 announced frames res)) ->
  good_response V (enc_resp (reply 0 announced frames res)) (reply 0 announced frames res).
Proof.
  intros V announced frames res HT Ha Hr Hne Hs. split; [exact Hne|]. split.
  - apply reply_parses; [|exact Hs]. destruct HT as (T1 & T2 & T3 & T4).
    split; [destruct Ha as [->| ->]; cbn; auto; split; [exact T2|constructor]|]. split; [reflexivity|].
    split; [|split; [reflexivity|exact T1]].
    destruct Hr as [->|(st & l & -> & Hst & Hl)]; [exact I|]. cbn [rs_result reply opt_all].
    split; [exact T4|]. split; [|split; [split; [exact T3|constructor]|]].
    + destruct Hst as [->|(t & u & -> & Ht & Hu)]; [exact I|]. cbn. unfold valid_state, two32, two64. cbn. lia.
    + destruct Hl as [->|[->| ->]]; cbn; auto; split; try exact T2; try exact T3; constructor.
  - eexists. split; reflexivity.
Qed.

(* One call. *)
Lemma one_step : forall w a cs s0 op s r, ya_options a = Some (options_after cs) -> proxy_create a = Some s0 -> pop_ok op ->
  pstep w s0 op = Done (s, r) -> proxied w a cs [op] [r] s.
Proof.
  intros w a cs s0 op s r Ho Hc Hok E. split; [exact Ho|]. split; [constructor; [exact Hok|constructor]|]. exists s0. split; [exact Hc|].
  cbn [prun]. rewrite E. reflexivity.
Qed.
Lemma next_step : forall w a cs ops rs s op s' r, proxied w a cs ops rs s -> pop_ok op -> pstep w s op = Done (s', r) ->
  proxied w a cs (ops ++ [op]) (rs ++ [r]) s'.
Proof.
  intros w a cs ops rs s op s' r (Ho & Hok & s0 & Hc & Hr) Hop E. split; [exact Ho|].
  split; [apply Forall_app; split; [exact Hok|constructor; [exact Hop|constructor]]|]. exists s0. split; [exact Hc|]. apply prun_snoc. eauto 6.
Qed.

Definition proxy0 (a : proxy_args) (cs : list setter) : proxy :=
  {| y_client := ya_client a; y_protocol := ya_protocol a; y_hostname := ya_hostname a;
     y_options := options_after cs; y_channel := ya_channel a; y_manager := ya_manager a;
     y_cache := []; y_selected := None; y_first := true; y_finished := false;
     y_context := None; y_result := None; y_log := [] |}.
Lemma created : forall client host cs, proxy_create (args_for client host cs) = Some (proxy0 (args_for client host cs) cs).
Proof. reflexivity. Qed.

(* A good response given to a proxy. *)
Lemma peer_is : forall V s b r, good_response V b r ->
  get_bytes_for_peer V s (Some b) =
    let s1 := match rs_local r with Some i => set_selected s (Some (identity_from_proto (Some i))) | None => s end in
    let '(s2, err) := match rs_result r with Some res => take_result s1 res | None => (s1, None) end in
    match err with Some c => (s2, proxy_error c) | None => (s2, (kOk, rs_consumed r, Some (rs_out_frames r))) end.
Proof.
  intros V s b r (Hb & Hp & st & Hs & Hc). unfold get_bytes_for_peer. destruct b as [|x b]; [contradiction|].
  rewrite Hp, Hs, Hc. reflexivity.
Qed.

Ltac small := apply N.ltb_lt; vm_compute; reflexivity.

(* ---- C38 ---- *)
Definition no_state : p_resp := reply 0 None [] (Some (result_of None (Some (host_of [97])))).
Lemma no_state_good : forall V, texts V -> good_response V (enc_resp no_state) no_state.
Proof. intros V H. apply reply_good; [exact H|auto| |vm_compute; discriminate|small]. right. do 2 eexists. split; [reflexivity|]. auto. Qed.
Lemma R38 : forall w, texts (w_text w) -> exists b s, proxied w args0 setters0 [PToPeer (Some b)] [RToPeer (kInvalidArgument, 0, None)] s /\
  forall fs, pstep w s (PProtector fs) = Undef UbNullDeref.
Proof.
  intros w H. exists (enc_resp no_state). eexists. split.
  - eapply one_step; [reflexivity|apply created|exact I|]. cbn [pstep]. rewrite (peer_is _ _ _ _ (no_state_good _ H)). reflexivity.
  - intros fs. reflexivity.
Qed.

Definition no_local : p_resp := reply 0 None [] (Some (result_of (Some (state_of 1 0)) None)).
Lemma no_local_good : forall V, texts V -> good_response V (enc_resp no_local) no_local.
Proof.
  intros V H. apply reply_good; [exact H|auto| |vm_compute; discriminate|small]. right. do 2 eexists. split; [reflexivity|]. split; [|auto].
  right. do 2 eexists. split; [reflexivity|]. lia.
Qed.

Lemma protector_made : forall w s x, prims_ok (w_prims w) -> y_finished s = true -> y_result s = Some x ->
  o_address (y_options s) = ascii_url -> h_tls x = TLS1_3 -> lenN (h_in_secret x) = spec_hash_len (h_suite x) ->
  lenN (h_out_secret x) = spec_hash_len (h_suite x) -> h_in_seq x < two64 -> h_out_seq x < two64 ->
  exists f fs', pstep w s (PProtector []) = Done (move_channel s, RProtector (inr f)) /\
    fp_create (w_prims w) (w_lib w) (frame_args s x) [] = Done (inr f, fs').
Proof.
  intros w s x HP Hf Hx Ha Ht Hi Ho Hsi Hso.
  destruct (F32 (w_prims w) (w_lib w) (frame_args s x) [] HP Hsi Hso) as (r & fs' & E & _ & _ & V).
  destruct V as (f & ->); [|reflexivity|].
  - cbn. rewrite Ha. repeat split; auto; discriminate.
  - exists f, fs'. split; [|exact E]. cbn [pstep]. unfold create_frame_protector. rewrite Hf, Hx. cbn [negb]. unfold bind. rewrite E. reflexivity.
Qed.

Lemma R38b : forall w, prims_ok (w_prims w) -> texts (w_text w) -> exists b s s' f,
  proxied w args0 setters0 [PToPeer (Some b)] [RToPeer (kInternal, 0, None)] s /\
  pstep w s (PProtector []) = Done (s', RProtector (inr f)).
Proof.
  intros w HP H. exists (enc_resp no_local).
  assert (E : exists s, pstep w (proxy0 args0 setters0) (PToPeer (Some (enc_resp no_local))) = Done (s, RToPeer (kInternal, 0, None)) /\
    exists f fs', pstep w s (PProtector []) = Done (move_channel s, RProtector (inr f)) /\ True /\ fs' = ([] : faults)).
  { eexists. split; [cbn [pstep]; rewrite (peer_is _ _ _ _ (no_local_good _ H)); reflexivity|].
    match goal with |- context [move_channel ?s] => edestruct (protector_made w s) as (f & fs' & E & _);
      [exact HP|reflexivity|reflexivity|reflexivity|reflexivity|reflexivity|reflexivity|reflexivity|reflexivity|] end.
    exists f, []. split; [exact E|]. auto. }
  destruct E as (s & E & f & _ & Ep & _). exists s, (move_channel s), f. split; [|exact Ep].
  eapply one_step; [reflexivity|apply created|exact I|exact E].
Qed.

(* ---- a successful handshake ---- *)
Definition good_reply : p_resp := reply 0 None [] (Some (result_of (Some (state_of 1 0)) (Some (host_of [97])))).
Lemma good_reply_good : forall V, texts V -> good_response V (enc_resp good_reply) good_reply.
Proof.
  intros V H. apply reply_good; [exact H|auto| |vm_compute; discriminate|small]. right. do 2 eexists. split; [reflexivity|]. split; [|auto].
  right. do 2 eexists. split; [reflexivity|]. lia.
Qed.
Definition result0 : session_result :=
  {| h_tls := TLS1_3; h_suite := AES_128_GCM_SHA256; h_in_secret := repeat 11 32; h_out_secret := repeat 22 32;
     h_in_seq := 3; h_out_seq := 5; h_conn := 77; h_local := from_hostname [97] |}.
Definition context0 : s2a_context :=
  {| x_protocol := [104; 50]; x_tls := TLS1_3; x_suite := AES_128_GCM_SHA256; x_peer := from_hostname [98]; x_local := from_hostname [97];
     x_peer_fp := [2]; x_local_fp := [1]; x_resumed := true |}.
Definition done0 : proxy := set_context (set_result (set_finished (proxy0 args0 setters0)) result0) (Some context0).
Lemma handshake : forall w, texts (w_text w) ->
  proxied w args0 setters0 [PToPeer (Some (enc_resp good_reply))] [RToPeer (kOk, 9, Some [])] done0.
Proof.
  intros w H. eapply one_step; [reflexivity|apply created|exact I|]. cbn [pstep]. rewrite (peer_is _ _ _ _ (good_reply_good _ H)). reflexivity.
Qed.

(* ---- C41 ---- *)
Lemma R41 : forall w, texts (w_text w) -> exists b s c,
  proxied w args0 setters0 [PToPeer (Some b); PContext; PContext] [RToPeer (kOk, 9, Some []); RContext (inr (Some c)); RContext (inr None)] s.
Proof.
  intros w H. exists (enc_resp good_reply). eexists _, context0. eapply (next_step w _ _ [_; _] [_; _]);
    [eapply (next_step w _ _ [_] [_]); [exact (handshake w H)|exact I|reflexivity]|exact I|reflexivity].
Qed.
Lemma R41b : forall w, texts (w_text w) -> exists b s,
  proxied w args0 setters0 [PToPeer (Some b); PContext] [RToPeer (kInvalidArgument, 0, None); RContext (inr None)] s.
Proof.
  intros w H. exists (enc_resp no_state). eexists. eapply (next_step w _ _ [_] [_]); [|exact I|].
  - eapply one_step; [reflexivity|apply created|exact I|]. cbn [pstep]. rewrite (peer_is _ _ _ _ (no_state_good _ H)). reflexivity.
  - reflexivity.
Qed.

(* ---- C42 ---- *)
Lemma one_block : forall x bs, blocks_of [x] bs -> bs = [[x]].
Proof.
  intros x bs (Hc & init & last & -> & Hi & Hl & Hn). destruct init as [|b init].
  - cbn in Hc. rewrite app_nil_r in Hc. cbn. rewrite Hc. reflexivity.
  - exfalso. inversion Hi; subst. apply (f_equal lenN) in Hc. cbn [app List.concat] in Hc. rewrite lenN_app in Hc. change (lenN [x]) with 1 in Hc. lia.
Qed.
Lemma first_protect : forall P lib al a fs f fs' x, prims_ok P -> alloc_ok al ->
  ca_in_seq (fa_crypt a) < two64 -> ca_out_seq (fa_crypt a) < two64 -> fp_create P lib a fs = Done (inr f, fs') ->
  exists f' bufs, fstep P lib al f (FProtect [IoBuf [x]]) [] = Done (f', FProtected kOk bufs) /\
    out_bytes bufs = tls_record P (f_out a) ty_application_data [x] 0.
Proof.
  intros P lib al a fs f fs' x HP HA Hi Ho E.
  destruct (fp_create_inv P lib a fs f fs' HP Hi Ho E) as (_ & _ & _ & c & Ec & ->).
  destruct (create_winv P lib (c_args a) fs fs' c HP Hi Ho Ec) as [W _].
  destruct (cw_in _ _ _ _ W) as (din & Ri & _). pose proof (cw_out _ _ _ _ W) as Ro. fold (f_out a) in Ro.
  destruct (protect_spec P lib al {| fp_crypt := c; fp_max := 16384 + 22; fp_next := 0; fp_events := [] |} [IoBuf [x]] [] din (f_out a) HP HA Ri Ro)
    as (h' & st & bufs & fs1 & cops & crs & k & A & B1 & B2 & B3 & B4 & B5 & B6 & B7 & B8 & B9); [reflexivity|]. cbn zeta in A.
  destruct B8 as [-> ->]; [reflexivity|cbn; change (record_count _) with 1; lia|repeat constructor|reflexivity|].
  destruct (B7 eq_refl) as (_ & bs & K1 & K2 & ->). apply one_block in K1. subst bs.
  eexists _, _. cbn [fstep]. rewrite A. split; [reflexivity|]. unfold out_bytes. cbn [map List.concat records]. rewrite !app_nil_r, fb_bytes_eq.
  cbn [fb_len fb_mem iov_data]. apply takeN_all. rewrite <- (app_nil_r (tls_record _ _ _ _ _)).
  change (tls_record P (f_out a) ty_application_data [x] 0 ++ []) with (records P (f_out a) [[x]]). rewrite lenN_records by exact HP. vm_compute. discriminate.
Qed.

Lemma R42 : forall w al, prims_ok (w_prims w) -> alloc_ok al -> texts (w_text w) -> exists b s f g d f' g' bf bg,
  proxied w args0 setters0 [PToPeer (Some b); PProtector []; PProtector []]
    [RToPeer (kOk, 9, Some []); RProtector (inr f); RProtector (inr g)] s /\
  fstep (w_prims w) (w_lib w) al f (FProtect [IoBuf [1]]) [] = Done (f', FProtected kOk bf) /\
  fstep (w_prims w) (w_lib w) al g (FProtect [IoBuf [2]]) [] = Done (g', FProtected kOk bg) /\
  out_bytes bf = tls_record (w_prims w) d ty_application_data [1] 0 /\
  out_bytes bg = tls_record (w_prims w) d ty_application_data [2] 0.
Proof.
  intros w al HP HA H. exists (enc_resp good_reply).
  destruct (protector_made w done0 result0 HP) as (f & fs1 & E1 & C1); try reflexivity.
  destruct (protector_made w (move_channel done0) result0 HP) as (g & fs2 & E2 & C2); try reflexivity.
  destruct (first_protect _ _ al (frame_args done0 result0) _ _ _ 1 HP HA eq_refl eq_refl C1) as (f' & bf & F1 & F2).
  destruct (first_protect _ _ al (frame_args (move_channel done0) result0) _ _ _ 2 HP HA eq_refl eq_refl C2) as (g' & bg & G1 & G2).
  exists (move_channel (move_channel done0)), f, g, (f_out (frame_args done0 result0)), f', g', bf, bg.
  split; [|split; [exact F1|split; [exact G1|split; [exact F2|exact G2]]]].
  eapply (next_step w _ _ [_; _] [_; _]); [|exact I|exact E2]. eapply (next_step w _ _ [_] [_]); [exact (handshake w H)|exact I|exact E1].
Qed.

(* ---- C43 ---- *)
Definition alert_reply : p_resp := reply 7 None [21; 3; 3; 0; 2; 2; 40] None.
Lemma R43 : forall w, texts (w_text w) -> exists b r s, parse_resp (w_text w) b = Some r /\ rs_out_frames r = [21; 3; 3; 0; 2; 2; 40] /\
  (exists st, rs_status r = Some st /\ pst_code st <> 0) /\
  proxied w args0 setters0 [PToPeer (Some b)] [RToPeer (kInternal, 0, None)] s.
Proof.
  intros w (T & _). assert (Hp : parse_resp (w_text w) (enc_resp alert_reply) = Some alert_reply).
  { apply reply_parses; [|small]. split; [exact I|]. split; [reflexivity|]. split; [exact I|]. split; [reflexivity|exact T]. }
  exists (enc_resp alert_reply), alert_reply. eexists. split; [exact Hp|]. split; [reflexivity|]. split; [eexists; split; [reflexivity|discriminate]|].
  eapply one_step; [reflexivity|apply created|exact I|]. eapply P43b; [|exact Hp|reflexivity|]; discriminate.
Qed.

(* ---- C44 ---- *)
Definition announce_a : p_resp := reply 0 (Some (host_of [97])) [] None.
Definition result_b : p_resp := reply 0 None [] (Some (result_of (Some (state_of 1 0)) (Some (host_of [98])))).
Lemma announce_good : forall V, texts V -> good_response V (enc_resp announce_a) announce_a.
Proof. intros V H. apply reply_good; [exact H|auto|auto|vm_compute; discriminate|small]. Qed.
Lemma result_b_good : forall V, texts V -> good_response V (enc_resp result_b) result_b.
Proof.
  intros V H. apply reply_good; [exact H|auto| |vm_compute; discriminate|small]. right. do 2 eexists. split; [reflexivity|]. split; [|auto].
  right. do 2 eexists. split; [reflexivity|]. lia.
Qed.
Lemma R44 : forall w, prims_ok (w_prims w) -> texts (w_text w) -> exists b1 b2 r1 r2 res s s' f,
  good_response (w_text w) b1 r1 /\ good_response (w_text w) b2 r2 /\ rs_local r1 = Some (host_of [97]) /\
  rs_result r2 = Some res /\ pr_local res = Some (host_of [98]) /\
  proxied w args0 setters0 [PToPeer (Some b1); PToPeer (Some b2)] [RToPeer (kOk, 9, Some []); RToPeer (kOk, 9, Some [])] s /\
  pstep w s (PProtector []) = Done (s', RProtector (inr f)).
Proof.
  intros w HP H. pose proof (announce_good _ H) as G1. pose proof (result_b_good _ H) as G2.
  exists (enc_resp announce_a), (enc_resp result_b), announce_a, result_b. eexists.
  assert (E : exists s1 s2, pstep w (proxy0 args0 setters0) (PToPeer (Some (enc_resp announce_a))) = Done (s1, RToPeer (kOk, 9, Some [])) /\
     pstep w s1 (PToPeer (Some (enc_resp result_b))) = Done (s2, RToPeer (kOk, 9, Some [])) /\
     exists f, pstep w s2 (PProtector []) = Done (move_channel s2, RProtector (inr f))).
  { eexists _, _. split; [cbn [pstep]; rewrite (peer_is _ _ _ _ G1); reflexivity|].
    split; [cbn [pstep]; rewrite (peer_is _ _ _ _ G2); reflexivity|].
    match goal with |- context [move_channel ?s] => edestruct (protector_made w s) as (f & fs' & E & _);
      [exact HP|reflexivity|reflexivity|reflexivity|reflexivity|reflexivity|reflexivity|reflexivity|reflexivity|] end.
    exists f. exact E. }
  destruct E as (s1 & s2 & E1 & E2 & f & E3). exists s2, (move_channel s2), f. split; [exact G1|]. split; [exact G2|].
  split; [reflexivity|]. split; [reflexivity|]. split; [reflexivity|]. split; [|exact E3].
  eapply (next_step w _ _ [_] [_]); [|exact I|exact E2]. eapply one_step; [reflexivity|apply created|exact I|exact E1].
Qed.

(* ---- C45 ---- *)
Definition tls12_reply : p_resp := reply 0 None [] (Some (result_of (Some (state_of 0 0)) (Some (host_of [97])))).
Lemma tls12_good : forall V, texts V -> good_response V (enc_resp tls12_reply) tls12_reply.
Proof.
  intros V H. apply reply_good; [exact H|auto| |vm_compute; discriminate|small]. right. do 2 eexists. split; [reflexivity|]. split; [|auto].
  right. do 2 eexists. split; [reflexivity|]. lia.
Qed.
Lemma R45 : forall w, texts (w_text w) -> exists b s c,
  o_min (options_after setters0) = TLS1_3 /\ o_max (options_after setters0) = TLS1_3 /\ x_tls c = TLS1_2 /\
  proxied w args0 setters0 [PToPeer (Some b); PFinished; PContext]
    [RToPeer (kOk, 9, Some []); RFinished true; RContext (inr (Some c))] s.
Proof.
  intros w H. exists (enc_resp tls12_reply). eexists _, _. split; [reflexivity|]. split; [reflexivity|]. split.
  2: { eapply (next_step w _ _ [_; _] [_; _]); [|exact I|].
    - eapply (next_step w _ _ [_] [_]); [|exact I|].
      + eapply one_step; [reflexivity|apply created|exact I|]. cbn [pstep]. rewrite (peer_is _ _ _ _ (tls12_good _ H)). reflexivity.
      + reflexivity.
    - reflexivity. }
  reflexivity.
Qed.
Definition chacha_reply : p_resp := reply 0 None [] (Some (result_of (Some (state_of 1 2)) (Some (host_of [97])))).
Lemma chacha_good : forall V, texts V -> good_response V (enc_resp chacha_reply) chacha_reply.
Proof.
  intros V H. apply reply_good; [exact H|auto| |vm_compute; discriminate|small]. right. do 2 eexists. split; [reflexivity|]. split; [|auto].
  right. do 2 eexists. split; [reflexivity|]. lia.
Qed.
Lemma R45b : forall w, prims_ok (w_prims w) -> texts (w_text w) -> exists b s s' f args,
  ~ In (ca_suite (fa_crypt args)) (o_suites (options_after setters0)) /\
  proxied w args0 setters0 [PToPeer (Some b)] [RToPeer (kOk, 9, Some [])] s /\
  pstep w s (PProtector []) = Done (s', RProtector (inr f)) /\
  exists fs', fp_create (w_prims w) (w_lib w) args [] = Done (inr f, fs').
Proof.
  intros w HP H. exists (enc_resp chacha_reply).
  assert (E : exists s, pstep w (proxy0 args0 setters0) (PToPeer (Some (enc_resp chacha_reply))) = Done (s, RToPeer (kOk, 9, Some [])) /\
     exists f x fs', h_suite x = CHACHA20_POLY1305_SHA256 /\ pstep w s (PProtector []) = Done (move_channel s, RProtector (inr f)) /\
       fp_create (w_prims w) (w_lib w) (frame_args s x) [] = Done (inr f, fs')).
  { eexists. split; [cbn [pstep]; rewrite (peer_is _ _ _ _ (chacha_good _ H)); reflexivity|].
    match goal with |- context [move_channel ?s] => edestruct (protector_made w s) as (f & fs' & E & E');
      [exact HP|reflexivity|reflexivity|reflexivity|reflexivity|reflexivity|reflexivity|reflexivity|reflexivity|] end.
    exists f. eexists _, fs'. split; [|split; [exact E|exact E']]. reflexivity. }
  destruct E as (s & E & f & x & fs' & Hx & E1 & E2). exists s, (move_channel s), f, (frame_args s x).
  split; [cbn; rewrite Hx; intros [K|[]]; discriminate|]. split; [|split; [exact E1|eauto]].
  eapply one_step; [reflexivity|apply created|exact I|exact E].
Qed.

(* ---- C40, C46, C47: strings cut at a NUL ---- *)
Definition id_order : hash_order := {| ho_ids := fun l => l; ho_tokens := fun l => l |}.
Lemma id_order_ok : order_ok id_order.
Proof. split; intros l; apply Permutation_refl. Qed.

Definition cut_setters : list setter := [SetAddress ascii_url; AddLocalHost [97; 0; 98]].
Definition token_world (w : world) : world :=
  {| w_prims := w_prims w; w_lib := w_lib w; w_text := w_text w; w_manager := fun _ _ => Some [116; 0; 117] |}.
Lemma R40 : forall w0, let w := token_world w0 in exists b s s' q m, let a := args_for true [104] cut_setters in
  proxied w a cut_setters [] [] s /\ pstep w s (PToS2A None id_order true) = Done (s', RToS2A (kOk, 0, Some b)) /\
  encodes b {| rq_oneof := q; rq_auth := [m] |} /\
  pa_identity m = Some (host_of [97]) /\ pa_token m = Some [116] /\
  y_log s' = [(GetToken (from_hostname [97; 0; 98]), Some [116; 0; 117])].
Proof.
  intros w0 w. eexists _, _, _, _, _. split.
  { split; [reflexivity|]. split; [constructor|]. eexists. split; [apply created|reflexivity]. }
  split; [cbn [pstep]; reflexivity|]. split.
  { split; [reflexivity|]. split; [|constructor; [|constructor]; split; [split; [reflexivity|constructor]|reflexivity]].
    unfold valid_client, any_text, text. cbn. repeat split; repeat constructor. }
  repeat split.
Qed.
Lemma R46 : forall w, exists b s s' m l, let a := args_for true [97; 0; 98] [] in
  proxied w a [] [] [] s /\ pstep w s (PToS2A None id_order true) = Done (s', RToS2A (kOk, 0, Some b)) /\
  encodes b {| rq_oneof := ReqClient m; rq_auth := l |} /\ pc_target_name m = [97].
Proof.
  intros w.
  eexists _, _, _, _, _. split; [split; [reflexivity|split; [constructor|eexists; split; [apply created|reflexivity]]]|].
  split; [cbn [pstep]; unfold get_bytes_for_s2a, get_client_start; cbn -[populate_token_cache enc_req]; reflexivity|]. split.
  { split; [reflexivity|]. split; [|exact (auth_valid id_order (populate_token_cache (w_manager w) id_order (proxy0 (args_for true [97; 0; 98] []) [])))].
    destruct (populate_frame (w_manager w) id_order (proxy0 (args_for true [97; 0; 98] []) [])) as (c & l & ->).
    unfold valid_client, any_text, text. cbn. repeat split; repeat constructor. }
  destruct (populate_frame (w_manager w) id_order (proxy0 (args_for true [97; 0; 98] []) [])) as (c & l & ->). reflexivity.
Qed.
Lemma R47 : forall w, exists b s s' m l, let a := args_for false [] [AddLocalUid [97; 0; 98]] in
  proxied w a [AddLocalUid [97; 0; 98]] [] [] s /\ pstep w s (PToS2A (Some [1]) id_order true) = Done (s', RToS2A (kOk, 0, Some b)) /\
  encodes b {| rq_oneof := ReqServer m; rq_auth := l |} /\ ps_locals m = [{| pi_id := IdUid [97]; pi_attrs := [] |}].
Proof.
  intros w. set (cs := [AddLocalUid [97; 0; 98]]). set (a := args_for false [] cs).
  eexists _, (proxy0 a cs), _, _, _. split; [split; [reflexivity|split; [constructor|eexists; split; [apply created|reflexivity]]]|].
  split; [cbn [pstep]; unfold get_bytes_for_s2a, get_server_start; cbn -[populate_token_cache enc_req]; reflexivity|]. split.
  { split; [reflexivity|]. split; [|exact (auth_valid id_order (populate_token_cache (w_manager w) id_order (proxy0 a cs)))].
    destruct (populate_frame (w_manager w) id_order (proxy0 a cs)) as (c & l & ->).
    unfold valid_server, any_text, text. cbn. repeat split; repeat constructor. }
  reflexivity.
Qed.
