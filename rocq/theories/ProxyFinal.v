(* The properties of the proxy. *)
From Coq Require Import List NArith Bool Permutation Lia.
From Verif Require Import Base Aead AeadProofs Hkdf HalfConn Options HsHandler Crypter FrameProt Wire SpecWire WireProofs WireMsgs WireValid
  Util Context SpecOptions HsMsgProofs Proxy ProxyRun ProxyProofs SpecTls SpecHs SpecRecord SpecRx CrypterRun HalfRun SpecFrame FrameRun FrameFinal.
Import ListNotations.
Local Open Scope N_scope.

Lemma step_total : forall w a cs ops rs s inp o ser, proxied w a cs ops rs s -> order_ok o ->
  exists s' st, pstep w s (PToS2A inp o ser) = Done (s', RToS2A st) /\ s2a_call (w_manager w) o s inp ser s' st.
Proof.
  intros w a cs ops rs s inp o ser Hp Ho. cbn [pstep]. destruct (get_bytes_for_s2a (w_manager w) o ser s inp) as [s' st] eqn:E.
  exists s', st. split; [reflexivity|]. apply s2a_call_is; [exact Ho| |exact E]. eapply proxied_config. exact Hp.
Qed.

Lemma populate_tokens : forall tm o s, same_but_tokens s (populate_token_cache tm o s).
Proof. intros tm o s. destruct (populate_frame tm o s) as (c & l & ->). reflexivity. Qed.

(* ---- C35 ---- *)
Lemma P35b : forall w a cs ops rs s, proxied w a cs ops rs s -> forall inp o ser, order_ok o ->
  exists s' c buf, pstep w s (PToS2A inp o ser) = Done (s', RToS2A (c, 0, buf)) /\
    (c = kOk <-> buf <> None) /\
    (c = kOk <-> ser = true /\
       match exchanges ops rs with
       | [] => ya_client a = true -> bytes_of inp = [] /\ lenN (o_local (options_after cs)) <= 1
       | _ => bytes_of inp <> []
       end) /\
    (c <> kOk -> ser = true -> s' = s) /\
    (c <> kOk -> same_but_tokens s s').
Proof.
  intros w a cs ops rs s Hp inp o ser Ho. destruct (step_total _ _ _ _ _ _ inp o ser Hp Ho) as (s' & st & E & C).
  destruct (P35 _ _ _ _ _ _ Hp) as [_ HF]. destruct (proxied_config _ _ _ _ _ _ Hp) as [Hc _]. unfold config, config_of in Hc.
  injection Hc as Hcl _ _ Hopt _. rewrite <- Hcl, <- Hopt. clear Hopt Hcl. rewrite E. clear E.
  destruct C as [H|H|m H1 H2 H3 H4 H5 H6 H7 s1|m H1 H2 H3 H4 H5 H6 s1|H1 H2 H3 s1].
  - exists s, kFailedPrecondition, None. split; [reflexivity|]. split; [split; congruence|]. split.
    + split; [discriminate|]. intros [Hs K]. exfalso. destruct H as [(F & Cl & H)|(F & H)].
      * apply HF in F. rewrite F in K. destruct (K Cl) as [K1 K2]. destruct H as [H|H]; [contradiction|lia].
      * destruct (exchanges ops rs); [assert (y_first s = true) by tauto; congruence|contradiction].
    + split; [reflexivity|]. intros _. destruct s; reflexivity.
  - exists (populate_token_cache (w_manager w) o s), kInternal, None. split; [reflexivity|]. split; [split; congruence|]. split.
    + split; [discriminate|intros [K _]; congruence].
    + split; [congruence|intros _; apply populate_tokens].
  - eexists _, kOk, _. split; [reflexivity|]. split; [split; [discriminate|reflexivity]|]. split; [|split; congruence].
    split; [|reflexivity]. intros _. split; [exact H1|]. apply HF in H2. rewrite H2. auto.
  - eexists _, kOk, _. split; [reflexivity|]. split; [split; [discriminate|reflexivity]|]. split; [|split; congruence].
    split; [|reflexivity]. intros _. split; [exact H1|]. apply HF in H2. rewrite H2. congruence.
  - eexists _, kOk, _. split; [reflexivity|]. split; [split; [discriminate|reflexivity]|]. split; [|split; congruence].
    split; [|reflexivity]. intros _. split; [exact H1|]. destruct (exchanges ops rs); [assert (y_first s = true) by tauto; congruence|exact H3].
Qed.

(* A message is only one of the three kinds. *)
Lemma P35c : forall b, wire_size_ok b -> forall i j,
  ~ (client_start b /\ server_start i b) /\ ~ (client_start b /\ next_message i b) /\ ~ (server_start i b /\ next_message j b).
Proof.
  intros b Hb i j. assert (K : forall r r', encodes b r -> encodes b r' -> r = r').
  { intros r r' [-> Hv] [E Hv']. pose proof (rt_req any_text r Hv Hb) as H1. rewrite E in Hb, H1. rewrite (rt_req any_text r' Hv' Hb) in H1. congruence. }
  split; [|split].
  - intros [(c & l & H) (c' & l' & H' & _)]. specialize (K _ _ H H'). discriminate.
  - intros [(c & l & H) (l' & H')]. specialize (K _ _ H H'). discriminate.
  - intros [(c & l & H & _) (l' & H')]. specialize (K _ _ H H'). discriminate.
Qed.

(* ---- C36 ---- *)
Lemma good_fun : forall V b r r', good_response V b r -> good_response V b r' -> r = r'.
Proof. intros V b r r' (_ & H & _) (_ & H' & _). congruence. Qed.

Lemma received_snoc : forall V ops op, result_received V (ops ++ [op]) <-> result_received V ops \/ result_received V [op].
Proof.
  intros V ops op. split.
  - intros (b & r & res & Hi & H). apply in_app_iff in Hi. destruct Hi as [Hi|Hi]; [left|right]; exists b, r, res; auto.
  - intros [(b & r & res & Hi & H)|(b & r & res & Hi & H)]; exists b, r, res; (split; [apply in_app_iff; auto|exact H]).
Qed.

Lemma not_received : forall V op, quiet op -> ~ result_received V [op].
Proof. intros V op Hq (b & r & res & [Hi|[]] & _). subst op. exact Hq. Qed.

Lemma step_finished : forall w s op s' r, pop_ok op -> made_opts s -> pstep w s op = Done (s', r) ->
  (y_finished s' = true <-> y_finished s = true \/ result_received (w_text w) [op]).
Proof.
  intros w s op s' r Hok Hm E. destruct op as [inp o ser|inp| |fs|]; cbn [pstep] in E.
  - destruct (get_bytes_for_s2a (w_manager w) o ser s inp) as [s1 st] eqn:Es. injection E as <- <-.
    apply s2a_call_is in Es; [|exact Hok|exact Hm]. destruct (populate_same (w_manager w) o s) as (_ & _ & _ & Hf & _).
    assert (K : y_finished s1 = y_finished s). { destruct Es; auto. }
    rewrite K. pose proof (not_received (w_text w) (PToS2A inp o ser) I). tauto.
  - destruct (get_bytes_for_peer (w_text w) s inp) as [s1 st] eqn:Es. injection E as <- <-. apply peer_call_is in Es.
    destruct Es as [c Hc Hn|q s1 s2 err G E1 E2].
    + split; [auto|]. intros [K|(b & r & res & [K|[]] & G & _)]; [exact K|]. injection K as ->. destruct (Hn r). exact G.
    + destruct (rs_result q) as [res|] eqn:Er.
      * apply take_result_frame in E2. destruct E2 as (_ & _ & _ & _ & _ & -> & _). split; [|reflexivity]. intros _. right.
        destruct inp as [b|]; [|destruct G as [G _]; contradiction]. exists b, q, res. split; [left; reflexivity|]. auto.
      * destruct E2 as [-> _]. assert (K : y_finished s1 = y_finished s). { subst s1. destruct (rs_local q); reflexivity. }
        rewrite K. split; [auto|]. intros [K'|(b & r & res & [K'|[]] & G' & Hr)]; [exact K'|]. injection K' as ->.
        rewrite (good_fun _ _ _ _ G' G) in Hr. congruence.
  - injection E as <- <-. pose proof (not_received (w_text w) PFinished I). tauto.
  - destruct (create_frame_protector (w_prims w) (w_lib w) s fs) as [[[s1 x] fs1]|u|] eqn:Ec; try discriminate. injection E as <- <-.
    apply create_frame in Ec. pose proof (not_received (w_text w) (PProtector fs) I). destruct Ec as [(_ & -> & _)|(_ & -> & _)]; cbn; tauto.
  - unfold get_s2a_context in E. pose proof (not_received (w_text w) PContext I). destruct (y_finished s) eqn:F; injection E as <- <-; cbn; rewrite F; tauto.
Qed.

Lemma finished_iff : forall w a cs ops rs s, proxied w a cs ops rs s -> (y_finished s = true <-> result_received (w_text w) ops).
Proof.
  intros w a cs. apply proxied_ind.
  - intros s Ho Hc. destruct (create_is a cs s Ho Hc) as (_ & _ & _ & _ & _ & Hf & _). rewrite Hf. split; [discriminate|]. intros (b & r & res & [] & _).
  - intros ops rs s op s' r Hp IH Hok Es. pose proof (proxied_config _ _ _ _ _ _ Hp) as [_ Hm].
    rewrite received_snoc, (step_finished _ _ _ _ _ Hok Hm Es), IH. tauto.
Qed.

Lemma P36 : forall w a cs ops rs s, proxied w a cs ops rs s ->
  exists b, pstep w s PFinished = Done (s, RFinished b) /\ (b = true <-> result_received (w_text w) ops).
Proof. intros w a cs ops rs s Hp. exists (y_finished s). split; [reflexivity|]. eapply finished_iff. exact Hp. Qed.

(* ---- C37 ---- *)
Lemma P37 : forall w a cs ops rs s, proxied w a cs ops rs s -> ~ result_received (w_text w) ops ->
  (forall fs, pstep w s (PProtector fs) = Done (s, RProtector (inl kFailedPrecondition))) /\
  pstep w s PContext = Done (s, RContext (inl kFailedPrecondition)).
Proof.
  intros w a cs ops rs s Hp Hn. assert (F : y_finished s = false).
  { destruct (y_finished s) eqn:F; [|reflexivity]. destruct Hn. eapply finished_iff; eassumption. }
  split; [intros fs|]; cbn [pstep]; [unfold create_frame_protector|unfold get_s2a_context]; rewrite F; reflexivity.
Qed.

(* ---- results ---- *)
Definition result_ok (r : session_result) : Prop := h_in_seq r < two64 /\ h_out_seq r < two64.

Lemma take_result_ok : forall V s res s' e, valid_result V res -> opt_all result_ok (y_result s) ->
  take_result s res = (s', e) -> opt_all result_ok (y_result s').
Proof.
  intros V s res s' e (_ & Hst & _) Hr E. unfold take_result in E. destruct (pr_state res) as [st|]; [|injection E as <- <-; exact Hr].
  destruct Hst as (_ & _ & H1 & H2 & _).
  destruct (tls_from_proto (pt_tls st)); [injection E as <- <-; split; reflexivity|].
  destruct (suite_from_proto (pt_suite st)); [injection E as <- <-; split; reflexivity|].
  destruct (pr_local res); injection E as <- <-; split; assumption.
Qed.

Lemma step_result : forall w s op s' r, quiet op -> pop_ok op -> made_opts s -> pstep w s op = Done (s', r) ->
  y_result s' = y_result s /\ (op <> PContext -> y_context s' = y_context s) /\ y_finished s' = y_finished s.
Proof.
  intros w s op s' r Hq Hok Hm E. destruct op as [inp o ser|inp| |fs|]; cbn [pstep] in E.
  - destruct (get_bytes_for_s2a (w_manager w) o ser s inp) as [s1 st] eqn:Es. injection E as <- <-.
    apply s2a_call_is in Es; [|exact Hok|exact Hm]. destruct (populate_same (w_manager w) o s) as (_ & _ & _ & Hf & _ & Hcx & Hre).
    destruct Es; auto.
  - destruct Hq.
  - injection E as <- <-. auto.
  - destruct (create_frame_protector (w_prims w) (w_lib w) s fs) as [[[s1 x] fs1]|u|] eqn:Ec; try discriminate. injection E as <- <-.
    apply create_frame in Ec. destruct Ec as [(_ & -> & _)|(_ & -> & _)]; cbn; auto.
  - unfold get_s2a_context in E. destruct (y_finished s) eqn:F; injection E as <- <-; cbn; auto; split; auto; split; auto; congruence.
Qed.

Lemma run_result : forall w ops s s' rs, Forall quiet ops -> Forall pop_ok ops -> made_opts s -> prun w s ops = Done (s', rs) ->
  y_result s' = y_result s /\ (~ In PContext ops -> y_context s' = y_context s) /\ y_finished s' = y_finished s /\ config s' = config s.
Proof.
  intros w. induction ops as [|op ops IH]; intros s s' rs Hq Hok Hm E; cbn [prun] in E; [injection E as <- <-; auto|].
  destruct (pstep w s op) as [[s1 r1]|u|] eqn:E1; try discriminate. cbn [obind] in E.
  destruct (prun w s1 ops) as [[s2 rs2]|u|] eqn:E2; try discriminate. injection E as <- <-.
  inversion_clear Hq. inversion_clear Hok. pose proof (step_config _ _ _ _ _ H1 Hm E1) as Hc.
  destruct (step_result _ _ _ _ _ H H1 Hm E1) as (A & B & C).
  assert (Hm1 : made_opts s1). { unfold made_opts. rewrite (config_options _ _ Hc). exact Hm. }
  destruct (IH _ _ _ H0 H2 Hm1 E2) as (A' & B' & C' & D'). split; [congruence|]. split; [|split; congruence].
  intros Hn. rewrite B' by (intros K; apply Hn; right; exact K). apply B. intros ->. apply Hn. left. reflexivity.
Qed.

Lemma proxied_result : forall w a cs ops rs s, w_text w [] = true -> proxied w a cs ops rs s -> opt_all result_ok (y_result s).
Proof.
  intros w a cs ops rs s HV. revert ops rs s. apply proxied_ind.
  - intros s Ho Hc. destruct (create_is a cs s Ho Hc) as (_ & _ & _ & _ & _ & _ & _ & Hr & _). rewrite Hr. exact I.
  - intros ops rs s op s' r Hp IH Hok Es. pose proof (proxied_config _ _ _ _ _ _ Hp) as [_ Hm].
    destruct op as [inp o ser|inp| |fs|];
      try (destruct ((fun q => step_result _ _ _ _ _ q Hok Hm Es) I) as (-> & _); exact IH).
    cbn [pstep] in Es. destruct (get_bytes_for_peer (w_text w) s inp) as [s1 st] eqn:Eg. injection Es as <- <-. apply peer_call_is in Eg.
    destruct Eg as [c Hc Hn|q s1 s2 err G E1 E2]; [exact IH|].
    assert (H1 : opt_all result_ok (y_result s1)). { subst s1. destruct (rs_local q); exact IH. }
    destruct (rs_result q) as [res|] eqn:Er; [|destruct E2 as [-> _]; exact H1].
    destruct G as (_ & G & _). apply parse_resp_valid in G; [|exact HV]. destruct G as (_ & _ & G & _). rewrite Er in G.
    eapply take_result_ok; eassumption.
Qed.

(* ---- C38 ---- *)
Lemma P38 : forall w a cs ops rs s, prims_ok (w_prims w) -> w_text w [] = true -> proxied w a cs ops rs s ->
  forall b r res s1 c n buf, good_response (w_text w) b r -> rs_result r = Some res -> pr_state res <> None -> pr_local res <> None ->
  pstep w s (PToPeer (Some b)) = Done (s1, RToPeer (c, n, buf)) -> c <> kOk ->
  forall fs, exists s2 e, pstep w s1 (PProtector fs) = Done (s2, RProtector (inl e)) /\ e <> kOk.
Proof.
  intros w a cs ops rs s HP HV Hp b r res s1 c n buf G Hr Hst Hl E Hc fs.
  assert (Hp1 : proxied w a cs (ops ++ [PToPeer (Some b)]) (rs ++ [RToPeer (c, n, buf)]) s1).
  { destruct Hp as (Ho & Hok & s0 & H0 & Hrun). split; [exact Ho|]. split; [apply Forall_app; split; [exact Hok|repeat constructor]|].
    exists s0. split; [exact H0|]. apply prun_snoc. eauto 6. }
  pose proof (proxied_result _ _ _ _ _ _ HV Hp1) as Hok1.
  cbn [pstep] in E. destruct (get_bytes_for_peer (w_text w) s (Some b)) as [s1' st] eqn:Eg. injection E as <- ->. apply peer_call_is in Eg.
  remember (c, n, buf) as st eqn:Est. destruct Eg as [c0 Hc0 Hn|q sa sb err G' E1 E2]; [destruct (Hn r G)|].
  rewrite (good_fun _ _ _ _ G' G) in *. rewrite Hr in E2.
  pose proof (take_result_frame _ _ _ _ E2) as (_ & _ & _ & _ & _ & Hfin & _).
  assert (Hx : exists x, y_result sb = Some x /\ (h_tls x = TLS1_2 \/ h_in_secret x = [])).
  { unfold take_result in E2. destruct (pr_state res) as [stt|]; [|contradiction].
    destruct (tls_from_proto (pt_tls stt)); [injection E2 as <- <-; eexists; split; [reflexivity|left; reflexivity]|].
    destruct (suite_from_proto (pt_suite stt)); [injection E2 as <- <-; eexists; split; [reflexivity|right; reflexivity]|].
    destruct (pr_local res); [|contradiction]. injection E2 as <- <-. injection Est as <- _ _. contradiction. }
  destruct Hx as (x & Ex & Hx). cbn [pstep]. unfold create_frame_protector. rewrite Hfin, Ex. cbn [negb].
  rewrite Ex in Hok1. destruct Hok1 as [Hi Ho].
  destruct (F32 (w_prims w) (w_lib w) (frame_args sb x) fs HP Hi Ho) as (rr & fs' & Ef & Hne & Hv & _).
  unfold bind. rewrite Ef. cbn [ret obind]. destruct rr as [e|f]; [eexists _, e; split; [reflexivity|apply Hne; reflexivity]|].
  exfalso. destruct Hv as (_ & _ & _ & _ & V1 & V2 & _); [eauto|]. cbn in V1, V2. destruct Hx as [Hx|Hx]; [congruence|].
  rewrite Hx in V2. destruct (h_suite x); discriminate.
Qed.

(* ---- C39 ---- *)
Lemma P39 : forall w a cs ops rs s, proxied w a cs ops rs s ->
  forall b r res s1 n buf, good_response (w_text w) b r -> rs_result r = Some res ->
  pstep w s (PToPeer (Some b)) = Done (s1, RToPeer (kOk, n, buf)) ->
  forall later rs' s2, Forall quiet later -> Forall pop_ok later -> prun w s1 later = Done (s2, rs') ->
  (exists args, protector_matches res args /\ ca_url (fa_crypt args) = last (addresses cs) [] /\
     forall fs x, (exists s3, pstep w s2 (PProtector fs) = Done (s3, RProtector x)) <->
                  (exists fs', fp_create (w_prims w) (w_lib w) args fs = Done (x, fs'))) /\
  (~ In PContext later -> exists c s3, context_matches res c /\ pstep w s2 PContext = Done (s3, RContext (inr (Some c)))).
Proof.
  intros w a cs ops rs s Hp b r res s1 n buf G Hr E later rs' s2 Hq Hok Erun.
  destruct (proxied_config _ _ _ _ _ _ Hp) as [Hcfg Hm].
  cbn [pstep] in E. destruct (get_bytes_for_peer (w_text w) s (Some b)) as [s1' st] eqn:Eg. injection E as <- ->. apply peer_call_is in Eg.
  remember (kOk, n, buf) as st eqn:Est. destruct Eg as [c0 Hc0 Hn|q sa sb err G' E1 E2]; [destruct (Hn r G)|].
  rewrite (good_fun _ _ _ _ G' G) in *. rewrite Hr in E2.
  pose proof (take_result_frame _ _ _ _ E2) as (Hcb & _ & _ & _ & _ & Hfin & _).
  assert (Hsa : config sa = config s). { subst sa. destruct (rs_local r); reflexivity. }
  assert (Hmb : made_opts sb). { unfold made_opts. rewrite (config_options _ _ Hcb), (config_options _ _ Hsa). exact Hm. }
  destruct (run_result _ _ _ _ _ Hq Hok Hmb Erun) as (R1 & R2 & R3 & R4).
  assert (Haddr : o_address (y_options s2) = last (addresses cs) []).
  { rewrite (config_options _ _ R4), (config_options _ _ Hcb), (config_options _ _ Hsa).
    unfold config, config_of in Hcfg. injection Hcfg as _ _ _ -> _. apply (options_inv cs). }
  rewrite Hfin in R3. unfold take_result in E2. destruct (pr_state res) as [stt|] eqn:Est'.
  2: { injection E2 as <- <-. cbv beta iota delta [proxy_error] in Est. discriminate. }
  destruct (tls_from_proto (pt_tls stt)) as [c|tv] eqn:Etls. 1: { injection E2 as <- <-. cbv beta iota delta [proxy_error] in Est. injection Est as -> _ _.
    destruct (tls_from_cases (pt_tls stt)) as [(v & Hv)|K]; [apply tls_from_ok in Hv|]; congruence. }
  destruct (suite_from_proto (pt_suite stt)) as [c|su] eqn:Esu. 1: { injection E2 as <- <-. cbv beta iota delta [proxy_error] in Est. injection Est as -> _ _.
    destruct (suite_from_cases (pt_suite stt)) as [(v & Hv)|K]; [apply suite_from_ok in Hv|]; congruence. }
  destruct (pr_local res) as [p|] eqn:El. 2: { injection E2 as <- <-. cbv beta iota delta [proxy_error] in Est. discriminate. }
  injection E2 as <- <-. cbn [y_result set_context set_result y_context] in R1, R2. split.
  - match type of R1 with _ = Some ?x => exists (frame_args s2 x) end. split; [|split; [exact Haddr|]].
    2: { intros fs x. cbn [pstep]. unfold create_frame_protector. rewrite R3, R1. cbn [negb]. unfold bind.
      match goal with |- context [fp_create _ _ (frame_args s2 ?y) fs] => destruct (fp_create (w_prims w) (w_lib w) (frame_args s2 y) fs) as [[r0 f0]|u|] end; cbn.
      - split; [intros (s3 & K); injection K as <- <-; eauto|intros (f' & K); injection K as <- <-; eauto].
      - split; [intros (s3 & K); discriminate|intros (f' & K); discriminate].
      - split; [intros (s3 & K); discriminate|intros (f' & K); discriminate]. }
    exists stt, p. split; [exact Est'|]. split; [exact El|]. cbn. apply tls_from_ok in Etls. apply suite_from_ok in Esu.
    repeat (split; [solve [auto | exact (identity_from_meant (Some p))]|]). reflexivity.
  - intros Hn. specialize (R2 Hn). eexists _, _. split; [|cbn [pstep]; unfold get_s2a_context; rewrite R3, R2; reflexivity].
    exists stt, p. split; [exact Est'|]. split; [exact El|]. cbn. apply tls_from_ok in Etls. apply suite_from_ok in Esu.
    repeat (split; [solve [auto | apply identity_from_meant]|]). reflexivity.
Qed.

(* ---- C43, C45 ---- *)
Lemma P43 : forall w s b s1 c n buf r, good_response (w_text w) b r ->
  pstep w s (PToPeer (Some b)) = Done (s1, RToPeer (c, n, buf)) ->
  (rs_result r = None -> c = kOk) /\ (c = kOk -> n = rs_consumed r /\ buf = Some (rs_out_frames r)).
Proof.
  intros w s b s1 c n buf r G E. cbn [pstep] in E. destruct (get_bytes_for_peer (w_text w) s (Some b)) as [s1' st] eqn:Eg. injection E as <- ->.
  apply peer_call_is in Eg. remember (c, n, buf) as st eqn:Est. destruct Eg as [c0 Hc0 Hn|q sa sb err G' E1 E2]; [destruct (Hn r G)|].
  rewrite (good_fun _ _ _ _ G' G) in *. split.
  - intros Hr. rewrite Hr in E2. destruct E2 as [_ ->]. now injection Est as <- _ _.
  - intros ->. destruct err as [e|]; [|injection Est as <- <-; auto]. cbv beta iota delta [proxy_error] in Est. injection Est as -> _ _. exfalso.
    destruct (rs_result r) as [res|]; [|destruct E2; discriminate]. unfold take_result in E2.
    destruct (pr_state res) as [stt|]; [|discriminate].
    destruct (tls_from_proto (pt_tls stt)) as [c|tv] eqn:Etls. 1: { injection E2 as <- ->.
      destruct (tls_from_cases (pt_tls stt)) as [(v & Hv)|K]; [apply tls_from_ok in Hv|]; congruence. }
    destruct (suite_from_proto (pt_suite stt)) as [c|su] eqn:Esu. 1: { injection E2 as <- ->.
      destruct (suite_from_cases (pt_suite stt)) as [(v & Hv)|K]; [apply suite_from_ok in Hv|]; congruence. }
    destruct (pr_local res); discriminate.
Qed.

Lemma P43b : forall w s b r st, b <> [] -> parse_resp (w_text w) b = Some r -> rs_status r = Some st -> pst_code st <> 0 ->
  pstep w s (PToPeer (Some b)) = Done (s, RToPeer (kInternal, 0, None)).
Proof.
  intros w s b r st Hb Hp Hs Hc. cbn [pstep]. unfold get_bytes_for_peer. destruct b as [|x b]; [contradiction|]. rewrite Hp, Hs.
  destruct (N.eqb_spec (pst_code st) 0); [contradiction|]. reflexivity.
Qed.

Lemma P45 : forall w a cs ops rs s, prims_ok (w_prims w) -> w_text w [] = true -> proxied w a cs ops rs s ->
  forall fs s' f, pstep w s (PProtector fs) = Done (s', RProtector (inr f)) ->
  exists args fs', fp_create (w_prims w) (w_lib w) args fs = Done (inr f, fs') /\ ca_tls (fa_crypt args) = TLS1_3.
Proof.
  intros w a cs ops rs s HP HV Hp fs s' f E. cbn [pstep] in E.
  destruct (create_frame_protector (w_prims w) (w_lib w) s fs) as [[[s1 x] fs1]|u|] eqn:Ec; try discriminate. injection E as <- ->.
  apply create_frame in Ec. destruct Ec as [(_ & _ & K)|(_ & _ & x & fs'' & Ex & Ec)]; [discriminate|].
  pose proof (proxied_result _ _ _ _ _ _ HV Hp) as Hr. rewrite Ex in Hr. destruct Hr as [Hi Ho].
  exists (frame_args s x), fs''. split; [exact Ec|].
  destruct (F32 (w_prims w) (w_lib w) (frame_args s x) fs HP Hi Ho) as (rr & fs' & Ef & _ & Hv & _).
  rewrite Ec in Ef. injection Ef as <- _. destruct Hv as (_ & _ & _ & _ & V1 & _); [eauto|exact V1].
Qed.

(* ---- C42 ---- *)
Lemma P42 : forall w a cs ops rs s, prims_ok (w_prims w) -> w_text w [] = true -> proxied w a cs ops rs s ->
  forall fs s' f, pstep w s (PProtector fs) = Done (s', RProtector (inr f)) ->
  forall al uses frs f', alloc_ok al -> fops_ok uses -> frun (w_prims w) (w_lib w) al f uses = Done (f', frs) ->
  forall e, NoDup (nonces (cx_out (fp_crypt f')) e).
Proof.
  intros w a cs ops rs s HP HV Hp fs s' f E al uses frs f' Hal Huses Er e. cbn [pstep] in E.
  destruct (create_frame_protector (w_prims w) (w_lib w) s fs) as [[[s1 x] fs1]|u|] eqn:Ec; try discriminate. injection E as <- ->.
  apply create_frame in Ec. destruct Ec as [(_ & _ & K)|(_ & _ & x & fs'' & Ex & Ec)]; [discriminate|].
  pose proof (proxied_result _ _ _ _ _ _ HV Hp) as Hr. rewrite Ex in Hr. destruct Hr as [Hi Ho].
  refine (F04 (w_prims w) (w_lib w) al (frame_args s x) uses frs f' _ e).
  split; [exact HP|]. split; [exact Hal|]. split; [exact Hi|]. split; [exact Ho|]. split; [exact Huses|]. exists f, fs, fs''. auto.
Qed.

Lemma P42b : forall w s fs1 fs2 s1 s2 x f1 f2 later rs, made_opts s -> Forall quiet later -> Forall pop_ok later ->
  pstep w s (PProtector fs1) = Done (s1, RProtector (inr f1)) -> prun w s1 later = Done (x, rs) ->
  pstep w x (PProtector fs2) = Done (s2, RProtector (inr f2)) ->
  exists a1 a2 fs1' fs2', fp_create (w_prims w) (w_lib w) a1 fs1 = Done (inr f1, fs1') /\
    fp_create (w_prims w) (w_lib w) a2 fs2 = Done (inr f2, fs2') /\ f_out a1 = f_out a2 /\ f_in a1 = f_in a2.
Proof.
  intros w s fs1 fs2 s1 s2 x f1 f2 later rs Hm Hq Hok E1 E E2.
  pose proof (step_config _ _ (PProtector fs1) _ _ I Hm E1) as Hc1.
  assert (Hm1 : made_opts s1). { unfold made_opts. rewrite (config_options _ _ Hc1). exact Hm. }
  destruct (step_result _ _ _ _ _ (I : quiet (PProtector fs1)) I Hm E1) as (A & _).
  destruct (run_result _ _ _ _ _ Hq Hok Hm1 E) as (B & _).
  cbn [pstep] in E1, E2.
  destruct (create_frame_protector (w_prims w) (w_lib w) s fs1) as [[[t1 y1] z1]|u|] eqn:Ec1; try discriminate. injection E1 as <- ->.
  destruct (create_frame_protector (w_prims w) (w_lib w) x fs2) as [[[t2 y2] z2]|u|] eqn:Ec2; try discriminate. injection E2 as <- ->.
  apply create_frame in Ec1. destruct Ec1 as [(_ & _ & K)|(_ & _ & r1 & g1 & R1 & C1)]; [discriminate|].
  apply create_frame in Ec2. destruct Ec2 as [(_ & _ & K)|(_ & _ & r2 & g2 & R2 & C2)]; [discriminate|].
  assert (r2 = r1) by congruence. subst r2. exists (frame_args s r1), (frame_args x r1), g1, g2. auto.
Qed.

(* ---- C46, C47 ---- *)
Lemma P46 : forall w a cs ops rs s, proxied w a cs ops rs s -> ya_client a = true -> exchanges ops rs = [] ->
  forall inp o ser s' c n buf, order_ok o -> pstep w s (PToS2A inp o ser) = Done (s', RToS2A (c, n, buf)) ->
  let opts := options_after cs in
  (1 < lenN (o_local opts) -> c <> kOk) /\
  (c = kOk -> options_nul_free opts -> nul_free (ya_protocol a) -> nul_free (ya_hostname a) ->
     exists b m l, buf = Some b /\ encodes b {| rq_oneof := ReqClient m; rq_auth := l |} /\
       client_states (ya_hostname a) (ya_protocol a) opts m).
Proof.
  intros w a cs ops rs s Hp Hcl Hex inp o ser s' c n buf Ho E opts.
  destruct (P35 _ _ _ _ _ _ Hp) as [_ HF]. destruct (proxied_config _ _ _ _ _ _ Hp) as [Hc _]. unfold config, config_of in Hc.
  injection Hc as Hcl' Hpr Hho Hopt _. destruct (step_total _ _ _ _ _ _ inp o ser Hp Ho) as (s1 & st & E' & C).
  rewrite E in E'. injection E' as <- <-. apply HF in Hex. unfold opts. rewrite <- Hopt, <- Hpr, <- Hho.
  remember (c, n, buf) as st eqn:Est.
  destruct C as [H|H|m H1 H2 H3 H4 H5 H6 H7 s1|m H1 H2 H3 H4 H5 H6 s1|H1 H2 H3 s1]; injection Est as <- <- <-.
  - split; [discriminate|discriminate].
  - split; discriminate.
  - split; [lia|]. intros _ K1 K2 K3. eexists _, m, _. split; [reflexivity|]. split; [|auto].
    split; [reflexivity|]. split; [exact H6|apply auth_valid].
  - congruence.
  - congruence.
Qed.

Lemma P47 : forall w a cs ops rs s, proxied w a cs ops rs s -> ya_client a = false -> exchanges ops rs = [] ->
  forall inp o ser s' c n buf, order_ok o -> pstep w s (PToS2A inp o ser) = Done (s', RToS2A (c, n, buf)) ->
  let opts := options_after cs in
  c = kOk -> options_nul_free opts -> nul_free (ya_protocol a) ->
     exists b m l, buf = Some b /\ encodes b {| rq_oneof := ReqServer m; rq_auth := l |} /\
       server_states (bytes_of inp) (ya_protocol a) opts m.
Proof.
  intros w a cs ops rs s Hp Hcl Hex inp o ser s' c n buf Ho E opts.
  destruct (P35 _ _ _ _ _ _ Hp) as [_ HF]. destruct (proxied_config _ _ _ _ _ _ Hp) as [Hc _]. unfold config, config_of in Hc.
  injection Hc as Hcl' Hpr Hho Hopt _. destruct (step_total _ _ _ _ _ _ inp o ser Hp Ho) as (s1 & st & E' & C).
  rewrite E in E'. injection E' as <- <-. apply HF in Hex. unfold opts. rewrite <- Hopt, <- Hpr.
  remember (c, n, buf) as st eqn:Est.
  destruct C as [H|H|m H1 H2 H3 H4 H5 H6 H7 s1|m H1 H2 H3 H4 H5 H6 s1|H1 H2 H3 s1]; injection Est as <- <- <-; try discriminate; try congruence.
  intros _ K1 K2. eexists _, m, _. split; [reflexivity|]. split; [|auto]. split; [reflexivity|]. split; [exact H5|apply auth_valid].
Qed.

(* ---- C44, C45: when a result is accepted ---- *)
Lemma P44 : forall w s b r res, good_response (w_text w) b r -> rs_result r = Some res ->
  exists s' c n buf, pstep w s (PToPeer (Some b)) = Done (s', RToPeer (c, n, buf)) /\
    (c = kOk <-> exists st v u, pr_state res = Some st /\ tls_number v (pt_tls st) /\ suite_number u (pt_suite st) /\ pr_local res <> None).
Proof.
  intros w s b r res G Hr. destruct (get_bytes_for_peer (w_text w) s (Some b)) as [s1 st] eqn:Eg. destruct st as [[c n] buf].
  exists s1, c, n, buf. split; [cbn [pstep]; rewrite Eg; reflexivity|].
  apply peer_call_is in Eg. remember (c, n, buf) as st eqn:Est. destruct Eg as [c0 Hc0 Hn|q sa sb err G' E1 E2]; [destruct (Hn r G)|].
  rewrite (good_fun _ _ _ _ G' G) in *. rewrite Hr in E2. unfold take_result in E2.
  destruct (pr_state res) as [stt|].
  2: { injection E2 as <- <-. injection Est as <- <- <-. split; [discriminate|]. intros (st & v & u & K & _). discriminate. }
  destruct (tls_from_cases (pt_tls stt)) as [(v & Hv)|K].
  2: { rewrite K in E2. injection E2 as <- <-. injection Est as <- <- <-. split; [discriminate|]. intros (st & v & u & K1 & K2 & _).
    injection K1 as <-. apply tls_from_ok in K2. congruence. }
  pose proof Hv as Hv'. apply tls_from_ok in Hv'. rewrite Hv' in E2.
  destruct (suite_from_cases (pt_suite stt)) as [(u & Hu)|K].
  2: { rewrite K in E2. injection E2 as <- <-. injection Est as <- <- <-. split; [discriminate|]. intros (st & v' & u & K1 & _ & K2 & _).
    injection K1 as <-. apply suite_from_ok in K2. congruence. }
  pose proof Hu as Hu'. apply suite_from_ok in Hu'. rewrite Hu' in E2.
  destruct (pr_local res) as [p|]; injection E2 as <- <-; injection Est as <- <- <-.
  - split; [|reflexivity]. intros _. exists stt, v, u. split; [reflexivity|]. split; [exact Hv|]. split; [exact Hu|discriminate].
  - split; [discriminate|]. intros (st & v' & u' & _ & _ & _ & K). contradiction.
Qed.
