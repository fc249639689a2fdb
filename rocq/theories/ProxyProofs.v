(* Proofs about the proxy. *)
From Coq Require Import List NArith Bool Permutation Lia.
From Verif Require Import Base Aead AeadProofs Hkdf HalfConn Options HsHandler Crypter FrameProt Wire SpecWire WireProofs WireMsgs
  Util Context SpecOptions HsMsgProofs Proxy ProxyRun.
Import ListNotations.
Local Open Scope N_scope.

(* ---- histories ---- *)
Lemma prun_snoc : forall w ops s0 op s' rs', prun w s0 (ops ++ [op]) = Done (s', rs') <->
  exists s r rs, prun w s0 ops = Done (s, rs) /\ pstep w s op = Done (s', r) /\ rs' = rs ++ [r].
Proof.
  intros w. induction ops as [|o ops IH]; intros s0 op s' rs'; cbn [app prun].
  - split.
    + destruct (pstep w s0 op) as [[s1 r]|u|] eqn:E; cbn; try discriminate. intros H. injection H as <- <-. exists s0, r, []. auto.
    + intros (s & r & rs & H & Hs & ->). injection H as <- <-. rewrite Hs. reflexivity.
  - destruct (pstep w s0 o) as [[s1 r1]|u|] eqn:E; cbn [obind].
    + specialize (IH s1 op). split.
      * destruct (prun w s1 (ops ++ [op])) as [[s2 rs2]|u|] eqn:E2; cbn; try discriminate. intros H. injection H as <- <-.
        destruct (proj1 (IH s2 rs2) eq_refl) as (s & r & rs & H1 & H2 & ->). exists s, r, (r1 :: rs). rewrite H1. auto.
      * intros (s & r & rs & H & Hs & ->). destruct (prun w s1 ops) as [[s2 rs2]|u|] eqn:E2; cbn in H; try discriminate.
        injection H as <- <-. rewrite (proj2 (IH s' (rs2 ++ [r]))); [reflexivity|]. exists s2, r, rs2. auto.
    + split; [discriminate|intros (s & r & rs & H & _); discriminate].
    + split; [discriminate|intros (s & r & rs & H & _); discriminate].
Qed.

Lemma proxied_ind : forall w a cs (Q : list pop -> list pres -> proxy -> Prop),
  (forall s, ya_options a = Some (options_after cs) -> proxy_create a = Some s -> Q [] [] s) ->
  (forall ops rs s op s' r, proxied w a cs ops rs s -> Q ops rs s -> pop_ok op -> pstep w s op = Done (s', r) ->
     Q (ops ++ [op]) (rs ++ [r]) s') ->
  forall ops rs s, proxied w a cs ops rs s -> Q ops rs s.
Proof.
  intros w a cs Q H0 Hs. induction ops as [|op ops IH] using rev_ind; intros rs s (Ho & Hok & s0 & Hc & Hr).
  - cbn in Hr. injection Hr as <- <-. auto.
  - apply prun_snoc in Hr. destruct Hr as (s1 & r & rs1 & H1 & H2 & ->). apply Forall_app in Hok. destruct Hok as [Hok Hop].
    apply Forall_inv in Hop. assert (Hp : proxied w a cs ops rs1 s1). { split; [exact Ho|]. split; [exact Hok|]. eauto. }
    eapply Hs; eauto.
Qed.

Lemma proxied_len : forall w a cs ops rs s, proxied w a cs ops rs s -> length rs = length ops.
Proof.
  intros w a cs. apply proxied_ind; [reflexivity|]. intros. rewrite !app_length. cbn. congruence.
Qed.

Lemma combine_snoc : forall A B (l : list A) (m : list B) a b, length l = length m -> combine (l ++ [a]) (m ++ [b]) = combine l m ++ [(a, b)].
Proof. induction l as [|x l IH]; intros [|y m] a b H; try discriminate; [reflexivity|]. cbn. f_equal. apply IH. now injection H. Qed.

Lemma exchanges_snoc : forall ops rs op r, length rs = length ops ->
  exchanges (ops ++ [op]) (rs ++ [r]) = exchanges ops rs ++ exchange (op, r).
Proof.
  intros. unfold exchanges. rewrite combine_snoc by congruence. rewrite flat_map_app. cbn. rewrite app_nil_r. reflexivity.
Qed.

(* ---- the token cache only ---- *)
Lemma fetch_all_frame : forall tm o s c l, exists c' l', fetch_all tm o s c l = set_cache s c' l'.
Proof.
  intros. unfold fetch_all. destruct (fetch_tokens tm (ho_ids o (o_local (y_options s))) c l) as [c1 l1].
  destruct (o_local (y_options s)); [|eauto]. destruct (tm l1 GetDefaultToken); eauto.
Qed.
Lemma set_cache_same : forall s, s = set_cache s (y_cache s) (y_log s).
Proof. intros []; reflexivity. Qed.
Lemma populate_frame : forall tm o s, exists c l, populate_token_cache tm o s = set_cache s c l.
Proof.
  intros. unfold populate_token_cache. destruct (y_manager s); cbn [negb]; [|do 2 eexists; apply set_cache_same].
  destruct (y_selected s) as [i|].
  - destruct (cache_mem i (y_cache s) && (lenN (y_cache s) =? 1)); [do 2 eexists; apply set_cache_same|].
    destruct (tm (y_log s) (GetToken i)); [eauto|apply fetch_all_frame].
  - apply fetch_all_frame.
Qed.

(* ---- messages ---- *)
Definition typed (l : list identity) : Prop := Forall (fun i => id_type_of i <> NONE) l.

Lemma all_fill : forall l, typed l -> exists ps, all_some (map fill_identity l) = Some ps /\
  Forall (valid_identity any_text) ps /\ (Forall (fun i => nul_free (id_string i)) l -> Forall2 names ps l).
Proof.
  induction l as [|i l IH]; intros H; [exists []; repeat constructor|].
  inversion_clear H. destruct (IH H1) as (ps & E & Hv & Hn). destruct (fill_some i H0) as (p & Ep).
  exists (p :: ps). cbn [map all_some]. rewrite Ep, E. split; [reflexivity|]. split.
  - apply Forall_cons; [|exact Hv]. pose proof (fill_valid any_text i eq_refl) as K. rewrite Ep in K. exact K.
  - intros K. inversion_clear K. constructor; [now apply fill_names|auto].
Qed.

Lemma suites_ok : forall l, exists ns, suites_to_proto l = inr ns /\ Forall2 suite_number l ns /\ Forall (fun n => n < two32) ns.
Proof.
  induction l as [|s l (ns & E & H1 & H2)]; [exists []; repeat constructor|]. destruct (suite_total s) as (n & En & Hn).
  exists (n :: ns). cbn [suites_to_proto fold_right]. fold (suites_to_proto l). rewrite E, En. split; [reflexivity|].
  split; [constructor; assumption|constructor; [eapply suite_number_small; eassumption|assumption]].
Qed.

Lemma auth_valid : forall o s, Forall (valid_auth any_text) (auth_mechanisms o s).
Proof.
  intros. unfold auth_mechanisms. apply Forall_forall. intros m Hm. apply in_map_iff in Hm. destruct Hm as (e & <- & _).
  split; [apply fill_valid; reflexivity|reflexivity].
Qed.

Lemma typed_perm : forall l l', Permutation l l' -> typed l' -> typed l.
Proof. intros l l' H K. eapply Permutation_Forall; [apply Permutation_sym; exact H|exact K]. Qed.

Definition opts_typed (o : options) : Prop := typed (o_local o) /\ typed (o_target o).

Lemma client_start_is : forall tm o ser s, order_ok o -> opts_typed (y_options s) ->
  (1 < lenN (o_local (y_options s)) /\ get_client_start tm o ser s = (s, proxy_error kFailedPrecondition)) \/
  (lenN (o_local (y_options s)) <= 1 /\ exists m, let s' := populate_token_cache tm o s in
     get_client_start tm o ser s = (s', serialize_req ser {| rq_oneof := ReqClient m; rq_auth := auth_mechanisms o s' |}) /\
     valid_client any_text m /\
     (options_nul_free (y_options s) -> nul_free (y_protocol s) -> nul_free (y_hostname s) ->
        client_states (y_hostname s) (y_protocol s) (y_options s) m)).
Proof.
  intros tm o ser s [Ho1 _] [Hl Ht]. unfold get_client_start.
  destruct (tls_total (o_min (y_options s))) as (mn & -> & Hmn), (tls_total (o_max (y_options s))) as (mx & -> & Hmx).
  destruct (suites_ok (o_suites (y_options s))) as (su & -> & Hsu & Hsu2).
  destruct (all_fill (ho_ids o (o_target (y_options s)))) as (ps & -> & Hps & Hnm); [eapply typed_perm; [apply Ho1|exact Ht]|].
  destruct (N.ltb_spec 1 (lenN (o_local (y_options s)))) as [Hlen|Hlen]; [left; auto|right]. split; [exact Hlen|].
  assert (Hloc : exists local, match ho_ids o (o_local (y_options s)) with
     | i :: _ => match fill_identity i with Some p => Some (Some p) | None => None end | [] => Some None end = Some local /\
     opt_all (valid_identity any_text) local /\
     (options_nul_free (y_options s) -> match o_local (y_options s) with [] => local = None | i :: _ => o_local (y_options s) = [i] /\ exists p, local = Some p /\ names p i end)).
  { pose proof (Ho1 (o_local (y_options s))) as Hp. destruct (o_local (y_options s)) as [|i [|j l]] eqn:El.
    - apply Permutation_sym, Permutation_nil in Hp. rewrite Hp. exists None. repeat split.
    - apply Permutation_sym, Permutation_length_1_inv in Hp. rewrite Hp. apply Forall_inv in Hl. destruct (fill_some i Hl) as (p & Ep). rewrite Ep.
      exists (Some p). split; [reflexivity|]. split; [pose proof (fill_valid any_text i eq_refl) as K; rewrite Ep in K; exact K|].
      intros [Hn _]. rewrite El in Hn. apply Forall_inv in Hn. split; [reflexivity|]. exists p. split; [reflexivity|now apply fill_names].
    - exfalso. unfold lenN in Hlen. cbn in Hlen. lia. }
  destruct Hloc as (local & -> & Hlv & Hln). destruct (populate_frame tm o s) as (c & l & Ep). rewrite Ep.
  eexists. cbn zeta. split; [reflexivity|]. split.
  - unfold valid_client. cbn [pc_protocols pc_min pc_max pc_suites pc_targets pc_local pc_target_name].
    split; [repeat constructor|]. split; [eapply tls_number_small; exact Hmn|]. split; [eapply tls_number_small; exact Hmx|].
    split; [exact Hsu2|]. split; [exact Hps|]. split; [exact Hlv|reflexivity].
  - intros Hn Hp Hh. unfold client_states. cbn. rewrite (c_str_free _ Hp), (c_str_free _ Hh).
    split; [reflexivity|]. split; [exact Hmn|]. split; [exact Hmx|]. split; [exact Hsu|]. split.
    + exists (ho_ids o (o_target (y_options s))). split; [apply Ho1|]. apply Hnm. destruct Hn as [_ Hn].
      eapply Permutation_Forall; [apply Permutation_sym, Ho1|exact Hn].
    + split; [exact (Hln Hn)|reflexivity].
Qed.

Lemma server_start_is : forall tm o ser s inp, order_ok o -> opts_typed (y_options s) ->
  exists m, let s' := populate_token_cache tm o s in
     get_server_start tm o ser s inp = (s', serialize_req ser {| rq_oneof := ReqServer m; rq_auth := auth_mechanisms o s' |}) /\
     valid_server any_text m /\ ps_in_bytes m = bytes_of inp /\
     (options_nul_free (y_options s) -> nul_free (y_protocol s) ->
        server_states (bytes_of inp) (y_protocol s) (y_options s) m).
Proof.
  intros tm o ser s inp [Ho1 _] [Hl Ht]. unfold get_server_start.
  destruct (tls_total (o_min (y_options s))) as (mn & -> & Hmn), (tls_total (o_max (y_options s))) as (mx & -> & Hmx).
  destruct (suites_ok (o_suites (y_options s))) as (su & -> & Hsu & Hsu2).
  destruct (all_fill (ho_ids o (o_local (y_options s)))) as (ps & -> & Hps & Hnm); [eapply typed_perm; [apply Ho1|exact Hl]|].
  destruct (populate_frame tm o s) as (c & l & Ep). rewrite Ep.
  eexists. cbn zeta. split; [reflexivity|]. split.
  - unfold valid_server. cbn [ps_protocols ps_min ps_max ps_suites ps_locals].
    split; [repeat constructor|]. split; [eapply tls_number_small; exact Hmn|]. split; [eapply tls_number_small; exact Hmx|].
    split; [exact Hsu2|exact Hps].
  - split; [reflexivity|]. intros Hn Hp. unfold server_states. cbn. rewrite (c_str_free _ Hp).
    split; [reflexivity|]. split; [exact Hmn|]. split; [exact Hmx|]. split; [exact Hsu|]. split; [|reflexivity].
    exists (ho_ids o (o_local (y_options s))). split; [apply Ho1|]. apply Hnm. destruct Hn as [Hn _].
    eapply Permutation_Forall; [apply Permutation_sym, Ho1|exact Hn].
Qed.

Lemma null_or_empty_true : forall inp, null_or_empty inp = true <-> bytes_of inp = [].
Proof. intros [[|b l]|]; cbn; split; congruence. Qed.

(* One call of GetBytesForS2A: rejected without effect; out of memory; or a
   message. *)
Inductive s2a_call (tm : manager) (o : hash_order) (s : proxy) (inp : option bytes) (ser : bool) : proxy -> pstatus -> Prop :=
| CallRejected :
    (y_first s = true /\ y_client s = true /\ (bytes_of inp <> [] \/ 1 < lenN (o_local (y_options s)))) \/
    (y_first s = false /\ bytes_of inp = []) ->
    s2a_call tm o s inp ser s (proxy_error kFailedPrecondition)
| CallNoMemory : ser = false -> s2a_call tm o s inp ser (populate_token_cache tm o s) (proxy_error kInternal)
| CallClient : forall m, ser = true -> y_first s = true -> y_client s = true -> bytes_of inp = [] ->
    lenN (o_local (y_options s)) <= 1 -> valid_client any_text m ->
    (options_nul_free (y_options s) -> nul_free (y_protocol s) -> nul_free (y_hostname s) ->
        client_states (y_hostname s) (y_protocol s) (y_options s) m) ->
    let s' := populate_token_cache tm o s in
    s2a_call tm o s inp ser (set_first s' false)
      (kOk, 0, Some (enc_req {| rq_oneof := ReqClient m; rq_auth := auth_mechanisms o s' |}))
| CallServer : forall m, ser = true -> y_first s = true -> y_client s = false -> ps_in_bytes m = bytes_of inp ->
    valid_server any_text m ->
    (options_nul_free (y_options s) -> nul_free (y_protocol s) ->
        server_states (bytes_of inp) (y_protocol s) (y_options s) m) ->
    let s' := populate_token_cache tm o s in
    s2a_call tm o s inp ser (set_first s' false)
      (kOk, 0, Some (enc_req {| rq_oneof := ReqServer m; rq_auth := auth_mechanisms o s' |}))
| CallNext : ser = true -> y_first s = false -> bytes_of inp <> [] ->
    let s' := populate_token_cache tm o s in
    s2a_call tm o s inp ser s' (kOk, 0, Some (enc_req {| rq_oneof := ReqNext (bytes_of inp); rq_auth := auth_mechanisms o s' |})).

Lemma s2a_call_is : forall tm o ser s inp s' st, order_ok o -> opts_typed (y_options s) ->
  get_bytes_for_s2a tm o ser s inp = (s', st) -> s2a_call tm o s inp ser s' st.
Proof.
  intros tm o ser s inp s' st Ho Hty E. unfold get_bytes_for_s2a in E. destruct (y_first s) eqn:Ef.
  - destruct (y_client s) eqn:Ec; cbn [andb] in E.
    + destruct (null_or_empty inp) eqn:En; cbn [negb] in E.
      * apply null_or_empty_true in En. destruct (client_start_is tm o ser s Ho Hty) as [[Hl K]|(Hl & m & K & Hv & Hn)]; rewrite K in E.
        -- cbn in E. injection E as <- <-. apply CallRejected. left. auto.
        -- destruct ser; cbn [serialize_req fst proxy_error is_ok code_eqb] in E; injection E as <- <-.
           ++ apply CallClient; auto.
           ++ apply CallNoMemory. reflexivity.
      * injection E as <- <-. apply CallRejected. left. repeat split; auto. left. intros K. apply null_or_empty_true in K. congruence.
    + destruct (server_start_is tm o ser s inp Ho Hty) as (m & K & Hv & Hi & Hn). rewrite K in E.
      destruct ser; cbn [serialize_req fst proxy_error is_ok code_eqb] in E; injection E as <- <-.
      * apply CallServer; auto.
      * apply CallNoMemory. reflexivity.
  - destruct (null_or_empty inp) eqn:En.
    + injection E as <- <-. apply null_or_empty_true in En. apply CallRejected. right. auto.
    + unfold get_next in E. assert (Hne : bytes_of inp <> []). { intros K. apply null_or_empty_true in K. congruence. }
      destruct ser; cbn [serialize_req] in E; injection E as <- <-; [exact (CallNext tm o s inp true eq_refl Ef Hne)|apply CallNoMemory; reflexivity].
Qed.

(* ---- what stays the same ---- *)
Definition config (s : proxy) := (y_client s, y_protocol s, y_hostname s, y_options s, y_manager s).

Lemma take_result_frame : forall s r s' e, take_result s r = (s', e) -> config s' = config s /\ y_first s' = y_first s /\
  y_cache s' = y_cache s /\ y_log s' = y_log s /\ y_selected s' = y_selected s /\ y_finished s' = true /\ y_channel s' = y_channel s.
Proof.
  intros s r s' e E. unfold take_result in E. destruct (pr_state r) as [st|]; [|injection E as <- <-; cbn; auto 10].
  destruct (tls_from_proto (pt_tls st)); [injection E as <- <-; cbn; auto 10|].
  destruct (suite_from_proto (pt_suite st)); [injection E as <- <-; cbn; auto 10|].
  destruct (pr_local r); injection E as <- <-; cbn; auto 10.
Qed.

(* One call of GetBytesForPeer. *)
Inductive peer_call (V : bytes -> bool) (s : proxy) (inp : option bytes) : proxy -> pstatus -> Prop :=
| PeerBad : forall c, c <> kOk -> (forall r, ~ good_response V (bytes_of inp) r) -> peer_call V s inp s (proxy_error c)
| PeerGood : forall r s1 s2 err, good_response V (bytes_of inp) r ->
    s1 = match rs_local r with Some i => set_selected s (Some (identity_from_proto (Some i))) | None => s end ->
    match rs_result r with Some res => take_result s1 res = (s2, err) | None => s2 = s1 /\ err = None end ->
    peer_call V s inp s2 (match err with Some c => proxy_error c | None => (kOk, rs_consumed r, Some (rs_out_frames r)) end).

Lemma peer_call_is : forall V s inp s' st, get_bytes_for_peer V s inp = (s', st) -> peer_call V s inp s' st.
Proof.
  intros V s inp s' st E. unfold get_bytes_for_peer in E. destruct inp as [[|b bs]|];
    try (injection E as <- <-; apply PeerBad; [discriminate|intros r [K _]; exact (K eq_refl)]).
  destruct (parse_resp V (b :: bs)) as [r|] eqn:Ep.
  2: { injection E as <- <-. apply PeerBad; [discriminate|]. intros r (_ & K & _). cbn in K. congruence. }
  destruct (rs_status r) as [x|] eqn:Es.
  2: { injection E as <- <-. apply PeerBad; [discriminate|]. intros r' (_ & K & y & Ky & _). cbn in K. congruence. }
  destruct (N.eqb_spec (pst_code x) 0) as [Hc|Hc]; cbn [negb] in E.
  2: { injection E as <- <-. apply PeerBad; [discriminate|]. intros r' (_ & K & y & Ky & Kc). cbn in K. congruence. }
  assert (G : good_response V (bytes_of (Some (b :: bs))) r). { split; [discriminate|]. split; [exact Ep|]. eauto. }
  remember (match rs_local r with Some i => set_selected s (Some (identity_from_proto (Some i))) | None => s end) as s1 eqn:Es1.
  destruct (match rs_result r with Some res => take_result s1 res | None => (s1, None) end) as [s2 err] eqn:Et.
  assert (K : peer_call V s (Some (b :: bs)) s2 (match err with Some c => proxy_error c | None => (kOk, rs_consumed r, Some (rs_out_frames r)) end)).
  { eapply PeerGood; [exact G|exact Es1|]. destruct (rs_result r); [exact Et|]. injection Et as <- <-. auto. }
  destruct err; injection E as <- <-; exact K.
Qed.

Lemma create_frame : forall P lib s fs s' r fs', create_frame_protector P lib s fs = Done ((s', r), fs') ->
  (y_finished s = false /\ s' = s /\ r = inl kFailedPrecondition) \/
  (y_finished s = true /\ s' = move_channel s /\ exists x fs'', y_result s = Some x /\ fp_create P lib (frame_args s x) fs = Done (r, fs'')).
Proof.
  intros P lib s fs s' r fs' E. unfold create_frame_protector in E. destruct (y_finished s); cbn [negb] in E.
  - right. destruct (y_result s) as [x|]; [|discriminate]. unfold bind in E. destruct (fp_create P lib (frame_args s x) fs) as [[r' f1]|u|] eqn:Ec; try discriminate.
    injection E as <- <- _. split; [reflexivity|]. split; [reflexivity|]. eauto.
  - injection E as <- <- _. auto.
Qed.

Lemma populate_same : forall tm o s, let s' := populate_token_cache tm o s in
  config s' = config s /\ y_first s' = y_first s /\ y_selected s' = y_selected s /\ y_finished s' = y_finished s /\
  y_channel s' = y_channel s /\ y_context s' = y_context s /\ y_result s' = y_result s.
Proof. intros tm o s. destruct (populate_frame tm o s) as (c & l & ->). cbn. auto 10. Qed.

Lemma config_options : forall s s', config s' = config s -> y_options s' = y_options s.
Proof. unfold config. intros s s' H. now injection H. Qed.

Definition made_opts (s : proxy) : Prop := opts_typed (y_options s).

Lemma step_config : forall w s op s' r, pop_ok op -> made_opts s -> pstep w s op = Done (s', r) -> config s' = config s.
Proof.
  intros w s op s' r Hok Hm E. destruct op as [inp o ser|inp| |fs|]; cbn [pstep] in E.
  - destruct (get_bytes_for_s2a (w_manager w) o ser s inp) as [s1 st] eqn:Es. injection E as <- <-.
    apply s2a_call_is in Es; [|exact Hok|exact Hm]. destruct (populate_same (w_manager w) o s) as (Hc & _). destruct Es; auto.
  - destruct (get_bytes_for_peer (w_text w) s inp) as [s1 st] eqn:Es. injection E as <- <-. apply peer_call_is in Es.
    destruct Es as [c Hc Hn|q s1 s2 err G E1 E2]; [reflexivity|]. assert (Hs1 : config s1 = config s). { subst s1. destruct (rs_local q); reflexivity. }
    destruct (rs_result q); [apply take_result_frame in E2; destruct E2 as [E2 _]; congruence|destruct E2 as [-> _]; exact Hs1].
  - injection E as <- <-. reflexivity.
  - destruct (create_frame_protector (w_prims w) (w_lib w) s fs) as [[[s1 x] fs1]|u|] eqn:Ec; try discriminate. injection E as <- <-.
    apply create_frame in Ec. destruct Ec as [(_ & -> & _)|(_ & -> & _)]; reflexivity.
  - unfold get_s2a_context in E. destruct (y_finished s); injection E as <- <-; reflexivity.
Qed.

Lemma options_typed : forall cs, opts_typed (options_after cs).
Proof.
  intros cs. destruct (options_inv cs) as (_ & _ & _ & _ & _ & Hl & _ & Ht). split; apply Forall_forall; intros i Hi.
  - apply Hl in Hi. unfold locals_added in Hi. apply in_flat_map in Hi. destruct Hi as (c & _ & Hi).
    destruct c; cbn in Hi; try contradiction; destruct Hi as [<-|[]]; discriminate.
  - apply Ht in Hi. unfold targets_added in Hi. apply in_flat_map in Hi. destruct Hi as (c & _ & Hi).
    destruct c; cbn in Hi; try contradiction; destruct Hi as [<-|[]]; discriminate.
Qed.

Definition config_of (a : proxy_args) (cs : list setter) := (ya_client a, ya_protocol a, ya_hostname a, options_after cs, ya_manager a).

Lemma create_is : forall a cs s, ya_options a = Some (options_after cs) -> proxy_create a = Some s ->
  config s = config_of a cs /\ y_cache s = [] /\ y_log s = [] /\ y_selected s = None /\ y_first s = true /\
  y_finished s = false /\ y_context s = None /\ y_result s = None /\ y_channel s = ya_channel a.
Proof.
  intros a cs s Ho E. unfold proxy_create in E. destruct (ya_logger a); [|discriminate]. rewrite Ho in E. injection E as <-. cbn. auto 10.
Qed.

Lemma proxied_config : forall w a cs ops rs s, proxied w a cs ops rs s -> config s = config_of a cs /\ made_opts s.
Proof.
  intros w a cs. assert (K : forall s, config s = config_of a cs -> config s = config_of a cs /\ made_opts s).
  { intros s H. split; [exact H|]. unfold made_opts. unfold config, config_of in H. injection H as _ _ _ -> _. apply options_typed. }
  apply proxied_ind.
  - intros s Ho Hc. apply K. eapply create_is; eassumption.
  - intros ops rs s op s' r _ [Hc Hm] Hok Es. apply K. rewrite <- Hc. eapply step_config; eassumption.
Qed.

(* ---- C35 ---- *)
Lemma step_first : forall w s op s' r, pop_ok op -> made_opts s -> pstep w s op = Done (s', r) ->
  (exchange (op, r) = [] /\ y_first s' = y_first s) \/
  (exists inp b, exchange (op, r) = [(inp, b)] /\ y_first s = true /\ y_first s' = false /\ start_message (y_client s) inp b) \/
  (exists inp b, exchange (op, r) = [(inp, b)] /\ y_first s = false /\ y_first s' = false /\ bytes_of inp <> [] /\ next_message (bytes_of inp) b).
Proof.
  intros w s op s' r Hok Hm E. destruct op as [inp o ser|inp| |fs|]; cbn [pstep] in E.
  - destruct (get_bytes_for_s2a (w_manager w) o ser s inp) as [s1 st] eqn:Es. injection E as <- <-.
    apply s2a_call_is in Es; [|exact Hok|exact Hm]. destruct (populate_same (w_manager w) o s) as (Hc & Hf & _).
    destruct Es as [H|H|m H1 H2 H3 H4 H5 H6 H7 s1|m H1 H2 H3 H4 H5 H6 s1|H1 H2 H3 s1].
    + left. auto.
    + left. auto.
    + right. left. do 2 eexists. split; [reflexivity|]. split; [exact H2|]. split; [reflexivity|]. unfold start_message. rewrite H3.
      split; [|exact H4]. do 2 eexists. split; [reflexivity|]. split; [exact H6|apply auth_valid].
    + right. left. do 2 eexists. split; [reflexivity|]. split; [exact H2|]. split; [reflexivity|]. unfold start_message. rewrite H3.
      do 2 eexists. split; [split; [reflexivity|]|exact H4]. split; [exact H5|apply auth_valid].
    + right. right. do 2 eexists. split; [reflexivity|]. split; [exact H2|]. split; [unfold s1; now rewrite Hf|]. split; [exact H3|].
      eexists. split; [reflexivity|]. split; [exact I|apply auth_valid].
  - left. split; [reflexivity|]. destruct (get_bytes_for_peer (w_text w) s inp) as [s1 st] eqn:Es. injection E as <- <-. apply peer_call_is in Es.
    destruct Es as [c Hc Hn|q s1 s2 err G E1 E2]; [reflexivity|]. assert (Hs1 : y_first s1 = y_first s). { subst s1. destruct (rs_local q); reflexivity. }
    destruct (rs_result q); [apply take_result_frame in E2; destruct E2 as (_ & E2 & _); congruence|destruct E2 as [-> _]; exact Hs1].
  - injection E as <- <-. left. auto.
  - destruct (create_frame_protector (w_prims w) (w_lib w) s fs) as [[[s1 x] fs1]|u|] eqn:Ec; try discriminate. injection E as <- <-.
    apply create_frame in Ec. left. destruct Ec as [(_ & -> & _)|(_ & -> & _)]; auto.
  - left. unfold get_s2a_context in E. destruct (y_finished s); injection E as <- <-; auto.
Qed.

Lemma P35 : forall w a cs ops rs s, proxied w a cs ops rs s ->
  start_then_next (ya_client a) (exchanges ops rs) /\ (y_first s = true <-> exchanges ops rs = []).
Proof.
  intros w a cs. apply proxied_ind.
  - intros s Ho Hc. destruct (create_is a cs s Ho Hc) as (_ & _ & _ & _ & Hf & _). cbn. rewrite Hf. tauto.
  - intros ops rs s op s' r Hp [IH IF] Hok Es. pose proof (proxied_config _ _ _ _ _ _ Hp) as [Hc Hm].
    rewrite exchanges_snoc by (eapply proxied_len; exact Hp).
    assert (Hcl : y_client s = ya_client a). { unfold config, config_of in Hc. now injection Hc. }
    destruct (step_first _ _ _ _ _ Hok Hm Es) as [[-> Hf]|[(inp & b & -> & Hf & Hf' & Hst)|(inp & b & -> & Hf & Hf' & Hne & Hn)]].
    + rewrite app_nil_r. split; [exact IH|]. rewrite Hf. exact IF.
    + apply IF in Hf. rewrite Hf. cbn. rewrite <- Hcl. split; [split; [exact Hst|constructor]|]. rewrite Hf'. split; discriminate.
    + destruct (exchanges ops rs) as [|[i0 b0] es]; [assert (y_first s = true) by tauto; congruence|]. cbn [app]. destruct IH as [I1 I2].
      split; [|rewrite Hf'; split; discriminate]. split; [exact I1|]. apply Forall_app. split; [exact I2|]. repeat constructor; assumption.
Qed.
