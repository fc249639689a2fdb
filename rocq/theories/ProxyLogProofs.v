(* Proofs about the proxy's log. *)
From Coq Require Import List NArith Bool Permutation Lia ZifyBool ZifyNat ZifyN.
From Verif Require Import Base Aead AeadProofs Hkdf HalfConn Options HsHandler Crypter FrameProt Wire SpecWire WireProofs WireMsgs
  Util Context SpecOptions HsMsgProofs Proxy ProxyRun SpecProxy ProxyProofs ProxyFinal ProxyTokens ProxyMore ProxyLog SpecProxyLog.
Import ListNotations.
Local Open Scope N_scope.

(* ---- without the log ---- *)
Lemma fetch_tokens_erase : forall tm ids c l, fst (fetch_tokens_l tm ids c l) = fetch_tokens tm ids c l.
Proof.
  intros tm. induction ids as [|i ids IH]; intros c l; [reflexivity|]. cbn [fetch_tokens_l fetch_tokens].
  destruct (cache_mem i c); [apply IH|]. destruct (tm l (GetToken i)); [apply IH|].
  rewrite <- IH. destruct (fetch_tokens_l tm ids c (l ++ [(GetToken i, None)])) as [[? ?] ?]. reflexivity.
Qed.
Lemma fetch_all_erase : forall tm o s c l, fst (fetch_all_l tm o s c l) = fetch_all tm o s c l.
Proof.
  intros. unfold fetch_all_l, fetch_all. rewrite <- fetch_tokens_erase.
  destruct (fetch_tokens_l tm (ho_ids o (o_local (y_options s))) c l) as [[c1 l1] ls]. cbn [fst].
  destruct (o_local (y_options s)); [|reflexivity]. destruct (tm l1 GetDefaultToken); reflexivity.
Qed.
Lemma populate_erase : forall tm o s, fst (populate_token_cache_l tm o s) = populate_token_cache tm o s.
Proof.
  intros. unfold populate_token_cache_l, populate_token_cache. destruct (y_manager s); [|reflexivity]. cbn [negb].
  destruct (y_selected s) as [i|]; [|apply fetch_all_erase].
  destruct (cache_mem i (y_cache s) && (lenN (y_cache s) =? 1)); [reflexivity|]. destruct (tm (y_log s) (GetToken i)); [reflexivity|].
  rewrite <- fetch_all_erase. destruct (fetch_all_l tm o s (y_cache s) (y_log s ++ [(GetToken i, None)])). reflexivity.
Qed.
Lemma client_erase : forall tm o ser s, fst (get_client_start_l tm o ser s) = get_client_start tm o ser s.
Proof.
  intros. unfold get_client_start_l, get_client_start. destruct (tls_to_proto (o_min (y_options s))); [reflexivity|].
  destruct (tls_to_proto (o_max (y_options s))); [reflexivity|]. destruct (suites_to_proto (o_suites (y_options s))); [reflexivity|].
  destruct (all_some (map fill_identity (ho_ids o (o_target (y_options s))))); [|reflexivity].
  destruct (1 <? lenN (o_local (y_options s))); [reflexivity|].
  destruct (match ho_ids o (o_local (y_options s)) with i :: _ => match fill_identity i with Some p => Some (Some p) | None => None end | [] => Some None end); [|reflexivity].
  rewrite <- populate_erase. destruct (populate_token_cache_l tm o s). reflexivity.
Qed.
Lemma server_erase : forall tm o ser s inp, fst (get_server_start_l tm o ser s inp) = get_server_start tm o ser s inp.
Proof.
  intros. unfold get_server_start_l, get_server_start. destruct (tls_to_proto (o_min (y_options s))); [reflexivity|].
  destruct (tls_to_proto (o_max (y_options s))); [reflexivity|]. destruct (suites_to_proto (o_suites (y_options s))); [reflexivity|].
  destruct (all_some (map fill_identity (ho_ids o (o_local (y_options s))))); [|reflexivity].
  rewrite <- populate_erase. destruct (populate_token_cache_l tm o s). reflexivity.
Qed.
Lemma s2a_erase : forall tm o ser s inp, fst (get_bytes_for_s2a_l tm o ser s inp) = get_bytes_for_s2a tm o ser s inp.
Proof.
  intros. unfold get_bytes_for_s2a_l, get_bytes_for_s2a. destruct (y_first s).
  - destruct (y_client s); cbn [andb].
    + destruct (negb (null_or_empty inp)); [reflexivity|]. rewrite <- client_erase. destruct (get_client_start_l tm o ser s) as [[? ?] ?]. reflexivity.
    + rewrite <- server_erase. destruct (get_server_start_l tm o ser s inp) as [[? ?] ?]. reflexivity.
  - destruct (null_or_empty inp); [reflexivity|]. unfold get_next_l, get_next. rewrite <- populate_erase.
    destruct (populate_token_cache_l tm o s). reflexivity.
Qed.
Lemma peer_erase : forall V s inp, fst (get_bytes_for_peer_l V s inp) = get_bytes_for_peer V s inp.
Proof.
  intros V s inp. unfold get_bytes_for_peer_l, get_bytes_for_peer. destruct inp as [[|b bs]|]; [reflexivity| |reflexivity].
  destruct (parse_resp V (b :: bs)) as [r|]; [|reflexivity]. destruct (rs_status r) as [st|]; [|reflexivity].
  destruct (negb (pst_code st =? 0)); [reflexivity|].
  destruct (rs_result r) as [res|].
  - unfold take_result_l. destruct (take_result _ res) as [s1 [c|]]; reflexivity.
  - reflexivity.
Qed.

Lemma plstep_pstep : forall w s op,
  match plstep w s op with
  | Done (s', r, _) => pstep w s op = Done (s', r)
  | Undef u => pstep w s op = Undef u
  | NoFuel => pstep w s op = NoFuel
  end.
Proof.
  intros w s op. destruct op as [inp o ser|inp| |fs|]; cbn [plstep pstep].
  - rewrite <- s2a_erase. destruct (get_bytes_for_s2a_l (w_manager w) o ser s inp) as [[s1 st] ls]. reflexivity.
  - rewrite <- peer_erase. destruct (get_bytes_for_peer_l (w_text w) s inp) as [[s1 st] ls]. reflexivity.
  - reflexivity.
  - destruct (create_frame_protector (w_prims w) (w_lib w) s fs) as [[[s1 r] fs1]|u|]; reflexivity.
  - destruct (get_s2a_context s) as [s1 r]. reflexivity.
Qed.
Lemma plrun_prun : forall w ops s,
  match plrun w s ops with
  | Done (s', rs, lss) => prun w s ops = Done (s', rs) /\ length lss = length ops
  | Undef u => prun w s ops = Undef u
  | NoFuel => prun w s ops = NoFuel
  end.
Proof.
  intros w. induction ops as [|op ops IH]; intros s; cbn [plrun prun]; [auto|].
  pose proof (plstep_pstep w s op) as H. destruct (plstep w s op) as [[[s1 r] ls]|u|]; rewrite H; cbn [obind]; auto.
  specialize (IH s1). destruct (plrun w s1 ops) as [[[s2 rs] lss]|u|]; cbn [obind]; [|rewrite IH; reflexivity|rewrite IH; reflexivity].
  destruct IH as [-> IH]. cbn. auto.
Qed.

(* ---- GetBytesForS2A ---- *)
Lemma fetch_tokens_lines : forall tm ids c l c' l' ls, fetch_tokens_l tm ids c l = (c', l', ls) ->
  exists new, l' = l ++ new /\ ls = flat_map call_lines new.
Proof.
  intros tm. induction ids as [|i ids IH]; intros c l c' l' ls E; cbn [fetch_tokens_l] in E.
  - injection E as <- <- <-. exists []. now rewrite app_nil_r.
  - destruct (cache_mem i c); [eauto|]. destruct (tm l (GetToken i)) as [t|].
    + destruct (IH _ _ _ _ _ E) as (new & -> & ->). exists ((GetToken i, Some t) :: new). rewrite <- app_assoc. auto.
    + destruct (fetch_tokens_l tm ids c (l ++ [(GetToken i, None)])) as [[c1 l1] ls1] eqn:E1. injection E as <- <- <-.
      destruct (IH _ _ _ _ _ E1) as (new & -> & ->). exists ((GetToken i, None) :: new). rewrite <- app_assoc. auto.
Qed.
Lemma fetch_all_lines : forall tm o s c l s' ls, fetch_all_l tm o s c l = (s', ls) ->
  exists new, y_log s' = l ++ new /\ ls = flat_map call_lines new.
Proof.
  intros tm o s c l s' ls E. unfold fetch_all_l in E.
  destruct (fetch_tokens_l tm (ho_ids o (o_local (y_options s))) c l) as [[c1 l1] ls1] eqn:E1.
  destruct (fetch_tokens_lines _ _ _ _ _ _ _ E1) as (new & -> & ->).
  destruct (o_local (y_options s)); [|injection E as <- <-; exists new; auto].
  destruct (tm (l ++ new) GetDefaultToken) as [t|]; injection E as <- <-.
  - exists (new ++ [(GetDefaultToken, Some t)]). split; [cbn; now rewrite app_assoc|]. rewrite flat_map_app. cbn. now rewrite app_nil_r.
  - exists (new ++ [(GetDefaultToken, None)]). split; [cbn; now rewrite app_assoc|]. rewrite flat_map_app. reflexivity.
Qed.
Lemma populate_lines : forall tm o s s' ls, populate_token_cache_l tm o s = (s', ls) ->
  exists new, y_log s' = y_log s ++ new /\ ls = token_lines (y_manager s) new.
Proof.
  intros tm o s s' ls E. unfold populate_token_cache_l in E. unfold token_lines. destruct (y_manager s); cbn [negb] in E.
  2: { injection E as <- <-. exists []. now rewrite app_nil_r. }
  destruct (y_selected s) as [i|]; [|eapply fetch_all_lines; exact E].
  destruct (cache_mem i (y_cache s) && (lenN (y_cache s) =? 1)); [injection E as <- <-; exists []; now rewrite app_nil_r|].
  destruct (tm (y_log s) (GetToken i)) as [t|].
  - injection E as <- <-. exists [(GetToken i, Some t)]. auto.
  - destruct (fetch_all_l tm o s (y_cache s) (y_log s ++ [(GetToken i, None)])) as [s1 ls1] eqn:E1. injection E as <- <-.
    destruct (fetch_all_lines _ _ _ _ _ _ _ E1) as (new & K & ->). exists ((GetToken i, None) :: new). rewrite K, <- app_assoc. auto.
Qed.

Lemma fill_none : forall i, fill_identity i = None -> id_type_of i = NONE.
Proof. intros i. unfold fill_identity. destruct (id_type_of i); congruence. Qed.
Lemma auth_lines_are : forall o s, auth_lines o s = mechanism_lines (auth_mechanisms o s).
Proof.
  intros. unfold auth_lines, mechanism_lines, auth_mechanisms. generalize (ho_tokens o (y_cache s)) as l.
  induction l as [|e l IH]; [reflexivity|]. cbn [flat_map map]. rewrite IH. cbn [auth_mechanism pa_identity].
  destruct (fill_identity (fst e)) eqn:E; [reflexivity|]. rewrite (fill_none _ E). reflexivity.
Qed.

(* What a call of GetBytesForS2A that is not refused does. *)
Definition prepared (tm : manager) (o : hash_order) (ser : bool) (s s' : proxy) (st : pstatus) (ls : list pline) : Prop :=
  exists new auth, y_log s' = y_log s ++ new /\
    ls = token_lines (y_manager s) new ++ mechanism_lines auth ++ (if ser then [] else [YSerialize]) /\
    auth = auth_mechanisms o (populate_token_cache tm o s) /\
    if ser then exists q, st = (kOk, 0, Some (enc_req {| rq_oneof := q; rq_auth := auth |})) else st = proxy_error kInternal.

Lemma prepare : forall tm o ser s q s1 ls1, populate_token_cache_l tm o s = (s1, ls1) ->
  forall s', y_log s' = y_log s1 ->
  prepared tm o ser s s' (serialize_req ser {| rq_oneof := q; rq_auth := auth_mechanisms o s1 |})
    (ls1 ++ auth_lines o s1 ++ (if ser then [] else [YSerialize])).
Proof.
  intros tm o ser s q s1 ls1 E s' Hs'. pose proof (populate_erase tm o s) as K. rewrite E in K. cbn in K.
  destruct (populate_lines _ _ _ _ _ E) as (new & Hl & ->). exists new, (auth_mechanisms o s1).
  split; [congruence|]. rewrite auth_lines_are. split; [reflexivity|]. split; [now rewrite K|]. destruct ser; [eexists; reflexivity|reflexivity].
Qed.

Lemma to_s2a_lines : forall tm o ser s inp s' st ls, order_ok o -> opts_typed (y_options s) ->
  get_bytes_for_s2a_l tm o ser s inp = (s', st, ls) ->
  (exists l, refused (y_client s) (y_first s) (o_local (y_options s)) (bytes_of inp) l /\ s' = s /\ st = proxy_error kFailedPrecondition /\ ls = [l]) \/
  ((forall l, ~ refused (y_client s) (y_first s) (o_local (y_options s)) (bytes_of inp) l) /\ prepared tm o ser s s' st ls).
Proof.
  intros tm o ser s inp s' st ls Ho [Hl Ht] E. unfold get_bytes_for_s2a_l in E. destruct (y_first s) eqn:Ef.
  - destruct (y_client s) eqn:Ec; cbn [andb] in E.
    + destruct (null_or_empty inp) eqn:En; cbn [negb] in E.
      2: { injection E as <- <- <-. left. exists YNotBegun. split; [|auto]. constructor; auto.
           intros K. apply null_or_empty_true in K. congruence. }
      apply null_or_empty_true in En. rewrite En. unfold get_client_start_l in E.
      destruct (tls_total (o_min (y_options s))) as (mn & Emn & Hmn), (tls_total (o_max (y_options s))) as (mx & Emx & Hmx).
      destruct (suites_ok (o_suites (y_options s))) as (su & Esu & Hsu & Hsu2). rewrite Emn, Emx, Esu in E.
      destruct (all_fill (ho_ids o (o_target (y_options s)))) as (ps & Eps & _); [eapply typed_perm; [apply Ho|exact Ht]|]. rewrite Eps in E.
      destruct (N.ltb_spec 1 (lenN (o_local (y_options s)))) as [Hlen|Hlen].
      { cbn in E. injection E as <- <- <-. left. exists YLocals. split; [|auto]. constructor; auto. }
      right. split. { intros l K. inversion K; subst; try congruence; lia. }
      assert (Hloc : exists local, match ho_ids o (o_local (y_options s)) with
        | i :: _ => match fill_identity i with Some p => Some (Some p) | None => None end | [] => Some None end = Some local).
      { pose proof (typed_perm _ _ (proj1 Ho (o_local (y_options s))) Hl) as Hty. destruct (ho_ids o (o_local (y_options s))) as [|i r]; [eauto|].
        apply Forall_inv in Hty. destruct (fill_some i Hty) as (p & ->). eauto. }
      destruct Hloc as (local & Eloc). rewrite Eloc in E. destruct (populate_token_cache_l tm o s) as [s1 ls1] eqn:Ep.
      unfold serialize_req_l in E. injection E as <- <- <-. apply prepare; [exact Ep|].
      destruct ser; reflexivity.
    + right. split. { intros l K. inversion K; subst; congruence. }
      unfold get_server_start_l in E.
      destruct (tls_total (o_min (y_options s))) as (mn & Emn & Hmn), (tls_total (o_max (y_options s))) as (mx & Emx & Hmx).
      destruct (suites_ok (o_suites (y_options s))) as (su & Esu & Hsu & Hsu2). rewrite Emn, Emx, Esu in E.
      destruct (all_fill (ho_ids o (o_local (y_options s)))) as (ps & Eps & _); [eapply typed_perm; [apply Ho|exact Hl]|]. rewrite Eps in E.
      destruct (populate_token_cache_l tm o s) as [s1 ls1] eqn:Ep.
      unfold serialize_req_l in E. injection E as <- <- <-. apply prepare; [exact Ep|]. destruct ser; reflexivity.
  - destruct (null_or_empty inp) eqn:En.
    + injection E as <- <- <-. left. exists YNeedPeer. apply null_or_empty_true in En. rewrite En. split; [constructor; reflexivity|auto].
    + right. split. { assert (Hne : bytes_of inp <> []) by (intros Q; apply null_or_empty_true in Q; congruence). intros l K. inversion K; congruence. }
      unfold get_next_l in E. destruct (populate_token_cache_l tm o s) as [s1 ls1] eqn:Ep.
      unfold serialize_req_l in E. injection E as <- <- <-. apply prepare; [exact Ep|reflexivity].
Qed.

Lemma first_sent : forall w a cs ops rs s, proxied w a cs ops rs s -> (y_first s = true <-> sent rs = []).
Proof.
  intros w a cs. apply (proxied_ind w a cs (fun ops rs s => y_first s = true <-> sent rs = [])).
  - intros s Ho Hc. destruct (create_is _ _ _ Ho Hc) as (_ & _ & _ & _ & Hf & _). cbn. tauto.
  - intros ops rs s op s' r Hp IH Hok E. destruct (proxied_config _ _ _ _ _ _ Hp) as [_ Hm].
    assert (Hs : sent (rs ++ [r]) = sent rs ++ map snd (exchange (op, r))).
    { unfold sent. rewrite flat_map_app. cbn [flat_map]. rewrite app_nil_r. f_equal.
      destruct op; cbn [pstep] in E; cbn [exchange].
      - destruct (get_bytes_for_s2a (w_manager w) o ser s inp) as [? [[c n] b]]. injection E as <- <-. cbn. destruct c, b; reflexivity.
      - destruct (get_bytes_for_peer (w_text w) s inp). injection E as <- <-. reflexivity.
      - injection E as <- <-. reflexivity.
      - destruct (create_frame_protector (w_prims w) (w_lib w) s fs) as [[[? ?] ?]|?|]; try discriminate. injection E as <- <-. reflexivity.
      - destruct (get_s2a_context s). injection E as <- <-. reflexivity. }
    rewrite Hs. destruct (step_first _ _ _ _ _ Hok Hm E) as [(-> & ->)|[(i & b & -> & K & -> & _)|(i & b & -> & K & -> & _)]]; cbn [map snd].
    + rewrite app_nil_r. exact IH.
    + split; [discriminate|]. intros Q. apply app_eq_nil in Q. destruct Q; discriminate.
    + split; [discriminate|]. intros Q. apply app_eq_nil in Q. destruct Q; discriminate.
Qed.
