(* What the proxy's log does not depend on: C82. *)
From Coq Require Import List NArith Bool Permutation Lia ZifyBool ZifyNat ZifyN.
From Verif Require Import Base Aead AeadProofs Hkdf HalfConn Options HsHandler Crypter FrameProt Wire SpecWire WireProofs WireMsgs
  Util Context SpecOptions HsMsgProofs Proxy ProxyRun SpecProxy ProxyProofs ProxyFinal ProxyTokens ProxyMore ProxyLog SpecProxyLog ProxyLogProofs.
Import ListNotations.
Local Open Scope N_scope.

(* The states of two proxies with the same log. *)
Definition keys (c : list (identity * bytes)) := map fst c.
Record alike (s s' : proxy) : Prop := {
  al_client : y_client s = y_client s';
  al_options : y_options s = y_options s';
  al_manager : y_manager s = y_manager s';
  al_cache : keys (y_cache s) = keys (y_cache s');
  al_selected : y_selected s = y_selected s';
  al_first : y_first s = y_first s';
  al_finished : y_finished s = y_finished s';
  al_log : same_calls (y_log s) (y_log s')
}.

Lemma mem_keys : forall i c c', keys c = keys c' -> cache_mem i c = cache_mem i c'.
Proof.
  intros i. induction c as [|e c IH]; intros [|e' c'] H; try discriminate; [reflexivity|]. unfold keys in H. cbn [map] in H. injection H as H1 H2.
  cbn. unfold cache_mem in IH. rewrite H1, (IH c') by exact H2. reflexivity.
Qed.
Lemma put_keys_same : forall i t t' c c', keys c = keys c' -> keys (cache_put i t c) = keys (cache_put i t' c').
Proof.
  intros i t t'. induction c as [|e c IH]; intros [|e' c'] H; try discriminate; [reflexivity|]. unfold keys in H. cbn [map] in H. injection H as H1 H2.
  cbn [cache_put]. rewrite H1. destruct (identity_eqb i (fst e')); unfold keys; cbn [map fst]; [f_equal; exact H2|]. rewrite H1. f_equal. apply IH. exact H2.
Qed.
Lemma len_keys : forall c c', keys c = keys c' -> lenN c = lenN c'.
Proof. intros c c' H. unfold lenN. rewrite <- (map_length fst c), <- (map_length fst c'). unfold keys in H. now rewrite H. Qed.

Lemma calls_snoc : forall l l' c a a', same_calls l l' -> (a = None <-> a' = None) -> same_calls (l ++ [(c, a)]) (l' ++ [(c, a')]).
Proof. intros. apply Forall2_app; [assumption|]. constructor; [split; [reflexivity|assumption]|constructor]. Qed.

Lemma fetch_same : forall tm tm', same_tokens_known tm tm' -> forall ids c c' l l' c1 l1 ls c1' l1' ls',
  keys c = keys c' -> same_calls l l' -> fetch_tokens_l tm ids c l = (c1, l1, ls) -> fetch_tokens_l tm' ids c' l' = (c1', l1', ls') ->
  keys c1 = keys c1' /\ same_calls l1 l1' /\ ls = ls'.
Proof.
  intros tm tm' Htm. induction ids as [|i ids IH]; intros c c' l l' c1 l1 ls c1' l1' ls' Hk Hl E E'; cbn [fetch_tokens_l] in E, E'.
  - injection E as <- <- <-. injection E' as <- <- <-. auto.
  - rewrite <- (mem_keys i c c' Hk) in E'. destruct (cache_mem i c); [eauto|]. pose proof (Htm _ _ (GetToken i) Hl) as Ht.
    pose proof (calls_snoc _ _ (GetToken i) _ _ Hl Ht) as Hl'.
    destruct (tm l (GetToken i)) as [t|], (tm' l' (GetToken i)) as [t'|]; try (exfalso; destruct Ht as [A B]; try (discriminate (A eq_refl)); discriminate (B eq_refl)).
    + eapply IH; [|exact Hl'|exact E|exact E']. now apply put_keys_same.
    + destruct (fetch_tokens_l tm ids c (l ++ [(GetToken i, None)])) as [[c2 l2] ls2] eqn:E2. injection E as <- <- <-.
      destruct (fetch_tokens_l tm' ids c' (l' ++ [(GetToken i, None)])) as [[c2' l2'] ls2'] eqn:E2'. injection E' as <- <- <-.
      destruct (IH _ _ _ _ _ _ _ _ _ _ Hk Hl' E2 E2') as (A & B & ->). auto.
Qed.

Lemma alike_cache : forall s s' c c' l l', alike s s' -> keys c = keys c' -> same_calls l l' -> alike (set_cache s c l) (set_cache s' c' l').
Proof. intros s s' c c' l l' [] Hk Hl. constructor; cbn; assumption. Qed.

Lemma fetch_all_same : forall tm tm' o o' s s' c c' l l' s1 ls s1' ls', same_tokens_known tm tm' -> (forall i, ho_ids o i = ho_ids o' i) -> alike s s' ->
  keys c = keys c' -> same_calls l l' -> fetch_all_l tm o s c l = (s1, ls) -> fetch_all_l tm' o' s' c' l' = (s1', ls') -> alike s1 s1' /\ ls = ls'.
Proof.
  intros tm tm' o o' s s' c c' l l' s1 ls s1' ls' Htm Ho Ha Hk Hl E E'. unfold fetch_all_l in E, E'.
  rewrite <- (al_options _ _ Ha), <- Ho in E'.
  destruct (fetch_tokens_l tm (ho_ids o (o_local (y_options s))) c l) as [[c2 l2] ls2] eqn:E2.
  destruct (fetch_tokens_l tm' (ho_ids o (o_local (y_options s))) c' l') as [[c2' l2'] ls2'] eqn:E2'.
  destruct (fetch_same _ _ Htm _ _ _ _ _ _ _ _ _ _ _ Hk Hl E2 E2') as (K & L & <-).
  destruct (o_local (y_options s)).
  - pose proof (Htm _ _ GetDefaultToken L) as Ht. pose proof (calls_snoc _ _ GetDefaultToken _ _ L Ht) as L'.
    destruct (tm l2 GetDefaultToken) as [t|], (tm' l2' GetDefaultToken) as [t'|]; try (exfalso; destruct Ht as [A B]; try (discriminate (A eq_refl)); discriminate (B eq_refl));
      injection E as <- <-; injection E' as <- <-; (split; [|reflexivity]); apply alike_cache; auto using put_keys_same.
  - injection E as <- <-. injection E' as <- <-. split; [|reflexivity]. now apply alike_cache.
Qed.

Lemma populate_alike : forall tm tm' o o' s s' s1 ls s1' ls', same_tokens_known tm tm' -> (forall i, ho_ids o i = ho_ids o' i) -> alike s s' ->
  populate_token_cache_l tm o s = (s1, ls) -> populate_token_cache_l tm' o' s' = (s1', ls') -> alike s1 s1' /\ ls = ls'.
Proof.
  intros tm tm' o o' s s' s1 ls s1' ls' Htm Ho Ha E E'. unfold populate_token_cache_l in E, E'.
  rewrite <- (al_manager _ _ Ha), <- (al_selected _ _ Ha) in E'. destruct (y_manager s); cbn [negb] in E, E'.
  2: { injection E as <- <-. injection E' as <- <-. auto. }
  destruct (y_selected s) as [i|].
  2: { eapply fetch_all_same; [exact Htm|exact Ho|exact Ha|apply (al_cache _ _ Ha)|apply (al_log _ _ Ha)|exact E|exact E']. }
  rewrite <- (mem_keys i _ _ (al_cache _ _ Ha)), <- (len_keys _ _ (al_cache _ _ Ha)) in E'.
  destruct (cache_mem i (y_cache s) && (lenN (y_cache s) =? 1)); [injection E as <- <-; injection E' as <- <-; auto|].
  pose proof (Htm _ _ (GetToken i) (al_log _ _ Ha)) as Ht. pose proof (calls_snoc _ _ (GetToken i) _ _ (al_log _ _ Ha) Ht) as L.
  destruct (tm (y_log s) (GetToken i)) as [t|], (tm' (y_log s') (GetToken i)) as [t'|]; try (exfalso; destruct Ht as [A B]; try (discriminate (A eq_refl)); discriminate (B eq_refl)).
  - injection E as <- <-. injection E' as <- <-. split; [|reflexivity]. apply alike_cache; auto.
  - destruct (fetch_all_l tm o s (y_cache s) (y_log s ++ [(GetToken i, None)])) as [s2 ls2] eqn:E2. injection E as <- <-.
    destruct (fetch_all_l tm' o' s' (y_cache s') (y_log s' ++ [(GetToken i, None)])) as [s2' ls2'] eqn:E2'. injection E' as <- <-.
    destruct (fetch_all_same _ _ _ _ _ _ _ _ _ _ _ _ _ _ Htm Ho Ha (al_cache _ _ Ha) L E2 E2') as [A ->]. auto.
Qed.

(* The lines about identities depend on the keys only, in any order. *)
Definition nameless (l : list identity) : nat := length (filter (fun i => id_type_eqb (id_type_of i) NONE) l).
Lemma auth_lines_count : forall o s, order_ok o -> auth_lines o s = repeat (YUnknown 0) (nameless (keys (y_cache s))).
Proof.
  intros o s [_ Ho].
  assert (K : forall c, flat_map (fun e : identity * bytes => match fill_identity (fst e) with Some _ => [] | None => [YUnknown (type_number (id_type_of (fst e)))] end) c
    = repeat (YUnknown 0) (nameless (keys c))).
  { induction c as [|[[[] s0] t] c IH]; cbn; [reflexivity|f_equal; exact IH|exact IH|exact IH|exact IH]. }
  unfold auth_lines. rewrite K. f_equal. specialize (Ho (y_cache s)). clear K. unfold nameless, keys.
  revert Ho. generalize (ho_tokens o (y_cache s)) as c1, (y_cache s) as c2. intros c1 c2 Ho. induction Ho as [|x l l' H IH|x y l|l l' l'' H IH H' IH']; cbn [map filter].
  - reflexivity.
  - destruct (id_type_eqb (id_type_of (fst x)) NONE); cbn; congruence.
  - destruct (id_type_eqb (id_type_of (fst x)) NONE), (id_type_eqb (id_type_of (fst y)) NONE); reflexivity.
  - congruence.
Qed.

Lemma prepared_alike : forall tm tm' o o' s s' s1 ls s1' ls', same_tokens_known tm tm' -> (forall i, ho_ids o i = ho_ids o' i) -> order_ok o -> order_ok o' ->
  alike s s' -> populate_token_cache_l tm o s = (s1, ls) -> populate_token_cache_l tm' o' s' = (s1', ls') ->
  alike s1 s1' /\ ls = ls' /\ auth_lines o s1 = auth_lines o' s1'.
Proof.
  intros tm tm' o o' s s' s1 ls s1' ls' Htm Hi Ho Ho' Ha E E'. destruct (populate_alike _ _ _ _ _ _ _ _ _ _ Htm Hi Ha E E') as [A B].
  split; [exact A|]. split; [exact B|]. rewrite !auth_lines_count by assumption. now rewrite (al_cache _ _ A).
Qed.

Lemma set_first_alike : forall s s' b, alike s s' -> alike (set_first s b) (set_first s' b).
Proof. intros s s' b []. constructor; cbn; auto. Qed.

Ltac both_starts E E' :=
  match type of E with
  | context[populate_token_cache_l ?tm ?o ?s] =>
    match type of E' with
    | context[populate_token_cache_l ?tm' ?o' ?s'] =>
      let s1 := fresh "s1" in let l1 := fresh "l1" in let E1 := fresh "E1" in
      let s2 := fresh "s2" in let l2 := fresh "l2" in let E2 := fresh "E2" in
      destruct (populate_token_cache_l tm o s) as [s1 l1] eqn:E1; destruct (populate_token_cache_l tm' o' s') as [s2 l2] eqn:E2
    end
  end.

Lemma null_same : forall i i' : option bytes, (bytes_of i = [] <-> bytes_of i' = []) -> null_or_empty i = null_or_empty i'.
Proof.
  intros i i' H. pose proof (null_or_empty_true i) as A. pose proof (null_or_empty_true i') as B.
  destruct (null_or_empty i), (null_or_empty i'); try reflexivity; exfalso.
  - assert (K : false = true) by (apply B, H, A; reflexivity). discriminate.
  - assert (K : false = true) by (apply A, H, B; reflexivity). discriminate.
Qed.

Lemma s2a_same : forall tm tm' o o' ser s s' inp inp' s1 st ls s1' st' ls', same_tokens_known tm tm' ->
  (forall i, ho_ids o i = ho_ids o' i) -> order_ok o -> order_ok o' -> (bytes_of inp = [] <-> bytes_of inp' = []) -> alike s s' ->
  get_bytes_for_s2a_l tm o ser s inp = (s1, st, ls) -> get_bytes_for_s2a_l tm' o' ser s' inp' = (s1', st', ls') -> alike s1 s1' /\ ls = ls'.
Proof.
  intros tm tm' o o' ser s s' inp inp' s1 st ls s1' st' ls' Htm Hi Ho Ho' Hb Ha E E'. unfold get_bytes_for_s2a_l in E, E'.
  rewrite <- (al_first _ _ Ha), <- (al_client _ _ Ha), <- (null_same _ _ Hb) in E'. destruct (y_first s).
  - destruct (y_client s && negb (null_or_empty inp)); [injection E as <- <- <-; injection E' as <- <- <-; auto|].
    destruct (y_client s).
    + unfold get_client_start_l in E, E'. rewrite <- (al_options _ _ Ha) in E'. rewrite <- !Hi in E'.
      destruct (tls_to_proto (o_min (y_options s))) as [c|mn]; [destruct c; injection E as <- <- <-; injection E' as <- <- <-; auto using set_first_alike|].
      destruct (tls_to_proto (o_max (y_options s))) as [c|mx]; [destruct c; injection E as <- <- <-; injection E' as <- <- <-; auto using set_first_alike|].
      destruct (suites_to_proto (o_suites (y_options s))) as [c|su]; [destruct c; injection E as <- <- <-; injection E' as <- <- <-; auto using set_first_alike|].
      destruct (all_some (map fill_identity (ho_ids o (o_target (y_options s))))); [|injection E as <- <- <-; injection E' as <- <- <-; auto].
      destruct (1 <? lenN (o_local (y_options s))); [injection E as <- <- <-; injection E' as <- <- <-; auto|].
      destruct (match ho_ids o (o_local (y_options s)) with i :: _ => match fill_identity i with Some p => Some (Some p) | None => None end | [] => Some None end);
        [|injection E as <- <- <-; injection E' as <- <- <-; auto].
      both_starts E E'. destruct (prepared_alike _ _ _ _ _ _ _ _ _ _ Htm Hi Ho Ho' Ha E1 E2) as (A & B & C).
      destruct ser; injection E as <- <- <-; injection E' as <- <- <-; rewrite B, C; auto using set_first_alike.
    + unfold get_server_start_l in E, E'. rewrite <- (al_options _ _ Ha) in E'. rewrite <- !Hi in E'.
      destruct (tls_to_proto (o_min (y_options s))) as [c|mn]; [destruct c; injection E as <- <- <-; injection E' as <- <- <-; auto using set_first_alike|].
      destruct (tls_to_proto (o_max (y_options s))) as [c|mx]; [destruct c; injection E as <- <- <-; injection E' as <- <- <-; auto using set_first_alike|].
      destruct (suites_to_proto (o_suites (y_options s))) as [c|su]; [destruct c; injection E as <- <- <-; injection E' as <- <- <-; auto using set_first_alike|].
      destruct (all_some (map fill_identity (ho_ids o (o_local (y_options s))))); [|injection E as <- <- <-; injection E' as <- <- <-; auto].
      both_starts E E'. destruct (prepared_alike _ _ _ _ _ _ _ _ _ _ Htm Hi Ho Ho' Ha E1 E2) as (A & B & C).
      destruct ser; injection E as <- <- <-; injection E' as <- <- <-; rewrite B, C; auto using set_first_alike.
  - destruct (null_or_empty inp); [injection E as <- <- <-; injection E' as <- <- <-; auto|].
    unfold get_next_l in E, E'. both_starts E E'. destruct (prepared_alike _ _ _ _ _ _ _ _ _ _ Htm Hi Ho Ho' Ha E1 E2) as (A & B & C).
    injection E as <- <- <-. injection E' as <- <- <-. rewrite B, C. auto.
Qed.

Lemma set_selected_alike : forall s s' i, alike s s' -> alike (set_selected s i) (set_selected s' i).
Proof. intros s s' b []. constructor; cbn; auto. Qed.

Lemma result_same : forall s s' r r' s1 e ls s1' e' ls', alike s s' -> same_result r r' ->
  take_result_l s r = (s1, e, ls) -> take_result_l s' r' = (s1', e', ls') -> alike s1 s1' /\ ls = ls' /\ (e = None <-> e' = None).
Proof.
  intros s s' r r' s1 e ls s1' e' ls' Ha (Hp & Hl & Hst) E E'. unfold take_result_l, take_result in E, E'.
  destruct (pr_state r) as [st|], (pr_state r') as [st'|]; try contradiction.
  2: { injection E as <- <- <-. injection E' as <- <- <-. split; [|split; [reflexivity|split; discriminate]]. destruct Ha. constructor; cbn; auto. }
  destruct Hst as [Ht Hu]. rewrite <- Ht, <- Hu in E'. destruct (tls_from_proto (pt_tls st)) as [c|v].
  { injection E as <- <- <-. injection E' as <- <- <-. split; [|split; [reflexivity|split; discriminate]]. destruct Ha. constructor; cbn; auto. }
  destruct (suite_from_proto (pt_suite st)) as [c|u].
  { injection E as <- <- <-. injection E' as <- <- <-. split; [|split; [reflexivity|split; discriminate]]. destruct Ha. constructor; cbn; auto. }
  assert (Hpl : match pr_peer r with Some _ => [] | None => [YNoPeer] end = match pr_peer r' with Some _ => [] | None => [YNoPeer] end).
  { destruct Hp as [A B]. destruct (pr_peer r), (pr_peer r'); try reflexivity; [discriminate (B eq_refl)|discriminate (A eq_refl)]. }
  rewrite <- Hpl in E'. destruct (pr_local r) as [x|], (pr_local r') as [x'|]; try (exfalso; destruct Hl as [A B]; try (discriminate (A eq_refl)); discriminate (B eq_refl));
    injection E as <- <- <-; injection E' as <- <- <-; (split; [|split; [reflexivity|split; congruence]]); destruct Ha; constructor; cbn; auto.
Qed.

Lemma peer_same : forall V V' s s' inp inp' s1 st ls s1' st' ls', alike s s' -> same_response V V' (bytes_of inp) (bytes_of inp') ->
  get_bytes_for_peer_l V s inp = (s1, st, ls) -> get_bytes_for_peer_l V' s' inp' = (s1', st', ls') -> alike s1 s1' /\ ls = ls'.
Proof.
  intros V V' s s' inp inp' s1 st ls s1' st' ls' Ha [Hn Hr] E E'.
  assert (X : forall W (z : proxy) i, bytes_of i = [] -> get_bytes_for_peer_l W z i = (z, proxy_error kFailedPrecondition, [YNeedS2A])).
  { intros W z [[|b bs]|] K; try discriminate; reflexivity. }
  destruct (null_or_empty inp) eqn:En.
  { apply null_or_empty_true in En. rewrite (X _ _ _ En) in E. rewrite (X _ _ _ (proj1 Hn En)) in E'. injection E as <- <- <-. injection E' as <- <- <-. auto. }
  destruct inp as [[|b bs]|]; try discriminate. cbn [bytes_of] in *.
  destruct inp' as [[|b' bs']|]; try (destruct Hn as [_ K]; discriminate (K eq_refl)). cbn [bytes_of] in *.
  specialize (Hr ltac:(discriminate)). unfold get_bytes_for_peer_l in E, E'.
  destruct (parse_resp V (b :: bs)) as [r|], (parse_resp V' (b' :: bs')) as [r'|]; try contradiction.
  2: { injection E as <- <- <-. injection E' as <- <- <-. auto. }
  destruct Hr as (Hs & Hl & Hres). rewrite <- Hs, <- Hl in E'. destruct (rs_status r) as [x|]; [|injection E as <- <- <-; injection E' as <- <- <-; auto].
  destruct (negb (pst_code x =? 0)); [injection E as <- <- <-; injection E' as <- <- <-; auto|].
  assert (Ha' : alike (match rs_local r with Some i => set_selected s (Some (identity_from_proto (Some i))) | None => s end)
                      (match rs_local r with Some i => set_selected s' (Some (identity_from_proto (Some i))) | None => s' end)).
  { destruct (rs_local r); [now apply set_selected_alike|exact Ha]. }
  destruct (rs_result r) as [y|], (rs_result r') as [y'|]; try contradiction.
  - destruct (take_result_l _ y) as [[s2 e] l2] eqn:E2. destruct (take_result_l (match rs_local r with Some _ => _ | None => s' end) y') as [[s2' e'] l2'] eqn:E2'.
    destruct (result_same _ _ _ _ _ _ _ _ _ _ Ha' Hres E2 E2') as (A & B & C).
    destruct e, e'; try (exfalso; destruct C as [C1 C2]; try (discriminate (C1 eq_refl)); discriminate (C2 eq_refl));
      injection E as <- <- <-; injection E' as <- <- <-; auto.
  - injection E as <- <- <-. injection E' as <- <- <-. auto.
Qed.

Lemma step_same : forall w w' s s' op op' s1 r ls s1' r' ls', same_tokens_known (w_manager w) (w_manager w') -> alike s s' ->
  same_op w w' op op' -> pop_ok op -> pop_ok op' ->
  plstep w s op = Done (s1, r, ls) -> plstep w' s' op' = Done (s1', r', ls') -> alike s1 s1' /\ ls = ls'.
Proof.
  intros w w' s s' op op' s1 r ls s1' r' ls' Htm Ha Hop Hok Hok' E E'. destruct op, op'; try contradiction; cbn [plstep same_op pop_ok] in *.
  - destruct Hop as (A & <- & C). destruct (get_bytes_for_s2a_l (w_manager w) o ser s inp) as [[s2 st] l2] eqn:E2.
    destruct (get_bytes_for_s2a_l (w_manager w') o0 ser s' inp0) as [[s2' st'] l2'] eqn:E2'. injection E as <- <- <-. injection E' as <- <- <-.
    eapply s2a_same; eassumption.
  - destruct (get_bytes_for_peer_l (w_text w) s inp) as [[s2 st] l2] eqn:E2.
    destruct (get_bytes_for_peer_l (w_text w') s' inp0) as [[s2' st'] l2'] eqn:E2'. injection E as <- <- <-. injection E' as <- <- <-.
    eapply peer_same; eassumption.
  - injection E as <- <- <-. injection E' as <- <- <-. auto.
  - destruct (create_frame_protector (w_prims w) (w_lib w) s fs) as [[[s2 x] f2]|u|] eqn:E2; try discriminate.
    destruct (create_frame_protector (w_prims w') (w_lib w') s' fs0) as [[[s2' x'] f2']|u|] eqn:E2'; try discriminate.
    cbn [obind] in E, E'. injection E as <- <- <-. injection E' as <- <- <-. rewrite <- (al_finished _ _ Ha). split; [|reflexivity].
    apply create_frame in E2. apply create_frame in E2'. rewrite <- (al_finished _ _ Ha) in E2'.
    destruct E2 as [(F & -> & _)|(F & -> & _)], E2' as [(F' & -> & _)|(F' & -> & _)]; try congruence. destruct Ha. constructor; cbn; auto.
  - unfold get_s2a_context in E, E'. rewrite <- (al_finished _ _ Ha) in E'. destruct (y_finished s); cbn [negb] in E, E'; injection E as <- <- <-; injection E' as <- <- <-;
      (split; [|reflexivity]); auto. destruct Ha. constructor; cbn; auto.
Qed.

Lemma run_same : forall w w', same_tokens_known (w_manager w) (w_manager w') -> forall ops ops', Forall2 (same_op w w') ops ops' ->
  Forall pop_ok ops -> Forall pop_ok ops' -> forall s s' s1 rs lss s1' rs' lss', alike s s' ->
  plrun w s ops = Done (s1, rs, lss) -> plrun w' s' ops' = Done (s1', rs', lss') -> lss = lss'.
Proof.
  intros w w' Htm ops ops' H. induction H as [|op op' ops ops' Hop H IH]; intros Hok Hok' s s' s1 rs lss s1' rs' lss' Ha E E'; cbn [plrun] in E, E'.
  - injection E as <- <- <-. injection E' as <- <- <-. reflexivity.
  - inversion_clear Hok. inversion_clear Hok'.
    destruct (plstep w s op) as [[[s2 r] ls]|u|] eqn:E2; try discriminate. destruct (plstep w' s' op') as [[[s2' r'] ls']|u|] eqn:E2'; try discriminate. cbn [obind] in E, E'.
    destruct (plrun w s2 ops) as [[[s3 rs3] lss3]|u|] eqn:E3; try discriminate. destruct (plrun w' s2' ops') as [[[s3' rs3'] lss3']|u|] eqn:E3'; try discriminate.
    cbn [obind] in E, E'. injection E as <- <- <-. injection E' as <- <- <-.
    destruct (step_same _ _ _ _ _ _ _ _ _ _ _ _ Htm Ha Hop H0 H2 E2 E2') as [A ->]. f_equal. eapply IH; eassumption.
Qed.

Lemma U82 : forall w w' a a' cs ops ops' s0 s0' s rs lss s' rs' lss',
  ya_options a = Some (options_after cs) -> ya_options a' = Some (options_after cs) -> same_args a a' ->
  same_tokens_known (w_manager w) (w_manager w') -> Forall2 (same_op w w') ops ops' -> Forall pop_ok ops -> Forall pop_ok ops' ->
  proxy_create a = Some s0 -> proxy_create a' = Some s0' ->
  plrun w s0 ops = Done (s, rs, lss) -> plrun w' s0' ops' = Done (s', rs', lss') -> lss = lss'.
Proof.
  intros w w' a a' cs ops ops' s0 s0' s rs lss s' rs' lss' Ho Ho' [H1 H2] Htm Hops Hok Hok' Hc Hc' E E'.
  eapply (run_same w w' Htm); try eassumption.
  destruct (create_is _ _ _ Ho Hc) as (C & A1 & A2 & A3 & A4 & A5 & _). destruct (create_is _ _ _ Ho' Hc') as (C' & B1 & B2 & B3 & B4 & B5 & _).
  unfold config, config_of in C, C'. injection C as C1 C2 C3 C4 C5. injection C' as D1 D2 D3 D4 D5.
  constructor; try congruence. rewrite A2, B2. constructor.
Qed.
