(* C67: the theorems about threads sharing one S2AProxy. *)
From Coq Require Import List NArith Bool PeanoNat Lia.
From Verif Require Import Base Aead AeadProofs Hkdf HalfConn Options HsHandler Crypter FrameProt Wire SpecWire Util Context SpecOptions
  FrameFinal Conc ConcRun ConcLinear Proxy ProxyRun ProxyProofs ProxyFinal ProxyRefuted ProxyConc SpecProxyConc ProxyConcProofs.
Import ListNotations.
Local Open Scope N_scope.

Lemma count_start : forall V calls, count V (map (fun c => {| q_todo := c; q_now := None; q_done := [] |}) calls) = length (flat_map (results V) calls).
Proof.
  intros V. induction calls as [|c calls IH]; [reflexivity|]. cbn [map flat_map]. rewrite app_length, <- IH. reflexivity.
Qed.

Lemma careful_few : forall w a cs ops rs s calls, proxied w a cs ops rs s -> careful (w_text w) ops calls ->
  few (w_text w) calls s (g_callers (qstart s calls)).
Proof.
  intros w a cs ops rs s calls Hp (_ & _ & [[Hr Hl]|Ha]); [left|right; exact Ha]. cbn [qstart g_callers]. rewrite count_start.
  destruct (y_finished s) eqn:F; [|exact Hl]. destruct Hr. eapply finished_iff; eassumption.
Qed.

Lemma Q67 : forall w a cs ops rs s calls, prims_ok (w_prims w) -> w_text w [] = true -> proxied w a cs ops rs s ->
  Forall (Forall pop_ok) calls -> careful (w_text w) ops calls ->
  forall sched,
  match qrun w (qstart s calls) sched with
  | Done g => ~ racing w g /\
      (exists l, accounts w s calls g l /\
         forall sched' g', qrun w g sched' = Done g' -> exists l', accounts w s calls g' (l ++ l')) /\
      exists sched', match qrun w g sched' with Done g' => settled g' | Undef u => u = UbNullDeref | NoFuel => False end
  | Undef u => u = UbNullDeref /\ exists l i fs, begins calls (l ++ [(i, PProtector fs)]) /\
      prun w s (map snd l ++ [PProtector fs]) = Undef UbNullDeref
  | NoFuel => False
  end.
Proof.
  intros w a cs ops rs s calls HP HV Hp Hok Hc sched.
  assert (H0 := start_inv w a cs ops rs s calls Hp (careful_few _ _ _ _ _ _ _ Hp Hc)). destruct Hc as (H1 & H2 & _).
  pose proof (run_inv w a cs ops rs s calls HP HV Hok H1 H2 sched _ _ H0) as K.
  destruct (qrun w (qstart s calls) sched) as [g|u|].
  - destruct K as [l K]. cbn [app] in K. split; [exact (no_race w a cs ops rs s calls H1 H2 g l K)|]. split.
    + exists l. split; [eapply inv_accounts; exact K|]. intros sched' g' E.
      pose proof (run_inv w a cs ops rs s calls HP HV Hok H1 H2 sched' _ _ K) as K'. rewrite E in K'. destruct K' as [l' K'].
      exists l'. eapply inv_accounts. exact K'.
    + eapply complete; [exact HP|exact HV|exact Hok|exact H1|exact H2|apply le_n|exact K].
  - destruct K as [-> [l (i & fs & K1 & K2)]]. split; [reflexivity|]. exists (map (fun e => (e_thread e, e_op e)) ([] ++ l)), i, fs.
    split; [exact K1|]. rewrite map_map. exact K2.
  - exact K.
Qed.

(* Only the methods that lock. *)
Definition locks (op : pop) : Prop := ~ is_protector op /\ ~ is_context op.

Lemma Q67b : forall w a cs ops rs s calls, prims_ok (w_prims w) -> w_text w [] = true -> proxied w a cs ops rs s ->
  Forall (Forall pop_ok) calls -> Forall (Forall locks) calls ->
  forall sched, exists g, qrun w (qstart s calls) sched = Done g /\ ~ racing w g /\
      (exists l, accounts w s calls g l /\
         forall sched' g', qrun w g sched' = Done g' -> exists l', accounts w s calls g' (l ++ l')) /\
      exists sched' g', qrun w g sched' = Done g' /\ settled g'.
Proof.
  intros w a cs ops rs s calls HP HV Hp Hok Hl.
  assert (No : forall i op, calls_in calls i op -> locks op).
  { intros i op (c & Hc & Hi). rewrite Forall_forall in Hl. apply nth_error_In in Hc. specialize (Hl _ Hc). rewrite Forall_forall in Hl. auto. }
  assert (Hc : careful (w_text w) ops calls).
  { split; [|split; [|right]].
    - intros i j op op' Hi K. destruct (No _ _ Hi) as [N _]. contradiction.
    - intros i j op op' Hi K. destruct (No _ _ Hi) as [_ N]. contradiction.
    - intros i j op op' _ _ Hj K. destruct (No _ _ Hj). tauto. }
  assert (Safe : forall sched, exists g, qrun w (qstart s calls) sched = Done g).
  { intros sched. pose proof (Q67 w a cs ops rs s calls HP HV Hp Hok Hc sched) as K. destruct (qrun w (qstart s calls) sched) as [g|u|]; [eauto| |destruct K].
    exfalso. destruct K as (_ & l & i & fs & [B1 B2] & _). assert (Hi : (i < length calls)%nat). { apply (B1 (i, PProtector fs)). apply in_app_iff. right. left. reflexivity. }
    destruct (nth_error calls i) as [c|] eqn:Ec; [|apply nth_error_None in Ec; lia]. destruct (B2 _ _ Ec) as [rest ->].
    destruct (No i (PProtector fs)) as [N _].
    - exists (map snd (filter (fun e => Nat.eqb (fst e) i) (l ++ [(i, PProtector fs)])) ++ rest). split; [exact Ec|]. apply in_app_iff. left.
      rewrite filter_app, map_app. apply in_app_iff. right. cbn. rewrite Nat.eqb_refl. left. reflexivity.
    - apply N. exists fs. reflexivity. }
  assert (App : forall s1 s2 g, qrun w g (s1 ++ s2) = obind (qrun w g s1) (fun g => qrun w g s2)).
  { induction s1 as [|i s1 IH]; intros s2 g; [reflexivity|]. cbn [app qrun]. destruct (qstep w g i); cbn [obind]; auto. }
  intros sched. destruct (Safe sched) as [g Eg]. exists g. split; [exact Eg|].
  pose proof (Q67 w a cs ops rs s calls HP HV Hp Hok Hc sched) as K. rewrite Eg in K. destruct K as (K1 & K2 & sched' & K3).
  split; [exact K1|]. split; [exact K2|]. exists sched'. destruct (Safe (sched ++ sched')) as [g' E']. rewrite App, Eg in E'. cbn [obind] in E'.
  rewrite E' in K3. eauto.
Qed.

(* ---- the accesses ---- *)
Definition fill (s r : proxy) : proxy :=
  {| y_client := y_client s; y_protocol := y_protocol s; y_hostname := y_hostname s;
     y_options := y_options s; y_channel := y_channel r; y_manager := y_manager s;
     y_cache := y_cache s; y_selected := y_selected s; y_first := y_first s;
     y_finished := y_finished r; y_context := y_context r; y_result := y_result r; y_log := y_log s |}.

Lemma fill_populate : forall tm o s r, populate_token_cache tm o (fill s r) = fill (populate_token_cache tm o s) r.
Proof.
  intros tm o s r. unfold populate_token_cache. cbn [fill y_manager y_selected y_cache y_log].
  assert (K : forall c l, fetch_all tm o (fill s r) c l = fill (fetch_all tm o s c l) r).
  { intros c l. unfold fetch_all. cbn [fill y_options]. destruct (fetch_tokens tm (ho_ids o (o_local (y_options s))) c l) as [c' l'].
    destruct (o_local (y_options s)); [|reflexivity]. destruct (tm l' GetDefaultToken); reflexivity. }
  destruct (y_manager s); [|reflexivity]. cbn [negb]. destruct (y_selected s); [|apply K].
  destruct (cache_mem i (y_cache s) && (lenN (y_cache s) =? 1)); [reflexivity|]. destruct (tm (y_log s) (GetToken i)); [reflexivity|apply K].
Qed.

Lemma fill_auth : forall o s r, auth_mechanisms o (fill s r) = auth_mechanisms o s.
Proof. reflexivity. Qed.

Lemma fill_s2a : forall tm o ser s r inp, get_bytes_for_s2a tm o ser (fill s r) inp =
  let '(s', st) := get_bytes_for_s2a tm o ser s inp in (fill s' r, st).
Proof.
  intros tm o ser s r inp. unfold get_bytes_for_s2a, get_client_start, get_server_start, get_next. rewrite fill_populate, fill_auth.
  change (y_first (fill s r)) with (y_first s). change (y_client (fill s r)) with (y_client s). change (y_options (fill s r)) with (y_options s).
  destruct (y_first s).
  - destruct (y_client s && negb (null_or_empty inp)); [reflexivity|]. destruct (y_client s).
    + destruct (tls_to_proto (o_min (y_options s))); [destruct c; reflexivity|]. destruct (tls_to_proto (o_max (y_options s))); [destruct c; reflexivity|].
      destruct (suites_to_proto (o_suites (y_options s))); [destruct c; reflexivity|].
      destruct (all_some (map fill_identity (ho_ids o (o_target (y_options s))))); [|reflexivity].
      destruct (1 <? lenN (o_local (y_options s))); [reflexivity|].
      destruct (match ho_ids o (o_local (y_options s)) with [] => Some None | i :: _ => match fill_identity i with Some p => Some (Some p) | None => None end end);
        [|reflexivity]. unfold serialize_req. destruct ser; reflexivity.
    + destruct (tls_to_proto (o_min (y_options s))); [destruct c; reflexivity|]. destruct (tls_to_proto (o_max (y_options s))); [destruct c; reflexivity|].
      destruct (suites_to_proto (o_suites (y_options s))); [destruct c; reflexivity|].
      destruct (all_some (map fill_identity (ho_ids o (o_local (y_options s))))); [|reflexivity]. unfold serialize_req. destruct ser; reflexivity.
  - destruct (null_or_empty inp); reflexivity.
Qed.

Lemma s2a_fixed : forall tm o ser s inp s' st, get_bytes_for_s2a tm o ser s inp = (s', st) ->
  y_finished s' = y_finished s /\ y_context s' = y_context s /\ y_result s' = y_result s /\ y_channel s' = y_channel s.
Proof.
  intros tm o ser s inp s' st E. assert (F : fill s s = s) by (destruct s; reflexivity).
  pose proof (fill_s2a tm o ser s s inp) as K. rewrite F, E in K. injection K as K. rewrite K. cbn. auto.
Qed.

Lemma populate_sel : forall tm o s, y_selected (populate_token_cache tm o s) = y_selected s.
Proof. intros tm o s. destruct (populate_frame tm o s) as (c & l & ->). reflexivity. Qed.
Lemma s2a_selected : forall tm o ser s inp s' st, get_bytes_for_s2a tm o ser s inp = (s', st) -> y_selected s' = y_selected s.
Proof.
  intros tm o ser s inp s' st. unfold get_bytes_for_s2a, get_client_start, get_server_start, get_next.
  assert (K : forall (b : bool) (s : proxy), y_selected (if b then set_first s false else s) = y_selected s) by (intros [|] ?; reflexivity).
  destruct (y_first s); [|destruct (null_or_empty inp); intros E; injection E as <- _; [reflexivity|apply populate_sel]].
  destruct (y_client s && negb (null_or_empty inp)); [intros E; injection E as <- _; reflexivity|].
  destruct (y_client s).
  - destruct (tls_to_proto (o_min (y_options s))); [intros E; injection E as <- _; first [apply K | reflexivity]|]. destruct (tls_to_proto (o_max (y_options s))); [intros E; injection E as <- _; first [apply K | reflexivity]|].
    destruct (suites_to_proto (o_suites (y_options s))); [intros E; injection E as <- _; first [apply K | reflexivity]|].
    destruct (all_some (map fill_identity (ho_ids o (o_target (y_options s))))); [|intros E; injection E as <- _; first [apply K | reflexivity]].
    destruct (1 <? lenN (o_local (y_options s))); [intros E; injection E as <- _; first [apply K | reflexivity]|].
    destruct (match ho_ids o (o_local (y_options s)) with [] => Some None | i :: _ => match fill_identity i with Some p => Some (Some p) | None => None end end);
      intros E; injection E as <- _; [|first [apply K | reflexivity]]. rewrite K. apply populate_sel.
  - destruct (tls_to_proto (o_min (y_options s))); [intros E; injection E as <- _; first [apply K | reflexivity]|]. destruct (tls_to_proto (o_max (y_options s))); [intros E; injection E as <- _; first [apply K | reflexivity]|].
    destruct (suites_to_proto (o_suites (y_options s))); [intros E; injection E as <- _; first [apply K | reflexivity]|].
    destruct (all_some (map fill_identity (ho_ids o (o_local (y_options s))))); intros E; injection E as <- _; [|first [apply K | reflexivity]]. rewrite K. apply populate_sel.
Qed.

(* GetBytesForPeer as a function of the response. *)
Lemma peer_of : forall V s inp, get_bytes_for_peer V s inp =
  match peer_good V inp with
  | Some r =>
    let s1 := match rs_local r with Some i => set_selected s (Some (identity_from_proto (Some i))) | None => s end in
    let '(s2, err) := match rs_result r with Some res => take_result s1 res | None => (s1, None) end in
    match err with Some c => (s2, proxy_error c) | None => (s2, (kOk, rs_consumed r, Some (rs_out_frames r))) end
  | None => (s, snd (get_bytes_for_peer V s inp))
  end.
Proof.
  intros V s inp. destruct (peer_good V inp) as [r|] eqn:G.
  - apply peer_good_is in G. destruct inp as [b|]; [|destruct G as [K _]; destruct K; reflexivity]. apply peer_is. exact G.
  - destruct (get_bytes_for_peer V s inp) as [s' st] eqn:E. apply peer_call_is in E. destruct E as [c Hc Hn|r s1 s2 err G' _ _]; [reflexivity|].
    apply peer_good_is in G'. congruence.
Qed.
Lemma peer_bad_status : forall V s s' inp, peer_good V inp = None -> snd (get_bytes_for_peer V s inp) = snd (get_bytes_for_peer V s' inp).
Proof.
  intros V s s' inp. unfold peer_good, get_bytes_for_peer. destruct inp as [[|x b]|]; try reflexivity.
  destruct (parse_resp V (x :: b)) as [r|]; [|reflexivity]. destruct (rs_status r) as [st|]; [|reflexivity].
  destruct (pst_code st =? 0); [discriminate|reflexivity].
Qed.

Lemma has_state_of : forall V inp r, peer_good V inp = Some r -> has_state V inp = match rs_result r with Some res => some (pr_state res) | None => false end.
Proof. intros V inp r G. unfold has_state. rewrite G. reflexivity. Qed.

(* Nothing but the declared locations is written. *)
Lemma Q67c : forall w m op p m' p', advance w m op p = Done (m', p') -> forall l, ~ In (l, true) (accesses w op p) -> same_at l m m'.
Proof.
  intros w m op p m' p' E l Hl.
  assert (Refl : same_at l m m) by (destruct l; cbn; auto; tauto).
  destruct p as [ | |r|f todo acc|[p|] f todo acc|acc|acc ch|acc ch| |c|r]; cbn [advance unlocked] in E;
    try (injection E as <- _; exact Refl).
  - destruct op as [inp o ser|inp| |fs|]; cbn [body] in E; try (injection E as <- _; exact Refl).
    + destruct (get_bytes_for_s2a (w_manager w) o ser (sh_proxy m) inp) as [s' st] eqn:Es. injection E as <- _.
      destruct (s2a_fixed _ _ _ _ _ _ _ Es) as (A1 & A2 & A3 & A4). pose proof (s2a_selected _ _ _ _ _ _ _ Es) as A5. cbn in Hl.
      destruct l; cbn; auto; try tauto. rewrite A3. tauto.
    + destruct (get_bytes_for_peer (w_text w) (sh_proxy m) inp) as [s' st] eqn:Es. injection E as <- _. rewrite peer_of in Es.
      cbn [accesses body_accesses] in Hl. destruct (peer_good (w_text w) inp) as [r|] eqn:G.
      2: { injection Es as <- _. unfold has_state. rewrite G. destruct m; exact Refl. }
      rewrite (has_state_of _ _ _ G). cbv zeta in Es.
      assert (Hin : ~ In (l, true) (if some (rs_local r) then [(LSelected, true)] else [])) by (intros K; apply Hl; apply in_app_iff; auto).
      assert (Hr : forall res, rs_result r = Some res -> l <> LFinished /\
        ~ In (l, true) (if some (pr_state res) then [(LResult, true); (LObject, true)] else []) /\ ~ In (l, true) (if accepted res then [(LContext, true)] else [])).
      { intros res Er. rewrite Er in Hl. split; [|split].
        - intros ->. apply Hl. apply in_app_iff. right. left. reflexivity.
        - intros K. apply Hl. apply in_app_iff. right. right. apply in_app_iff. auto.
        - intros K. apply Hl. apply in_app_iff. right. right. apply in_app_iff. auto. }
      clear Hl. set (s1 := match rs_local r with Some i => set_selected (sh_proxy m) (Some (identity_from_proto (Some i))) | None => sh_proxy m end) in *.
      assert (H1 : same_at l m {| sh_proxy := s1; sh_object := sh_object m |}).
      { subst s1. destruct (rs_local r); [|destruct m; exact Refl]. cbn in Hin. destruct l; cbn; auto; try tauto. }
      destruct (rs_result r) as [res|]; [|injection Es as <- _; exact H1].
      destruct (Hr res eq_refl) as (B1 & B2 & B3). clear Hr Hin Refl.
      assert (E2 : exists err, take_result s1 res = (s', err)). { destruct (take_result s1 res) as [s2 [c|]]; injection Es as <- _; eauto. }
      destruct E2 as [err E2]. clear Es. pose proof (take_result_frame _ _ _ _ E2) as (_ & T2 & T3 & T4 & T5 & _ & T7).
      destruct l; cbn [same_at sh_proxy sh_object] in *; try congruence.
      * rewrite <- H1. unfold take_result in E2. unfold accepted in B3. destruct (pr_state res) as [st'|]; [|injection E2 as <- _; reflexivity].
        destruct (tls_from_proto (pt_tls st')); [injection E2 as <- _; reflexivity|]. destruct (suite_from_proto (pt_suite st')); [injection E2 as <- _; reflexivity|].
        destruct (pr_local res); [|injection E2 as <- _; reflexivity]. destruct B3. left. reflexivity.
      * unfold take_result in E2. destruct (pr_state res) as [st'|]; [destruct B2; left; reflexivity|]. injection E2 as <- _. exact H1.
      * unfold take_result in E2. destruct (pr_state res) as [st'|]; [destruct B2; right; left; reflexivity|]. injection E2 as <- _. exact H1.
  - destruct (y_result (sh_proxy m)); [|discriminate]. destruct (p =? sh_object m); [|discriminate]. injection E as <- _. exact Refl.
  - discriminate.
  - injection E as <- _. cbn in Hl. destruct l; cbn; auto; tauto.
  - destruct op; try (injection E as <- _; exact Refl).
    destruct (fp_create (w_prims w) (w_lib w) (protector_args (sh_proxy m) acc ch) fs) as [[r fs']|u|]; cbn [obind] in E; try discriminate.
    injection E as <- _. exact Refl.
  - injection E as <- _. cbn in Hl. destruct l; cbn; auto; tauto.
Qed.

Lemma config_fields : forall s s', config s = config s' -> y_client s = y_client s' /\ y_protocol s = y_protocol s' /\ y_hostname s = y_hostname s' /\
  y_options s = y_options s' /\ y_manager s = y_manager s'.
Proof. unfold config. intros s s' H. injection H as H1 H2 H3 H4 H5. auto. Qed.

(* What happens depends only on the locations declared as read, and on the
   configuration. *)
Lemma Q67d : forall w a cs ops1 rs1 ops2 rs2 m1 m2 op p,
  proxied w a cs ops1 rs1 (sh_proxy m1) -> proxied w a cs ops2 rs2 (sh_proxy m2) -> sh_object m1 = sh_object m2 ->
  (forall l, In (l, false) (accesses w op p) -> same_at l m1 m2) ->
  match advance w m1 op p, advance w m2 op p with
  | Done (m1', p1), Done (m2', p2) => p1 = p2 /\ forall l, In (l, true) (accesses w op p) -> same_at l m1' m2'
  | Undef u1, Undef u2 => u1 = u2
  | NoFuel, NoFuel => True
  | _, _ => False
  end.
Proof.
  intros w a cs ops1 rs1 ops2 rs2 m1 m2 op p H1 H2 Ho Hr.
  destruct (proxied_config _ _ _ _ _ _ H1) as [C1 _]. destruct (proxied_config _ _ _ _ _ _ H2) as [C2 _]. rewrite <- C2 in C1. clear H1 H2 C2.
  apply config_fields in C1. destruct C1 as (F1 & F2 & F3 & F4 & F5).
  destruct p as [ | |r|f todo acc|[p|] f todo acc|acc|acc ch|acc ch| |c|r]; cbn [advance unlocked]; try solve [split; [reflexivity|intros l []]].
  - destruct op as [inp o ser|inp| |fs|]; cbn [body accesses body_accesses] in *.
    + assert (R1 := Hr LFirst (or_introl eq_refl)). assert (R2 := Hr LTokens (or_intror (or_intror (or_introl eq_refl)))).
      assert (R3 := Hr LSelected (or_intror (or_intror (or_intror (or_intror (or_introl eq_refl)))))). cbn in R1, R2, R3. destruct R2 as [R2 R4].
      assert (E : sh_proxy m2 = fill (sh_proxy m1) (sh_proxy m2)).
      { destruct (sh_proxy m1), (sh_proxy m2). cbn in *. unfold fill. cbn. congruence. }
      rewrite E, fill_s2a. destruct (get_bytes_for_s2a (w_manager w) o ser (sh_proxy m1) inp) as [s' st]. split; [reflexivity|].
      intros l Hl. cbn in Hl. repeat (destruct Hl as [Hl|Hl]; [injection Hl as <- || discriminate Hl; cbn; auto|]); try (injection Hl; discriminate); destruct Hl.
    + rewrite (peer_of (w_text w) (sh_proxy m1)), (peer_of (w_text w) (sh_proxy m2)). destruct (peer_good (w_text w) inp) as [r|] eqn:G.
      2: { split; [rewrite (peer_bad_status _ (sh_proxy m1) (sh_proxy m2) inp G); reflexivity|]. intros l []. }
      cbv zeta. rewrite (has_state_of _ _ _ G), <- Ho. clear G Hr.
      set (sel := fun s => match rs_local r with Some i => set_selected s (Some (identity_from_proto (Some i))) | None => s end).
      change (match rs_local r with Some i => set_selected (sh_proxy m1) (Some (identity_from_proto (Some i))) | None => sh_proxy m1 end) with (sel (sh_proxy m1)).
      change (match rs_local r with Some i => set_selected (sh_proxy m2) (Some (identity_from_proto (Some i))) | None => sh_proxy m2 end) with (sel (sh_proxy m2)).
      assert (Sel : forall l, In (l, true) (if some (rs_local r) then [(LSelected, true)] else []) ->
        l = LSelected /\ y_selected (sel (sh_proxy m1)) = y_selected (sel (sh_proxy m2))).
      { intros l Hl. subst sel. destruct (rs_local r); [|destruct Hl]. destruct Hl as [Hl|[]]. injection Hl as <-. split; reflexivity. }
      destruct (rs_result r) as [res|].
      2: { split; [reflexivity|]. intros l Hl. rewrite app_nil_r in Hl. destruct (Sel l Hl) as [-> K]. cbn. auto. }
      generalize dependent (sel (sh_proxy m2)). generalize (sel (sh_proxy m1)). intros s1 s2 Sel. clear sel.
      unfold take_result, accepted. destruct (pr_state res) as [st|].
      2: { cbn [some]. split; [reflexivity|]. intros l Hl. apply in_app_iff in Hl. destruct Hl as [Hl|[Hl|[]]].
        - destruct (Sel l Hl) as [-> K]. cbn. auto.
        - injection Hl as <-. reflexivity. }
      destruct (tls_from_proto (pt_tls st)) as [c|tls]; [|destruct (suite_from_proto (pt_suite st)) as [c|su]; [|destruct (pr_local res) as [lo|]]];
        cbn [some]; (split; [reflexivity|]; intros l Hl; apply in_app_iff in Hl; destruct Hl as [Hl|Hl]; [destruct (Sel l Hl) as [-> K]; cbn; auto|]);
        cbn in Hl; repeat (destruct Hl as [Hl|Hl]; [injection Hl as <-; cbn; repeat split; auto|]); destruct Hl.
    + assert (R := Hr LFinished (or_introl eq_refl)). cbn in R. split; [rewrite R; reflexivity|]. intros l [Hl|[]]. discriminate Hl.
    + assert (R := Hr LFinished (or_introl eq_refl)). cbn in R. split; [rewrite R; reflexivity|]. intros l [Hl|[]]. discriminate Hl.
    + assert (R := Hr LFinished (or_introl eq_refl)). cbn in R. split; [rewrite R; reflexivity|]. intros l [Hl|[]]. discriminate Hl.
  - assert (R := Hr LResult (or_introl eq_refl)). cbn in R. destruct R as [R _]. split; [|intros l [Hl|[]]; discriminate Hl].
    rewrite Ho. destruct (y_result (sh_proxy m1)), (y_result (sh_proxy m2)); try reflexivity; exfalso; [destruct R as [R _]|destruct R as [_ R]]; specialize (R eq_refl); discriminate.
  - assert (R := Hr LObject (or_introl eq_refl)). cbn in R. destruct R as [-> _]. rewrite <- Ho. destruct (y_result (sh_proxy m1)); [|reflexivity].
    destruct (p =? sh_object m1); [|reflexivity]. split; [reflexivity|]. intros l [Hl|[]]. discriminate Hl.
  - reflexivity.
  - assert (R := Hr LChannel (or_introl eq_refl)). cbn in R. rewrite R. split; [reflexivity|]. intros l [Hl|[]]. discriminate Hl.
  - split; [reflexivity|]. intros l [Hl|[]]. injection Hl as <-. reflexivity.
  - destruct op; try (split; [reflexivity|intros l []]). unfold protector_args. rewrite F4.
    match goal with |- context [fp_create ?a ?b ?c ?d] => destruct (fp_create a b c d) as [[r fs']|u|] end; cbn [obind]; [|reflexivity|exact Logic.I].
    split; [reflexivity|]. intros l [].
  - assert (R := Hr LContext (or_introl eq_refl)). cbn in R. rewrite R. split; [reflexivity|]. intros l [Hl|[]]. discriminate Hl.
  - split; [reflexivity|]. intros l [Hl|[]]. injection Hl as <-. reflexivity.
Qed.
