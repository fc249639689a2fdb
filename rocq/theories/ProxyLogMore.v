(* The proxy's log: which lines, when none, and what they do not depend on. *)
From Coq Require Import List NArith Bool Permutation Lia ZifyBool ZifyNat ZifyN.
From Verif Require Import Base Aead AeadProofs Hkdf HalfConn Options HsHandler Crypter FrameProt Wire SpecWire WireProofs WireMsgs
  Util Context SpecOptions HsMsgProofs Proxy ProxyRun SpecProxy ProxyProofs ProxyFinal ProxyTokens ProxyMore ProxyLog SpecProxyLog ProxyLogProofs.
Import ListNotations.
Local Open Scope N_scope.

Lemma plstep_done : forall w s op s' r ls, plstep w s op = Done (s', r, ls) -> pstep w s op = Done (s', r).
Proof. intros w s op s' r ls E. pose proof (plstep_pstep w s op) as H. rewrite E in H. exact H. Qed.

Lemma U80s2a : forall w a cs ops rs s inp o ser s' st ls, proxied w a cs ops rs s -> order_ok o ->
  plstep w s (PToS2A inp o ser) = Done (s', RToS2A st, ls) ->
  (exists l, refused (ya_client a) (is_first rs) (o_local (options_after cs)) (bytes_of inp) l /\
     s' = s /\ st = (kFailedPrecondition, 0, None) /\ ls = [l]) \/
  ((forall l, ~ refused (ya_client a) (is_first rs) (o_local (options_after cs)) (bytes_of inp) l) /\
   exists new auth, y_log s' = y_log s ++ new /\
     ls = token_lines (ya_manager a) new ++ mechanism_lines auth ++ (if ser then [] else [YSerialize]) /\
     if ser then exists q b, st = (kOk, 0, Some b) /\ encodes b {| rq_oneof := q; rq_auth := auth |}
     else st = (kInternal, 0, None)).
Proof.
  intros w a cs ops rs s inp o ser s' st ls Hp Ho E. pose proof (plstep_done _ _ _ _ _ _ E) as Es.
  destruct (proxied_config _ _ _ _ _ _ Hp) as [Hc Hm]. pose proof (first_sent _ _ _ _ _ _ Hp) as Hf.
  assert (Hfi : y_first s = is_first rs). { unfold is_first. destruct (sent rs); destruct (y_first s); auto; destruct Hf as [A B]; [specialize (B eq_refl); congruence|specialize (A eq_refl); congruence]. }
  cbn [plstep] in E. destruct (get_bytes_for_s2a_l (w_manager w) o ser s inp) as [[s1 st1] ls1] eqn:El. injection E as <- <- <-.
  unfold config, config_of in Hc. injection Hc as H1 H2 H3 H4 H5. rewrite <- H1, <- H4, <- H5, <- Hfi.
  destruct (to_s2a_lines _ _ _ _ _ _ _ _ Ho Hm El) as [(l & K & -> & -> & ->)|[Hn (new & auth & A & B & C & D)]]; [left; exists l; auto|right].
  split; [exact Hn|]. exists new, auth. split; [exact A|]. split; [exact B|]. destruct ser; [|exact D]. destruct D as (q & ->).
  cbn [pstep] in Es. destruct (get_bytes_for_s2a (w_manager w) o true s inp) as [s2 st2] eqn:Eg. injection Es as <- ->.
  apply s2a_call_is in Eg; [|exact Ho|exact Hm]. destruct (sent_auth _ _ _ _ _ _ _ _ _ Eg) as (q' & He & _). subst auth.
  eexists q', _. split; [reflexivity|exact He].
Qed.

Lemma U80peer : forall w s inp s' r ls, plstep w s (PToPeer inp) = Done (s', r, ls) ->
  (exists l, bad_response (w_text w) (bytes_of inp) l /\ ls = [l] /\ pres_failed r) \/
  (exists m, good_response (w_text w) (bytes_of inp) m /\
     match rs_result m with
     | None => ls = [] /\ ~ pres_failed r
     | Some res => result_lines res ls /\
         (pres_failed r <-> exists l, In l ls /\ l <> YNoPeer)
     end).
Proof.
  intros w s inp s' r ls E. cbn [plstep] in E. unfold get_bytes_for_peer_l in E. destruct inp as [[|b bs]|].
  - injection E as <- <- <-. left. exists YNeedS2A. split; [constructor|]. split; [reflexivity|discriminate].
  - destruct (parse_resp (w_text w) (b :: bs)) as [m|] eqn:Ep.
    2: { injection E as <- <- <-. left. exists YNoResponse. split; [constructor; [discriminate|exact Ep]|]. split; [reflexivity|discriminate]. }
    destruct (rs_status m) as [x|] eqn:Es.
    2: { injection E as <- <- <-. left. exists YEmpty. split; [econstructor; [discriminate|exact Ep|exact Es]|]. split; [reflexivity|discriminate]. }
    destruct (N.eqb_spec (pst_code x) 0) as [Hc|Hc]; cbn [negb] in E.
    2: { injection E as <- <- <-. left. exists (YError (pst_details x)). split; [econstructor; [discriminate|exact Ep|exact Es|exact Hc]|]. split; [reflexivity|discriminate]. }
    right. exists m. split. { split; [discriminate|]. split; [exact Ep|]. eauto. }
    destruct (rs_result m) as [res|]; [|injection E as <- <- <-; split; [reflexivity|]; cbn; tauto].
    unfold take_result_l, take_result in E. destruct (pr_state res) as [st|] eqn:Est.
    2: { injection E as <- <- <-. split; [now constructor|]. split; [|discriminate]. intros _. exists YResult. split; [now left|discriminate]. }
    destruct (tls_from_proto (pt_tls st)) as [c|v] eqn:Et.
    { injection E as <- <- <-. destruct (tls_from_cases (pt_tls st)) as [(v & K)|K]; [apply tls_from_ok in K; congruence|].
      split; [eapply RlTls; [exact Est|]|].
      - intros (v & Q). apply tls_from_ok in Q. congruence.
      - split; [intros _; exists YTls; split; [now left|discriminate]|]. intros _. cbn. rewrite Et in K. injection K as ->. discriminate. }
    apply tls_from_ok in Et. destruct (suite_from_proto (pt_suite st)) as [c|u] eqn:Eu.
    { injection E as <- <- <-. destruct (suite_from_cases (pt_suite st)) as [(v' & K)|K]; [apply suite_from_ok in K; congruence|].
      split; [eapply RlSuite; [exact Est|exact Et|]|].
      - intros (v' & Q). apply suite_from_ok in Q. congruence.
      - split; [intros _; exists YSuite; split; [now left|discriminate]|]. intros _. cbn. rewrite Eu in K. injection K as ->. discriminate. }
    apply suite_from_ok in Eu. destruct (pr_local res) as [loc|] eqn:Elo; injection E as <- <- <-.
    + split; [rewrite <- (app_nil_r (match pr_peer res with Some _ => [] | None => [YNoPeer] end)) at 1; pose proof (RlPeer _ _ _ _ Est Et Eu) as K; rewrite Elo, app_nil_r in K; rewrite !app_nil_r; exact K|].
      split; [cbn; congruence|]. intros (l & Hl & Hn). rewrite app_nil_r in Hl. destruct (pr_peer res); [destruct Hl|destruct Hl as [<-|[]]; congruence].
    + split; [pose proof (RlPeer _ _ _ _ Est Et Eu) as K; rewrite Elo in K; exact K|].
      split; [intros _; exists YNoLocal; split; [apply in_app_iff; right; now left|discriminate]|discriminate].
  - injection E as <- <- <-. left. exists YNeedS2A. split; [constructor|]. split; [reflexivity|discriminate].
Qed.

Lemma U80failed : forall w a cs ops rs s op s' r ls, proxied w a cs ops rs s -> pop_ok op ->
  plstep w s op = Done (s', r, ls) -> pres_failed r ->
  (ls = [] <-> (exists fs, op = PProtector fs) /\ result_received (w_text w) ops).
Proof.
  intros w a cs ops rs s op s' r ls Hp Hok E Hf. destruct op as [inp o ser|inp| |fs|].
  - pose proof E as E0. cbn [plstep] in E0. destruct (get_bytes_for_s2a_l (w_manager w) o ser s inp) as [[s1 st] ls1]. injection E0 as _ <- _.
    split; [|intros [[fs K] _]; discriminate]. intros ->.
    destruct (U80s2a _ _ _ _ _ _ _ _ _ _ _ _ Hp Hok E) as [(l & _ & _ & _ & K)|(_ & new & auth & _ & K & H)]; [discriminate|].
    destruct ser; [destruct H as (q & b & -> & _); cbn in Hf; congruence|]. symmetry in K. apply app_eq_nil in K. destruct K as [_ K]. apply app_eq_nil in K. destruct K; discriminate.
  - split; [|intros [[fs K] _]; discriminate]. intros ->.
    destruct (U80peer _ _ _ _ _ _ E) as [(l & _ & K & _)|(m & _ & K)]; [discriminate|]. destruct (rs_result m).
    + destruct K as [_ [K _]]. destruct (K Hf) as (l & [] & _).
    + destruct K as [_ K]. contradiction.
  - cbn in E. injection E as <- <- <-. contradiction.
  - cbn [plstep] in E. destruct (create_frame_protector (w_prims w) (w_lib w) s fs) as [[[s1 x] fs1]|u|]; try discriminate. cbn [obind] in E. injection E as <- <- <-.
    rewrite <- (finished_iff _ _ _ _ _ _ Hp). destruct (y_finished s); split; intros; try discriminate; try tauto; eauto.
    destruct H as [_ H]. discriminate.
  - cbn [plstep] in E. split; [|intros [[fs K] _]; discriminate]. unfold get_s2a_context in E. destruct (y_finished s); cbn [negb] in E; injection E as <- <- <-; [|discriminate].
    cbn in Hf. destruct Hf; discriminate.
Qed.

(* ---- when there is no line ---- *)

(* All cached tokens belong to named identities. *)
Definition named (c : list (identity * bytes)) : Prop := Forall (fun e => id_type_of (fst e) <> NONE) c.
Lemma put_named : forall i t c, id_type_of i <> NONE -> named c -> named (cache_put i t c).
Proof.
  intros i t c Hi. induction c as [|e c IH]; intros H; cbn; [constructor; [exact Hi|constructor]|]. inversion_clear H.
  destruct (identity_eqb i (fst e)); constructor; auto. apply IH. assumption.
Qed.
Lemma fetch_named : forall tm ids c l c' l', typed ids -> named c -> fetch_tokens tm ids c l = (c', l') -> named c'.
Proof.
  intros tm. induction ids as [|i ids IH]; intros c l c' l' Hi H E; cbn [fetch_tokens] in E; [injection E as <- <-; exact H|].
  inversion_clear Hi. destruct (cache_mem i c); [eauto|]. destruct (tm l (GetToken i)); eapply IH; try exact E; auto. now apply put_named.
Qed.
Lemma populate_named : forall tm o s, order_ok o -> opts_typed (y_options s) -> o_local (y_options s) <> [] ->
  (forall i, y_selected s = Some i -> id_type_of i <> NONE) -> named (y_cache s) -> named (y_cache (populate_token_cache tm o s)).
Proof.
  intros tm o s [Ho _] [Hl _] Hne Hsel H.
  assert (F : forall l, named (y_cache (fetch_all tm o s (y_cache s) l))).
  { intros l. unfold fetch_all. destruct (fetch_tokens tm (ho_ids o (o_local (y_options s))) (y_cache s) l) as [c1 l1] eqn:E.
    apply fetch_named in E; [|eapply typed_perm; [apply Ho|exact Hl]|exact H]. destruct (o_local (y_options s)); [congruence|exact E]. }
  unfold populate_token_cache. destruct (y_manager s); cbn [negb]; [|exact H]. destruct (y_selected s) as [i|]; [|apply F].
  destruct (cache_mem i (y_cache s) && (lenN (y_cache s) =? 1)); [exact H|]. destruct (tm (y_log s) (GetToken i)); [|apply F].
  constructor; [apply Hsel; reflexivity|constructor].
Qed.

Lemma selects_named : forall l i, all_named l -> selects l i -> made_identity i -> id_type_of i <> NONE.
Proof. intros l i H (k & p & -> & Hm) Hi E. apply (H p); [apply in_app_iff; right; now left|]. rewrite <- (Hi E). exact Hm. Qed.

Lemma proxied_selects : forall w a cs ops rs s, proxied w a cs ops rs s -> all_named (selections (w_text w) ops) ->
  forall i, y_selected s = Some i -> id_type_of i <> NONE.
Proof.
  intros w a cs ops rs s Hp Ha i Hi. destruct (proxied_tokens _ _ _ _ _ _ Hp) as [_ HS]. rewrite Hi in HS.
  eapply selects_named; [exact Ha|exact HS|]. destruct HS as (k & p & _ & Hm). eapply meant_made. exact Hm.
Qed.
Lemma proxied_named : forall w a cs ops rs s, proxied w a cs ops rs s -> locals_added cs <> [] -> all_named (selections (w_text w) ops) ->
  named (y_cache s).
Proof.
  intros w a cs ops rs s Hp Hl. revert ops rs s Hp. apply (proxied_ind w a cs (fun ops rs s => all_named (selections (w_text w) ops) -> named (y_cache s))).
  - intros s Ho Hc _. destruct (create_is a cs s Ho Hc) as (_ & -> & _). constructor.
  - intros ops rs s op s' r Hp IH Hok Es Ha. rewrite selections_app in Ha.
    assert (Ha' : all_named (selections (w_text w) ops)). { intros p Hi. apply Ha. apply in_app_iff. now left. }
    specialize (IH Ha'). destruct (proxied_config _ _ _ _ _ _ Hp) as [Hc Hm].
    destruct (tokens_step _ _ _ _ _ Hok Hm Es) as [[-> _]|(inp & o & ser & -> & -> & _)]; [exact IH|].
    apply populate_named; auto; [|eapply proxied_selects; eassumption].
    unfold config, config_of in Hc. injection Hc as _ _ _ -> _. intros K. apply Hl.
    destruct (options_inv cs) as (_ & _ & _ & _ & _ & Q & _). destruct (locals_added cs) as [|i r']; [reflexivity|].
    specialize (Q i). rewrite K in Q. destruct Q as [_ Q]. destruct (Q (or_introl eq_refl)).
Qed.

Lemma named_quiet : forall o s, order_ok o -> named (y_cache s) -> auth_lines o s = [].
Proof.
  intros o s [_ Ho] H. unfold auth_lines.
  assert (K : named (ho_tokens o (y_cache s))). { eapply Permutation_Forall; [apply Permutation_sym, Ho|exact H]. }
  induction K as [|e l He K IH]; [reflexivity|]. cbn. destruct (fill_some _ He) as (p & ->). exact IH.
Qed.

Lemma options_local : forall cs, o_local (options_after cs) = [] <-> locals_added cs = [].
Proof.
  intros cs. destruct (options_inv cs) as (_ & _ & _ & _ & _ & Q & _). split; intros K.
  - destruct (locals_added cs) as [|i r]; [reflexivity|]. specialize (Q i). rewrite K in Q. destruct Q as [_ Q]. destruct (Q (or_introl eq_refl)).
  - destruct (o_local (options_after cs)) as [|i r]; [reflexivity|]. specialize (Q i). rewrite K in Q. destruct Q as [Q _]. destruct (Q (or_introl eq_refl)).
Qed.

Lemma U81 : forall w a cs ops rs s inp o ser s' n b ls, proxied w a cs ops rs s -> order_ok o ->
  ya_manager a = true -> locals_added cs <> [] -> all_named (selections (w_text w) ops) ->
  plstep w s (PToS2A inp o ser) = Done (s', RToS2A (kOk, n, Some b), ls) ->
  exists new, y_log s' = y_log s ++ new /\ ls = flat_map call_lines new.
Proof.
  intros w a cs ops rs s inp o ser s' n b ls Hp Ho Hma Hl Ha E.
  destruct (proxied_config _ _ _ _ _ _ Hp) as [Hc Hm]. cbn [plstep] in E.
  destruct (get_bytes_for_s2a_l (w_manager w) o ser s inp) as [[s1 st1] ls1] eqn:El. injection E as <- -> <-.
  unfold config, config_of in Hc. injection Hc as H1 H2 H3 H4 H5.
  destruct (to_s2a_lines _ _ _ _ _ _ _ _ Ho Hm El) as [(l & _ & _ & K & _)|[_ (new & auth & A & B & C & D)]]; [discriminate|].
  exists new. split; [exact A|]. destruct ser; [|discriminate]. rewrite B, H5, Hma. cbn [token_lines]. rewrite C, <- auth_lines_are, named_quiet; [now rewrite !app_nil_r|exact Ho|].
  apply populate_named; auto; [rewrite H4; intros K; apply Hl; now apply options_local|eapply proxied_selects; eassumption|eapply proxied_named; eassumption].
Qed.

(* Without local identities the default token is used, and each message has a
   line about an unknown identity type. *)
Lemma U81every : forall w a cs ops rs s inp o ser s' n b ls t, proxied w a cs ops rs s -> order_ok o ->
  ya_manager a = true -> locals_added cs = [] -> selections (w_text w) ops = [] ->
  plstep w s (PToS2A inp o ser) = Done (s', RToS2A (kOk, n, Some b), ls) -> w_manager w (y_log s) GetDefaultToken = Some t ->
  y_log s' = y_log s ++ [(GetDefaultToken, Some t)] /\ ls = [YUnknown 0].
Proof.
  intros w a cs ops rs s inp o ser s' n b ls t Hp Ho Hma Hl Hsel E Ht.
  pose proof (proxied_free _ _ _ _ _ _ Hp Hma Hsel) as (I1 & I2 & I3 & I4).
  destruct (proxied_config _ _ _ _ _ _ Hp) as [Hc Hm]. cbn [plstep] in E.
  destruct (get_bytes_for_s2a_l (w_manager w) o ser s inp) as [[s1 st1] ls1] eqn:El. injection E as <- -> <-.
  unfold config, config_of in Hc. injection Hc as H1 H2 H3 H4 H5. apply options_local in Hl. rewrite <- H4 in Hl.
  destruct (proxied_tokens _ _ _ _ _ _ Hp) as [_ HS]. rewrite Hsel in HS.
  assert (Hs : y_selected s = None). { destruct (y_selected s) as [i|]; [|reflexivity]. destruct HS as (k & p & K & _). destruct k; discriminate. }
  assert (Hids : ho_ids o [] = []). { apply Permutation_nil, Permutation_sym, Ho. }
  assert (Hp1 : populate_token_cache (w_manager w) o s = set_cache s (cache_put empty_identity t (y_cache s)) (y_log s ++ [(GetDefaultToken, Some t)])).
  { unfold populate_token_cache. rewrite H5, Hma, Hs. cbn [negb]. unfold fetch_all. rewrite Hl, Hids. cbn [fetch_tokens]. rewrite Ht. reflexivity. }
  destruct (to_s2a_lines _ _ _ _ _ _ _ _ Ho Hm El) as [(l & _ & _ & K & _)|[_ (new & auth & A & B & C & D)]]; [discriminate|].
  assert (Hlog : y_log s1 = y_log s ++ [(GetDefaultToken, Some t)]).
  { pose proof (s2a_erase (w_manager w) o ser s inp) as Q. rewrite El in Q. cbn in Q. symmetry in Q. apply s2a_call_is in Q; [|exact Ho|exact Hm].
    destruct (sent_auth _ _ _ _ _ _ _ _ _ Q) as (_ & _ & ->). rewrite Hp1. reflexivity. }
  split; [exact Hlog|]. rewrite Hlog in A. apply app_inv_head in A. subst new. destruct ser; [|discriminate]. rewrite B, H5, Hma. cbn [token_lines flat_map call_lines app].
  rewrite app_nil_r, C, Hp1. unfold auth_mechanisms. cbn [set_cache y_cache].
  assert (Hone : cache_put empty_identity t (y_cache s) = [(empty_identity, t)]).
  { assert (Hall : forall i u, In (i, u) (y_cache s) -> i = empty_identity).
    { intros i u Hi. apply I2 in Hi. destruct Hi as [K|[K _]]; [|exact K]. apply I3 in K. rewrite Hl in K. destruct K. }
    destruct (y_cache s) as [|[i u] c]; [reflexivity|]. pose proof (Hall i u (or_introl eq_refl)). subst i. cbn.
    destruct c as [|[j v] c]; [reflexivity|]. pose proof (Hall j v (or_intror (or_introl eq_refl))). subst j. cbn in I1. inversion I1 as [|x y Hn _]; subst. destruct Hn. now left. }
  rewrite Hone. assert (Hto : ho_tokens o [(empty_identity, t)] = [(empty_identity, t)]).
  { apply Permutation_length_1_inv, Permutation_sym, Ho. }
  rewrite Hto. reflexivity.
Qed.
