(* Tokens (C60), responses that cannot be used (C61), the channel factory
   (C63). *)
From Coq Require Import List NArith Bool Permutation Lia.
From Verif Require Import Base Aead AeadProofs Hkdf HalfConn Options HsHandler Crypter FrameProt Wire SpecWire WireProofs WireMsgs WireValid
  Util Context SpecOptions HsMsgProofs Proxy ProxyRun ProxyProofs ProxyFinal ProxyTokens SpecProxy SpecTls SpecHs SpecRecord SpecRx CrypterRun
  CrypterFinal CrypterChannel HalfRun SpecFrame FrameRun FrameSim FrameFinal.
Import ListNotations.
Local Open Scope N_scope.

(* ---- fetching tokens ---- *)
Lemma mem_in : forall i c, cache_mem i c = true <-> In i (map fst c).
Proof.
  intros i c. unfold cache_mem. rewrite existsb_exists. split.
  - intros (e & He & E). apply identity_eqb_true in E. subst i. now apply in_map.
  - intros H. apply in_map_iff in H. destruct H as (e & <- & He). exists e. split; [exact He|now apply identity_eqb_true].
Qed.
Lemma put_absent : forall i t c, ~ In i (map fst c) -> cache_put i t c = c ++ [(i, t)].
Proof.
  intros i t. induction c as [|e c IH]; intros H; [reflexivity|]. cbn. destruct (identity_eqb i (fst e)) eqn:E.
  - apply identity_eqb_true in E. destruct H. left. now symmetry.
  - f_equal. apply IH. intros K. apply H. now right.
Qed.

Lemma fetch_exact : forall tm ids c l c' l', NoDup ids -> fetch_tokens tm ids c l = (c', l') ->
  exists new, l' = l ++ new /\ NoDup (map fst new) /\
    (forall x, In x (map fst new) <-> exists i, x = GetToken i /\ In i ids /\ ~ In i (map fst c)) /\
    (forall i t, In (i, t) c' <-> In (i, t) c \/ In (GetToken i, Some t) new).
Proof.
  intros tm. induction ids as [|i ids IH]; intros c l c' l' Hn E; cbn [fetch_tokens] in E.
  - injection E as <- <-. exists []. rewrite app_nil_r. split; [reflexivity|]. split; [constructor|]. split; [|cbn; tauto].
    intros x. split; [intros []|intros (i & _ & [] & _)].
  - inversion Hn as [|x y Hi Hn']; subst. destruct (cache_mem i c) eqn:Em.
    + apply mem_in in Em. destruct (IH _ _ _ _ Hn' E) as (new & -> & H1 & H2 & H3). exists new. split; [reflexivity|]. split; [exact H1|].
      split; [|exact H3]. intros x. rewrite H2. split; intros (j & -> & Hj & Hc).
      * exists j. split; [reflexivity|]. split; [now right|exact Hc].
      * exists j. split; [reflexivity|]. split; [|exact Hc]. destruct Hj as [->|Hj]; [contradiction|exact Hj].
    + assert (Ha : ~ In i (map fst c)). { intros K. apply mem_in in K. congruence. }
      destruct (tm l (GetToken i)) as [t|] eqn:Et.
      * rewrite (put_absent _ _ _ Ha) in E. destruct (IH _ _ _ _ Hn' E) as (new & -> & H1 & H2 & H3).
        exists ((GetToken i, Some t) :: new). rewrite <- app_assoc. split; [reflexivity|]. cbn [map fst]. split.
        { constructor; [|exact H1]. rewrite H2. intros (j & K & Hj & _). injection K as <-. contradiction. }
        split.
        { intros x. cbn [In]. rewrite H2, map_app. split.
          - intros [<-|(j & -> & Hj & Hc)]; [exists i; cbn; auto|]. exists j. split; [reflexivity|]. split; [now right|].
            intros K. apply Hc. apply in_app_iff. now left.
          - intros (j & -> & [->|Hj] & Hc); [now left|]. right. exists j. split; [reflexivity|]. split; [exact Hj|].
            intros K. apply in_app_iff in K. destruct K as [K|[K|[]]]; [contradiction|]. cbn in K. subst j. contradiction. }
        { intros j u. rewrite H3, in_app_iff. cbn [In]. split.
          - intros [[K|[K|[]]]|K]; auto. injection K as <- <-. auto.
          - intros [K|[K|K]]; auto. injection K as <- <-. auto. }
      * destruct (IH _ _ _ _ Hn' E) as (new & -> & H1 & H2 & H3).
        exists ((GetToken i, None) :: new). rewrite <- app_assoc. split; [reflexivity|]. cbn [map fst]. split.
        { constructor; [|exact H1]. rewrite H2. intros (j & K & Hj & _). injection K as <-. contradiction. }
        split.
        { intros x. cbn [In]. rewrite H2. split.
          - intros [<-|(j & -> & Hj & Hc)]; [exists i; cbn; auto|]. exists j. cbn. auto.
          - intros (j & -> & [->|Hj] & Hc); [now left|]. right. exists j. auto. }
        { intros j u. rewrite H3. cbn [In]. intuition discriminate. }
Qed.

(* ---- while nothing is selected ---- *)
Lemma default_snoc : forall l e t, default_token (l ++ [e]) t <->
  match e with (GetDefaultToken, Some t') => t' = t | _ => default_token l t end.
Proof.
  intros l e t.
  assert (K : (forall t', e <> (GetDefaultToken, Some t')) -> default_token (l ++ [e]) t <-> default_token l t).
  { intros He. split.
    - intros (p & q & E & H). destruct q as [|x q _] using rev_ind.
      + apply app_inj_tail in E. destruct E as [_ E]. destruct (He _ E).
      + rewrite app_comm_cons, app_assoc in E. apply app_inj_tail in E. destruct E as [E _]. exists p, q. split; [exact E|].
        intros t' K. apply (H t'). apply in_app_iff. now left.
    - intros (p & q & -> & H). exists p, (q ++ [e]). rewrite <- app_assoc. split; [reflexivity|]. intros t' K. apply in_app_iff in K.
      destruct K as [K|[K|[]]]; [exact (H _ K)|exact (He _ K)]. }
  destruct e as [[i|] [t'|]]; try (apply K; intros u; discriminate). split.
  - intros (p & q & E & H). destruct q as [|x q _] using rev_ind.
    + apply app_inj_tail in E. destruct E as [_ E]. now injection E.
    + rewrite app_comm_cons, app_assoc in E. apply app_inj_tail in E. destruct E as [_ <-]. destruct (H t'). apply in_app_iff. right. now left.
  - intros ->. exists l, []. split; [reflexivity|]. intros u [].
Qed.
Lemma default_app : forall new l t, (forall x, In x (map fst new) -> x <> GetDefaultToken) -> (default_token (l ++ new) t <-> default_token l t).
Proof.
  induction new as [|[c a] new IH] using rev_ind; intros l t H; [rewrite app_nil_r; tauto|]. rewrite app_assoc, default_snoc.
  assert (Hc : c <> GetDefaultToken). { apply H. rewrite map_app. apply in_app_iff. right. now left. }
  rewrite <- IH with (l := l) by (intros x Hx; apply H; rewrite map_app; apply in_app_iff; now left).
  destruct c as [i|]; [|contradiction]. tauto.
Qed.

Definition free_inv (s : proxy) : Prop :=
  NoDup (map fst (y_cache s)) /\
  (forall i t, In (i, t) (y_cache s) <-> token_held (y_log s) i t) /\
  (forall i a, In (GetToken i, a) (y_log s) -> In i (o_local (y_options s))) /\
  (forall a, In (GetDefaultToken, a) (y_log s) -> o_local (y_options s) = []).

Lemma put_in : forall i t c j u, NoDup (map fst c) -> (In (j, u) (cache_put i t c) <-> (j = i /\ u = t) \/ (j <> i /\ In (j, u) c)).
Proof.
  intros i t c j u. induction c as [|[k v] c IH]; intros H; cbn.
  - split; [intros [K|[]]; injection K as <- <-; auto|intros [[-> ->]|[_ []]]; auto].
  - inversion H as [|x y Hk Hn]; subst. destruct (identity_eqb i k) eqn:E.
    + apply identity_eqb_true in E. subst k. cbn. split.
      * intros [K|K]; [injection K as <- <-; auto|]. right. split; [|auto]. intros ->. apply Hk. apply in_map_iff. exists (i, u). auto.
      * intros [[-> ->]|[Hj [K|K]]]; auto. injection K as <- <-. contradiction.
    + assert (Hik : k <> i). { intros ->. assert (identity_eqb i i = true) by now apply identity_eqb_true. congruence. }
      cbn. rewrite (IH Hn). split.
      * intros [K|[K|[Hj K]]]; auto. injection K as <- <-. auto.
      * intros [[-> ->]|[Hj [K|K]]]; auto.
Qed.
Lemma put_nodup : forall i t c, NoDup (map fst c) -> NoDup (map fst (cache_put i t c)).
Proof.
  intros i t. induction c as [|e c IH]; intros H; cbn; [constructor; [intros []|constructor]|]. inversion H as [|x y Hk Hn]; subst.
  destruct (identity_eqb i (fst e)) eqn:E; [exact H|]. cbn. constructor; [|now apply IH]. rewrite put_keys. intros [K|K]; [contradiction|].
  rewrite K in E. assert (identity_eqb i i = true) by now apply identity_eqb_true. congruence.
Qed.

Lemma key_in : forall (c : list (identity * bytes)) i, In i (map fst c) <-> exists t, In (i, t) c.
Proof.
  intros c i. rewrite in_map_iff. split.
  - intros ([j t] & <- & H). exists t. exact H.
  - intros (t & H). exists (i, t). auto.
Qed.

Lemma fetch_nodup : forall tm ids c l c' l', NoDup (map fst c) -> fetch_tokens tm ids c l = (c', l') -> NoDup (map fst c').
Proof.
  intros tm. induction ids as [|i ids IH]; intros c l c' l' H E; cbn [fetch_tokens] in E; [injection E as <- <-; exact H|].
  destruct (cache_mem i c); [eauto|]. destruct (tm l (GetToken i)); eapply IH; try exact E; auto using put_nodup.
Qed.

Lemma free_step : forall tm o s, order_ok o -> opts_typed (y_options s) -> NoDup (o_local (y_options s)) ->
  y_manager s = true -> y_selected s = None -> free_inv s ->
  let s' := populate_token_cache tm o s in
  free_inv s' /\ exists new, y_log s' = y_log s ++ new /\ NoDup (map fst new) /\
    (forall c, In c (map fst new) <-> calls_due (o_local (y_options s)) (y_log s) c).
Proof.
  intros tm o s [Ho _] [Hty _] Hnd Hm Hs (I1 & I2 & I3 & I4). unfold populate_token_cache. rewrite Hm, Hs. cbn [negb]. unfold fetch_all.
  destruct (fetch_tokens tm (ho_ids o (o_local (y_options s))) (y_cache s) (y_log s)) as [c1 l1] eqn:E.
  pose proof (fetch_nodup _ _ _ _ _ _ I1 E) as Hn1.
  apply fetch_exact in E; [|eapply Permutation_NoDup; [apply Permutation_sym, Ho|exact Hnd]].
  destruct E as (new & -> & N1 & N2 & N3).
  assert (Hin : forall i, In i (ho_ids o (o_local (y_options s))) <-> In i (o_local (y_options s))).
  { intros i. split; apply Permutation_in; [|apply Permutation_sym]; apply Ho. }
  assert (Hne : forall i, In i (o_local (y_options s)) -> i <> empty_identity).
  { intros i Hi ->. unfold typed in Hty. rewrite Forall_forall in Hty. apply (Hty _ Hi). reflexivity. }
  assert (Hkey : forall i, In i (o_local (y_options s)) -> (In i (map fst (y_cache s)) <-> exists t, In (GetToken i, Some t) (y_log s))).
  { intros i Hi. rewrite key_in. split; intros (t & K); exists t.
    - apply I2 in K. destruct K as [K|[K _]]; [exact K|]. destruct (Hne _ Hi K).
    - apply I2. now left. }
  assert (Hd : forall x, In x (map fst new) -> x <> GetDefaultToken). { intros x Hx. apply N2 in Hx. destruct Hx as (i & -> & _). discriminate. }
  destruct (o_local (y_options s)) as [|i0 ids0] eqn:El.
  - assert (new = []). { destruct new as [|[x a] new]; [reflexivity|]. destruct (N2 x) as [K _]. destruct (K (or_introl eq_refl)) as (i & _ & Hi & _).
      apply Hin in Hi. destruct Hi. }
    subst new. rewrite app_nil_r. set (a := tm (y_log s) GetDefaultToken).
    assert (Hc1 : forall i t, In (i, t) c1 <-> token_held (y_log s) i t). { intros i t. rewrite N3, <- I2. cbn. tauto. }
    assert (HX : forall c, In c (map fst [(GetDefaultToken, a)]) <-> calls_due [] (y_log s) c).
    { intros c. cbn. split; [intros [<-|[]]; reflexivity|]. destruct c; [intros [[] _]|auto]. }
    assert (HL : forall l, free_inv l -> True) by auto. clear HL.
    assert (H34 : (forall i b, In (GetToken i, b) (y_log s ++ [(GetDefaultToken, a)]) -> False)).
    { intros i b K. apply in_app_iff in K. destruct K as [K|[K|[]]]; [exact (I3 _ _ K)|discriminate]. }
    destruct a as [t|]; (split; [|cbn [set_cache y_log]; eexists; split; [reflexivity|]; split; [constructor; [intros []|constructor]|exact HX]]);
      unfold free_inv; cbn [set_cache y_cache y_log y_options]; rewrite El; split;
      [apply put_nodup; exact Hn1|split; [|split; [intros i b K; destruct (H34 _ _ K)|reflexivity]]
      |exact Hn1|split; [|split; [intros i b K; destruct (H34 _ _ K)|reflexivity]]].
    + intros i u. rewrite (put_in _ _ _ _ _ Hn1), Hc1. unfold token_held. rewrite default_snoc. split.
      * intros [[-> ->]|[Hi [K|[K _]]]]; [auto| |contradiction]. destruct (I3 _ _ K).
      * intros [K|[-> <-]]; [destruct (H34 _ _ K)|auto].
    + intros i u. rewrite Hc1. unfold token_held. rewrite default_snoc, in_app_iff. cbn [In]. split; [tauto|]. intros [[K|[K|[]]]|K]; auto. discriminate.
  - rewrite <- El in *. split.
    + unfold free_inv. cbn [set_cache y_cache y_log y_options]. split; [exact Hn1|]. split; [|split].
      * intros i t. rewrite N3, I2. unfold token_held. rewrite (default_app new) by exact Hd. rewrite in_app_iff. tauto.
      * intros i b K. apply in_app_iff in K. destruct K as [K|K]; [exact (I3 _ _ K)|]. apply (in_map fst) in K. apply N2 in K.
        destruct K as (j & K & Hj & _). injection K as ->. now apply Hin.
      * intros b K. apply in_app_iff in K. destruct K as [K|K]; [exact (I4 _ K)|]. apply (in_map fst) in K. destruct (Hd _ K). reflexivity.
    + exists new. split; [reflexivity|]. split; [exact N1|]. intros c. rewrite N2. split.
      * intros (i & -> & Hi & Hc). apply Hin in Hi. split; [exact Hi|]. intros t K. apply Hc. apply Hkey; eauto.
      * destruct c as [i|]; cbn [calls_due]; [|rewrite El; discriminate]. intros [Hi Hc]. exists i. split; [reflexivity|]. split; [now apply Hin|].
        intros K. apply Hkey in K; [|exact Hi]. destruct K as (t & K). exact (Hc _ K).
Qed.

(* The cache and the log change only in GetBytesForS2A. *)
Lemma tokens_step : forall w s op s' r, pop_ok op -> made_opts s -> pstep w s op = Done (s', r) ->
  (y_cache s' = y_cache s /\ y_log s' = y_log s) \/
  (exists inp o ser, op = PToS2A inp o ser /\ y_cache s' = y_cache (populate_token_cache (w_manager w) o s) /\
     y_log s' = y_log (populate_token_cache (w_manager w) o s)).
Proof.
  intros w s op s' r Hok Hm E. destruct op as [inp o ser|inp| |fs|]; cbn [pstep] in E.
  - destruct (get_bytes_for_s2a (w_manager w) o ser s inp) as [s1 st] eqn:Es. injection E as <- <-.
    apply s2a_call_is in Es; [|exact Hok|exact Hm]. destruct Es; [left; auto|right|right|right|right]; exists inp, o, ser; auto.
  - left. destruct (get_bytes_for_peer (w_text w) s inp) as [s1 st] eqn:Es. injection E as <- <-. apply peer_call_is in Es.
    destruct Es as [c Hc Hn|q s1 s2 err G E1 E2]; [auto|]. assert (K : y_cache s1 = y_cache s /\ y_log s1 = y_log s). { subst s1. destruct (rs_local q); auto. }
    destruct (rs_result q); [apply take_result_frame in E2; destruct E2 as (_ & _ & -> & -> & _); exact K|destruct E2 as [-> _]; exact K].
  - injection E as <- <-. auto.
  - left. destruct (create_frame_protector (w_prims w) (w_lib w) s fs) as [[[s1 x] fs1]|u|] eqn:Ec; try discriminate. injection E as <- <-.
    apply create_frame in Ec. destruct Ec as [(_ & -> & _)|(_ & -> & _)]; auto.
  - left. unfold get_s2a_context in E. destruct (y_finished s); injection E as <- <-; auto.
Qed.

Lemma proxied_free : forall w a cs ops rs s, proxied w a cs ops rs s -> ya_manager a = true -> selections (w_text w) ops = [] -> free_inv s.
Proof.
  intros w a cs ops rs s Hp Hma. revert ops rs s Hp. apply (proxied_ind w a cs (fun ops rs s => selections (w_text w) ops = [] -> free_inv s)).
  - intros s Ho Hc _. destruct (create_is a cs s Ho Hc) as (_ & Hca & Hlo & _). unfold free_inv. rewrite Hca, Hlo.
    split; [constructor|]. split; [|split; intros ? *; intros []]. intros i t. split; [intros []|].
    intros [[]|[_ (p & q & E & _)]]. destruct p; discriminate.
  - intros ops rs s op s' r Hp IH Hok Es Hsel. rewrite selections_app in Hsel. apply app_eq_nil in Hsel. destruct Hsel as [Hsel _].
    specialize (IH Hsel). pose proof (proxied_config _ _ _ _ _ _ Hp) as [Hc Hm]. pose proof (step_config _ _ _ _ _ Hok Hm Es) as Hc'.
    destruct (proxied_tokens _ _ _ _ _ _ Hp) as [_ HS]. rewrite Hsel in HS.
    assert (Hs : y_selected s = None). { destruct (y_selected s) as [i|]; [|reflexivity]. destruct HS as (k & p & K & _). destruct k; discriminate. }
    assert (Hma' : y_manager s = true /\ NoDup (o_local (y_options s))).
    { unfold config, config_of in Hc. injection Hc as _ _ _ -> ->. split; [exact Hma|]. apply (options_inv cs). }
    destruct (tokens_step _ _ _ _ _ Hok Hm Es) as [[A B]|(inp & o & ser & -> & A & B)]; unfold free_inv; rewrite A, B, (config_options _ _ Hc').
    + exact IH.
    + destruct Hma' as [M1 M2]. destruct (free_step (w_manager w) o s Hok Hm M2 M1 Hs IH) as [F _]. unfold free_inv in F.
      destruct (populate_same (w_manager w) o s) as (Hcc & _). rewrite (config_options _ _ Hcc) in F. exact F.
Qed.

Lemma mechanism_of_is : forall e, made_identity (fst e) -> mechanism_of (fst e) (snd e) (auth_mechanism e).
Proof.
  intros [[ty s] t] Hm. cbn [fst snd] in *. exists {| id_type_of := ty; id_string := c_str s |}, (c_str t).
  split; [split; [reflexivity|apply c_str_cut]|]. split; [apply c_str_cut|].
  split; [reflexivity|]. unfold auth_mechanism. destruct ty; cbn; try constructor.
  unfold made_identity in Hm. specialize (Hm eq_refl). injection Hm as ->. reflexivity.
Qed.

Lemma Forall2_map_same : forall A B C (Q : B -> C -> Prop) (g : A -> B) (h : A -> C) l, Forall (fun x => Q (g x) (h x)) l -> Forall2 Q (map g l) (map h l).
Proof. intros A B C Q g h l H. induction H; cbn; constructor; auto. Qed.

(* C60, nothing selected. *)
Lemma Q60 : forall w a cs ops rs s, proxied w a cs ops rs s -> ya_manager a = true -> selections (w_text w) ops = [] ->
  forall inp o ser s' c n b, order_ok o -> pstep w s (PToS2A inp o ser) = Done (s', RToS2A (c, n, Some b)) ->
  exists new q ids l, y_log s' = y_log s ++ new /\ NoDup (map fst new) /\
    (forall x, In x (map fst new) <-> calls_due (o_local (options_after cs)) (y_log s) x) /\
    encodes b {| rq_oneof := q; rq_auth := l |} /\ NoDup ids /\
    (forall i, In i ids <-> exists t, token_held (y_log s') i t) /\
    Forall2 (fun i m => exists t, token_held (y_log s') i t /\ mechanism_of i t m) ids l.
Proof.
  intros w a cs ops rs s Hp Hma Hsel inp o ser s' c n b Ho E. pose proof (proxied_free _ _ _ _ _ _ Hp Hma Hsel) as F.
  destruct (step_total _ _ _ _ _ _ inp o ser Hp Ho) as (s1 & st & E' & C).
  rewrite E in E'. injection E' as <- <-. destruct (sent_auth _ _ _ _ _ _ _ _ _ C) as (q & He & Hlog).
  destruct (proxied_tokens _ _ _ _ _ _ Hp) as [HT HS]. rewrite Hsel in HS.
  assert (Hs : y_selected s = None). { destruct (y_selected s) as [i|]; [|reflexivity]. destruct HS as (k & p & K & _). destruct k; discriminate. }
  destruct (proxied_config _ _ _ _ _ _ Hp) as [Hc Hm].
  assert (Hcc : y_manager s = true /\ y_options s = options_after cs).
  { unfold config, config_of in Hc. injection Hc as _ _ _ -> ->. auto. }
  destruct Hcc as [M1 M2]. assert (M3 : NoDup (o_local (y_options s))). { rewrite M2. apply (options_inv cs). }
  destruct (free_step (w_manager w) o s Ho Hm M3 M1 Hs F) as [(F1 & F2 & _) (new & N1 & N2 & N3)]. rewrite M2 in N3.
  assert (HK : tokens_ok (w_manager w) (populate_token_cache (w_manager w) o s)). { apply populate_ok; auto. rewrite Hs. exact I. }
  destruct HK as [_ [_ HF]]. rewrite Hlog. destruct Ho as [_ Ho]. set (sp := populate_token_cache (w_manager w) o s) in *.
  exists new, q, (map fst (ho_tokens o (y_cache sp))), (auth_mechanisms o sp).
  split; [exact N1|]. split; [exact N2|]. split; [exact N3|]. split; [exact He|].
  split; [eapply Permutation_NoDup; [apply Permutation_map, Permutation_sym, Ho|exact F1]|]. split.
  - intros i. rewrite key_in. split; intros (t & K); exists t.
    + apply F2. eapply Permutation_in; [apply Ho|exact K].
    + eapply Permutation_in; [apply Permutation_sym, Ho|]. now apply F2.
  - unfold auth_mechanisms. apply Forall2_map_same. eapply perm_forall; [apply Ho|]. apply Forall_forall. intros [i t] Hi. exists t.
    split; [apply F2; exact Hi|]. rewrite Forall_forall in HF. apply (mechanism_of_is (i, t)). apply (HF _ Hi).
Qed.

(* Without a token manager. *)
Lemma Q60none : forall w a cs ops rs s, proxied w a cs ops rs s -> ya_manager a = false -> y_cache s = [] /\ y_log s = [].
Proof.
  intros w a cs ops rs s Hp Hma. revert ops rs s Hp. apply (proxied_ind w a cs (fun _ _ s => y_cache s = [] /\ y_log s = [])).
  - intros s Ho Hc. destruct (create_is a cs s Ho Hc) as (_ & Hca & Hlo & _). auto.
  - intros ops rs s op s' r Hp [A B] Hok Es. pose proof (proxied_config _ _ _ _ _ _ Hp) as [Hc Hm].
    assert (Hm' : y_manager s = false). { unfold config, config_of in Hc. injection Hc as _ _ _ _ ->. exact Hma. }
    destruct (tokens_step _ _ _ _ _ Hok Hm Es) as [[-> ->]|(inp & o & ser & -> & -> & ->)]; [auto|].
    unfold populate_token_cache. rewrite Hm'. auto.
Qed.
Lemma Q60nothing : forall w a cs ops rs s, proxied w a cs ops rs s -> ya_manager a = false ->
  forall inp o ser s' c n b, order_ok o -> pstep w s (PToS2A inp o ser) = Done (s', RToS2A (c, n, Some b)) ->
  y_log s' = [] /\ exists q, encodes b {| rq_oneof := q; rq_auth := [] |}.
Proof.
  intros w a cs ops rs s Hp Hma inp o ser s' c n b Ho E. destruct (Q60none _ _ _ _ _ _ Hp Hma) as [A B].
  destruct (step_total _ _ _ _ _ _ inp o ser Hp Ho) as (s1 & st & E' & C). rewrite E in E'. injection E' as <- <-.
  destruct (sent_auth _ _ _ _ _ _ _ _ _ C) as (q & He & Hlog). destruct (proxied_config _ _ _ _ _ _ Hp) as [Hc _].
  assert (Hm' : y_manager s = false). { unfold config, config_of in Hc. injection Hc as _ _ _ _ ->. exact Hma. }
  unfold populate_token_cache in *. rewrite Hm' in *. cbn [negb] in *. rewrite Hlog. split; [exact B|]. exists q.
  unfold auth_mechanisms in He. rewrite A in He. destruct Ho as [_ Ho]. specialize (Ho []). apply Permutation_sym, Permutation_nil in Ho.
  rewrite Ho in He. exact He.
Qed.

(* ---- an identity is selected ---- *)
Lemma fetch_all_exact : forall tm o s c l, order_ok o -> NoDup (o_local (y_options s)) -> NoDup (map fst c) ->
  let s' := fetch_all tm o s c l in
  NoDup (map fst (y_cache s')) /\ exists rest, y_log s' = l ++ rest /\
    (forall x, In x (map fst rest) -> match x with GetToken j => In j (o_local (y_options s)) | GetDefaultToken => o_local (y_options s) = [] end) /\
    (forall j, In j (o_local (y_options s)) -> In j (map fst (y_cache s')) \/ In (GetToken j, None) rest) /\
    (o_local (y_options s) = [] -> exists r, rest = [(GetDefaultToken, r)] /\ (forall t, r = Some t -> In (empty_identity, t) (y_cache s'))).
Proof.
  intros tm o s c l [Ho _] Hnd Hn. unfold fetch_all.
  destruct (fetch_tokens tm (ho_ids o (o_local (y_options s))) c l) as [c1 l1] eqn:E.
  pose proof (fetch_nodup _ _ _ _ _ _ Hn E) as Hn1.
  apply fetch_exact in E; [|eapply Permutation_NoDup; [apply Permutation_sym, Ho|exact Hnd]].
  destruct E as (new & -> & _ & N2 & N3).
  assert (Hin : forall i, In i (ho_ids o (o_local (y_options s))) <-> In i (o_local (y_options s))).
  { intros i. split; apply Permutation_in; [|apply Permutation_sym]; apply Ho. }
  destruct (o_local (y_options s)) as [|i0 ids0] eqn:El.
  - assert (new = []). { destruct new as [|[x a] new]; [reflexivity|]. destruct (N2 x) as [K _]. destruct (K (or_introl eq_refl)) as (i & _ & Hi & _).
      apply Hin in Hi. destruct Hi. }
    subst new. rewrite app_nil_r.
    destruct (tm l GetDefaultToken) as [t|]; cbn [set_cache y_cache y_log].
    + split; [now apply put_nodup|]. eexists. split; [reflexivity|]. split; [intros x [<-|[]]; reflexivity|]. split; [intros j []|].
      intros _. eexists. split; [reflexivity|]. intros u K. injection K as <-. apply put_in; [exact Hn1|]. auto.
    + split; [exact Hn1|]. eexists. split; [reflexivity|]. split; [intros x [<-|[]]; reflexivity|]. split; [intros j []|].
      intros _. eexists. split; [reflexivity|]. intros u K. discriminate.
  - rewrite <- El in *. cbn [set_cache y_cache y_log]. split; [exact Hn1|]. exists new. split; [reflexivity|]. split; [|split; [|rewrite El; discriminate]].
    + intros x Hx. apply N2 in Hx. destruct Hx as (j & -> & Hj & _). now apply Hin.
    + intros j Hj. destruct (cache_mem j c) eqn:Em.
      * left. apply mem_in in Em. apply key_in in Em. destruct Em as (t & Em). apply key_in. exists t. apply N3. auto.
      * assert (Ha : ~ In j (map fst c)). { intros K. apply mem_in in K. congruence. }
        assert (K : In (GetToken j) (map fst new)). { apply N2. exists j. split; [reflexivity|]. split; [now apply Hin|exact Ha]. }
        apply in_map_iff in K. destruct K as ([x r] & Hx & K). cbn in Hx. subst x. destruct r as [t|]; [|auto].
        left. apply key_in. exists t. apply N3. auto.
Qed.

Lemma Q60sel : forall w a cs ops rs s, proxied w a cs ops rs s -> ya_manager a = true ->
  forall i, selects (selections (w_text w) ops) i ->
  forall inp o ser s' c n b, order_ok o -> pstep w s (PToS2A inp o ser) = Done (s', RToS2A (c, n, Some b)) ->
  exists new q ids l, y_log s' = y_log s ++ new /\ encodes b {| rq_oneof := q; rq_auth := l |} /\ NoDup ids /\
    Forall2 (mechanism_for (y_log s')) ids l /\
    (ids = [i] /\ (new = [] \/ exists t, new = [(GetToken i, Some t)] /\ Forall (mechanism_of i t) l) \/
     exists rest, new = (GetToken i, None) :: rest /\
       (forall x, In x (map fst rest) -> match x with GetToken j => In j (locals_added cs) | GetDefaultToken => locals_added cs = [] end) /\
       (forall j, In j (locals_added cs) -> In j ids \/ In (GetToken j, None) rest) /\
       (locals_added cs = [] -> exists r, rest = [(GetDefaultToken, r)] /\ (r <> None -> In empty_identity ids))).
Proof.
  intros w a cs ops rs s Hp Hma i Hsel inp o ser s' c n b Ho E.
  destruct (step_total _ _ _ _ _ _ inp o ser Hp Ho) as (s1 & st & E' & C).
  rewrite E in E'. injection E' as <- <-. destruct (sent_auth _ _ _ _ _ _ _ _ _ C) as (q & He & Hlog).
  destruct (proxied_tokens _ _ _ _ _ _ Hp) as [HT HS].
  assert (Hs : y_selected s = Some i).
  { destruct (y_selected s) as [j|]; [f_equal; eapply selects_fun; eassumption|]. destruct Hsel as (k & p & K & _). rewrite HS in K. destruct k; discriminate. }
  destruct (proxied_config _ _ _ _ _ _ Hp) as [Hc Hm].
  assert (Hcc : y_manager s = true /\ y_options s = options_after cs).
  { unfold config, config_of in Hc. injection Hc as _ _ _ -> ->. auto. }
  destruct Hcc as [M1 M2]. assert (M3 : NoDup (o_local (y_options s))). { rewrite M2. apply (options_inv cs). }
  assert (HK : tokens_ok (w_manager w) (populate_token_cache (w_manager w) o s)).
  { apply populate_ok; auto. rewrite Hs. destruct Hsel as (k & p & _ & H). eapply meant_made. exact H. }
  assert (Hl : forall j, In j (o_local (y_options s)) <-> In j (locals_added cs)). { rewrite M2. apply (options_inv cs). }
  assert (Hl0 : o_local (y_options s) = [] <-> locals_added cs = []).
  { split; intros K.
    - destruct (locals_added cs) as [|j r]; [reflexivity|]. destruct (Hl j) as [_ X]. rewrite K in X. destruct (X (or_introl eq_refl)).
    - destruct (o_local (y_options s)) as [|j r]; [reflexivity|]. destruct (Hl j) as [X _]. rewrite K in X. destruct (X (or_introl eq_refl)). }
  destruct HT as [HL1 [HN1 _]]. destruct HK as [_ [HN HF]]. rewrite Hlog.
  assert (Hids : NoDup (map fst (ho_tokens o (y_cache (populate_token_cache (w_manager w) o s))))).
  { destruct Ho as [_ Ho]. eapply Permutation_NoDup; [apply Permutation_map, Permutation_sym, Ho|exact HN]. }
  assert (Hall : Forall2 (mechanism_for (y_log (populate_token_cache (w_manager w) o s)))
    (map fst (ho_tokens o (y_cache (populate_token_cache (w_manager w) o s)))) (auth_mechanisms o (populate_token_cache (w_manager w) o s))).
  { unfold auth_mechanisms. apply Forall2_map_same. destruct Ho as [_ Ho]. eapply perm_forall; [apply Ho|]. eapply Forall_impl; [|exact HF].
    intros e [A B]. now apply mechanism_is. }
  assert (Hkeys : forall j, In j (map fst (y_cache (populate_token_cache (w_manager w) o s))) ->
     In j (map fst (ho_tokens o (y_cache (populate_token_cache (w_manager w) o s))))).
  { intros j. apply Permutation_in. apply Permutation_map, Permutation_sym, Ho. }
  assert (Hone : forall x, ho_tokens o [x] = [x]).
  { intros x. destruct Ho as [_ Ho]. specialize (Ho [x]). apply Permutation_sym, Permutation_length_1_inv in Ho. exact Ho. }
  assert (Hmi : made_identity i). { destruct Hsel as (k & p & _ & H). eapply meant_made. exact H. }
  unfold populate_token_cache in *. rewrite M1, Hs in *. cbn [negb] in *.
  destruct (cache_mem i (y_cache s) && (lenN (y_cache s) =? 1)) eqn:Ec.
  - apply andb_true_iff in Ec. destruct Ec as [E1 E2]. apply N.eqb_eq in E2. destruct (y_cache s) as [|[j t] [|]] eqn:Ey; cbn in E2; try lia.
    cbn in E1. rewrite orb_false_r in E1. apply identity_eqb_true in E1. subst j. rewrite Hone in *. cbn [map fst] in Hall, Hids.
    do 4 eexists. split; [symmetry; apply app_nil_r|]. split; [exact He|]. split; [exact Hids|]. split; [exact Hall|]. left. auto.
  - destruct (w_manager w (y_log s) (GetToken i)) as [t|] eqn:Et.
    + cbn [set_cache y_cache y_log] in *. rewrite Hone in *. cbn [map fst] in Hall, Hids.
      do 4 eexists. split; [reflexivity|]. split; [exact He|]. split; [exact Hids|]. split; [exact Hall|]. left. split; [reflexivity|].
      right. exists t. split; [reflexivity|]. unfold auth_mechanisms. cbn [set_cache y_cache]. rewrite Hone. constructor; [|constructor].
      exact (mechanism_of_is (i, t) Hmi).
    + destruct (fetch_all_exact (w_manager w) o s (y_cache s) (y_log s ++ [(GetToken i, None)]) Ho M3 HN1) as (_ & rest & R1 & R2 & R3 & R4).
      do 4 eexists. split; [rewrite R1, <- app_assoc; reflexivity|]. split; [exact He|]. split; [exact Hids|]. split; [exact Hall|].
      right. exists rest. split; [reflexivity|]. split; [|split].
      * intros x Hx. specialize (R2 x Hx). destruct x as [j|]; [now apply Hl|now apply Hl0].
      * intros j Hj. apply Hl in Hj. destruct (R3 j Hj) as [K|K]; auto.
      * intros Hj. apply Hl0 in Hj. destruct (R4 Hj) as (r & -> & K). exists r. split; [reflexivity|]. intros Hr. destruct r as [t|]; [|contradiction].
        apply Hkeys, key_in. exists t. apply K. reflexivity.
Qed.

(* Once the token of the selected identity is there, the manager is not asked
   again until S2A says something. *)
Lemma kept : forall w later s s' rs i t, Forall quiet later -> Forall pop_ok later -> made_opts s -> y_selected s = Some i -> y_cache s = [(i, t)] ->
  prun w s later = Done (s', rs) -> y_log s' = y_log s.
Proof.
  intros w. induction later as [|op later IH]; intros s s' rs i t Hq Hok Hm Hs Hc E; cbn [prun] in E; [injection E as <- <-; reflexivity|].
  destruct (pstep w s op) as [[s1 r]|u|] eqn:E1; try discriminate. cbn [obind] in E.
  destruct (prun w s1 later) as [[s2 rs2]|u|] eqn:E2; try discriminate. injection E as <- <-.
  inversion_clear Hq. inversion_clear Hok. pose proof (step_config _ _ _ _ _ H1 Hm E1) as Hcf.
  assert (Hm1 : made_opts s1). { unfold made_opts. rewrite (config_options _ _ Hcf). exact Hm. }
  assert (Hp : forall o, populate_token_cache (w_manager w) o s = s).
  { intros o. unfold populate_token_cache. destruct (y_manager s); cbn [negb]; [|reflexivity]. rewrite Hs, Hc. cbn.
    assert (X : identity_eqb i i = true) by now apply identity_eqb_true. rewrite X. reflexivity. }
  assert (K : y_cache s1 = y_cache s /\ y_log s1 = y_log s).
  { destruct (tokens_step _ _ _ _ _ H1 Hm E1) as [K|(inp & o & ser & _ & A & B)]; [exact K|]. rewrite Hp in A, B. auto. }
  destruct K as [Kc Kl].
  assert (Ks : y_selected s1 = Some i).
  { rewrite <- Hs. destruct op as [inp o ser|inp| |fs|]; cbn [pstep] in E1.
    - destruct (get_bytes_for_s2a (w_manager w) o ser s inp) as [s1' st] eqn:Es. injection E1 as <- <-.
      apply s2a_call_is in Es; [|exact H1|exact Hm]. destruct (populate_same (w_manager w) o s) as (_ & _ & Hse & _).
      destruct Es; auto.
    - destruct H.
    - injection E1 as <- <-. reflexivity.
    - destruct (create_frame_protector (w_prims w) (w_lib w) s fs) as [[[t1 x] fs1]|u|] eqn:Ec; try discriminate. injection E1 as <- <-.
      apply create_frame in Ec. destruct Ec as [(_ & -> & _)|(_ & -> & _)]; reflexivity.
    - unfold get_s2a_context in E1. destruct (y_finished s); injection E1 as <- <-; reflexivity. }
  rewrite (IH s1 s2 rs2 i t H0 H2 Hm1 Ks (eq_trans Kc Hc) E2). exact Kl.
Qed.

Lemma Q60kept : forall w a cs ops rs s, proxied w a cs ops rs s -> ya_manager a = true ->
  forall i, selects (selections (w_text w) ops) i ->
  forall inp o ser s' x t, order_ok o -> pstep w s (PToS2A inp o ser) = Done (s', x) -> y_log s' = y_log s ++ [(GetToken i, Some t)] ->
  forall later rs' s2, Forall quiet later -> Forall pop_ok later -> prun w s' later = Done (s2, rs') -> y_log s2 = y_log s'.
Proof.
  intros w a cs ops rs s Hp Hma i Hsel inp o ser s' x t Ho E Hlog later rs' s2 Hq Hok Er.
  destruct (proxied_tokens _ _ _ _ _ _ Hp) as [HT HS].
  assert (Hs : y_selected s = Some i).
  { destruct (y_selected s) as [j|]; [f_equal; eapply selects_fun; eassumption|]. destruct Hsel as (k & p & K & _). rewrite HS in K. destruct k; discriminate. }
  destruct (proxied_config _ _ _ _ _ _ Hp) as [Hc Hm].
  assert (Hcc : y_manager s = true /\ y_options s = options_after cs).
  { unfold config, config_of in Hc. injection Hc as _ _ _ -> ->. auto. }
  destruct Hcc as [M1 M2]. assert (M3 : NoDup (o_local (y_options s))). { rewrite M2. apply (options_inv cs). }
  assert (Hok1 : pop_ok (PToS2A inp o ser)) by exact Ho.
  assert (Hnil : forall l : tlog, l <> l ++ [(GetToken i, Some t)]). { intros l K. apply (f_equal (@length _)) in K. rewrite app_length in K. cbn in K. lia. }
  pose proof (step_config _ _ _ _ _ Hok1 Hm E) as Hcf.
  assert (Hm1 : made_opts s'). { unfold made_opts. rewrite (config_options _ _ Hcf). exact Hm. }
  assert (Ks : y_selected s' = Some i).
  { cbn [pstep] in E. destruct (get_bytes_for_s2a (w_manager w) o ser s inp) as [s1' st] eqn:Es. injection E as <- <-.
    apply s2a_call_is in Es; [|exact Ho|exact Hm]. destruct (populate_same (w_manager w) o s) as (_ & _ & Hse & _).
    rewrite <- Hs. destruct Es; first [reflexivity|exact Hse]. }
  assert (Kc : exists u, y_cache s' = [(i, u)]).
  { destruct (tokens_step _ _ _ _ _ Hok1 Hm E) as [[_ K]|(inp' & o' & ser' & Ei & A & B)].
    - rewrite Hlog in K. symmetry in K. destruct (Hnil _ K).
    - injection Ei as _ <- _. rewrite Hlog in B. rewrite A. destruct HT as [_ [HN1 _]]. unfold populate_token_cache in *. rewrite M1, Hs in *. cbn [negb] in *.
      destruct (cache_mem i (y_cache s) && (lenN (y_cache s) =? 1)); [symmetry in B; destruct (Hnil _ B)|].
      destruct (w_manager w (y_log s) (GetToken i)) as [u|]; [exists u; reflexivity|].
      destruct (fetch_all_exact (w_manager w) o s (y_cache s) (y_log s ++ [(GetToken i, None)]) Ho M3 HN1) as (_ & rest & R1 & _).
      rewrite R1, <- app_assoc in B. apply app_inv_head in B. discriminate. }
  destruct Kc as (u & Kc). exact (kept w later s' s2 rs' i u Hq Hok Hm1 Ks Kc Er).
Qed.

(* ---- C61 ---- *)
Lemma Q61 : forall w s inp, (forall r, ~ good_response (w_text w) (bytes_of inp) r) ->
  pstep w s (PToPeer inp) = Done (s, RToPeer (match bytes_of inp with [] => kFailedPrecondition | _ => kInternal end, 0, None)).
Proof.
  intros w s inp H. cbn [pstep]. destruct inp as [[|b bs]|]; try reflexivity. cbn [bytes_of] in *. unfold get_bytes_for_peer.
  destruct (parse_resp (w_text w) (b :: bs)) as [r|] eqn:Ep; [|reflexivity]. destruct (rs_status r) as [x|] eqn:Es; [|reflexivity].
  destruct (N.eqb_spec (pst_code x) 0) as [Hc|Hc]; cbn [negb]; [|reflexivity]. destruct (H r). split; [discriminate|]. split; [exact Ep|]. eauto.
Qed.

Lemma Q61result : forall w s b r, good_response (w_text w) b r ->
  exists s' c n buf, pstep w s (PToPeer (Some b)) = Done (s', RToPeer (c, n, buf)) /\ same_but_session s s' /\
    match rs_result r with Some res => result_code res c | None => c = kOk end /\
    (c <> kOk -> n = 0 /\ buf = None) /\
    (rs_result r = None -> y_finished s' = y_finished s /\ y_context s' = y_context s /\ y_result s' = y_result s).
Proof.
  intros w s b r G. cbn [pstep]. destruct (get_bytes_for_peer (w_text w) s (Some b)) as [s' st] eqn:Eg. apply peer_call_is in Eg.
  destruct st as [[c n] buf]. exists s', c, n, buf. split; [reflexivity|]. remember (c, n, buf) as st eqn:Est.
  destruct Eg as [c0 Hc0 Hn|q sa sb err G' E1 E2]; [destruct (Hn r G)|]. rewrite (good_fun _ _ _ _ G' G) in *. clear G'.
  assert (Hsa : same_but_session s sa /\ y_finished sa = y_finished s /\ y_context sa = y_context s /\ y_result sa = y_result s).
  { subst sa. destruct (rs_local r); (split; [destruct s; reflexivity|auto]). }
  destruct Hsa as [Hsa Hfr]. destruct (rs_result r) as [res|].
  2: { destruct E2 as [-> ->]. injection Est as <- _ _. split; [exact Hsa|]. split; [reflexivity|]. split; [congruence|]. auto. }
  assert (Hsb : same_but_session s sb).
  { rewrite Hsa in E2. unfold take_result in E2.
    destruct (pr_state res) as [stt|]; [|injection E2 as <- <-; reflexivity].
    destruct (tls_from_proto (pt_tls stt)); [injection E2 as <- <-; reflexivity|].
    destruct (suite_from_proto (pt_suite stt)); [injection E2 as <- <-; reflexivity|].
    destruct (pr_local res); injection E2 as <- <-; reflexivity. }
  split; [exact Hsb|]. split; [|split; [|discriminate]].
  - unfold take_result in E2. unfold result_code. destruct (pr_state res) as [stt|].
    2: { injection E2 as <- <-. injection Est as <- <- <-. reflexivity. }
    destruct (tls_from_cases (pt_tls stt)) as [(v & Hv)|K].
    2: { rewrite K in E2. injection E2 as <- <-. injection Est as <- <- <-. left. split; [left; intros (v & Hv); apply tls_from_ok in Hv; congruence|reflexivity]. }
    pose proof Hv as Hv'. apply tls_from_ok in Hv'. rewrite Hv' in E2.
    destruct (suite_from_cases (pt_suite stt)) as [(u & Hu)|K].
    2: { rewrite K in E2. injection E2 as <- <-. injection Est as <- <- <-. left. split; [right; intros (u & Hu); apply suite_from_ok in Hu; congruence|reflexivity]. }
    pose proof Hu as Hu'. apply suite_from_ok in Hu'. rewrite Hu' in E2. right. split; [eauto|].
    destruct (pr_local res); injection E2 as <- <-; now injection Est.
  - intros Hc. destruct err as [e|]; [cbv beta iota delta [proxy_error] in Est; injection Est as _ <- <-; auto|]. injection Est as <- _ _. contradiction.
Qed.

(* ---- C63 ---- *)
Lemma no_protector_snoc : forall V ops op, no_protector_yet V (ops ++ [op]) <->
  no_protector_yet V ops /\ match op with PProtector _ => ~ result_received V ops | _ => True end.
Proof.
  intros V ops op. split.
  - intros H. split.
    + intros p fs q ->. apply (H p fs (q ++ [op])). now rewrite <- app_assoc.
    + destruct op; auto. exact (H ops fs [] eq_refl).
  - intros [H1 H2] p fs q E. destruct q as [|x q _] using rev_ind.
    + apply app_inj_tail in E. destruct E as [-> ->]. exact H2.
    + rewrite app_comm_cons, app_assoc in E. apply app_inj_tail in E. destruct E as [-> _]. exact (H1 p fs q eq_refl).
Qed.

Lemma proxied_channel : forall w a cs ops rs s, proxied w a cs ops rs s ->
  (y_channel s = true <-> ya_channel a = true /\ no_protector_yet (w_text w) ops).
Proof.
  intros w a cs. apply proxied_ind.
  - intros s Ho Hc. destruct (create_is a cs s Ho Hc) as (_ & _ & _ & _ & _ & _ & _ & _ & ->). split; [|tauto]. intros H. split; [exact H|].
    intros p fs q E. destruct p; discriminate.
  - intros ops rs s op s' r Hp IH Hok Es. pose proof (proxied_config _ _ _ _ _ _ Hp) as [_ Hm]. pose proof (finished_iff _ _ _ _ _ _ Hp) as HF.
    rewrite no_protector_snoc. destruct op as [inp o ser|inp| |fs|]; cbn [pstep] in Es.
    + destruct (get_bytes_for_s2a (w_manager w) o ser s inp) as [s1 st] eqn:Eg. injection Es as <- <-.
      apply s2a_call_is in Eg; [|exact Hok|exact Hm]. destruct (populate_same (w_manager w) o s) as (_ & _ & _ & _ & Hch & _).
      assert (K : y_channel s1 = y_channel s) by (destruct Eg; auto). rewrite K. tauto.
    + destruct (get_bytes_for_peer (w_text w) s inp) as [s1 st] eqn:Eg. injection Es as <- <-. apply peer_call_is in Eg.
      assert (K : y_channel s1 = y_channel s).
      { destruct Eg as [c Hc Hn|q s1 s2 err G E1 E2]; [reflexivity|]. assert (K : y_channel s1 = y_channel s) by (subst s1; destruct (rs_local q); reflexivity).
        destruct (rs_result q); [apply take_result_frame in E2; destruct E2 as (_ & _ & _ & _ & _ & _ & E2); congruence|destruct E2 as [-> _]; exact K]. }
      rewrite K. tauto.
    + injection Es as <- <-. tauto.
    + destruct (create_frame_protector (w_prims w) (w_lib w) s fs) as [[[s1 x] fs1]|u|] eqn:Ec; try discriminate. injection Es as <- <-.
      apply create_frame in Ec. destruct Ec as [(F & -> & _)|(F & -> & _)].
      * assert (N : ~ result_received (w_text w) ops) by (intros K; apply HF in K; congruence). tauto.
      * apply HF in F. cbn. split; [discriminate|tauto].
    + unfold get_s2a_context in Es. destruct (y_finished s); injection Es as <- <-; cbn; tauto.
Qed.

Lemma Q63 : forall w a cs ops rs s, prims_ok (w_prims w) -> w_text w [] = true -> proxied w a cs ops rs s ->
  forall fs s' f, pstep w s (PProtector fs) = Done (s', RProtector (inr f)) ->
  forall al uses frs f', alloc_ok al -> fops_ok uses -> frun (w_prims w) (w_lib w) al f uses = Done (f', frs) ->
  forall t, In t (cx_sent (fp_crypt f')) ->
  (ts_channel t = true <-> ya_channel a = true /\ no_protector_yet (w_text w) ops) /\ ts_url t = last (addresses cs) [].
Proof.
  intros w a cs ops rs s HP HV Hp fs s' f E al uses frs f' Hal Huses Er t Ht. cbn [pstep] in E.
  destruct (create_frame_protector (w_prims w) (w_lib w) s fs) as [[[s1 x] fs1]|u|] eqn:Ec; try discriminate. injection E as <- ->.
  apply create_frame in Ec. destruct Ec as [(_ & _ & K)|(_ & _ & x & fs'' & Ex & Ec)]; [discriminate|].
  pose proof (proxied_result _ _ _ _ _ _ HV Hp) as Hr. rewrite Ex in Hr. destruct Hr as [Hi Ho].
  assert (Hprot : protector (w_prims w) (w_lib w) al (frame_args s x) uses frs f').
  { split; [exact HP|]. split; [exact Hal|]. split; [exact Hi|]. split; [exact Ho|]. split; [exact Huses|]. exists f, fs, fs''. auto. }
  destruct (protector_connection _ _ _ _ _ _ _ Hprot) as (_ & _ & _ & _ & cops & crs & Hconn).
  rewrite (C19_channel_lemma _ _ _ _ _ _ Hconn t Ht). split; [exact (proxied_channel _ _ _ _ _ _ Hp)|].
  destruct (proxied_config _ _ _ _ _ _ Hp) as [Hc _]. unfold config, config_of in Hc. injection Hc as _ _ _ Hopt _.
  destruct (W19 _ _ _ _ _ _ Hconn) as [K|(t' & K & _ & Hu & _)]; rewrite K in Ht; [destruct Ht|]. destruct Ht as [<-|[]]. rewrite Hu. cbn.
  rewrite Hopt. apply (options_inv cs).
Qed.

(* ---- C32 ---- *)
Lemma Q32 : forall a, proxy_create a = None <-> ya_logger a = false \/ ya_options a = None.
Proof.
  intros a. unfold proxy_create. destruct (ya_logger a), (ya_options a); (split; [|intuition congruence]); intuition congruence.
Qed.
