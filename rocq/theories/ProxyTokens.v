(* Tokens: C40. *)
From Coq Require Import List NArith Bool Permutation Lia.
From Verif Require Import Base Aead AeadProofs Hkdf HalfConn Options HsHandler Crypter FrameProt Wire SpecWire WireProofs WireMsgs
  Util Context SpecOptions HsMsgProofs Proxy ProxyRun ProxyProofs ProxyFinal.
Import ListNotations.
Local Open Scope N_scope.

Lemma c_str_cut : forall s, cut s (c_str s).
Proof.
  intros s. split; [apply c_str_nul_free|]. induction s as [|b s IH]; [now left|]. cbn. destruct (N.eqb_spec b 0) as [->|_].
  - right. exists s. reflexivity.
  - destruct IH as [<-|[r IH]]; [now left|]. right. exists r. cbn. congruence.
Qed.
Lemma cut_whole : forall s s', nul_free s -> cut s s' -> s' = s.
Proof. intros s s' H [_ [->|[r ->]]]; [reflexivity|]. destruct H. apply in_app_iff. right. now left. Qed.

Lemma returned_more : forall l m i t, returned l i t -> returned (l ++ m) i t.
Proof. intros l m i t [H|[H K]]; [left|right; split; [exact H|]]; apply in_app_iff; auto. Qed.

Lemma log_snoc : forall tm l c, log_of tm l -> log_of tm (l ++ [(c, tm l c)]).
Proof.
  intros tm l c H p c' a' q E. destruct q as [|x q _] using rev_ind.
  - apply app_inj_tail in E. destruct E as [<- E]. now injection E as <- <-.
  - rewrite app_comm_cons, app_assoc in E. apply app_inj_tail in E. destruct E as [E _]. exact (H _ _ _ _ E).
Qed.

(* Each cached token was returned for its identity. *)
Definition cached (c : list (identity * bytes)) (l : tlog) : Prop :=
  NoDup (map fst c) /\ Forall (fun e => made_identity (fst e) /\ returned l (fst e) (snd e)) c.

Lemma cached_more : forall c l m, cached c l -> cached c (l ++ m).
Proof. intros c l m [H K]. split; [exact H|]. eapply Forall_impl; [|exact K]. intros e [A B]. auto using returned_more. Qed.

Lemma put_keys : forall i t c x, In x (map fst (cache_put i t c)) <-> In x (map fst c) \/ x = i.
Proof.
  intros i t c x. induction c as [|e c IH]; cbn; [intuition|]. destruct (identity_eqb i (fst e)) eqn:E; cbn.
  - apply identity_eqb_true in E. subst i. intuition.
  - rewrite IH. intuition.
Qed.
Lemma put_cached : forall i t c l, made_identity i -> returned l i t -> cached c l -> cached (cache_put i t c) l.
Proof.
  intros i t c l Hm Hr [Hn Hf]. induction c as [|e c IH]; cbn.
  - split; [constructor; [intros []|constructor]|constructor; [auto|constructor]].
  - inversion Hn as [|x y Hni Hn']; subst. inversion Hf as [|x y He Hf']; subst. destruct (identity_eqb i (fst e)) eqn:E.
    + apply identity_eqb_true in E. subst i. split; [exact Hn|]. constructor; [split; [apply He|exact Hr]|exact Hf'].
    + destruct (IH Hn' Hf') as [A B]. split; [|constructor; [exact He|exact B]]. cbn. constructor; [|exact A].
      rewrite put_keys. intros [K|K]; [contradiction|]. rewrite K in E. assert (identity_eqb i i = true) by now apply identity_eqb_true. congruence.
Qed.

Lemma fetch_tokens_ok : forall tm ids c l c' l', Forall made_identity ids -> log_of tm l -> cached c l ->
  fetch_tokens tm ids c l = (c', l') -> log_of tm l' /\ cached c' l'.
Proof.
  intros tm. induction ids as [|i ids IH]; intros c l c' l' Hi Hl Hc E; cbn [fetch_tokens] in E; [injection E as <- <-; auto|].
  inversion Hi as [|x y Hm Hi']; subst. destruct (cache_mem i c); [eauto|].
  pose proof (log_snoc _ _ (GetToken i) Hl) as Hl'. destruct (tm l (GetToken i)) as [t|].
  - eapply IH; [exact Hi'|exact Hl'| |exact E]. apply put_cached; [exact Hm| |now apply cached_more].
    left. apply in_app_iff. right. now left.
  - eapply IH; [exact Hi'|exact Hl'| |exact E]. now apply cached_more.
Qed.

Lemma perm_forall : forall A (Q : A -> Prop) l l', Permutation l l' -> Forall Q l' -> Forall Q l.
Proof. intros A Q l l' H K. apply Forall_forall. intros x Hx. rewrite Forall_forall in K. apply K. eapply Permutation_in; eassumption. Qed.

Definition tokens_ok (tm : manager) (s : proxy) : Prop := log_of tm (y_log s) /\ cached (y_cache s) (y_log s).

Lemma typed_made : forall l, typed l -> Forall made_identity l.
Proof. intros l H. eapply Forall_impl; [|exact H]. intros i K. unfold made_identity. intros E. contradiction. Qed.

Lemma fetch_all_ok : forall tm o s c l, order_ok o -> opts_typed (y_options s) -> log_of tm l -> cached c l ->
  tokens_ok tm (fetch_all tm o s c l).
Proof.
  intros tm o s c l [Ho _] [Hty _] Hl Hc. unfold fetch_all.
  destruct (fetch_tokens tm (ho_ids o (o_local (y_options s))) c l) as [c1 l1] eqn:E.
  destruct (fetch_tokens_ok _ _ _ _ _ _ (perm_forall _ _ _ _ (Ho _) (typed_made _ Hty)) Hl Hc E) as [Hl1 Hc1].
  destruct (o_local (y_options s)); [|split; assumption].
  pose proof (log_snoc _ _ GetDefaultToken Hl1) as Hl'. destruct (tm l1 GetDefaultToken) as [t|].
  - split; [exact Hl'|]. cbn. apply put_cached; [intros _; reflexivity| |now apply cached_more].
    right. split; [reflexivity|]. apply in_app_iff. right. now left.
  - split; [exact Hl'|]. cbn. now apply cached_more.
Qed.

Lemma populate_ok : forall tm o s, order_ok o -> opts_typed (y_options s) -> opt_all made_identity (y_selected s) ->
  tokens_ok tm s -> tokens_ok tm (populate_token_cache tm o s).
Proof.
  intros tm o s Ho Hty Hs [Hl Hc]. unfold populate_token_cache. destruct (y_manager s); cbn [negb]; [|split; assumption].
  destruct (y_selected s) as [i|]; [|now apply fetch_all_ok].
  destruct (cache_mem i (y_cache s) && (lenN (y_cache s) =? 1)); [split; assumption|].
  pose proof (log_snoc _ _ (GetToken i) Hl) as Hl'. destruct (tm (y_log s) (GetToken i)) as [t|].
  - split; [exact Hl'|]. split; [constructor; [intros []|constructor]|]. cbn. constructor; [|constructor]. split; [exact Hs|].
    left. apply in_app_iff. right. now left.
  - apply fetch_all_ok; auto. now apply cached_more.
Qed.

(* The only token once an identity is selected. *)
Lemma populate_selected : forall tm o s i, y_manager s = true -> y_selected s = Some i -> tm (y_log s) (GetToken i) <> None ->
  exists t, y_cache (populate_token_cache tm o s) = [(i, t)].
Proof.
  intros tm o s i Hm Hs Ht. unfold populate_token_cache. rewrite Hm, Hs. cbn [negb].
  destruct (cache_mem i (y_cache s) && (lenN (y_cache s) =? 1)) eqn:E.
  - apply andb_true_iff in E. destruct E as [E1 E2]. apply N.eqb_eq in E2. destruct (y_cache s) as [|[j t] [|]]; cbn in E2; try lia.
    cbn in E1. rewrite orb_false_r in E1. apply identity_eqb_true in E1. subst j. eauto.
  - destruct (tm (y_log s) (GetToken i)) as [t|]; [|contradiction]. exists t. reflexivity.
Qed.

Lemma mechanism_is : forall l e, made_identity (fst e) -> returned l (fst e) (snd e) -> mechanism_for l (fst e) (auth_mechanism e).
Proof.
  intros l [[ty s] t] Hm Hr. cbn [fst snd] in *. exists t, {| id_type_of := ty; id_string := c_str s |}, (c_str t).
  split; [exact Hr|]. split; [split; [reflexivity|apply c_str_cut]|]. split; [apply c_str_cut|].
  split; [reflexivity|]. unfold auth_mechanism. destruct ty; cbn; try constructor.
  unfold made_identity in Hm. specialize (Hm eq_refl). injection Hm as ->. reflexivity.
Qed.

(* ---- selection ---- *)
Lemma responses_app : forall V a b, responses V (a ++ b) = responses V a ++ responses V b.
Proof.
  intros V. induction a as [|op a IH]; intros b; [reflexivity|]. cbn [app responses]. destruct op as [| [[|x y]|] | | |]; auto.
  destruct (parse_resp V (x :: y)) as [m|]; [|auto]. destruct (rs_status m) as [st|]; [|auto]. destruct (pst_code st =? 0); [|auto].
  cbn. f_equal. apply IH.
Qed.
Lemma responses_good : forall V inp r, good_response V (bytes_of inp) r -> responses V [PToPeer inp] = [r].
Proof.
  intros V [[|x y]|] r (Hb & Hp & st & Hs & Hc); cbn [bytes_of] in *; try contradiction. cbn [responses]. rewrite Hp, Hs.
  destruct (N.eqb_spec (pst_code st) 0); [reflexivity|contradiction].
Qed.
Lemma responses_bad : forall V inp, (forall r, ~ good_response V (bytes_of inp) r) -> responses V [PToPeer inp] = [].
Proof.
  intros V [[|x y]|] H; cbn [bytes_of] in *; try reflexivity. cbn [responses]. destruct (parse_resp V (x :: y)) as [m|] eqn:Ep; [|reflexivity].
  destruct (rs_status m) as [st|] eqn:Es; [|reflexivity]. destruct (N.eqb_spec (pst_code st) 0); [|reflexivity].
  destruct (H m). split; [discriminate|]. split; [exact Ep|]. eauto.
Qed.
Lemma selections_app : forall V a b, selections V (a ++ b) = selections V a ++ selections V b.
Proof. intros. unfold selections. rewrite responses_app. apply flat_map_app. Qed.

Definition selected_is (l : list p_identity) (o : option identity) : Prop :=
  match o with None => l = [] | Some i => selects l i end.

Lemma selects_fun : forall l i j, selects l i -> selects l j -> i = j.
Proof.
  intros l i j (k & p & -> & H) (k' & p' & E & H'). apply app_inj_tail in E. destruct E as [_ <-]. eapply meant_fun; eassumption.
Qed.
Lemma meant_made : forall p i, meant p i -> made_identity i.
Proof. intros p i []; unfold made_identity; cbn; intros; try discriminate; reflexivity. Qed.

Lemma proxied_tokens : forall w a cs ops rs s, proxied w a cs ops rs s ->
  tokens_ok (w_manager w) s /\ selected_is (selections (w_text w) ops) (y_selected s).
Proof.
  intros w a cs. apply proxied_ind.
  - intros s Ho Hc. destruct (create_is a cs s Ho Hc) as (_ & Hca & Hlo & Hse & _). unfold tokens_ok. rewrite Hca, Hlo, Hse. split; [|reflexivity].
    split; [intros p c x q E; destruct p; discriminate|split; constructor].
  - intros ops rs s op s' r Hp [HT HS] Hok Es. pose proof (proxied_config _ _ _ _ _ _ Hp) as [_ Hm].
    rewrite selections_app. destruct op as [inp o ser|inp| |fs|]; cbn [pstep] in Es.
    + destruct (get_bytes_for_s2a (w_manager w) o ser s inp) as [s1 st] eqn:Eg. injection Es as <- <-.
      apply s2a_call_is in Eg; [|exact Hok|exact Hm]. cbn. rewrite app_nil_r.
      assert (HK : tokens_ok (w_manager w) (populate_token_cache (w_manager w) o s)).
      { apply populate_ok; auto. destruct (y_selected s) as [i|]; [|exact I]. destruct HS as (k & p & _ & H). eapply meant_made. exact H. }
      destruct (populate_same (w_manager w) o s) as (_ & _ & Hse & _).
      destruct Eg; cbn [y_selected set_first]; try (split; [exact HT|exact HS]); (split; [exact HK|]); try rewrite Hse; try exact HS.
      all: unfold s'; try rewrite Hse; exact HS.
    + destruct (get_bytes_for_peer (w_text w) s inp) as [s1 st] eqn:Eg. injection Es as <- <-. apply peer_call_is in Eg.
      unfold selections at 2. destruct Eg as [c Hc Hn|q s1 s2 err G E1 E2].
      * rewrite (responses_bad _ _ Hn). cbn. rewrite app_nil_r. auto.
      * rewrite (responses_good _ _ _ G). cbn [flat_map]. rewrite app_nil_r.
        assert (K : tokens_ok (w_manager w) s1 /\ selected_is (selections (w_text w) ops ++ match rs_local q with Some i => [i] | None => [] end) (y_selected s1)).
        { subst s1. destruct (rs_local q) as [p|]; [|rewrite app_nil_r; auto]. split; [exact HT|]. cbn. exists (selections (w_text w) ops), p.
          split; [reflexivity|]. exact (identity_from_meant (Some p)). }
        destruct (rs_result q) as [res|]; [|destruct E2 as [-> _]; exact K].
        apply take_result_frame in E2. destruct E2 as (_ & _ & A & B & C & _). unfold tokens_ok. rewrite A, B, C. exact K.
    + injection Es as <- <-. cbn. rewrite app_nil_r. auto.
    + destruct (create_frame_protector (w_prims w) (w_lib w) s fs) as [[[s1 x] fs1]|u|] eqn:Ec; try discriminate. injection Es as <- <-.
      apply create_frame in Ec. cbn. rewrite app_nil_r. destruct Ec as [(_ & -> & _)|(_ & -> & _)]; split; assumption.
    + unfold get_s2a_context in Es. cbn. rewrite app_nil_r. destruct (y_finished s); injection Es as <- <-; split; assumption.
Qed.

Lemma sent_auth : forall tm o s inp ser s' c n b, s2a_call tm o s inp ser s' (c, n, Some b) ->
  exists q, encodes b {| rq_oneof := q; rq_auth := auth_mechanisms o (populate_token_cache tm o s) |} /\ y_log s' = y_log (populate_token_cache tm o s).
Proof.
  intros tm o s inp ser s' c n b C. remember (c, n, Some b) as st eqn:Est.
  destruct C as [H|H|m H1 H2 H3 H4 H5 H6 H7 s1|m H1 H2 H3 H4 H5 H6 s1|H1 H2 H3 s1]; try discriminate; injection Est as <- <- <-.
  - exists (ReqClient m). split; [|reflexivity]. split; [reflexivity|]. split; [exact H6|apply auth_valid].
  - exists (ReqServer m). split; [|reflexivity]. split; [reflexivity|]. split; [exact H5|apply auth_valid].
  - exists (ReqNext (bytes_of inp)). split; [|reflexivity]. split; [reflexivity|]. split; [exact I|apply auth_valid].
Qed.

Lemma P40 : forall w a cs ops rs s, proxied w a cs ops rs s ->
  forall inp o ser s' c n b, order_ok o -> pstep w s (PToS2A inp o ser) = Done (s', RToS2A (c, n, Some b)) ->
  log_of (w_manager w) (y_log s') /\
  exists q l, encodes b {| rq_oneof := q; rq_auth := l |} /\ Forall (mechanism_ok (y_log s')) l /\
    (forall i, ya_manager a = true -> selects (selections (w_text w) ops) i -> w_manager w (y_log s) (GetToken i) <> None ->
       exists m, l = [m] /\ mechanism_for (y_log s') i m).
Proof.
  intros w a cs ops rs s Hp inp o ser s' c n b Ho E. destruct (step_total _ _ _ _ _ _ inp o ser Hp Ho) as (s1 & st & E' & C).
  rewrite E in E'. injection E' as <- <-. destruct (sent_auth _ _ _ _ _ _ _ _ _ C) as (q & He & Hlog).
  destruct (proxied_tokens _ _ _ _ _ _ Hp) as [HT HS]. destruct (proxied_config _ _ _ _ _ _ Hp) as [Hc Hm].
  assert (HK : tokens_ok (w_manager w) (populate_token_cache (w_manager w) o s)).
  { apply populate_ok; auto. destruct (y_selected s) as [i|]; [|exact I]. destruct HS as (k & p & _ & H). eapply meant_made. exact H. }
  destruct HK as [HL [_ HF]]. rewrite Hlog. split; [exact HL|]. exists q. eexists. split; [exact He|]. unfold auth_mechanisms. destruct Ho as [_ Ho].
  split.
  - apply Forall_map. eapply perm_forall; [apply Ho|]. eapply Forall_impl; [|exact HF]. intros e [A B]. exists (fst e). now apply mechanism_is.
  - intros i Hma Hsel Ht. assert (Hsi : y_selected s = Some i).
    { destruct (y_selected s) as [j|]; [f_equal; eapply selects_fun; eassumption|]. destruct Hsel as (k & p & K & _). rewrite HS in K. destruct k; discriminate. }
    assert (Hma' : y_manager s = true). { unfold config, config_of in Hc. injection Hc as _ _ _ _ ->. exact Hma. }
    destruct (populate_selected (w_manager w) o s i Hma' Hsi Ht) as (t & Hca). rewrite Hca in *. 
    specialize (Ho [(i, t)]). apply Permutation_sym, Permutation_length_1_inv in Ho. rewrite Ho. exists (auth_mechanism (i, t)). split; [reflexivity|].
    inversion HF as [|x y [A B] _]; subst. exact (mechanism_is _ (i, t) A B).
Qed.
