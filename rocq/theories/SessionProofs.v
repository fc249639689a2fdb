(* Which session the answers of a proxy are about (C68). *)
From Coq Require Import List NArith Bool Lia.
From Verif Require Import Base Aead AeadProofs Hkdf HalfConn Options HsHandler Crypter FrameProt Wire SpecWire WireProofs WireMsgs WireValid
  Util Context SpecOptions HsMsgProofs Proxy ProxyRun SpecProxy ProxyProofs SpecTls SpecHs SpecRecord SpecRx CrypterRun HalfRun SpecFrame FrameRun
  FrameFinal ProxyFinal ProxyMore SpecSession.
Import ListNotations.
Local Open Scope N_scope.

Lemma brings_fun : forall V op r r', brings V op r -> brings V op r' -> r = r'.
Proof.
  intros V op r r' (b & q & -> & G & E) (b' & q' & K & G' & E'). injection K as <-. rewrite (good_fun _ _ _ _ G' G) in E'. congruence.
Qed.
Lemma quiet_brings : forall V op res, quiet op -> ~ brings V op res.
Proof. intros V op res Hq (b & r & -> & _). exact Hq. Qed.

Lemma latest_nil : forall V K res rest, ~ latest V K [] res rest.
Proof. intros V K res rest ((p & op & E & _) & _). destruct p; discriminate. Qed.

Lemma latest_snoc : forall V K ops op res rest, latest V K (ops ++ [op]) res rest <->
  (exists r0, rest = r0 ++ [op] /\ latest V K ops res r0 /\ forall res', brings V op res' -> ~ K res') \/
  (rest = [] /\ brings V op res /\ K res).
Proof.
  intros V K ops op res rest. split.
  - intros ((p & o & E & B) & Hk & Hn). destruct rest as [|x rest] using rev_ind.
    + apply app_inj_tail in E. destruct E as [<- <-]. right. auto.
    + clear IHrest. rewrite app_comm_cons, app_assoc in E. apply app_inj_tail in E. destruct E as [-> <-]. left. exists rest.
      split; [reflexivity|]. split; [|intros res'; apply Hn; apply in_or_app; right; left; reflexivity].
      split; [exists p, o; auto|]. split; [exact Hk|]. intros o' r' Hi. apply Hn. apply in_or_app. auto.
  - intros [(r0 & -> & ((p & o & -> & B) & Hk & Hn) & Hx)|(-> & B & Hk)].
    + split; [exists p, o; split; [rewrite <- app_assoc; reflexivity|exact B]|]. split; [exact Hk|].
      intros o' r' Hi. apply in_app_iff in Hi. destruct Hi as [Hi|[<-|[]]]; [apply Hn; exact Hi|apply Hx].
    + split; [exists ops, op; auto|]. split; [exact Hk|]. intros o' r' [].
Qed.

Lemma latest_fun : forall V K ops r1 s1 r2 s2, latest V K ops r1 s1 -> latest V K ops r2 s2 -> r1 = r2 /\ s1 = s2.
Proof.
  intros V K ops. induction ops as [|op ops IH] using rev_ind; intros r1 s1 r2 s2 H1 H2; [destruct (latest_nil _ _ _ _ H1)|].
  apply latest_snoc in H1. apply latest_snoc in H2.
  destruct H1 as [(x1 & -> & H1 & N1)|(-> & B1 & K1)]; destruct H2 as [(x2 & -> & H2 & N2)|(-> & B2 & K2)].
  - destruct (IH _ _ _ _ H1 H2) as [-> ->]. auto.
  - destruct (N1 _ B2 K2).
  - destruct (N2 _ B1 K1).
  - split; [eapply brings_fun; eassumption|reflexivity].
Qed.

Lemma session_snoc : forall V ops op res, session V (ops ++ [op]) res <->
  (session V ops res /\ forall res', brings V op res' -> ~ with_state res') \/ (brings V op res /\ with_state res).
Proof.
  intros V ops op res. split.
  - intros (rest & H). apply latest_snoc in H. destruct H as [(r0 & _ & H & N)|(_ & B & K)]; [left; split; [exists r0; exact H|exact N]|right; auto].
  - intros [[(r0 & H) N]|[B K]].
    + exists (r0 ++ [op]). apply latest_snoc. left. eauto.
    + exists []. apply latest_snoc. right. auto.
Qed.
Lemma waits_snoc : forall V ops op res, context_waits V (ops ++ [op]) res <->
  (context_waits V ops res /\ op <> PContext /\ forall res', brings V op res' -> ~ complete res') \/ (brings V op res /\ complete res).
Proof.
  intros V ops op res. split.
  - intros (rest & H & Hc). apply latest_snoc in H. destruct H as [(r0 & -> & H & N)|(_ & B & K)]; [left|right; auto].
    split; [exists r0; split; [exact H|intros Hi; apply Hc, in_or_app; auto]|]. split; [|exact N]. intros ->. apply Hc, in_or_app. right. left. reflexivity.
  - intros [[(r0 & H & Hc) [Ho N]]|[B K]].
    + exists (r0 ++ [op]). split; [apply latest_snoc; left; eauto|]. intros Hi. apply in_app_iff in Hi. destruct Hi as [Hi|[Hi|[]]]; auto.
    + exists []. split; [apply latest_snoc; right; auto|intros []].
Qed.

(* ---- what is stored ---- *)
Definition session_is (res : p_result) (x : session_result) : Prop := forall s, session_args res (frame_args s x).

Definition stored (V : bytes -> bool) (ops : list pop) (s : proxy) : Prop :=
  match y_result s with
  | None => forall res, ~ session V ops res
  | Some x => exists res, session V ops res /\ session_is res x
  end /\
  match y_context s with
  | None => forall res, ~ context_waits V ops res
  | Some c => exists res, context_waits V ops res /\ context_matches res c
  end.

Lemma unknown_tls_iff : forall st c, tls_from_proto (pt_tls st) = inl c -> ~ known_tls st.
Proof. intros st c E (v & H). apply tls_from_ok in H. congruence. Qed.
Lemma unknown_suite_iff : forall st c, suite_from_proto (pt_suite st) = inl c -> ~ known_suite st.
Proof. intros st c E (v & H). apply suite_from_ok in H. congruence. Qed.

(* What a result does to a proxy. *)
Lemma take_result_stores : forall s res s' e, take_result s res = (s', e) ->
  match pr_state res with
  | None => y_result s' = y_result s
  | Some _ => exists x, y_result s' = Some x /\ session_is res x
  end /\
  ((~ complete res /\ y_context s' = y_context s) \/
   (complete res /\ exists c, y_context s' = Some c /\ context_matches res c)).
Proof.
  intros s res s' e E. unfold take_result in E. destruct (pr_state res) as [st|] eqn:Es.
  2: { injection E as <- <-. split; [reflexivity|]. left. split; [|reflexivity]. intros (st & K & _). congruence. }
  destruct (tls_from_proto (pt_tls st)) as [c|v] eqn:Et.
  { injection E as <- <-. apply unknown_tls_iff in Et. split.
    - eexists. split; [reflexivity|]. intros s1. repeat (split; [reflexivity|]). exists st. split; [exact Es|]. cbn. tauto.
    - left. split; [|reflexivity]. intros (st' & K & Kt & _). congruence. }
  apply tls_from_ok in Et. assert (Kt : known_tls st) by (exists v; exact Et).
  destruct (suite_from_proto (pt_suite st)) as [c|u] eqn:Eu.
  { injection E as <- <-. apply unknown_suite_iff in Eu. split.
    - eexists. split; [reflexivity|]. intros s1. repeat (split; [reflexivity|]). exists st. split; [exact Es|]. cbn. tauto.
    - left. split; [|reflexivity]. intros (st' & K & _ & Ku & _). congruence. }
  apply suite_from_ok in Eu. assert (Ku : known_suite st) by (exists u; exact Eu).
  destruct (pr_local res) as [p|] eqn:El; injection E as <- <-.
  - split.
    + eexists. split; [reflexivity|]. intros s1. repeat (split; [reflexivity|]). exists st. split; [exact Es|]. cbn. split; [auto|]. split; [tauto|].
      split; [|tauto]. intros _. rewrite El. repeat (split; [solve [auto]|]). exact (identity_from_meant (Some p)).
    + right. split; [exists st; repeat split; auto; congruence|]. eexists. split; [reflexivity|]. exists st, p. cbn.
      repeat (split; [solve [auto|apply identity_from_meant]|]). reflexivity.
  - split.
    + eexists. split; [reflexivity|]. intros s1. repeat (split; [reflexivity|]). exists st. split; [exact Es|]. cbn. split; [auto|]. split; [tauto|].
      split; [|tauto]. intros _. rewrite El. auto 10.
    + left. split; [|reflexivity]. intros (st' & _ & _ & _ & K). congruence.
Qed.

Lemma stored_inv : forall w a cs ops rs s, proxied w a cs ops rs s -> stored (w_text w) ops s.
Proof.
  intros w a cs. apply proxied_ind.
  - intros s Ho Hc. destruct (create_is a cs s Ho Hc) as (_ & _ & _ & _ & _ & _ & Hx & Hr & _). unfold stored. rewrite Hr.
    assert (Hcx : y_context s = None). { unfold proxy_create in Hc. destruct (ya_logger a); [|discriminate]. destruct (ya_options a); [|discriminate].
      injection Hc as <-. reflexivity. }
    rewrite Hcx. split; intros res (rest & H); [|destruct H as [H _]]; destruct (latest_nil _ _ _ _ H).
  - intros ops rs s op s' r Hp [IH1 IH2] Hok Es. pose proof (proxied_config _ _ _ _ _ _ Hp) as [_ Hm].
    assert (Hquiet : quiet op -> op <> PContext -> stored (w_text w) (ops ++ [op]) s').
    { intros Hq Hn. destruct (step_result _ _ _ _ _ Hq Hok Hm Es) as (E1 & E2 & _). specialize (E2 Hn). unfold stored. rewrite E1, E2.
      split; [destruct (y_result s)|destruct (y_context s)].
      - destruct IH1 as (res & H1 & H2). exists res. split; [|exact H2]. apply session_snoc. left. split; [exact H1|].
        intros res' B. destruct (quiet_brings _ _ _ Hq B).
      - intros res H. apply session_snoc in H. destruct H as [[H _]|[B _]]; [exact (IH1 _ H)|exact (quiet_brings _ _ _ Hq B)].
      - destruct IH2 as (res & H1 & H2). exists res. split; [|exact H2]. apply waits_snoc. left. split; [exact H1|]. split; [exact Hn|].
        intros res' B. destruct (quiet_brings _ _ _ Hq B).
      - intros res H. apply waits_snoc in H. destruct H as [[H _]|[B _]]; [exact (IH2 _ H)|exact (quiet_brings _ _ _ Hq B)]. }
    destruct op as [inp o ser|inp| |fs|]; try (apply Hquiet; [exact I|discriminate]).
    + clear Hquiet. cbn [pstep] in Es. destruct (get_bytes_for_peer (w_text w) s inp) as [s1 st] eqn:Eg. injection Es as <- <-. apply peer_call_is in Eg.
      assert (Hsame : (forall res, ~ brings (w_text w) (PToPeer inp) res) -> forall s2, y_result s2 = y_result s -> y_context s2 = y_context s ->
                stored (w_text w) (ops ++ [PToPeer inp]) s2).
      { intros Hb s2 E1 E2. unfold stored. rewrite E1, E2. split; [destruct (y_result s)|destruct (y_context s)].
        - destruct IH1 as (res & H1 & H2). exists res. split; [|exact H2]. apply session_snoc. left. split; [exact H1|]. intros res' B. destruct (Hb _ B).
        - intros res H. apply session_snoc in H. destruct H as [[H _]|[B _]]; [exact (IH1 _ H)|exact (Hb _ B)].
        - destruct IH2 as (res & H1 & H2). exists res. split; [|exact H2]. apply waits_snoc. left. split; [exact H1|]. split; [discriminate|].
          intros res' B. destruct (Hb _ B).
        - intros res H. apply waits_snoc in H. destruct H as [[H _]|[B _]]; [exact (IH2 _ H)|exact (Hb _ B)]. }
      destruct Eg as [c Hc Hn|q s1 s2 err G E1 E2].
      * apply Hsame; auto. intros res (b & r & E & G & _). injection E as ->. exact (Hn _ G).
      * assert (F1 : y_result s1 = y_result s /\ y_context s1 = y_context s). { subst s1. destruct (rs_local q); auto. }
        destruct F1 as [F1 F2]. destruct inp as [b|]; [|destruct G as [G _]; contradiction]. destruct (rs_result q) as [res|] eqn:Er.
        2: { destruct E2 as [-> _]. apply Hsame; auto. intros res (b' & r & E & G' & E'). injection E as <-.
          rewrite (good_fun _ _ _ _ G' G) in E'. congruence. }
        assert (B : brings (w_text w) (PToPeer (Some b)) res) by (exists b, q; auto).
        destruct (take_result_stores _ _ _ _ E2) as [T1 T2]. rewrite F1 in T1. rewrite F2 in T2. split.
        -- destruct (pr_state res) as [st|] eqn:Est.
           ++ destruct T1 as (x & -> & Hx). exists res. split; [|exact Hx]. apply session_snoc. right. split; [exact B|]. unfold with_state. congruence.
           ++ rewrite T1. assert (N : forall res', brings (w_text w) (PToPeer (Some b)) res' -> ~ with_state res').
              { intros res' B' K. rewrite (brings_fun _ _ _ _ B' B) in K. exact (K Est). }
              destruct (y_result s).
              ** destruct IH1 as (r' & H1 & H2). exists r'. split; [|exact H2]. apply session_snoc. left. auto.
              ** intros r' H. apply session_snoc in H. destruct H as [[H _]|[B' K]]; [exact (IH1 _ H)|exact (N _ B' K)].
        -- destruct T2 as [[N T2]|[K (c & T2 & M)]]; rewrite T2.
           ++ assert (N' : forall res', brings (w_text w) (PToPeer (Some b)) res' -> ~ complete res').
              { intros res' B' K. rewrite (brings_fun _ _ _ _ B' B) in K. exact (N K). }
              destruct (y_context s).
              ** destruct IH2 as (r' & H1 & H2). exists r'. split; [|exact H2]. apply waits_snoc. left. split; [exact H1|]. split; [discriminate|exact N'].
              ** intros r' H. apply waits_snoc in H. destruct H as [[H _]|[B' K]]; [exact (IH2 _ H)|exact (N' _ B' K)].
           ++ exists res. split; [|exact M]. apply waits_snoc. right. auto.
    + destruct (step_result w s PContext s' r I Hok Hm Es) as (E1 & _ & _). unfold stored. rewrite E1.
      assert (NB : forall res, ~ brings (w_text w) PContext res) by (intros res; apply quiet_brings; exact I). split.
      * destruct (y_result s).
        -- destruct IH1 as (res & H1 & H2). exists res. split; [|exact H2]. apply session_snoc. left. split; [exact H1|]. intros res' B. destruct (NB _ B).
        -- intros res H. apply session_snoc in H. destruct H as [[H _]|[B _]]; [exact (IH1 _ H)|exact (NB _ B)].
      * cbn [pstep] in Es. unfold get_s2a_context in Es.
        assert (N : forall res, ~ context_waits (w_text w) (ops ++ [PContext]) res).
        { intros res H. apply waits_snoc in H. destruct H as [[_ [H _]]|[B _]]; [exact (H eq_refl)|exact (NB _ B)]. }
        destruct (y_finished s) eqn:F; injection Es as <- <-; [exact N|].
        destruct (y_context s) as [c|]; [|exact N]. exfalso. destruct IH2 as (res & (rest & ((p & op & -> & b & q & -> & G & Er) & _) & _) & _).
        enough (y_finished s = true) by congruence. eapply finished_iff; [exact Hp|]. exists b, q, res.
        split; [apply in_or_app; right; left; reflexivity|]. auto.
Qed.
