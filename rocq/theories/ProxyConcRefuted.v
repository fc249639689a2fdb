(* C67: what goes wrong with CreateFrameProtector and GetS2AContext. *)
From Coq Require Import List NArith Bool PeanoNat Lia.
From Verif Require Import Base Aead AeadProofs Hkdf HalfConn Options HsHandler Crypter FrameProt Wire SpecWire Util Context SpecOptions
  HsMsgProofs FrameFinal Conc ConcRun ConcLinear Proxy ProxyRun ProxyProofs ProxyFinal ProxyRefuted SpecTls SpecFrame Toy ToyProofs FrameExamples
  ProxyConc SpecProxyConc ProxyConcProofs ProxyConcFinal.
Import ListNotations.
Local Open Scope N_scope.

Lemma qrun_app : forall w s1 s2 g, qrun w g (s1 ++ s2) = obind (qrun w g s1) (fun g => qrun w g s2).
Proof. intros w. induction s1 as [|i s1 IH]; intros s2 g; [reflexivity|]. cbn [app qrun]. destruct (qstep w g i); cbn [obind]; auto. Qed.

(* Run the threads. *)
Ltac go := match goal with |- ?l = _ => let v := eval lazy -[fp_create get_bytes_for_peer has_state] in l in change l with v; reflexivity end.

Lemma context_ready : forall w s s' c, pstep w s PContext = Done (s', RContext (inr c)) -> y_finished s = true /\ y_context s = c /\ s' = set_context s None.
Proof. intros w s s' c E. cbn [pstep] in E. unfold get_s2a_context in E. destruct (y_finished s); cbn [negb] in E; [injection E as <- <-; auto|discriminate]. Qed.

(* Two threads get the same context. *)
Lemma R67a : forall w s s' c, pstep w s PContext = Done (s', RContext (inr (Some c))) ->
  (exists s2, prun w s [PContext; PContext] = Done (s2, [RContext (inr (Some c)); RContext (inr None)])) /\
  (exists sched g, qrun w (qstart s [[PContext]; [PContext]]) sched = Done g /\ settled g /\
     map q_done (g_callers g) = [[RContext (inr (Some c))]; [RContext (inr (Some c))]]) /\
  (exists sched g, qrun w (qstart s [[PContext]; [PContext]]) sched = Done g /\ racing w g).
Proof.
  intros w s s' c E. apply context_ready in E. destruct E as (F & C & _). destruct s. cbn in F, C. subst. split; [|split].
  - eexists. reflexivity.
  - exists [0; 0; 0; 0; 1; 1; 1; 1; 0; 1; 0; 1; 0; 1]%nat. eexists. split; [go|]. split; [repeat constructor|reflexivity].
  - exists [0; 0; 0; 0; 1; 1; 1; 1; 1]%nat. eexists. split; [go|].
    exists 0%nat, 1%nat. do 2 eexists. do 4 eexists. exists LContext. do 2 eexists. split; [discriminate|].
    split; [reflexivity|]. split; [reflexivity|]. split; [left; reflexivity|]. split; [reflexivity|]. split; [reflexivity|]. split; [left; reflexivity|reflexivity].
Qed.

Lemma protector_ready : forall w a cs ops rs s, proxied w a cs ops rs s -> result_received (w_text w) ops ->
  forall fs s' r, pstep w s (PProtector fs) = Done (s', RProtector r) ->
  y_finished s = true /\ exists x, y_result s = Some x /\ exists fs', fp_create (w_prims w) (w_lib w) (frame_args s x) fs = Done (r, fs').
Proof.
  intros w a cs ops rs s Hp Hr fs s' r E. apply (finished_iff _ _ _ _ _ _ Hp) in Hr. split; [exact Hr|]. cbn [pstep] in E.
  destruct (create_frame_protector (w_prims w) (w_lib w) s fs) as [[[s1 x] fs1]|u|] eqn:Ec; try discriminate. injection E as <- ->.
  apply create_frame in Ec. destruct Ec as [(K & _)|(_ & _ & x & fs'' & Ex & Ec)]; [congruence|]. eauto.
Qed.

(* GetBytesForPeer frees what CreateFrameProtector is reading. *)
Lemma R67b : forall w a cs ops rs s, proxied w a cs ops rs s -> result_received (w_text w) ops ->
  forall fs s' r, pstep w s (PProtector fs) = Done (s', RProtector r) ->
  forall op, stores (w_text w) op ->
  (exists sched, qrun w (qstart s [[PProtector fs]; [op]]) sched = Undef UbUseAfterFree) /\
  (exists sched g, qrun w (qstart s [[PProtector fs]; [op]]) sched = Done g /\ racing w g).
Proof.
  intros w a cs ops rs s Hp Hr fs s' r E op Hs. destruct (protector_ready _ _ _ _ _ _ Hp Hr _ _ _ E) as (F & x & Hx & _).
  pose proof Hs as Hs'. apply stores_peer in Hs. destruct Hs as (inp & -> & Hst). split.
  - exists ([0; 0; 0; 0; 0; 1; 1] ++ [1; 0])%nat. rewrite qrun_app.
    assert (E1 : qrun w (qstart s [[PProtector fs]; [PToPeer inp]]) [0; 0; 0; 0; 0; 1; 1]%nat =
      Done {| g_mem := {| sh_proxy := s; sh_object := 0 |}; g_owner := Some 1%nat;
              g_callers := [{| q_todo := []; q_now := Some (PProtector fs, AtRead (Some 0) FTls [FSuite; FIn; FOut; FInSeq; FOutSeq; FLocal; FConn] session_result_new); q_done := [] |};
                            {| q_todo := []; q_now := Some (PToPeer inp, AtBody); q_done := [] |}] |}).
    { destruct s. cbn in F, Hx. subst. lazy. reflexivity. }
    rewrite E1. cbn [obind qrun qstep g_callers nth_error q_now body g_mem sh_proxy sh_object].
    destruct (get_bytes_for_peer (w_text w) s inp) as [s2 st]. rewrite Hst. cbn. destruct (y_result s2); reflexivity.
  - exists [0; 0; 0; 0; 1; 1]%nat. eexists. split; [destruct s; cbn in F, Hx; subst; go|].
    exists 0%nat, 1%nat. do 2 eexists. do 4 eexists. exists LResult, false, true. split; [discriminate|].
    split; [reflexivity|]. split; [reflexivity|]. split; [left; reflexivity|]. split; [reflexivity|]. split; [reflexivity|]. split; [|reflexivity].
    cbn [accesses body_accesses]. unfold has_state in Hst. destruct (peer_good (w_text w) inp) as [q|]; [|discriminate]. apply in_app_iff. right.
    destruct (rs_result q) as [res|]; [|discriminate]. right. apply in_app_iff. left. rewrite Hst. left. reflexivity.
Qed.

Lemma create_step : forall w g i q fs acc ch r fs', nth_error (g_callers g) i = Some q -> q_now q = Some (PProtector fs, AtCreate acc ch) ->
  fp_create (w_prims w) (w_lib w) (protector_args (sh_proxy (g_mem g)) acc ch) fs = Done (r, fs') ->
  qstep w g i = Done (put g (g_mem g) (g_owner g) i (at_pc q (PProtector fs) (AtReturn (RProtector r)))).
Proof. intros w g i q fs acc ch r fs' Hq Hn E. unfold qstep. rewrite Hq, Hn. cbn [unlocked]. rewrite E. reflexivity. Qed.

(* Both get the channel to S2A. *)
Lemma R67c : forall w a cs ops rs s, prims_ok (w_prims w) -> w_text w [] = true -> proxied w a cs ops rs s -> result_received (w_text w) ops ->
  y_result s <> None -> y_channel s = true ->
  (exists args r fs' sched g, fp_create (w_prims w) (w_lib w) args [] = Done (r, fs') /\ ca_channel (fa_crypt args) = true /\
     qrun w (qstart s [[PProtector []]; [PProtector []]]) sched = Done g /\ settled g /\
     map q_done (g_callers g) = [[RProtector r]; [RProtector r]]) /\
  (exists sched g, qrun w (qstart s [[PProtector []]; [PProtector []]]) sched = Done g /\ racing w g).
Proof.
  intros w a cs ops rs s HP HV Hp Hr Hx Hch. apply (finished_iff _ _ _ _ _ _ Hp) in Hr. pose proof (proxied_result _ _ _ _ _ _ HV Hp) as Ho.
  destruct (y_result s) as [x|] eqn:Ex; [|contradiction]. destruct Ho as [Hi Ho].
  destruct (F32 (w_prims w) (w_lib w) (frame_args s x) [] HP Hi Ho) as (r & fs' & Ef & _). split.
  - exists (frame_args s x), r, fs', ((repeat 0 21 ++ repeat 1 21 ++ [0; 1]) ++ [0; 1; 0; 1])%nat.
    assert (Q1 : qrun w (qstart s [[PProtector []]; [PProtector []]]) (repeat 0 21 ++ repeat 1 21 ++ [0; 1])%nat =
      Done {| g_mem := {| sh_proxy := move_channel (move_channel s); sh_object := 0 |}; g_owner := None;
              g_callers := [{| q_todo := []; q_now := Some (PProtector [], AtCreate x true); q_done := [] |};
                            {| q_todo := []; q_now := Some (PProtector [], AtCreate x true); q_done := [] |}] |}).
    { destruct s. cbn in Hr, Hch, Ex. subst. destruct x. lazy. reflexivity. }
    assert (Ef' : fp_create (w_prims w) (w_lib w) (protector_args (move_channel (move_channel s)) x true) [] = Done (r, fs')).
    { rewrite <- Ef. unfold frame_args. rewrite Hch. reflexivity. }
    eexists. split; [exact Ef|]. split; [exact Hch|]. rewrite qrun_app, Q1. split.
    + cbn [obind qrun]. erewrite create_step; [|reflexivity|reflexivity|exact Ef']. cbn [obind put g_callers set_nth g_mem g_owner].
      erewrite create_step; [|reflexivity|reflexivity|exact Ef']. reflexivity.
    + split; [repeat constructor|reflexivity].
  - exists (repeat 0 20 ++ repeat 1 21)%nat. destruct s. cbn in Hr, Hch, Ex. subst. eexists. split; [go|].
    exists 0%nat, 1%nat. do 2 eexists. do 4 eexists. exists LChannel. do 2 eexists. split; [discriminate|].
    split; [reflexivity|]. split; [reflexivity|]. split; [left; reflexivity|]. split; [reflexivity|]. split; [reflexivity|]. split; [left; reflexivity|reflexivity].
Qed.

(* The keys of two sessions in one protector. *)
Lemma accepted_result : forall w s b r res st s' n buf, good_response (w_text w) b r -> rs_result r = Some res -> pr_state res = Some st ->
  pstep w s (PToPeer (Some b)) = Done (s', RToPeer (kOk, n, buf)) ->
  y_finished s' = true /\ y_channel s' = y_channel s /\ y_options s' = y_options s /\
  exists x, y_result s' = Some x /\ h_in_secret x = pt_in_key st /\ h_out_secret x = pt_out_key st.
Proof.
  intros w s b r res st s' n buf G Hr Hst E. cbn [pstep] in E. rewrite (peer_is _ _ _ _ G) in E. cbv zeta in E. rewrite Hr in E.
  match type of E with context [take_result ?t res] => set (s1 := t) in * end.
  assert (K1 : y_channel s1 = y_channel s /\ y_options s1 = y_options s). { subst s1. destruct (rs_local r); auto. }
  destruct (take_result s1 res) as [s2 err] eqn:Et. pose proof (take_result_frame _ _ _ _ Et) as (C & _ & _ & _ & _ & Fin & Ch).
  apply config_options in C.
  assert (Es : s' = s2 /\ (err = None \/ err = Some kOk)). { destruct err as [c|]; injection E as <-; [unfold proxy_error in *; subst c|]; auto. }
  destruct Es as [-> He]. split; [exact Fin|]. split; [destruct K1; congruence|]. split; [destruct K1; congruence|].
  unfold take_result in Et. rewrite Hst in Et. destruct (tls_from_proto (pt_tls st)) as [c|tls] eqn:E1.
  - injection Et as <- <-. exfalso. destruct He as [He|He]; [discriminate|injection He as ->].
    destruct (tls_from_cases (pt_tls st)) as [(v & Hv)|K]; [apply tls_from_ok in Hv|]; congruence.
  - destruct (suite_from_proto (pt_suite st)) as [c|su] eqn:E2.
    + injection Et as <- <-. exfalso. destruct He as [He|He]; [discriminate|injection He as ->].
      destruct (suite_from_cases (pt_suite st)) as [(v & Hv)|K]; [apply suite_from_ok in Hv|]; congruence.
    + destruct (pr_local res); injection Et as <- <-; eexists; (split; [reflexivity|auto]).
Qed.

Lemma R67d : forall w a cs ops rs s0, prims_ok (w_prims w) -> w_text w [] = true -> proxied w a cs ops rs s0 ->
  forall b1 r1 res1 st1 s1 n1 buf1 b2 r2 res2 st2 s2 n2 buf2,
  good_response (w_text w) b1 r1 -> rs_result r1 = Some res1 -> pr_state res1 = Some st1 ->
  pstep w s0 (PToPeer (Some b1)) = Done (s1, RToPeer (kOk, n1, buf1)) ->
  good_response (w_text w) b2 r2 -> rs_result r2 = Some res2 -> pr_state res2 = Some st2 ->
  pstep w s1 (PToPeer (Some b2)) = Done (s2, RToPeer (kOk, n2, buf2)) ->
  forall fs, exists args x fs' sched g, fp_create (w_prims w) (w_lib w) args fs = Done (x, fs') /\
    ca_in_secret (fa_crypt args) = pt_in_key st1 /\ ca_out_secret (fa_crypt args) = pt_out_key st2 /\
    qrun w (qstart s1 [[PProtector fs]; [PToPeer (Some b2)]]) sched = Done g /\ settled g /\
    map q_done (g_callers g) = [[RProtector x]; [RToPeer (kOk, n2, buf2)]].
Proof.
  intros w a cs ops rs s0 HP HV Hp b1 r1 res1 st1 s1 n1 buf1 b2 r2 res2 st2 s2 n2 buf2 G1 Hr1 Hs1 E1 G2 Hr2 Hs2 E2 fs.
  pose proof (next_step _ _ _ _ _ _ (PToPeer (Some b1)) _ _ Hp I E1) as Hp1. pose proof (next_step _ _ _ _ _ _ (PToPeer (Some b2)) _ _ Hp1 I E2) as Hp2.
  pose proof (proxied_result _ _ _ _ _ _ HV Hp1) as Ho1. pose proof (proxied_result _ _ _ _ _ _ HV Hp2) as Ho2.
  destruct (accepted_result _ _ _ _ _ _ _ _ _ G1 Hr1 Hs1 E1) as (F1 & C1 & O1 & x1 & X1 & I1 & U1).
  destruct (accepted_result _ _ _ _ _ _ _ _ _ G2 Hr2 Hs2 E2) as (F2 & C2 & O2 & x2 & X2 & I2 & U2).
  set (m := copy_field FConn x2 (copy_field FLocal x2 (copy_field FOutSeq x2 (copy_field FInSeq x2 (copy_field FOut x2
             (copy_field FIn x1 (copy_field FSuite x1 (copy_field FTls x1 session_result_new)))))))).
  rewrite X2 in Ho2. destruct Ho2 as [Hi Ho].
  destruct (F32 (w_prims w) (w_lib w) (protector_args s2 m (y_channel s2)) fs HP Hi Ho) as (x & fs' & Ef & _).
  exists (protector_args s2 m (y_channel s2)), x, fs', (([0; 0; 0; 0] ++ repeat 0 6 ++ [1; 1]) ++ [1; 1; 1] ++ repeat 0 14)%nat.
  assert (St : has_state (w_text w) (Some b2) = true).
  { assert (S2 : stores (w_text w) (PToPeer (Some b2))).
    { exists b2, r2, res2. split; [reflexivity|]. split; [exact G2|]. split; [exact Hr2|]. rewrite Hs2. discriminate. }
    apply stores_peer in S2. destruct S2 as (inp & K & S2). injection K as <-. exact S2. }
  assert (Q1 : qrun w (qstart s1 [[PProtector fs]; [PToPeer (Some b2)]]) ([0; 0; 0; 0] ++ repeat 0 6 ++ [1; 1])%nat =
    Done {| g_mem := {| sh_proxy := s1; sh_object := 0 |}; g_owner := Some 1%nat;
            g_callers := [{| q_todo := []; q_now := Some (PProtector fs, AtLoad FOut [FInSeq; FOutSeq; FLocal; FConn]
                               (copy_field FIn x1 (copy_field FSuite x1 (copy_field FTls x1 session_result_new)))); q_done := [] |};
                          {| q_todo := []; q_now := Some (PToPeer (Some b2), AtBody); q_done := [] |}] |}).
  { destruct s1. cbn in F1, X1. subst. lazy -[copy_field]. reflexivity. }
  cbn [pstep] in E2. destruct (get_bytes_for_peer (w_text w) s1 (Some b2)) as [s2' st] eqn:Eg. injection E2 as -> ->.
  set (x' := copy_field FIn x1 (copy_field FSuite x1 (copy_field FTls x1 session_result_new))) in *.
  assert (Q2 : qrun w {| g_mem := {| sh_proxy := s1; sh_object := 0 |}; g_owner := Some 1%nat;
            g_callers := [{| q_todo := []; q_now := Some (PProtector fs, AtLoad FOut [FInSeq; FOutSeq; FLocal; FConn] x'); q_done := [] |};
                          {| q_todo := []; q_now := Some (PToPeer (Some b2), AtBody); q_done := [] |}] |} [1%nat] =
    Done {| g_mem := {| sh_proxy := s2; sh_object := 1 |}; g_owner := Some 1%nat;
            g_callers := [{| q_todo := []; q_now := Some (PProtector fs, AtLoad FOut [FInSeq; FOutSeq; FLocal; FConn] x'); q_done := [] |};
                          {| q_todo := []; q_now := Some (PToPeer (Some b2), AtUnlock (inl (RToPeer (kOk, n2, buf2)))); q_done := [] |}] |}).
  { cbn [obind qrun qstep g_callers nth_error q_now body g_mem sh_proxy sh_object put at_pc set_nth q_todo q_done g_owner]. rewrite Eg, St. reflexivity. }
  assert (Q3 : qrun w {| g_mem := {| sh_proxy := s2; sh_object := 1 |}; g_owner := Some 1%nat;
            g_callers := [{| q_todo := []; q_now := Some (PProtector fs, AtLoad FOut [FInSeq; FOutSeq; FLocal; FConn] x'); q_done := [] |};
                          {| q_todo := []; q_now := Some (PToPeer (Some b2), AtUnlock (inl (RToPeer (kOk, n2, buf2)))); q_done := [] |}] |}
         ([1; 1] ++ repeat 0 12)%nat =
    Done {| g_mem := {| sh_proxy := move_channel s2; sh_object := 1 |}; g_owner := None;
            g_callers := [{| q_todo := []; q_now := Some (PProtector fs, AtCreate m (y_channel s2)); q_done := [] |};
                          {| q_todo := []; q_now := None; q_done := [RToPeer (kOk, n2, buf2)] |}] |}).
  { subst m. clearbody x'. clear - F2 X2. destruct s2. cbn in F2, X2. subst. lazy -[copy_field]. reflexivity. }
  assert (Ef' : fp_create (w_prims w) (w_lib w) (protector_args (move_channel s2) m (y_channel s2)) fs = Done (x, fs')) by exact Ef.
  eexists. split; [exact Ef|]. split; [exact I1|]. split; [exact U2|].
  change ([1; 1; 1] ++ repeat 0 14)%nat with ([1] ++ ([1; 1] ++ repeat 0 12) ++ [0; 0])%nat.
  rewrite qrun_app, Q1. cbn [obind]. rewrite qrun_app, Q2. cbn [obind]. rewrite qrun_app, Q3. cbn [obind]. split.
  - cbn [qrun]. erewrite create_step; [|reflexivity|reflexivity|exact Ef']. reflexivity.
  - split; [repeat constructor|reflexivity].
Qed.

(* ---- cases ---- *)
Definition conc_world : world := {| w_prims := toy; w_lib := OpenSSL; w_text := is_utf8; w_manager := fun _ _ => None |}.

(* One thread makes the handshake and asks for the context, another one waits
   and makes the protector. *)
Definition two_threads : list (list pop) :=
  [[PToS2A None id_order true; PToPeer (Some (enc_resp good_reply)); PContext]; [PFinished; PProtector []; PFinished]].

Lemma two_threads_careful : Forall (Forall pop_ok) two_threads /\ careful is_utf8 [] two_threads.
Proof.
  split.
  - unfold two_threads. repeat (constructor; [repeat (constructor; [first [exact I | exact id_order_ok]|]); constructor|]). constructor.
  - assert (Cp : forall i op, calls_in two_threads i op -> (is_protector op -> i = 1%nat) /\ (is_context op -> i = 0%nat)).
    { intros i op (c & Hc & Hi). destruct i as [|[|[|i]]]; cbn in Hc; try discriminate; injection Hc as <-; cbn in Hi.
      - split; [|auto]. intros [fs ->]. destruct Hi as [K|[K|[K|[]]]]; discriminate.
      - split; [auto|]. intros ->. destruct Hi as [K|[K|[K|[]]]]; discriminate. }
    split; [|split; [|left]].
    + intros i j op op' H1 K1 H2 K2. apply Cp in H1. apply Cp in H2. destruct H1 as [H1 _], H2 as [H2 _]. rewrite H1, H2; auto.
    + intros i j op op' H1 K1 H2 K2. apply Cp in H1. apply Cp in H2. destruct H1 as [_ H1], H2 as [_ H2]. rewrite H1, H2; auto.
    + split; [intros (b & r & res & [] & _)|]. vm_compute. auto.
Qed.

(* The second thread asks too early, then makes the protector while the first
   one takes the context. *)
Definition a_schedule : list nat := repeat 0%nat 6 ++ repeat 1%nat 5 ++ repeat 0%nat 7 ++ flat_map (fun _ => [1; 0]%nat) (seq 0 6) ++ repeat 1%nat 30.
Definition as_expected (g : crowd) : bool :=
  match map q_done (g_callers g) with
  | [[RToS2A (kOk, _, _); RToPeer (kOk, _, _); RContext (inr (Some _))]; [RFinished false; RProtector (inr _); RFinished true]] => true
  | _ => false
  end.
Lemma two_threads_run : exists g, qrun conc_world (qstart (proxy0 args0 setters0) two_threads) a_schedule = Done g /\ settled g /\ as_expected g = true.
Proof.
  assert (K : match qrun conc_world (qstart (proxy0 args0 setters0) two_threads) a_schedule with
              | Done g => forallb (fun q => match pending q with [] => true | _ => false end) (g_callers g) && as_expected g
              | _ => false end = true) by (vm_compute; reflexivity).
  destruct (qrun conc_world (qstart (proxy0 args0 setters0) two_threads) a_schedule) as [g|u|]; try discriminate. apply andb_prop in K. destruct K as [K1 K2].
  exists g. split; [reflexivity|]. split; [|exact K2]. apply Forall_forall. intros q Hq. rewrite forallb_forall in K1. specialize (K1 q Hq).
  destruct (pending q); [reflexivity|discriminate].
Qed.
Lemma fresh0 : proxied conc_world args0 setters0 [] [] (proxy0 args0 setters0).
Proof. split; [reflexivity|]. split; [constructor|]. exists (proxy0 args0 setters0). split; reflexivity. Qed.

(* A second result with other keys. *)
Definition other_state : p_state :=
  {| pt_tls := 1; pt_suite := 0; pt_in_seq := 0; pt_out_seq := 0; pt_in_key := repeat 33 32; pt_out_key := repeat 44 32;
     pt_in_nonce := []; pt_out_nonce := []; pt_conn := 78; pt_resumed := false |}.
Definition other_reply : p_resp := reply 0 None [] (Some (result_of (Some other_state) (Some (host_of [97])))).
Lemma other_reply_good : good_response is_utf8 (enc_resp other_reply) other_reply.
Proof. split; [vm_compute; discriminate|]. split; [vm_compute; reflexivity|]. eexists. split; reflexivity. Qed.
Lemma other_reply_ok : exists s2, pstep conc_world done0 (PToPeer (Some (enc_resp other_reply))) = Done (s2, RToPeer (kOk, 9, Some [])).
Proof. cbn [pstep]. change (w_text conc_world) with is_utf8. rewrite (peer_is _ _ _ _ other_reply_good). eexists. reflexivity. Qed.
Lemma other_reply_stores : stores is_utf8 (PToPeer (Some (enc_resp other_reply))).
Proof. exists (enc_resp other_reply), other_reply. eexists. split; [reflexivity|]. split; [exact other_reply_good|]. split; [reflexivity|discriminate]. Qed.

(* Handshake, polling, and a second sender. *)
Definition locked_threads : list (list pop) :=
  [[PToS2A None id_order true; PToPeer (Some (enc_resp good_reply))]; [PFinished; PFinished]; [PToS2A (Some [1]) id_order true]].
Lemma locked_threads_ok : Forall (Forall pop_ok) locked_threads /\ Forall (Forall locks) locked_threads.
Proof.
  split; unfold locked_threads.
  - repeat (constructor; [repeat (constructor; [first [exact I | exact id_order_ok]|]); constructor|]). constructor.
  - repeat (constructor; [repeat (constructor; [split; [intros [fs K]; discriminate|discriminate]|]); constructor|]). constructor.
Qed.
