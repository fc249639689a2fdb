(* What is written and read means what the .proto files say: C59. *)
From Coq Require Import List NArith ZArith Bool Lia ZifyBool ZifyNat ZifyN.
From Verif Require Import Base BaseProofs Aead Hkdf Options Wire SpecWire WireProofs WireMsgs SpecProto WireSerial WireReads
  Util Context SpecOptions HsMsgProofs ProxyRun.
Import ListNotations.
Local Open Scope N_scope.

(* The fields of the oneof of SessionReq. *)
Definition cases_of (fs : list wfield) : list bytes := lens 1 fs ++ lens 2 fs ++ lens 3 fs ++ lens 4 fs.

Lemma cases_count : forall fs f, (length (cases_of fs) <= length (cases_of (fs ++ [f])))%nat.
Proof. intros fs f. unfold cases_of. rewrite !app_length, !lens_app, !app_length. lia. Qed.

Lemma req_new : forall V, reads_req V [] p_req_new.
Proof. intros V. split; [cbn; auto|constructor]. Qed.

Ltac count L := exfalso; revert L; unfold cases_of; red_fields; cbn [app];
  repeat match goal with E : lens _ _ = _ |- _ => rewrite E; clear E end; cbn; lia.

Lemma req_one : forall V fs m f m', reads_req V fs m -> req_step V m f = Some m' ->
  (length (cases_of (fs ++ [f])) <= 1)%nat -> reads_req V (fs ++ [f]) m'.
Proof.
  intros V fs [o au] [num x] m' [C A] H L. cbn [rq_oneof rq_auth] in *. unfold req_step in H. cbn [rq_oneof rq_auth] in H.
  assert (K : forall n b, x = WLen b -> num = n -> In n [1; 2; 3; 4] ->
    o = ReqNone /\ lens 1 fs = [] /\ lens 2 fs = [] /\ lens 3 fs = [] /\ lens 4 fs = []).
  { intros n b -> -> I. cbn [In] in I. destruct o as [|c|c|c|c]; cbn in C.
    - tauto.
    - destruct C as (b' & p & C1 & C2 & C3 & C4 & _). repeat destruct I as [<-|I]; try contradiction; count L.
    - destruct C as (b' & p & C1 & C2 & C3 & C4 & _). repeat destruct I as [<-|I]; try contradiction; count L.
    - destruct C as (b' & p & C1 & C2 & C3 & C4 & _). repeat destruct I as [<-|I]; try contradiction; count L.
    - destruct C as (b' & p & C1 & C2 & C3 & C4 & _). repeat destruct I as [<-|I]; try contradiction; count L. }
  assert (Same : (forall n, In n [1; 2; 3; 4] -> lens n (fs ++ [(num, x)]) = lens n fs) -> reads_case V (fs ++ [(num, x)]) o).
  { intros S. unfold reads_case in *. rewrite !S by (cbn; tauto). exact C. }
  destruct x; cases H; unfold reads_req; cbn [rq_oneof rq_auth]; split;
    try (eapply rep_same; [|exact A]; red_fields; reflexivity);
    try (apply Same; intros k I; cbn [In] in I; repeat destruct I as [<-|I]; try contradiction; red_fields; reflexivity).
  - eapply (rep_step _ _ _ (auth_good V)); [|exact A|eassumption]. red_fields. reflexivity.
  - destruct (K 3 b eq_refl eq_refl) as (-> & C1 & C2 & C3 & C4); [cbn; tauto|].
    match goal with E : parse_into _ _ _ = Some _ |- _ => cbn beta iota in E; apply (good_parse _ _ _ _ next_good) in E; destruct E as (q & S & R) end.
    exists b, q. red_fields. rewrite C1, C2, C3, C4. repeat split; auto.
  - destruct (K 4 b eq_refl eq_refl) as (-> & C1 & C2 & C3 & C4); [cbn; tauto|].
    match goal with E : parse_into _ _ _ = Some _ |- _ => cbn beta iota in E; apply (good_parse _ _ _ _ (ticket_good V)) in E; destruct E as (q & S & R) end.
    exists b, q. red_fields. rewrite C1, C2, C3, C4. repeat split; auto; apply R.
  - destruct (K 2 b eq_refl eq_refl) as (-> & C1 & C2 & C3 & C4); [cbn; tauto|].
    match goal with E : parse_into _ _ _ = Some _ |- _ => cbn beta iota in E; apply (good_parse _ _ _ _ (server_good V)) in E; destruct E as (q & S & R) end.
    exists b, q. red_fields. rewrite C1, C2, C3, C4. repeat split; auto; apply R.
  - destruct (K 1 b eq_refl eq_refl) as (-> & C1 & C2 & C3 & C4); [cbn; tauto|].
    match goal with E : parse_into _ _ _ = Some _ |- _ => cbn beta iota in E; apply (good_parse _ _ _ _ (client_good V)) in E; destruct E as (q & S & R) end.
    exists b, q. red_fields. rewrite C1, C2, C3, C4. repeat split; auto; apply R.
Qed.

Lemma req_forward : forall V fs m, fold_fields (req_step V) p_req_new fs = Some m ->
  (length (cases_of fs) <= 1)%nat -> reads_req V fs m.
Proof.
  intros V. induction fs as [|f fs IH] using rev_ind; intros m H L.
  - injection H as <-. apply req_new.
  - rewrite fold_snoc in H. destruct (fold_fields (req_step V) p_req_new fs) as [m0|]; [|discriminate].
    pose proof (cases_count fs f). exact (req_one _ _ _ _ _ (IH _ eq_refl ltac:(lia)) H L).
Qed.

(* From any start. *)
Lemma any_start : forall A step (new : A) reads, good step new reads -> forall b part m, serial b part -> reads part m ->
  forall m0, exists m', parse_into step m0 b = Some m'.
Proof.
  intros A step new reads G b part m S R m0. unfold parse_into. apply dec_fields_iff in S. rewrite S. apply fold_accepts.
  intros f I. exact (g_ok _ _ _ G _ _ _ R I).
Qed.

Lemma one_in : forall n x b fs, lens n fs = [b] -> In (n, WLen x) fs -> x = b.
Proof. intros n x b fs E I. apply in_lens in I. rewrite E in I. destruct I as [->|[]]. reflexivity. Qed.
Lemma none_in : forall n x fs, lens n fs = [] -> ~ In (n, WLen x) fs.
Proof. intros n x fs E I. apply in_lens in I. rewrite E in I. exact I. Qed.

Lemma req_ok : forall V fs m f, reads_req V fs m -> In f fs -> accepts (req_step V) f.
Proof.
  intros V fs [o au] [num x] [C A] I m0. cbn [rq_oneof rq_auth] in *. unfold req_step. destruct x; numbers.
  - destruct (rep_ok _ _ _ (auth_good V) _ _ _ _ A I) as [i ->]. eauto.
  - destruct o; cbn in C; try (exfalso; eapply none_in; [|exact I]; tauto); destruct C as (b' & p & C1 & C2 & C3 & C4 & S & R);
      try (exfalso; eapply none_in; [|exact I]; tauto). rewrite (one_in _ _ _ _ C3 I).
    match goal with |- exists _, match parse_into _ ?s _ with _ => _ end = _ => destruct (any_start _ _ _ _ next_good _ _ _ S R s) as [i ->] end. eauto.
  - destruct o; cbn in C; try (exfalso; eapply none_in; [|exact I]; tauto); destruct C as (b' & p & C1 & C2 & C3 & C4 & S & R);
      try (exfalso; eapply none_in; [|exact I]; tauto). rewrite (one_in _ _ _ _ C4 I).
    match goal with |- exists _, match parse_into _ ?s _ with _ => _ end = _ => destruct (any_start _ _ _ _ (ticket_good V) _ _ _ S R s) as [i ->] end. eauto.
  - destruct o; cbn in C; try (exfalso; eapply none_in; [|exact I]; tauto); destruct C as (b' & p & C1 & C2 & C3 & C4 & S & R);
      try (exfalso; eapply none_in; [|exact I]; tauto). rewrite (one_in _ _ _ _ C2 I).
    match goal with |- exists _, match parse_into _ ?s _ with _ => _ end = _ => destruct (any_start _ _ _ _ (server_good V) _ _ _ S R s) as [i ->] end. eauto.
  - destruct o; cbn in C; try (exfalso; eapply none_in; [|exact I]; tauto); destruct C as (b' & p & C1 & C2 & C3 & C4 & S & R);
      try (exfalso; eapply none_in; [|exact I]; tauto). rewrite (one_in _ _ _ _ C1 I).
    match goal with |- exists _, match parse_into _ ?s _ with _ => _ end = _ => destruct (any_start _ _ _ _ (client_good V) _ _ _ S R s) as [i ->] end. eauto.
Qed.

Lemma good_det : forall A step (new : A) reads, good step new reads -> forall b p p' m m', serial b p -> serial b p' -> reads p m -> reads p' m' -> m = m'.
Proof. intros A step new reads G b p p' m m' S S' R R'. rewrite (serial_det _ _ _ S' S) in R'. exact (g_det _ _ _ G _ _ _ R R'). Qed.

Ltac pin :=
  match goal with E : lens _ _ = [?a], E' : lens _ _ = [?b] |- _ => rewrite E in E'; injection E' as <- end;
  match goal with S : serial ?b ?p, S' : serial ?b ?q |- _ => pose proof (serial_det _ _ _ S' S); subst q end.

Lemma req_det : forall V fs m m', reads_req V fs m -> reads_req V fs m' -> m = m'.
Proof.
  intros V fs [o au] [o' au'] [C A] [C' A']. cbn [rq_oneof rq_auth] in *.
  f_equal; [|exact (rep_det _ _ _ (auth_good V) _ _ _ _ A A')].
  destruct o, o'; cbn in C, C'; try reflexivity;
    repeat match goal with H : exists _, _ |- _ => destruct H | H : _ /\ _ |- _ => destruct H end; try congruence.
  - pin. f_equal. eapply (g_det _ _ _ (client_good V)); eassumption.
  - pin. f_equal. eapply (g_det _ _ _ (server_good V)); eassumption.
  - pin. congruence.
  - pin. f_equal. eapply (g_det _ _ _ (ticket_good V)); eassumption.
Qed.

Lemma reads_case_count : forall V fs o, reads_case V fs o -> (length (cases_of fs) <= 1)%nat.
Proof.
  intros V fs o C. unfold cases_of. destruct o; cbn in C;
    repeat match goal with H : exists _, _ |- _ => destruct H | H : _ /\ _ |- _ => destruct H end;
    repeat match goal with E : lens _ _ = _ |- _ => rewrite E; clear E end; cbn; lia.
Qed.

Lemma M59_req : forall V b m, means (reads_req V) b m <->
  parse_req V b = Some m /\ exists fs, serial b fs /\ (length (cases_of fs) <= 1)%nat.
Proof.
  intros V b m. split.
  - intros (fs & S & R). split; [|exists fs; split; [exact S|exact (reads_case_count _ _ _ (proj1 R))]].
    unfold parse_req, parse_into. pose proof (proj2 (dec_fields_iff _ _) S) as D. rewrite D.
    destruct (fold_accepts _ _ fs (fun f => req_ok V fs m f R) p_req_new) as [m' E]. rewrite E. f_equal.
    apply (req_det V fs); [|exact R]. apply req_forward; [exact E|exact (reads_case_count _ _ _ (proj1 R))].
  - intros (P & fs & S & L). exists fs. split; [exact S|]. unfold parse_req, parse_into in P. apply dec_fields_iff in S. rewrite S in P.
    apply req_forward; assumption.
Qed.

Lemma M59_resp : forall V b m, parse_resp V b = Some m <-> means (reads_resp V) b m.
Proof. intros V. exact (good_parse _ _ _ _ (resp_good V)). Qed.
Lemma M59_context : forall V b m, parse_context V b = Some m <-> means (reads_context V) b m.
Proof. intros V. exact (good_parse _ _ _ _ (context_good V)). Qed.

Lemma lens_rep : forall n k l, lens n (f_rep k l) = if k =? n then l else [].
Proof. intros n k. induction l as [|b l IH]; cbn; [destruct (k =? n); reflexivity|]. fold (f_rep k l). fold (lens n (f_rep k l)). rewrite IH. destruct (k =? n); reflexivity. Qed.

Lemma M59_req_written : forall V m, valid_req V m -> wire_size_ok (enc_req m) -> means (reads_req V) (enc_req m) m.
Proof.
  intros V m Hv Hs. apply M59_req. split; [apply rt_req; assumption|]. destruct m as [o au]. unfold wire_size_ok, enc_req in *. cbn [rq_oneof rq_auth] in *.
  eexists. split; [apply dec_fields_iff; apply dec_shape; [destruct o; shapes|exact Hs]|].
  unfold cases_of. rewrite !lens_app, !lens_rep. destruct o; cbn; lia.
Qed.

Lemma M59_sent : forall b r, encodes b r -> wire_size_ok b -> means (reads_req any_text) b r.
Proof. intros b r [-> Hv] Hs. apply M59_req_written; assumption. Qed.

(* ---- contexts ---- *)
Lemma M59_context_from : forall V b, match context_from_serialized V b with
  | inr c => exists m, means (reads_context V) b m /\ context_says m c
  | inl st =>
    (st = kInternal /\ forall m, ~ means (reads_context V) b m) \/
    (st = kFailedPrecondition /\ exists m, means (reads_context V) b m /\ forall c, ~ context_says m c)
  end.
Proof.
  intros V b. unfold context_from_serialized. destruct (parse_context V b) as [m|] eqn:E.
  - apply M59_context in E. destruct (tls_from_proto (pcx_tls m)) as [st|v] eqn:Ev.
    { right. destruct (tls_from_cases (pcx_tls m)) as [[v K]|K]; [apply tls_from_ok in K; congruence|].
      split; [congruence|]. exists m. split; [exact E|]. intros c (_ & C & _). apply tls_from_ok in C. congruence. }
    destruct (suite_from_proto (pcx_suite m)) as [st|s] eqn:Es.
    { right. destruct (suite_from_cases (pcx_suite m)) as [[v' K]|K]; [apply suite_from_ok in K; congruence|].
      split; [congruence|]. exists m. split; [exact E|]. intros c (_ & _ & C & _). apply suite_from_ok in C. congruence. }
    exists m. split; [exact E|]. unfold context_says. cbn [x_protocol x_tls x_suite x_peer x_local x_peer_fp x_local_fp x_resumed].
    apply tls_from_ok in Ev. apply suite_from_ok in Es. repeat split; try assumption; apply identity_from_meant.
  - left. split; [reflexivity|]. intros m M. apply M59_context in M. congruence.
Qed.

Lemma M59_context_to : forall V c, context_clean V c -> exists b, get_serialized_context c = inr b /\
  (wire_size_ok b -> exists m, means (reads_context V) b m /\ context_says m c).
Proof.
  intros V c H. destruct (M48 V c H) as (b & E & K). exists b. split; [exact E|]. intros S.
  pose proof (M59_context_from V b) as M. rewrite (K S) in M. exact M.
Qed.

(* ---- an example: a response written differently ---- *)
(* status { code: 0 } (its varint in two bytes), an unknown field, an unknown
   group, local_identity twice, the first only with an attribute. *)
Definition odd_response : bytes :=
  [42; 3; 8; 128; 0] ++ [152; 6; 5] ++ [19; 8; 1; 20] ++
  [10; 8; 26; 6; 10; 1; 107; 18; 1; 118] ++ [18; 1; 9] ++ [10; 4; 34; 2; 117; 49] ++ [18; 1; 7].
Lemma odd_response_means : means (reads_resp is_utf8) odd_response
  {| rs_local := Some {| pi_id := IdUid [117; 49]; pi_attrs := [([107], [118])] |}; rs_out_frames := [7]; rs_consumed := 0;
     rs_result := None; rs_status := Some {| pst_code := 0; pst_details := [] |} |}.
Proof. apply M59_resp. vm_compute. reflexivity. Qed.

Lemma M59_unique : forall V b m m', means (reads_req V) b m -> means (reads_req V) b m' -> m = m'.
Proof. intros V b m m' H H'. apply M59_req in H. apply M59_req in H'. destruct H, H'. congruence. Qed.
