(* Proofs about options, conversions, contexts, ticket requests and the token
   manager. *)
From Coq Require Import List NArith Bool Lia.
From Verif Require Import Base Aead AeadProofs Hkdf Options Wire SpecWire WireProofs WireMsgs Util Context TicketReq Token SpecOptions.
Import ListNotations.
Local Open Scope N_scope.

Lemma c_str_free : forall s, nul_free s -> c_str s = s.
Proof.
  induction s as [|b s IH]; intros H; [reflexivity|]. cbn.
  destruct (N.eqb_spec b 0) as [->|_]; [destruct H; now left|]. rewrite IH; [reflexivity|]. intros K. apply H. now right.
Qed.

Lemma c_str_nul_free : forall s, nul_free (c_str s).
Proof.
  intros s. induction s as [|b s IH]; intros K; [exact K|]. cbn in K.
  destruct (N.eqb_spec b 0) as [->|N0]; [exact K|]. destruct K as [K|K]; [congruence|exact (IH K)].
Qed.

Lemma identity_eqb_true : forall a b, identity_eqb a b = true <-> a = b.
Proof.
  intros [ta sa] [tb sb]. unfold identity_eqb. cbn [id_type_of id_string]. rewrite andb_true_iff, bytes_eqb_eq.
  split; [intros [H1 ->]; destruct ta, tb; try discriminate; reflexivity|].
  intros H. injection H as -> ->. split; [destruct tb; reflexivity|reflexivity].
Qed.

(* ---- conversions ---- *)
Lemma tls_to_ok : forall v n, tls_to_proto v = inr n <-> tls_number v n.
Proof. intros v n; split; [destruct v; intros H; injection H as <-; constructor|intros []; reflexivity]. Qed.
Lemma tls_from_ok : forall v n, tls_from_proto n = inr v <-> tls_number v n.
Proof.
  intros v n; split; [|intros []; reflexivity]. unfold tls_from_proto.
  destruct n as [|[p|p|]]; intros H; try discriminate; injection H as <-; constructor.
Qed.
Lemma tls_from_cases : forall n, (exists v, tls_number v n) \/ tls_from_proto n = inl kFailedPrecondition.
Proof.
  intros n. destruct (tls_from_proto n) as [c|v] eqn:E; [right|left; exists v; now apply tls_from_ok].
  unfold tls_from_proto in E. destruct n as [|[p|p|]]; try discriminate; injection E as <-; reflexivity.
Qed.
Lemma suite_to_ok : forall v n, suite_to_proto v = inr n <-> suite_number v n.
Proof. intros v n; split; [destruct v; intros H; injection H as <-; constructor|intros []; reflexivity]. Qed.
Lemma suite_from_ok : forall v n, suite_from_proto n = inr v <-> suite_number v n.
Proof.
  intros v n; split; [|intros []; reflexivity]. unfold suite_from_proto.
  destruct n as [|[p|[p|p|]|]]; intros H; try discriminate; injection H as <-; constructor.
Qed.
Lemma suite_from_cases : forall n, (exists v, suite_number v n) \/ suite_from_proto n = inl kFailedPrecondition.
Proof.
  intros n. destruct (suite_from_proto n) as [c|v] eqn:E; [right|left; exists v; now apply suite_from_ok].
  unfold suite_from_proto in E. destruct n as [|[p|[p|p|]|]]; try discriminate; injection E as <-; reflexivity.
Qed.

Lemma identity_from_meant : forall p, meant p (identity_from_proto p).
Proof. intros [[[|s|s|s] l]|]; constructor. Qed.
Lemma meant_fun : forall p i j, meant p i -> meant p j -> i = j.
Proof. intros p i j H K. destruct H; inversion K; reflexivity. Qed.
Lemma fill_names : forall i p, nul_free (id_string i) -> fill_identity i = Some p -> names p i.
Proof.
  intros [t s] p H E. cbn in H. unfold fill_identity in E. cbn [id_type_of id_string] in E. rewrite (c_str_free s H) in E.
  destruct t; try discriminate; injection E as <-; constructor.
Qed.
Lemma fill_none : forall i, fill_identity i = None <-> id_type_of i = NONE.
Proof. intros [[] s]; split; intros H; try discriminate; reflexivity. Qed.
Lemma fill_some : forall i, id_type_of i <> NONE -> exists p, fill_identity i = Some p.
Proof. intros i H. destruct (fill_identity i) as [p|] eqn:E; [eauto|]. apply fill_none in E. contradiction. Qed.
Lemma names_meant : forall p i, names p i -> meant (Some p) i.
Proof. intros p i []; constructor. Qed.
Lemma fill_meant : forall i, made_identity i -> nul_free (id_string i) -> identity_from_proto (fill_identity i) = i.
Proof.
  intros i Hm Hn. destruct (fill_identity i) as [p|] eqn:E.
  - eapply meant_fun; [apply identity_from_meant|]. apply names_meant. now apply fill_names.
  - apply fill_none in E. rewrite (Hm E). reflexivity.
Qed.

Lemma M49 : forall i, made_identity i -> nul_free (id_string i) ->
  exists p, identity_to_proto true i = inr p /\ identity_from_proto p = i /\
    (forall m, p = Some m -> names m i) /\ (p = None <-> i = empty_identity).
Proof.
  intros i Hm Hn. exists (fill_identity i). split; [reflexivity|]. split; [now apply fill_meant|].
  split; [intros m E; now apply fill_names|]. rewrite fill_none. split; [exact Hm|intros ->; reflexivity].
Qed.

(* ---- options ---- *)
Lemma set_insert_ok : forall x l, NoDup l -> NoDup (set_insert x l) /\ forall i, In i (set_insert x l) <-> In i l \/ i = x.
Proof.
  intros x l H. unfold set_insert, set_mem. destruct (existsb (identity_eqb x) l) eqn:E.
  - split; [exact H|]. apply existsb_exists in E. destruct E as (y & Hy & E). apply identity_eqb_true in E. subst y.
    intros i. split; [now left|intros [K | ->]; assumption].
  - split.
    + assert (K : ~ In x l). { intros K. assert (existsb (identity_eqb x) l = true); [|congruence].
        apply existsb_exists. exists x. split; [exact K|now apply identity_eqb_true]. }
      clear E. induction l as [|y l IH]; cbn; [constructor; [exact (fun z => z)|constructor]|].
      inversion_clear H. constructor; [|apply IH; [assumption|intros Z; apply K; now right]].
      rewrite in_app_iff. intros [Z|[Z|[]]]; [contradiction|]. apply K. now left.
    + intros i. rewrite in_app_iff. cbn. intuition congruence.
Qed.

Lemma last_app1 : forall A (l : list A) x d, last (l ++ [x]) d = x.
Proof. intros A l x d. apply last_last. Qed.

Lemma options_inv : forall cs, let o := options_after cs in
  o_min o = last (mins cs) TLS1_3 /\ o_max o = last (maxs cs) TLS1_3 /\ o_address o = last (addresses cs) [] /\
  o_suites o = suites_added cs /\
  NoDup (o_local o) /\ (forall i, In i (o_local o) <-> In i (locals_added cs)) /\
  NoDup (o_target o) /\ (forall i, In i (o_target o) <-> In i (targets_added cs)).
Proof.
  induction cs as [|c cs IH] using rev_ind.
  - cbn. repeat split; try constructor; try tauto.
  - unfold options_after in *. rewrite fold_left_app. cbn [fold_left]. set (o := fold_left apply_setter cs default_options) in *.
    cbn zeta in *. destruct IH as (H1 & H2 & H3 & H4 & H5 & H6 & H7 & H8).
    unfold mins, maxs, addresses, suites_added, locals_added, targets_added in *.
    rewrite !flat_map_app.
    destruct c; cbn; rewrite ?app_nil_r, ?last_last, ?H1, ?H2, ?H3, ?H4; repeat (split; [reflexivity || assumption|]);
      repeat split; auto; intros;
      try (apply set_insert_ok; assumption);
      try (apply H6; assumption); try (apply H8; assumption);
      try match goal with
      | H : In _ (set_insert ?x ?l) |- _ => apply set_insert_ok in H; [|assumption]; rewrite in_app_iff; cbn; destruct H as [H| ->]; [left; first [apply H6|apply H8]; exact H|right; left; reflexivity]
      | H : In _ (_ ++ _) |- _ => apply set_insert_ok; [assumption|]; apply in_app_iff in H; cbn in H; destruct H as [H|[H|[]]]; [left; first [apply H6|apply H8]; exact H|right; symmetry; exact H]
      end.
Qed.

Lemma copy_fold : forall l o, fold_left (fun n s => add_supported_ciphersuite s n) l o =
  {| o_min := o_min o; o_max := o_max o; o_address := o_address o; o_suites := o_suites o ++ l; o_target := o_target o; o_local := o_local o |}.
Proof.
  induction l as [|s l IH]; intros o; cbn [fold_left]; [rewrite app_nil_r; destruct o; reflexivity|].
  rewrite IH. cbn. rewrite <- app_assoc. reflexivity.
Qed.
Lemma copy_same : forall o, options_copy o = o.
Proof. intros o. unfold options_copy. rewrite copy_fold. destruct o. reflexivity. Qed.

(* ---- context ---- *)
Lemma fill_valid : forall V i, text V (c_str (id_string i)) -> opt_all (valid_identity V) (fill_identity i).
Proof. intros V [[] s] H; cbn in *; auto; split; cbn; auto. Qed.
Lemma tls_number_small : forall v n, tls_number v n -> n < two32.
Proof. intros v n []; apply N.ltb_lt; reflexivity. Qed.
Lemma suite_number_small : forall v n, suite_number v n -> n < two32.
Proof. intros v n []; apply N.ltb_lt; reflexivity. Qed.
Lemma tls_total : forall v, exists n, tls_to_proto v = inr n /\ tls_number v n.
Proof. intros []; eexists; split; try reflexivity; constructor. Qed.
Lemma suite_total : forall v, exists n, suite_to_proto v = inr n /\ suite_number v n.
Proof. intros []; eexists; split; try reflexivity; constructor. Qed.

Lemma M48 : forall V c, context_clean V c -> exists b, get_serialized_context c = inr b /\
  (wire_size_ok b -> context_from_serialized V b = inr c).
Proof.
  intros V c (N1 & N2 & N3 & N4 & N5 & T1 & T2 & T3 & I1 & I2). unfold get_serialized_context, identity_to_proto.
  destruct (tls_total (x_tls c)) as (tn & -> & Ht), (suite_total (x_suite c)) as (sn & -> & Hs).
  eexists. split; [reflexivity|]. intros Hsz. unfold context_from_serialized. rewrite (rt_context V); [|split; [|split; [|split; [|split]]]|exact Hsz]; cbn [pcx_protocol pcx_tls pcx_suite pcx_peer pcx_local pcx_peer_fp pcx_local_fp pcx_resumed].
  - apply tls_from_ok in Ht. apply suite_from_ok in Hs. rewrite Ht, Hs, !c_str_free, !fill_meant by assumption. destruct c; reflexivity.
  - now rewrite c_str_free.
  - eapply tls_number_small; eassumption.
  - eapply suite_number_small; eassumption.
  - apply fill_valid. now rewrite c_str_free.
  - apply fill_valid. now rewrite c_str_free.
Qed.

(* ---- ticket request ---- *)
Lemma add_tickets_ok : forall ts m, add_tickets (map Some ts) m =
  Done {| pt_in_bytes := pt_in_bytes m ++ ts; pt_connection_id := pt_connection_id m; pt_local := pt_local m |}.
Proof.
  induction ts as [|t ts IH]; intros m; cbn [map add_tickets]; [rewrite app_nil_r; destruct m; reflexivity|].
  rewrite IH. cbn. rewrite <- app_assoc. reflexivity.
Qed.

Lemma M51 : forall conn local ts req, no_ticket_yet req ->
  exists ok req', prepare_resumption_ticket_req conn local (option_map (map Some) ts) req = Done (ok, req') /\
    (ok = true <-> ts <> None /\ id_type_of local <> NONE) /\
    (ok = true -> nul_free (id_string local) -> rq_auth req' = rq_auth req /\
       exists t p, rq_oneof req' = ReqTicket t /\ Some (pt_in_bytes t) = ts /\ pt_connection_id t = conn /\
         pt_local t = Some p /\ names p local).
Proof.
  intros conn local ts req Hno. destruct ts as [ts|]; cbn [option_map].
  2: { exists false, req. split; [reflexivity|]. split; [split; [discriminate|intros [K _]; congruence]|discriminate]. }
  unfold prepare_resumption_ticket_req.
  assert (Hold : match rq_oneof req with ReqTicket t => t | _ => p_ticket_new end = p_ticket_new).
  { destruct (rq_oneof req) eqn:E; try reflexivity. destruct (Hno _ E). }
  rewrite Hold. cbn [pt_local p_ticket_new pt_in_bytes]. destruct (fill_identity local) as [p|] eqn:E.
  - rewrite add_tickets_ok. cbn [obind pt_in_bytes pt_connection_id pt_local app]. do 2 eexists. split; [reflexivity|]. split.
    + split; [|reflexivity]. intros _. split; [discriminate|]. intros K. apply fill_none in K. congruence.
    + intros _ Hn. split; [reflexivity|]. do 2 eexists. cbn. repeat split. pose proof (fill_names local p Hn E) as Hp.
      destruct Hp; constructor.
  - do 2 eexists. split; [reflexivity|]. split; [|discriminate]. split; [discriminate|]. apply fill_none in E. intros [_ K]. congruence.
Qed.

Lemma add_tickets_null : forall ts m, In None ts -> add_tickets ts m = Undef UbNullDeref.
Proof.
  induction ts as [|[t|] ts IH]; intros m Hi; [destruct Hi| |reflexivity]. cbn [add_tickets]. apply IH. destruct Hi as [K|K]; [discriminate|exact K].
Qed.
Lemma all_there : forall (ts : list (option bytes)), In None ts \/ exists l, ts = map Some l.
Proof.
  induction ts as [|[t|] ts [IH|(l & ->)]]; try (left; cbn; auto; fail); right; [exists []|exists (t :: l)]; reflexivity.
Qed.
Lemma M51undef : forall conn local tickets req u, prepare_resumption_ticket_req conn local tickets req = Undef u <->
  u = UbNullDeref /\ id_type_of local <> NONE /\ exists ts, tickets = Some ts /\ In None ts.
Proof.
  intros conn local tickets req u. destruct tickets as [ts|].
  2: { split; [discriminate|]. intros (_ & _ & ts & K & _). discriminate. }
  cbn [prepare_resumption_ticket_req]. destruct (fill_identity local) as [p|] eqn:E.
  - destruct (all_there ts) as [Hi|(l & ->)].
    + rewrite add_tickets_null by exact Hi. cbn. split.
      * intros K. injection K as <-. split; [reflexivity|]. split; [|eauto]. intros K. apply fill_none in K. congruence.
      * intros (-> & _). reflexivity.
    + rewrite add_tickets_ok. cbn. split; [discriminate|]. intros (_ & _ & ts & K & Hi). injection K as <-. apply in_map_iff in Hi.
      destruct Hi as (x & K & _). discriminate.
  - apply fill_none in E. split; [discriminate|]. intros (_ & K & _). congruence.
Qed.
Lemma M51again : forall conn local ts req t, rq_oneof req = ReqTicket t -> id_type_of local <> NONE -> nul_free (id_string local) ->
  exists t' p, prepare_resumption_ticket_req conn local (Some (map Some ts)) req = Done (true, {| rq_oneof := ReqTicket t'; rq_auth := rq_auth req |}) /\
    pt_in_bytes t' = pt_in_bytes t ++ ts /\ pt_connection_id t' = conn /\ names p local /\
    pt_local t' = Some {| pi_id := pi_id p; pi_attrs := match pt_local t with Some q => pi_attrs q | None => [] end |}.
Proof.
  intros conn local ts req t Et Hl Hn. unfold prepare_resumption_ticket_req. rewrite Et. destruct (fill_identity local) as [p|] eqn:E.
  2: { apply fill_none in E. congruence. }
  rewrite add_tickets_ok. cbn [obind pt_in_bytes pt_connection_id pt_local]. do 2 eexists. split; [reflexivity|]. split; [reflexivity|].
  split; [reflexivity|]. split; [exact (fill_names local p Hn E)|]. destruct (pt_local t); reflexivity.
Qed.

(* ---- token manager ---- *)
Definition asks (evs : list tevent) : nat :=
  length (filter (fun v => match v with SetEnv _ => false | _ => true end) evs).
Lemma trun_repeat : forall m evs e, trun m e evs = repeat (st_token m) (asks evs).
Proof. intros m. induction evs as [|[e'|i|] evs IH]; intros e; cbn; f_equal; auto; apply IH. Qed.
Lemma M52 : forall e, exists m, build_access_token_manager e = inr m /\
  (forall t evs, e = Some t -> nul_free t -> trun m e evs = repeat (inr t) (asks evs)) /\
  (forall evs, e = None -> trun m e evs = repeat (inl kNotFound) (asks evs)).
Proof.
  intros e. exists (single_token_new e). split; [reflexivity|]. split.
  - intros t evs -> Hn. rewrite trun_repeat. cbn. rewrite c_str_free by assumption. reflexivity.
  - intros evs ->. rewrite trun_repeat. reflexivity.
Qed.

(* ---- messages ---- *)
Lemma M55 : forall V,
  (forall m, valid_req V m -> wire_size_ok (enc_req m) -> parse_req V (enc_req m) = Some m) /\
  (forall m, valid_resp V m -> wire_size_ok (enc_resp m) -> parse_resp V (enc_resp m) = Some m) /\
  (forall m, valid_context V m -> wire_size_ok (enc_context m) -> parse_context V (enc_context m) = Some m).
Proof. intros V. split; [exact (rt_req V)|]. split; [exact (rt_resp V)|exact (rt_context V)]. Qed.

(* ---- counterexamples ---- *)
Definition fp_context : s2a_context :=
  {| x_protocol := []; x_tls := TLS1_3; x_suite := CHACHA20_POLY1305_SHA256;
     x_peer := from_hostname []; x_local := empty_identity;
     x_peer_fp := [17; 0; 34]; x_local_fp := [51]; x_resumed := false |}.
Lemma R48 : forall V, V [] = true -> exists c b c', get_serialized_context c = inr b /\ context_from_serialized V b = inr c' /\
  x_peer_fp c = [17; 0; 34] /\ x_peer_fp c' = [17] /\ c' <> c.
Proof.
  intros V HV. exists fp_context. do 2 eexists. split; [reflexivity|]. split.
  - unfold context_from_serialized. vm_compute. rewrite HV. reflexivity.
  - cbn. repeat split. discriminate.
Qed.
Lemma R48b : forall V s, V [s] = false -> s <> 0 -> s < 256 -> exists c b, x_protocol c = [s] /\
  get_serialized_context c = inr b /\ context_from_serialized V b = inl kInternal.
Proof.
  intros V s HV H0 Hs. exists {| x_protocol := [s]; x_tls := TLS1_3; x_suite := CHACHA20_POLY1305_SHA256;
     x_peer := empty_identity; x_local := empty_identity; x_peer_fp := []; x_local_fp := []; x_resumed := false |}.
  eexists. split; [reflexivity|]. unfold get_serialized_context. cbn [x_protocol c_str].
  destruct (N.eqb_spec s 0) as [E|_]; [contradiction|].
  split; [reflexivity|]. unfold context_from_serialized, parse_context, parse_into. vm_compute. rewrite HV. reflexivity.
Qed.
Lemma R49 : exists i p, made_identity i /\ identity_to_proto true i = inr p /\ identity_from_proto p <> i.
Proof.
  exists (from_hostname [97; 0; 98]). eexists. split; [discriminate|]. split; [reflexivity|]. discriminate.
Qed.
Lemma R51 : exists conn local ts req', prepare_resumption_ticket_req conn local (Some (map Some ts)) p_req_new = Done (true, req') /\
  exists t, rq_oneof req' = ReqTicket t /\ local = from_hostname [97; 0; 98] /\
    pt_local t = Some {| pi_id := IdHostname [97]; pi_attrs := [] |}.
Proof.
  exists 7, (from_hostname [97; 0; 98]), [[1; 2]]. eexists. split; [reflexivity|]. eexists. repeat split.
Qed.
Lemma R52 : exists m, build_access_token_manager None = inr m.
Proof. eexists. reflexivity. Qed.
Lemma R55 : forall V s, V [s] = false -> s < 256 -> exists m,
  rq_oneof m = ReqClient {| pc_protocols := [[s]]; pc_min := 1; pc_max := 1; pc_suites := []; pc_targets := [];
                            pc_local := None; pc_target_name := [] |} /\
  parse_req V (enc_req m) = None.
Proof.
  intros V s HV Hs. exists {| rq_oneof := ReqClient {| pc_protocols := [[s]]; pc_min := 1; pc_max := 1; pc_suites := []; pc_targets := [];
                            pc_local := None; pc_target_name := [] |}; rq_auth := [] |}.
  split; [reflexivity|]. unfold parse_req, parse_into. vm_compute. rewrite HV. reflexivity.
Qed.

Lemma M49fails : forall arena i e,
  identity_to_proto arena i = inl e <-> arena = false /\ e = kInvalidArgument.
Proof. intros [] i e; unfold identity_to_proto; split; try intros [? ?]; intros; split || idtac; congruence. Qed.
