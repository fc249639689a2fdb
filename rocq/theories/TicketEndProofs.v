(* C69, C70: what becomes of the tickets handed over. *)
From Coq Require Import List NArith ZArith Bool Lia ZifyBool ZifyNat ZifyN.
From Verif Require Import Base BaseProofs Aead Hkdf HalfConn Options Wire WireProofs WireMsgs SpecWire SpecProto WireConform Util TicketReq
  SpecAead SpecTls HsHandler Crypter SpecHs SpecRecord SpecRx CrypterRun SpecOptions HsMsgProofs CrypterFinal TicketEnd SpecTicketEnd.
Import ListNotations.
Local Open Scope N_scope.

Lemma T69 : forall P lib a ops rs x, connection P lib a ops rs x ->
  forall sd finish res, results sd 0 (cx_sent x) res ->
  waited (crypt_destroy sd finish x) = all_waits res /\
  (In EvLogFailure (crypt_destroy sd finish x) <-> exists w, In w (all_waits res) /\ finish w = false).
Proof.
  intros P lib a ops rs x HC sd finish res HR. unfold crypt_destroy.
  assert (Hnone : forall Q : Prop, (False <-> exists w : N, In w [] /\ Q)).
  { intros Q. split; [tauto|]. intros (w & [] & _). }
  destruct (W19 _ _ _ _ _ _ HC) as [E|(s & E & _)]; rewrite E in *.
  - inversion HR; subst. cbn. split; [reflexivity|]. split; [tauto|]. intros (w & [] & _).
  - inversion HR as [|? ? ? r1 HR1]; subst. inversion HR1; subst. cbn [wait_function all_waits flat_map app].
    destruct (sr_wait (sd 0%nat s)) as [w|]; cbn [app].
    + destruct (finish w) eqn:F; cbn [waited flat_map app]; (split; [reflexivity|]); split.
      * intros [K|[]]. discriminate K.
      * intros (w' & [<-|[]] & K). congruence.
      * intros _. exists w. split; [left; reflexivity|exact F].
      * intros _. right. left. reflexivity.
    + split; [reflexivity|]. split; [intros []|]. intros (w & [] & _).
Qed.

(* Whatever the calls: the function of the latest one counts. *)
Lemma wait_last : forall sd sent k w res, results sd k sent res -> wait_function sd k w sent = last (map sr_wait res) w.
Proof.
  intros sd sent. induction sent as [|s sent IH]; intros k w res H; inversion H as [|? ? ? rs HR]; subst; [reflexivity|].
  cbn [wait_function map]. rewrite (IH _ _ _ HR). destruct rs as [|r rs]; [reflexivity|]. cbn [map].
  clear. revert r w. generalize (sr_wait (sd k s)). induction rs as [|q rs IH]; intros a r w; [reflexivity|].
  cbn [map] in *. change (last (sr_wait r :: sr_wait q :: map sr_wait rs) a) with (last (sr_wait q :: map sr_wait rs) a).
  rewrite (IH a q w). reflexivity.
Qed.
Lemma T69latest : forall x sd finish res, results sd 0 (cx_sent x) res ->
  crypt_destroy sd finish x =
    match last (map sr_wait res) None with Some w => if finish w then [EvWait w] else [EvWait w; EvLogFailure] | None => [] end.
Proof.
  intros x sd finish res H. unfold crypt_destroy. rewrite (wait_last _ _ _ None _ H). destruct (last _ _) as [w|]; [|reflexivity].
  destruct (finish w); reflexivity.
Qed.

(* Messages received are complete messages. *)
Lemma accept_msgs : forall P F r msg out st n out' r', accept P F r msg out st n out' r' ->
  Forall hs_msg (r_msgs r) -> Forall hs_msg (r_msgs r').
Proof.
  intros P F r msg out st n out' r' H Hm.
  inversion H; subst; cbn [r_msgs rx_close rx_data rx_read rx_fail rx_bad]; try assumption; apply Forall_app; split; assumption.
Qed.
Lemma run_msgs : forall P r ops rs r', rx_run P r ops rs r' -> Forall hs_msg (r_msgs r) -> Forall hs_msg (r_msgs r').
Proof.
  intros P r ops rs r' H. induction H as [r|r hdr payload buf fs st n out r' ops rs r'' Hb Hr _ IH|r op fs res ops rs r'' Hb H1 H2 _ IH|r ops rs Hb];
    intros Hm; auto.
  apply IH. inversion Hr; subst; auto. eapply accept_msgs; eauto.
Qed.

(* Sizes. *)
Lemma enc_varint_len : forall n, lenN (enc_varint n) <= 10.
Proof. intros n. unfold enc_varint, lenN. pose proof (varint_len 10 n). lia. Qed.
Lemma enc_len_field : forall num b, lenN (enc_field (num, WLen b)) <= 20 + lenN b.
Proof. intros num b. cbn [enc_field]. rewrite !lenN_app. pose proof (enc_varint_len (8 * num + 2)). pose proof (enc_varint_len (lenN b)). lia. Qed.
Lemma enc_num_field : forall num n, lenN (enc_field (num, WVarint n)) <= 20.
Proof. intros num n. cbn [enc_field]. rewrite !lenN_app. pose proof (enc_varint_len (8 * num)). pose proof (enc_varint_len n). lia. Qed.
Lemma enc_fields_app : forall a b, lenN (enc_fields (a ++ b)) = lenN (enc_fields a) + lenN (enc_fields b).
Proof. intros a b. unfold enc_fields. rewrite flat_map_app, lenN_app. reflexivity. Qed.
Lemma enc_rep_len : forall num m l, Forall (fun b => lenN b <= m) l -> lenN (enc_fields (f_rep num l)) <= lenN l * (20 + m).
Proof.
  intros num m l H. induction H as [|b l Hb _ IH]; [reflexivity|]. rewrite lenN_cons.
  change (f_rep num (b :: l)) with ([(num, WLen b)] ++ f_rep num l). rewrite enc_fields_app.
  pose proof (enc_len_field num b) as L. unfold enc_fields at 1. cbn [flat_map]. rewrite app_nil_r. lia.
Qed.
Lemma enc_one_len : forall num b, lenN (enc_fields [(num, WLen b)]) <= 20 + lenN b.
Proof. intros num b. unfold enc_fields. cbn [flat_map]. rewrite app_nil_r. apply enc_len_field. Qed.
Lemma hs_msg_size : forall m, hs_msg m -> lenN m <= 16777219.
Proof.
  intros m (t & b & c & d & body & -> & Hb & E & _). rewrite !lenN_cons, E.
  inversion Hb as [|? ? _ H1]; subst. inversion H1 as [|? ? A1 H2]; subst. inversion H2 as [|? ? A2 H3]; subst. inversion H3 as [|? ? A3 _]; subst.
  unfold byte_ok in *. lia.
Qed.

Lemma names_size : forall p i, names p i -> lenN (enc_identity p) <= 20 + lenN (id_string i).
Proof. intros p i []; unfold enc_identity; cbn [pi_id pi_attrs id_string]; apply enc_one_len. Qed.

Lemma T70 : forall P lib a ops rs x r, connection P lib a ops rs x -> rx_run P (rx_start (d_in a)) ops rs r ->
  forall V s, In s (cx_sent x) -> id_type_of (ca_identity a) <> NONE -> nul_free (id_string (ca_identity a)) ->
  text V (id_string (ca_identity a)) -> lenN (id_string (ca_identity a)) < 1073741824 -> ca_connection_id a < two64 ->
  exists req t p rest, prepare_resumption_ticket_req (ts_connection_id s) (ts_identity s) (Some (map Some (ts_tickets s))) p_req_new = Done (true, req) /\
    means (reads_req V) (enc_req req) {| rq_oneof := ReqTicket t; rq_auth := [] |} /\
    tickets_of (r_msgs r) = pt_in_bytes t ++ rest /\ pt_in_bytes t <> [] /\ pt_connection_id t = ca_connection_id a /\
    pt_local t = Some p /\ names p (ca_identity a).
Proof.
  intros P lib a ops rs x r HC HR V s Hs Hty Hnul Htext Hlen Hconn.
  destruct (W19r _ _ _ _ _ _ HC r HR) as [E|(s' & rest & E & Hne & H5 & Ht & _ & Ec & Ei)]; rewrite E in Hs; [destruct Hs|].
  destruct Hs as [->|[]]. rewrite Ec, Ei.
  destruct (M51 (ca_connection_id a) (ca_identity a) (Some (ts_tickets s)) p_req_new) as (ok & req & Ep & Hok & Hreq); [discriminate|].
  cbn [option_map] in Ep. destruct Hok as [_ Hok]. rewrite Hok in * by (split; [discriminate|exact Hty]).
  destruct (Hreq eq_refl Hnul) as (Ha & t & p & Eo & Et & Ecn & El & Hn). cbn [p_req_new rq_auth] in Ha.
  injection Et as Et. exists req, t, p, rest. split; [exact Ep|].
  destruct req as [o au]. cbn [rq_oneof rq_auth] in Eo, Ha. subst o au.
  split; [|rewrite Et; repeat split; try assumption; rewrite Ecn; reflexivity].
  apply M59_req_written.
  - split; [|constructor]. cbn [rq_oneof]. split; [rewrite Ecn; exact Hconn|]. rewrite El. cbn [opt_all].
    split; [|destruct Hn; constructor]. destruct Hn; exact Htext.
  - assert (Hbig : Forall (fun b => lenN b <= 16777219) (pt_in_bytes t)).
    { rewrite Et. assert (Hall : Forall hs_msg (tickets_of (r_msgs r))).
      { unfold tickets_of. apply incl_Forall with (l1 := r_msgs r); [intros y Hy; apply filter_In in Hy; apply Hy|].
        apply (run_msgs _ _ _ _ _ HR). constructor. }
      rewrite Ht in Hall. apply Forall_app in Hall. destruct Hall as [Hall _]. eapply Forall_impl; [|exact Hall]. exact hs_msg_size. }
    unfold wire_size_ok, enc_req. cbn [rq_oneof rq_auth map f_rep]. rewrite app_nil_r.
    pose proof (enc_one_len 4 (enc_ticket t)) as L1. unfold enc_ticket in L1 at 2. rewrite !enc_fields_app in L1.
    pose proof (enc_rep_len 1 _ _ Hbig) as L2. rewrite Et in L2 at 2.
    assert (L3 : lenN (enc_fields (f_uint 2 (pt_connection_id t))) <= 20).
    { unfold f_uint. destruct (pt_connection_id t =? 0); [vm_compute; discriminate|]. unfold enc_fields. cbn [flat_map]. rewrite app_nil_r. apply enc_num_field. }
    rewrite El in L1. cbn [option_map f_opt] in L1. pose proof (enc_one_len 3 (enc_identity p)) as L4. pose proof (names_size _ _ Hn) as L5.
    assert (L6 : lenN (ts_tickets s) * (20 + 16777219) <= 5 * 16777239) by (apply N.mul_le_mono; [exact H5|lia]).
    clear - L1 L2 L3 L4 L5 L6 Hlen. unfold bytes in *. lia.
Qed.

Lemma T70shipped : forall P lib a ops rs x, connection P lib a ops rs x ->
  forall res, results send_tickets_to_s2a 0 (cx_sent x) res -> all_writes res = [] /\ all_waits res = [].
Proof.
  intros P lib a ops rs x _. generalize 0%nat. intros k res H. induction H as [|k s r rs' _ [IH1 IH2]]; [split; reflexivity|].
  cbn. auto.
Qed.
