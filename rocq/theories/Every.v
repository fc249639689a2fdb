(* Deviations of the record protocol that occur on every connection, whatever
   the primitives, keys and history. *)
From Coq Require Import List NArith ZArith Bool Lia ZifyBool ZifyNat ZifyN.
From Verif Require Import Base BaseProofs Aead Hkdf HalfConn SpecAead AeadProofs AeadRun AeadRunProofs AeadTotalProofs SpecTls HkdfProofs HalfProofs HalfRun HalfRunProofs Options HsHandler
  Crypter SpecHs HsProofs SpecRecord SpecRx CrypterProofs CrypterRun CrypterRunProofs SpecRxProofs CrypterLemmas CrypterLemmas2
  CrypterLemmas3 HsRun HsRunProofs CrypterChannel CrypterFinal.
Import ListNotations.
Local Open Scope N_scope.

(* ---- nothing is handed over after the phase DONE ---- *)
Definition over (l : list ticket_send) (x : crypt) : Prop := cx_phase x = DONE /\ cx_sent x = l.

Lemma result_over : forall P lib l x r fs x' st fs', over l x ->
  handle_result P lib x r fs = Done ((x', st), fs') -> over l x'.
Proof.
  intros P lib l x [c|r] fs x' st fs' H E; cbn [handle_result] in E; [apply ret_inv in E; destruct E as [E _]; injection E as -> _; exact H|].
  apply bind_inv in E. destruct E as ([x1 failed] & f1 & E1 & E).
  assert (H1 : over l x1).
  { destruct (r_key_update r).
    - apply bind_inv in E1. destruct E1 as ([h s1] & f2 & _ & E1). apply ret_inv in E1. destruct E1 as [E1 _]. injection E1 as -> _. exact H.
    - apply ret_inv in E1. destruct E1 as [E1 _]. injection E1 as -> _. exact H. }
  clear E1 H x. destruct failed; [apply ret_inv in E; destruct E as [E _]; injection E as -> _; exact H1|].
  destruct H1 as [Hd Hs]. rewrite Hd in E. apply ret_inv in E. destruct E as [E _]. injection E as -> _. split; assumption.
Qed.

Lemma unprotect_over : forall P lib l x hdr payload out fs x' st out' fs', over l x ->
  crypt_unprotect P lib x hdr payload out fs = Done ((x', st, out'), fs') -> over l x'.
Proof.
  intros P lib l x hdr payload out fs x' st out' fs' H E. unfold crypt_unprotect in E.
  destruct (cx_close x); [end_ret E|]. zeroed E.
  destruct (_ <? _); [end_ret E|]. destruct (_ <? _); [end_ret E|]. destruct (negb _); [end_ret E|].
  apply bind_inv in E. destruct E as ([[h [s n]] pt] & fa & _ & E). cbn zeta in E.
  assert (H1 : over l (set_in x h)) by exact H. remember (set_in x h) as x1 eqn:E1. clear E1 H x.
  destruct (negb _); [zeroed E; end_ret E|].
  destruct (scan_type _) as [[ty content]|]; [|end_ret E].
  destruct (ty =? kTls13Alert).
  { destruct content as [|a [|d r]]; [zeroed E; end_ret E|zeroed E; end_ret E|]. zeroed E. destruct (d =? _); [|end_ret E].
    apply ret_inv in E. destruct E as [E _]. injection E as -> _ _. exact H1. }
  destruct (ty =? kTls13Handshake).
  { apply bind_inv in E. destruct E as ([h2 r] & f2 & _ & E). apply bind_inv in E. destruct E as ([x2 s2] & f3 & E2 & E).
    apply result_over with (l := l) in E2; [|exact H1]. destruct (negb _); end_ret E. }
  destruct (ty =? kTls13ApplicationData).
  { destruct (cx_expecting x1); [end_ret E|]. apply bind_inv in E. destruct E as (x2 & f2 & E2 & E). apply lift_inv in E2. destruct E2 as [E2 _].
    apply ret_inv in E. destruct E as [E _]. injection E as -> _ _. rewrite (proj1 H1) in E2. injection E2 as <-. exact H1. }
  zeroed E. end_ret E.
Qed.

Lemma protect_over : forall P l x t pt out fs x' st out' fs', over l x ->
  crypt_protect P x t pt out fs = Done ((x', st, out'), fs') -> over l x'.
Proof.
  intros P l x t pt out fs x' st out' fs' H E. unfold crypt_protect in E. cbn zeta in E.
  destruct (_ <? _); [end_ret E|]. zeroed E. destruct (_ <? _); [end_ret E|]. zeroed E.
  destruct out as [buf|n]; [|end_ret E].
  apply bind_inv in E. destruct E as ([[h [s n]] tail] & fa & _ & E). assert (H1 : over l (set_out x h)) by exact H.
  destruct (negb _); [zeroed E; end_ret E|end_ret E].
Qed.

Lemma cstep_over : forall P lib l x op fs x' r, over l x -> cstep P lib x op fs = Done (x', r) -> over l x'.
Proof.
  intros P lib l x [t pt buf|hdr payload buf|] fs x' r H E; cbn [cstep] in E.
  - destruct (crypt_protect _ _ _ _ _ _) as [[[[x1 [s n]] o] f]|u|] eqn:E1; try discriminate. injection E as <- _. exact (protect_over _ _ _ _ _ _ _ _ _ _ _ H E1).
  - destruct (crypt_unprotect _ _ _ _ _ _ _) as [[[[x1 [s n]] o] f]|u|] eqn:E1; try discriminate. injection E as <- _. exact (unprotect_over _ _ _ _ _ _ _ _ _ _ _ _ H E1).
  - destruct (crypt_update_outbound_key _ _ _ _) as [[[x1 s] f]|u|] eqn:E1; try discriminate. injection E as <- _.
    unfold crypt_update_outbound_key in E1. apply bind_inv in E1. destruct E1 as ([h s1] & f2 & _ & E1).
    apply ret_inv in E1. destruct E1 as [E1 _]. injection E1 as -> _. exact H.
Qed.

Lemma crun_over : forall P lib l ops x x' rs, over l x -> crun P lib x ops = Done (x', rs) -> over l x'.
Proof.
  intros P lib l. induction ops as [|[op fs] ops IH]; intros x x' rs H E; cbn [crun] in E; [injection E as <- _; exact H|].
  destruct (cstep P lib x op fs) as [[x1 r]|u|] eqn:E1; try discriminate. cbn [obind] in E.
  destruct (crun P lib x1 ops) as [[x2 rs2]|u|] eqn:E2; try discriminate. injection E as <- _.
  eapply IH; [|exact E2]. exact (cstep_over _ _ _ _ _ _ _ _ H E1).
Qed.

(* ---- the reference's [r_done] ---- *)
Definition done_why (r : rx) : Prop := r_done r = true -> r_sent r <> [] \/ 5 <= lenN (tickets_of (r_msgs r)).

Lemma tickets_app : forall l l', tickets_of (l ++ l') = tickets_of l ++ tickets_of l'.
Proof. intros. apply filter_app. Qed.

Lemma accept_done : forall P F r msg out st n out' r', accept P F r msg out st n out' r' -> done_why r -> done_why r'.
Proof.
  intros P F r msg out st n out' r' H D. unfold done_why in *. inversion H; subst;
    cbn [rx_close rx_data rx_read rx_fail rx_bad rx_dir r_done r_sent r_msgs] in *; try exact D;
    rewrite ?tickets_app, ?lenN_app.
  - intros K. destruct (r_done r) eqn:E.
    + destruct (D eq_refl) as [D'|D']; [|right; exact D']. left. cbn. rewrite app_nil_r. exact D'.
    + cbn [orb negb] in K |- *. rewrite K. left. destruct (r_sent r); discriminate.
  - intros K. destruct (r_done r) eqn:E.
    + destruct (D eq_refl) as [D'|D']; [left; cbn; rewrite app_nil_r; exact D'|right; lia].
    + cbn [orb negb andb] in K. right. lia.
  - intros K. destruct (D K) as [D'|D']; [left; exact D'|right; lia].
  - intros K. destruct (D K) as [D'|D']; [left; exact D'|right; lia].
  - intros K. destruct (D K) as [D'|D']; [left; exact D'|right; lia].
Qed.

Lemma recv_done : forall P F r hdr pl out st n out' r', recv P F r hdr pl out st n out' r' -> done_why r -> done_why r'.
Proof. intros P F r hdr pl out st n out' r' H D. inversion H; subst; try exact D. eapply accept_done; [eassumption|exact D]. Qed.

Lemma run_done : forall P r ops rs r', rx_run P r ops rs r' -> done_why r -> done_why r'.
Proof. intros P r ops rs r' H. induction H; intros D; eauto using recv_done. Qed.

Lemma not_done : forall P lib a ops rs x r, connection P lib a ops rs x -> received P a ops rs r ->
  cx_sent x = [] -> lenN (tickets_of (r_msgs r)) < 5 -> r_done r = false.
Proof.
  intros P lib a ops rs x r HC HR Hs Ht. pose proof (W20x P lib a ops rs x HC r HR) as Es. rewrite Hs in Es. cbn in Es.
  destruct (r_done r) eqn:E; [|reflexivity].
  destruct (run_done _ _ _ _ _ (proj1 HR) ltac:(intros K; discriminate K) E) as [K|K]; [congruence|lia].
Qed.

(* ---- one handshake record ---- *)
Lemma hs_step : forall P lib a ops rs x r content pad payload buf ms part,
  connection P lib a ops rs x -> received P a ops rs r -> open_rx r ->
  let msg := inner ty_handshake content pad in
  let op := CUnprotect (tls_header (lenN msg + 16)) payload buf in
  next_record P r msg payload -> bytes_ok content -> lenN content + pad <= 16384 -> lenN msg <= lenN buf ->
  r_part r ++ content = concat ms ++ part -> Forall hs_msg ms -> Forall known ms ->
  hs_partial part -> (part <> [] -> known part) -> key_update_last ms part ->
  let r' := rx_read (rx_dir r (dir_next (r_dir r)))
      (if has_key_update content ms part then dir_update P (dir_next (r_dir r)) else dir_next (r_dir r)) ms part in
  exists x' out, cstep P lib x op [] = Done (x', CUnprotected S_OK 0 out) /\
    connection P lib a (ops ++ [(op, [])]) (rs ++ [CUnprotected S_OK 0 out]) x' /\
    received P a (ops ++ [(op, [])]) (rs ++ [CUnprotected S_OK 0 out]) r'.
Proof.
  intros P lib a ops rs x r content pad payload buf ms part (H1 & H2 & H3 & H4 & H5) (Hr & Hb) (Hc & Hu) msg op
    (Hv & Hp) Hbc Hl Hbuf E Hm Hk Hpa Hkp Hkl r'.
  destruct (hs_lemma P lib a ops rs x H1 H2 H3 H4 H5 r Hr Hb content pad payload buf ms part) as (x' & out & Hok & Hs & Hrx); auto.
  exists x', out. split; [exact Hs|]. split; [|split; [exact Hrx|exact Hb]].
  split; [exact H1|]. split; [exact H2|]. split; [exact H3|]. split; [apply Forall_app; split; [exact H4|constructor; [exact Hok|constructor]]|].
  eapply creach_snoc; [exact H5|exact Hs].
Qed.

Lemma ticket_stream_ok : forall ms part, ticket_stream ms part ->
  Forall hs_msg ms /\ Forall known ms /\ hs_partial part /\ (part <> [] -> known part) /\ key_update_last ms part /\
  forall c, has_key_update c ms part = false.
Proof.
  intros ms part (T1 & T2 & T3 & T4). split; [exact T1|]. split; [apply tickets_known; exact T2|]. split; [exact T3|].
  split; [intros K; left; exact (T4 K)|].
  assert (Hno : forall m, is_ticket m = true -> is_key_update m = false).
  { intros [|t m] K; [reflexivity|]. unfold is_ticket, is_key_update, has_type in *. apply N.eqb_eq in K. subst t. reflexivity. }
  split.
  - clear -T2 Hno. induction ms as [|m ms IH]; [exact I|]. inversion T2; subst. split; [|apply IH; assumption].
    intros K. rewrite Hno in K by assumption. discriminate.
  - intros c. unfold has_key_update. rewrite existsb_app. cbn [existsb]. rewrite orb_false_r.
    assert (Hp : is_key_update part = false) by (destruct part; [reflexivity|apply Hno, T4; discriminate]). rewrite Hp, orb_false_r.
    assert (Hx : existsb is_key_update ms = false).
    { clear -T2 Hno. induction T2; [reflexivity|]. cbn [existsb]. rewrite Hno by assumption. exact IHT2. }
    rewrite Hx, andb_false_r. reflexivity.
Qed.

Lemma tickets_all : forall ms, Forall (fun m => is_ticket m = true) ms -> tickets_of ms = ms.
Proof. induction 1; [reflexivity|]. unfold tickets_of in *. cbn [filter]. rewrite H, IHForall. reflexivity. Qed.

(* The record that brings the fifth ticket and the beginning of a sixth. *)
Lemma fifth_step : forall P lib a ops rs x r ms part payload buf,
  connection P lib a ops rs x -> received P a ops rs r -> open_rx r -> r_part r = [] -> cx_sent x = [] ->
  ticket_stream ms part -> part <> [] -> bytes_ok (concat ms ++ part) -> lenN (concat ms ++ part) <= 16384 ->
  lenN (tickets_of (r_msgs r)) < 5 <= lenN (tickets_of (r_msgs r)) + lenN ms ->
  let msg := inner ty_handshake (concat ms ++ part) 0 in
  next_record P r msg payload -> lenN msg <= lenN buf ->
  let op := (CUnprotect (tls_header (lenN msg + 16)) payload buf, []) in
  exists x' out r', cstep P lib x (fst op) [] = Done (x', CUnprotected S_OK 0 out) /\
    connection P lib a (ops ++ [op]) (rs ++ [CUnprotected S_OK 0 out]) x' /\
    received P a (ops ++ [op]) (rs ++ [CUnprotected S_OK 0 out]) r' /\
    r_dir r' = dir_next (r_dir r) /\ r_closed r' = false /\ r_wait r' = false /\ r_done r' = true /\ r_sent r' = r_sent r.
Proof.
  intros P lib a ops rs x r ms part payload buf HC HR Ho Hp Hs Ht Hne Hb Hl [H4 H5] msg Hn Hbuf op.
  pose proof (not_done _ _ _ _ _ _ _ HC HR Hs H4) as Hd.
  destruct (ticket_stream_ok ms part Ht) as (T1 & T2 & T3 & T4 & T5 & T6).
  destruct (hs_step P lib a ops rs x r (concat ms ++ part) 0 payload buf ms part HC HR Ho Hn Hb ltac:(lia) Hbuf) as (x' & out & E & HC' & HR'); auto.
  { rewrite Hp. reflexivity. }
  rewrite T6 in HR'. exists x', out. eexists. split; [exact E|]. split; [exact HC'|]. split; [exact HR'|].
  assert (Hfive : (5 <=? lenN (tickets_of (r_msgs r ++ ms))) = true).
  { apply N.leb_le. rewrite tickets_app, lenN_app, (tickets_all ms) by (destruct Ht as (_ & K & _); exact K). exact H5. }
  cbn [rx_read rx_dir r_dir r_closed r_wait r_done r_sent r_msgs]. rewrite Hd, Hfive. cbn [negb andb orb].
  assert (Htp : is_ticket part = true) by (destruct Ht as (_ & _ & _ & K); exact (K Hne)). rewrite Htp. cbn [negb].
  rewrite app_nil_r. repeat split. exact (proj1 Ho).
Qed.

Lemma data_step : forall P lib a ops rs x r content pad payload buf,
  connection P lib a ops rs x -> received P a ops rs r -> open_rx r ->
  let msg := inner ty_application_data content pad in
  next_record P r msg payload -> bytes_ok content -> lenN content + pad <= 16384 -> lenN msg <= lenN buf ->
  exists x' out, cstep P lib x (CUnprotect (tls_header (lenN msg + 16)) payload buf) [] =
      Done (x', if r_wait r then CUnprotected S_INVALID_RECORD 0 out else CUnprotected S_OK (lenN content) out) /\
    takeN (lenN content) (iov_data out) = content.
Proof.
  intros P lib a ops rs x r content pad payload buf HC (Hr & Hb) (Hc & Hu) msg (Hv & Es) Hbc Hlen Hbuf.
  destruct (W17x P lib a ops rs x HC r (conj Hr Hb) content pad payload buf (conj Hc Hu) Hbc Hlen Hbuf (conj Hv Es)) as (x' & out & E & K).
  exists x', out. split; [exact E|]. destruct (r_wait r) eqn:Ew; [|exact (K eq_refl)]. clear K.
  destruct HC as (H1 & H2 & H3 & H4 & H5).
  assert (Hm : lenN msg = lenN content + 1 + pad) by apply lenN_inner.
  destruct (deliver_lemma P lib a ops rs x H1 H2 H3 H4 H5 r Hr Hb msg payload buf Hc Hu) as [_ H]; auto; try lia.
  { unfold msg, inner. apply bytes_ok_app. split; [exact Hbc|]. constructor; [reflexivity|].
    apply Forall_forall. intros y Hy. apply repeat_spec in Hy. subst y. reflexivity. }
  fold msg in E. rewrite E in H. destruct H as (r' & Ha & _). unfold msg in Ha.
  assert (T3 : ty_application_data <> 0) by discriminate.
  inversion Ha; subst;
    try match goal with K : _ = iov_data out |- _ => rewrite <- K end;
    try (match goal with K : inner _ _ _ = zeros _ |- _ => exfalso; revert K; apply inner_not_zero; discriminate end);
    try (match goal with K : inner _ _ _ = inner _ _ _ |- _ =>
        apply inner_inj in K; [|assumption|first [assumption|discriminate]]; destruct K as (K1 & K2 & K3); try discriminate; subst end);
    try congruence.
  unfold inner. rewrite <- !app_assoc. apply takeN_app_exact.
Qed.

(* ---- the deviations ---- *)
Lemma U22 : forall P lib a ops rs x r payload buf, connection P lib a ops rs x -> received P a ops rs r -> open_rx r -> r_part r = [] ->
  let msg := inner ty_handshake [4; 0; 0; 0; 0; 0; 0; 0] 0 in
  next_record P r msg payload -> lenN msg <= lenN buf ->
  cstep P lib x (CUnprotect (tls_header (lenN msg + 16)) payload buf) [] = Undef UbNegativeShift.
Proof.
  intros P lib a ops rs x r payload buf HC HR Ho Hp msg Hn Hbuf.
  apply (W22x P lib a ops rs x HC r HR [4; 0; 0; 0; 0; 0; 0; 0] 0 payload buf Ho); auto; [repeat constructor|discriminate|].
  rewrite Hp. exists [], [4; 0; 0; 0], [0; 0; 0; 0]. split; [reflexivity|]. split; [constructor|]. split; [constructor|].
  split; [exists 4; reflexivity|]. split; [left; reflexivity|discriminate].
Qed.

Lemma U17 : forall P lib a ops rs x r ms part payload buf, connection P lib a ops rs x -> received P a ops rs r -> open_rx r ->
  d_seq (r_dir r) + 1 < two64 -> r_part r = [] -> cx_sent x = [] ->
  ticket_stream ms part -> part <> [] -> bytes_ok (concat ms ++ part) -> lenN (concat ms ++ part) <= 16384 ->
  lenN (tickets_of (r_msgs r)) < 5 <= lenN (tickets_of (r_msgs r)) + lenN ms ->
  let msg := inner ty_handshake (concat ms ++ part) 0 in
  next_record P r msg payload -> lenN msg <= lenN buf ->
  exists x' out, cstep P lib x (CUnprotect (tls_header (lenN msg + 16)) payload buf) [] = Done (x', CUnprotected S_OK 0 out) /\
    forall data payload2 buf2, let msg2 := inner ty_application_data data 0 in
      bytes_ok data -> lenN data <= 16384 -> lenN msg2 <= lenN buf2 -> Forall iov_valid payload2 ->
      iov_concat payload2 = dir_seal P (dir_next (r_dir r)) (tls_header (lenN msg2 + 16)) msg2 ->
      exists x2 out2, cstep P lib x' (CUnprotect (tls_header (lenN msg2 + 16)) payload2 buf2) [] =
        Done (x2, CUnprotected S_OK (lenN data) out2) /\ takeN (lenN data) (iov_data out2) = data.
Proof.
  intros P lib a ops rs x r ms part payload buf HC HR Ho Hq Hp Hs Ht Hne Hb Hl H5 msg Hn Hbuf.
  destruct (fifth_step P lib a ops rs x r ms part payload buf HC HR Ho Hp Hs Ht Hne Hb Hl H5 Hn Hbuf)
    as (x' & out & r' & E & HC' & HR' & Ed & Ec & Ew & _). exists x', out. split; [exact E|].
  intros data payload2 buf2 msg2 Hb2 Hl2 Hbuf2 Hv2 Es2.
  destruct (data_step _ _ _ _ _ _ _ data 0 payload2 buf2 HC' HR') as (x2 & out2 & E2 & K); auto; try lia.
  - split; [exact Ec|]. rewrite Ed. destruct Ho as (_ & Hu & _). split; [exact Hu|exact Hq].
  - split; [exact Hv2|]. rewrite Ed. exact Es2.
  - rewrite Ew in E2. exists x2, out2. split; [exact E2|exact K].
Qed.

Lemma U20 : forall P lib a ops rs x r ms part payload buf, connection P lib a ops rs x -> received P a ops rs r -> open_rx r ->
  r_part r = [] -> cx_sent x = [] ->
  ticket_stream ms part -> part <> [] -> bytes_ok (concat ms ++ part) -> lenN (concat ms ++ part) <= 16384 ->
  lenN (tickets_of (r_msgs r)) < 5 <= lenN (tickets_of (r_msgs r)) + lenN ms ->
  let msg := inner ty_handshake (concat ms ++ part) 0 in
  next_record P r msg payload -> lenN msg <= lenN buf ->
  exists x' out, cstep P lib x (CUnprotect (tls_header (lenN msg + 16)) payload buf) [] = Done (x', CUnprotected S_OK 0 out) /\
    forall ops' rs' x2, crun P lib x' ops' = Done (x2, rs') -> cx_sent x2 = [].
Proof.
  intros P lib a ops rs x r ms part payload buf HC HR Ho Hp Hs Ht Hne Hb Hl H5 msg Hn Hbuf.
  destruct (fifth_step P lib a ops rs x r ms part payload buf HC HR Ho Hp Hs Ht Hne Hb Hl H5 Hn Hbuf)
    as (x' & out & r' & E & HC' & HR' & Ed & Ec & Ew & Edone & Esent). exists x', out. split; [exact E|].
  intros ops' rs' x2 Er. destruct HC' as (H1 & H2 & H3 & H4 & H6).
  destruct (R_rel _ _ _ _ _ _ H1 H2 H3 H4 H6 r' (proj1 HR') (proj2 HR')) as (dout & _ & _ & _ & Hx1 & Hx2).
  destruct Hx2 as (_ & Hd); [rewrite Ed; exact (proj1 (proj2 Ho))|].
  assert (Hov : over [] x'); [|exact (proj2 (crun_over _ _ _ _ _ _ _ Hov Er))].
  split; [apply Hd; exact Edone|]. rewrite Esent in Hx1.
  pose proof (W20x P lib a ops rs x HC r HR) as K. rewrite Hs in K. cbn in K. rewrite <- K in Hx1.
  destruct (cx_sent x'); [reflexivity|discriminate].
Qed.

Lemma U13 : forall P lib a ops rs x r payload buf, connection P lib a ops rs x -> received P a ops rs r -> open_rx r ->
  d_seq (r_dir r) + 1 < two64 -> r_part r = [] -> lenN (tickets_of (r_msgs r)) < 5 ->
  let msg := inner ty_handshake [4] 0 in
  next_record P r msg payload -> lenN msg <= lenN buf ->
  exists x' out, cstep P lib x (CUnprotect (tls_header (lenN msg + 16)) payload buf) [] = Done (x', CUnprotected S_OK 0 out) /\
    forall data payload2 buf2, let msg2 := inner ty_application_data data 0 in
      bytes_ok data -> lenN data <= 16384 -> lenN msg2 <= lenN buf2 -> Forall iov_valid payload2 ->
      iov_concat payload2 = dir_seal P (dir_next (r_dir r)) (tls_header (lenN msg2 + 16)) msg2 ->
      exists x2 out2, cstep P lib x' (CUnprotect (tls_header (lenN msg2 + 16)) payload2 buf2) [] =
        Done (x2, CUnprotected S_INVALID_RECORD 0 out2) /\ takeN (lenN data) (iov_data out2) = data.
Proof.
  intros P lib a ops rs x r payload buf HC HR Ho Hq Hp Ht msg Hn Hbuf.
  destruct (hs_step P lib a ops rs x r [4] 0 payload buf [] [4] HC HR Ho Hn) as (x' & out & E & HC' & HR'); auto.
  - repeat constructor.
  - discriminate.
  - rewrite Hp. reflexivity.
  - exists [0; 0; 1; 9]. split; [discriminate|]. exists 4, 0, 0, 1, [9]. repeat split; try discriminate. repeat constructor.
  - intros _. left. reflexivity.
  - exact I.
  - exists x', out. split; [exact E|]. intros data payload2 buf2 msg2 Hb2 Hl2 Hbuf2 Hv2 Es2.
    match type of HR' with received _ _ _ _ ?r1 => set (r' := r1) in * end.
    assert (Ew : r_wait r' = true).
    { subst r'. cbn [rx_read rx_dir r_wait r_msgs]. rewrite app_nil_r.
      assert ((5 <=? lenN (tickets_of (r_msgs r))) = false) as -> by (apply N.leb_gt; exact Ht). rewrite andb_false_r. reflexivity. }
    assert (Ed : r_dir r' = dir_next (r_dir r)) by reflexivity.
    destruct (data_step _ _ _ _ _ _ _ data 0 payload2 buf2 HC' HR') as (x2 & out2 & E2 & K); auto; try lia.
    + split; [exact (proj1 Ho)|]. rewrite Ed. split; [exact (proj1 (proj2 Ho))|exact Hq].
    + split; [exact Hv2|]. rewrite Ed. exact Es2.
    + rewrite Ew in E2. exists x2, out2. split; [exact E2|exact K].
Qed.

Lemma U21 : forall P lib a ops rs x r ku1 ku2 payload buf, connection P lib a ops rs x -> received P a ops rs r -> open_rx r ->
  r_part r = [] -> hs_msg (ku1 ++ ku2) -> is_key_update (ku1 ++ ku2) = true -> ku1 <> [] -> ku2 <> [] -> lenN (ku1 ++ ku2) <= 16384 ->
  let msg := inner ty_handshake ku1 0 in
  next_record P r msg payload -> lenN msg <= lenN buf ->
  exists x' out, cstep P lib x (CUnprotect (tls_header (lenN msg + 16)) payload buf) [] = Done (x', CUnprotected S_OK 0 out) /\
    forall payload2 buf2, let msg2 := inner ty_handshake ku2 0 in let hdr2 := tls_header (lenN msg2 + 16) in
      Forall iov_valid payload2 -> lenN msg2 <= lenN buf2 ->
      iov_concat payload2 = dir_seal P (dir_next (r_dir r)) hdr2 msg2 ->
      (forall m, iov_concat payload2 <> dir_seal P (dir_update P (dir_next (r_dir r))) hdr2 m) ->
      exists x2 out2, cstep P lib x' (CUnprotect hdr2 payload2 buf2) [] = Done (x2, CUnprotected S_INTERNAL_ERROR 0 out2).
Proof.
  intros P lib a ops rs x r ku1 ku2 payload buf HC HR Ho Hp Hm Hk N1 N2 Hl msg Hn Hbuf.
  assert (Hbk : bytes_ok (ku1 ++ ku2)) by (destruct Hm as (? & ? & ? & ? & ? & ? & K & _); exact K).
  apply bytes_ok_app in Hbk. destruct Hbk as [Hb1 Hb2]. rewrite lenN_app in Hl.
  assert (Hk1 : is_key_update ku1 = true) by (destruct ku1; [congruence|exact Hk]).
  destruct (hs_step P lib a ops rs x r ku1 0 payload buf [] ku1 HC HR Ho Hn Hb1 ltac:(lia) Hbuf) as (x' & out & E & HC' & HR'); auto.
  - rewrite Hp. reflexivity.
  - exists ku2. split; assumption.
  - intros _. right. exact Hk1.
  - exact I.
  - exists x', out. split; [exact E|]. intros payload2 buf2 msg2 hdr2 Hv2 Hbuf2 Es2 Hnf.
    match type of HR' with received _ _ _ _ ?r1 => set (r' := r1) in * end.
    assert (Ed : r_dir r' = dir_update P (dir_next (r_dir r))).
    { subst r'. cbn [rx_read r_dir]. unfold has_key_update. cbn [app existsb]. rewrite Hk1.
      destruct ku1; [congruence|reflexivity]. }
    assert (HP : prims_ok P) by exact (proj1 HC).
    assert (Hpl : sum_lens payload2 = lenN msg2 + 16) by (rewrite (sum_lens_concat payload2 Hv2), Es2; apply lenN_dir_seal; exact HP).
    assert (Hml : lenN msg2 = lenN ku2 + 1) by (unfold msg2; rewrite lenN_inner; lia).
    assert (Hok : cop_ok (CUnprotect hdr2 payload2 buf2)).
    { split; [apply header_bytes_ok|]. split; [exact Hv2|]. split.
      - rewrite Es2. apply dir_seal_bytes_ok; [exact HP|]. unfold msg2, inner. apply bytes_ok_app. split; [exact Hb2|]. repeat constructor.
      - rewrite Hpl. unfold hdr2. rewrite lenN_tls_header. unfold two64. lia. }
    pose proof (Wstep P lib a _ _ x' HC' r' HR' hdr2 payload2 buf2 [] Hok) as K.
    destruct (cstep P lib x' (CUnprotect hdr2 payload2 buf2) []) as [[x2 [| st n o|]]|u|]; try contradiction.
    + destruct K as (r2 & K). exists x2, o.
      assert (Hwf : well_formed hdr2 (lenN (iov_concat payload2))).
      { rewrite <- (sum_lens_concat payload2 Hv2), Hpl. split; [reflexivity|]. rewrite Hml. destruct ku2; [congruence|]. rewrite lenN_cons in *. lia. }
      inversion K; subst; try reflexivity; try contradiction.
      * exfalso. match goal with Q : r_closed r' = true |- _ => unfold r' in Q; cbn in Q; rewrite (proj1 Ho) in Q; discriminate end.
      * exfalso. match goal with Q : iov_concat payload2 = dir_seal _ _ _ _ |- _ => rewrite Ed in Q; exact (Hnf _ Q) end.
    + exfalso. destruct K as (_ & _ & c & pad & K & _). rewrite Ed in K. exact (Hnf _ K).
Qed.
