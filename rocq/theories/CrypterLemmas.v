From Coq Require Import List NArith ZArith Bool Lia ZifyBool ZifyNat ZifyN.
From Verif Require Import Base BaseProofs Aead Hkdf HalfConn SpecAead AeadProofs SpecTls
  HkdfProofs HalfProofs HalfRun HalfRunProofs Options HsHandler Crypter SpecHs
  HsProofs SpecRecord CrypterProofs SpecRx CrypterRun CrypterRunProofs SpecRxProofs.
Import ListNotations.
Local Open Scope N_scope.


Section L.
Variables (P : prims) (lib : ssl_lib) (a : create_args) (ops : list (cop * faults))
  (rs : list cres) (x : crypt).
Hypothesis HP : prims_ok P.
Hypothesis Hin : ca_in_seq a < two64.
Hypothesis Hout : ca_out_seq a < two64.
Hypothesis Hops : cops_ok ops.
Hypothesis Hreach : creach P lib a ops rs x.

Lemma L_inv : cx_winv P a x (tx_run P (d_out a) ops rs) /\ length rs = length ops /\
  (Exists is_close_res rs -> cx_close x = true).
Proof. exact (creach_winv P lib a ops rs x HP Hin Hout Hops Hreach). Qed.

(* C04 *)
Lemma C04_crypter_lemma : forall e, NoDup (nonces (cx_out x) e).
Proof.
  intros e. destruct L_inv as ([_ (_ & _ & cnt & N1 & N2 & N3 & _) _ _ _ _ _] & _).
  rewrite N1. destruct (N.eq_dec (cnt e) 0) as [E|E]; [rewrite E; constructor|].
  apply NoDup_map_in; [|apply seq_NoDup]. intros i j Hi Hj Eq.
  apply in_seq in Hi. apply in_seq in Hj. specialize (N2 e).
  apply record_nonce_inj in Eq; [lia|apply N3; exact E|unfold two64 in *; lia|unfold two64 in *; lia].
Qed.

(* C14 *)
Lemma C14_lemma : forall n0 b0, In (CUnprotected S_ALERT_CLOSE_NOTIFY n0 b0) rs ->
  forall hdr payload buf fs, cop_ok (CUnprotect hdr payload buf) ->
  cstep P lib x (CUnprotect hdr payload buf) fs =
    Done (x, CUnprotected S_ALERT_CLOSE_NOTIFY 0 (IoBuf buf)).
Proof.
  intros n0 b0 Hi hdr payload buf fs (B1 & B2 & B3 & B4).
  destruct L_inv as ([_ _ (din & Wi & _) _ _ _ _] & _ & Hc).
  destruct (crypt_unprotect_spec P lib x din hdr payload buf fs HP Wi B1 B2 B4) as (K1 & _).
  cbn [cstep]. rewrite K1; [reflexivity|]. apply Hc. apply Exists_exists.
  eexists; split; [exact Hi|]. eexists; eexists; reflexivity.
Qed.

(* C16 *)
Lemma C16_lemma : forall hdr payload buf fs, cop_ok (CUnprotect hdr payload buf) ->
  ~ well_formed hdr (sum_lens payload) ->
  exists c, cstep P lib x (CUnprotect hdr payload buf) fs =
    Done (x, CUnprotected c 0 (IoBuf buf)) /\
    (c = S_ALERT_CLOSE_NOTIFY \/
     c = (if 16384 + 22 <? lenN hdr + sum_lens payload
          then S_ALERT_RECORD_OVERFLOW else S_FAILED_PRECONDITION)) /\
    (c = S_ALERT_CLOSE_NOTIFY <-> cx_close x = true).
Proof.
  intros hdr payload buf fs (B1 & B2 & B3 & B4) Hw.
  destruct L_inv as ([_ _ (din & Wi & _) _ _ _ _] & _ & _).
  destruct (crypt_unprotect_spec P lib x din hdr payload buf fs HP Wi B1 B2 B4) as (K1 & K2 & _).
  cbn [cstep]. destruct (cx_close x) eqn:Ec.
  - rewrite K1 by reflexivity. cbn [obind]. eexists; split; [reflexivity|]. split; [auto|tauto].
  - rewrite (K2 eq_refl Hw). cbn [obind]. eexists; split; [reflexivity|].
    split; [right; reflexivity|]. split; [|discriminate].
    destruct (22 + 16384 <? lenN hdr + sum_lens payload); discriminate.
Qed.

(* C19: every history *)
Lemma C19_weak_lemma : cx_sent x = [] \/
  exists s, cx_sent x = [s] /\ lenN (ts_tickets s) <= 5 /\ ts_url s = ca_url a /\
    ts_connection_id s = ca_connection_id a /\ ts_identity s = ca_identity a.
Proof.
  destruct L_inv as ([_ _ _ (o & _ & Hs) W1 W2 W3] & _ & _). destruct o as [l|]; cbn in Hs; [left; exact Hs|].
  right. destruct Hs as (ts & ch & E & Hl). exists (the_send x ts ch). cbn. auto.
Qed.

(* C31 / C34: Protect *)
Lemma protect_lemma : forall t pt buf fs, cop_ok (CProtect t pt buf) ->
  exists x' st n buf',
    cstep P lib x (CProtect t pt buf) fs = Done (x', CProtected st n (IoBuf buf')) /\
    lenN buf' = lenN buf /\
    (st = S_OK -> n = sum_lens pt + 22 /\
       buf' = tls_record P (tx_run P (d_out a) ops rs) (convert_record_type t) (iov_concat pt) 0
              ++ dropN n buf /\
       lenN (tls_record P (tx_run P (d_out a) ops rs) (convert_record_type t) (iov_concat pt) 0) = n) /\
    (st <> S_OK -> n = 0 /\ (buf' = buf \/ buf' = zeros (lenN buf))) /\
    (st = S_FAILED_PRECONDITION -> buf' = buf /\ x' = x) /\
    (fits_in pt buf = false -> st = S_FAILED_PRECONDITION) /\
    (fits_in pt buf = true -> ~ dir_usable (tx_run P (d_out a) ops rs) -> st = S_INTERNAL_ERROR) /\
    (fits_in pt buf = true -> dir_usable (tx_run P (d_out a) ops rs) ->
     Forall iov_valid pt -> fs = [] -> st = S_OK).
Proof.
  intros t pt buf fs Hok.
  destruct L_inv as ([Wo Wu (din & Wi & _) _ _ _ _] & _ & _).
  destruct (crypt_protect_spec P x din _ t pt buf fs HP Wi Wo Hok)
    as (h' & st & n & buf' & fs' & E & El & Ee & Hnf & Hf).
  cbn [cstep]. rewrite E. cbn [obind]. do 4 eexists. split; [reflexivity|]. split; [exact El|].
  destruct (fits_in pt buf) eqn:Ef.
  2:{ assert (Hn : ~ fits pt buf) by (rewrite <- fits_in_spec; congruence).
      destruct (Hnf Hn) as (-> & -> & -> & -> & ->). rewrite set_out_same.
      repeat split; try discriminate; auto. }
  apply fits_in_spec in Ef. destruct (Hf Ef) as [Hun Hus].
  destruct (dir_usable_dec (tx_run P (d_out a) ops rs)) as [Hu|Hu].
  - destruct (Hus Hu) as (R' & Eu & Hok' & Hbad & Hlive).
    split.
    { intros Es. destruct (Hok' Es) as (Hv & En & Eb). split; [exact En|]. split; [exact Eb|].
      rewrite lenN_tls_record by exact HP. rewrite En, (sum_lens_concat pt Hv). lia. }
    split; [intros Es; destruct (Hbad Es) as (A & B & _); auto|].
    split; [intros Es; destruct Hbad as (_ & _ & [K|K]); [congruence|congruence|congruence]|].
    split; [discriminate|]. split; [contradiction|]. intros _ _ Hv Hfs. apply Hlive; assumption.
  - destruct (Hun Hu) as (-> & -> & -> & ->).
    repeat split; try discriminate; auto; contradiction.
Qed.

(* C33: whatever the history *)
Lemma C33_lemma : forall hdr payload buf fs x' n out,
  cop_ok (CUnprotect hdr payload buf) ->
  cstep P lib x (CUnprotect hdr payload buf) fs = Done (x', CUnprotected S_OK n out) ->
  hc_always_fail (cx_in x) = false /\
  let k := hc_epoch (cx_in x) in
  let d := {| d_suite := ca_suite a;
              d_secret := nth_secret P (ca_suite a) (ca_in_secret a) (N.to_nat k);
              d_seq := key_start (ca_in_seq a) k + lenN (nonces (cx_in x) k);
              d_broken := false |} in
  hdr = tls_header (sum_lens payload) /\
  exists ty content pad, (ty = ty_application_data \/ ty = ty_handshake) /\
    iov_concat payload = dir_seal P d hdr (inner ty content pad) /\
    (ty = ty_application_data -> n = lenN content /\ takeN n (iov_data out) = content) /\
    (ty = ty_handshake -> n = 0).
Proof.
  intros hdr payload buf fs x' n out (B1 & B2 & B3 & B4) E.
  destruct L_inv as ([_ _ (din & Wi & (U1 & U2 & cnt & N1 & N2 & N3 & N4 & N5 & N6)) _ _ _ _] & _ & _).
  destruct (crypt_unprotect_spec P lib x din hdr payload buf fs HP Wi B1 B2 B4) as (K1 & K2 & K3).
  cbn [cstep] in E.
  destruct (cx_close x) eqn:Ec; [rewrite K1 in E by reflexivity; discriminate|].
  assert (Hwf : well_formed hdr (sum_lens payload) \/ ~ well_formed hdr (sum_lens payload)).
  { unfold well_formed. destruct (list_eq_dec N.eq_dec hdr (tls_header (sum_lens payload))) as [Eh|Eh];
      [|right; intros [? _]; contradiction].
    destruct (N.le_gt_cases 17 (sum_lens payload)); [|right; lia].
    destruct (N.le_gt_cases (sum_lens payload) (16384 + 17)); [left; auto|right; lia]. }
  destruct Hwf as [Hwf|Hwf].
  2:{ rewrite K2 in E by auto. cbn [obind] in E.
      destruct (22 + 16384 <? lenN hdr + sum_lens payload); discriminate. }
  destruct (K3 eq_refl Hwf) as (h' & fs1 & Hep & Hun & Hus & [[E' Hc]|(msg & buf' & Hu & E1 & E2 & E3 & E4 & E')]);
    rewrite E' in E; [discriminate|].
  assert (Hbr : d_broken din = false) by apply Hu.
  split; [rewrite (hr_fail _ _ _ Wi); exact Hbr|]. intros k d.
  assert (Ed : din = d).
  { unfold d. rewrite N1. unfold lenN at 1. rewrite map_length, seq_length.
    rewrite N2Nat.id. unfold k. rewrite <- (N5 Hbr), <- (U2 Hbr), <- U1, <- Hbr. destruct din; reflexivity. }
  rewrite <- Ed. split; [apply Hwf|].
  unfold deliver in E. cbn [iov_data] in E.
  assert (Et : takeN (lenN msg) buf' = msg) by (rewrite E3; apply takeN_app_exact).
  rewrite Et in E.
  destruct (scan_type (rev msg)) as [[ty content]|] eqn:Es; [|discriminate].
  apply scan_type_some in Es. destruct Es as (Hty & pad & Em).
  exists ty, content, pad.
  unfold kTls13Alert, kTls13Handshake, kTls13ApplicationData in E.
  destruct (N.eqb_spec ty 21) as [->|H21].
  { exfalso. destruct content as [|? [|? ?]]; unfold lift, bind in E; cbn [zero_out obind] in E; try discriminate.
    destruct (_ =? kTlsAlertCloseNotify) in E; discriminate. }
  destruct (N.eqb_spec ty 22) as [->|H22].
  { split; [right; reflexivity|]. split; [rewrite <- Em; exact E1|]. split; [discriminate|]. intros _.
    unfold lift, bind, ret in E.
    destruct (process_handshake_message _ content) as [[h1 r1]|u|]; [|discriminate..].
    destruct (handle_result _ _ _ r1 fs1) as [[[x1 st1] fs2]|u|]; [|discriminate..].
    destruct (negb (is_ok st1)); cbn in E; inversion E; reflexivity. }
  destruct (N.eqb_spec ty 23) as [->|H23].
  { split; [left; reflexivity|]. split; [rewrite <- Em; exact E1|]. split; [|discriminate]. intros _.
    destruct (cx_expecting (set_in x h')); [discriminate|].
    assert (Hn : n = lenN content /\ out = IoBuf buf').
    { unfold lift, bind, ret in E.
      destruct (match cx_phase (set_in x h') with RECEIVING => _ | _ => _ end) as [y|u|];
        cbn in E; inversion E; auto. }
    destruct Hn as [-> ->]. split; [reflexivity|]. cbn [iov_data]. rewrite E3, Em.
    unfold inner. rewrite <- app_assoc. apply takeN_app_exact. }
  exfalso. unfold lift, bind in E. cbn [zero_out obind] in E. discriminate.
Qed.

(* C13: reported bytes *)
Lemma C13_count_lemma : forall hdr payload buf fs x' st n out,
  cop_ok (CUnprotect hdr payload buf) ->
  cstep P lib x (CUnprotect hdr payload buf) fs = Done (x', CUnprotected st n out) ->
  st <> S_OK -> n = 0.
Proof.
  intros hdr payload buf fs x' st n out (B1 & B2 & B3 & B4) E Hne.
  destruct L_inv as ([_ _ (din & Wi & Wiu) Ww _ _ _] & _ & _).
  pose proof (unprotect_weak P lib x din hdr payload buf fs HP Wi Ww B1 B2 B4) as H. unfold safeM in H.
  cbn [cstep] in E.
  destruct (crypt_unprotect P lib x (IoBuf hdr) payload (IoBuf buf) fs) as [[[[y [st' n']] out'] fs']|u|];
    cbn in E, H; try discriminate. inversion E; subst. destruct H as [[S1 S2 S3 S4 S5 S6] _]. auto.
Qed.

(* The reference receiver *)
Variable r : rx.
Hypothesis Hrx : rx_run P (rx_start (d_in a)) ops rs r.

(* C19: what is sent, in every history *)
Lemma C19_lemma : cx_sent x = [] \/
  exists s rest, cx_sent x = [s] /\ ts_tickets s <> [] /\ lenN (ts_tickets s) <= 5 /\
    tickets_of (r_msgs r) = ts_tickets s ++ rest /\
    ts_url s = ca_url a /\ ts_connection_id s = ca_connection_id a /\ ts_identity s = ca_identity a.
Proof.
  destruct (creach_rx P lib a ops rs x HP Hin Hout Hops Hreach) as (r0 & Hr0 & Hrel & Hdead).
  rewrite <- (rx_run_det P ops _ rs r r0 HP Hrx Hr0) in Hrel, Hdead.
  assert (Cs : sent_ok x (r_msgs r)).
  { destruct (r_bad r); [destruct (Hdead eq_refl) as (? & ? & ? & _ & _ & _ & K & _); exact K|].
    destruct (Hrel eq_refl) as (dout & _ & [_ _ _ _ _ Cs _] & _). exact Cs. }
  destruct L_inv as ([_ _ _ _ W1 W2 W3] & _ & _).
  destruct Cs as [H|(m0 & m1 & ch & Em & Hne & H)]; [left; exact H|]. right.
  exists (the_send x (firstn 5 (filter is_ticket m0)) ch), (skipn 5 (filter is_ticket m0) ++ filter is_ticket m1).
  cbn [the_send ts_tickets ts_url ts_connection_id ts_identity].
  split; [exact H|]. split; [destruct (filter is_ticket m0); [contradiction|discriminate]|].
  split; [unfold lenN; rewrite firstn_length; lia|]. split; [|auto].
  unfold tickets_of. rewrite Em, filter_app, app_assoc, firstn_skipn. reflexivity.
Qed.

Lemma rx_exists : exists r0, rx_run P (rx_start (d_in a)) ops rs r0.
Proof. destruct (creach_rx P lib a ops rs x HP Hin Hout Hops Hreach) as (r0 & Hr & _). eauto. Qed.

Hypothesis Hb : r_bad r = false.

Lemma R_rel : exists dout, rx_rel P x dout r.
Proof.
  destruct (creach_rx P lib a ops rs x HP Hin Hout Hops Hreach) as (r0 & Hr0 & Hrel & _).
  rewrite (rx_run_det P ops _ rs r r0 HP Hrx Hr0) in Hb |- *. apply Hrel. exact Hb.
Qed.

Lemma refine_lemma : forall hdr payload buf fs, cop_ok (CUnprotect hdr payload buf) ->
  match cstep P lib x (CUnprotect hdr payload buf) fs with
  | Done (x', CUnprotected st n out) =>
    exists r', recv P (fs <> []) r hdr (iov_concat payload) buf st n (iov_data out) r' /\
      (r_bad r' = false -> exists dout, rx_rel P x' dout r' /\ send_step x x' (r_msgs r') (r_part r') /\
         (st = S_OK -> n <> 0 -> cx_phase x' <> RECEIVING))
  | Done _ => False
  | Undef u => u = UbNegativeShift /\ r_closed r = false /\ exists c pad,
      iov_concat payload = dir_seal P (r_dir r) hdr (inner ty_handshake c pad) /\
      fatal (r_part r ++ c)
  | NoFuel => False
  end.
Proof.
  destruct R_rel as (dout & Hx). intros hdr payload buf fs (B1 & B2 & B3 & B4).
  pose proof (recv_ok P lib x dout r hdr payload buf fs HP Hx B1 B2 B3 B4) as H.
  cbn [cstep].
  destruct (crypt_unprotect P lib x (IoBuf hdr) payload (IoBuf buf) fs) as [[[[y [st' n']] out'] fs']|u|];
    cbn [obind]; [|exact H|exact H]. destruct H as (r' & H & K & _). exists r'. split; [exact H|].
  intros Hb'. exists dout. auto.
Qed.

Lemma dir_seal_bytes_ok : forall d aad m, bytes_ok m -> bytes_ok (dir_seal P d aad m).
Proof.
  intros d aad m Hm. unfold dir_seal, seal. apply bytes_ok_app. split; [|apply (mac_bytes P HP)].
  unfold stream. apply bytes_ok_xor; [exact Hm|]. apply Forall_forall. intros y Hy.
  apply in_map_iff in Hy. destruct Hy as (i & <- & _). apply (ks_byte P HP).
Qed.

Lemma be_bytes_ok : forall k v, bytes_ok (be_bytes k v).
Proof.
  induction k as [|k IH]; intros v; cbn [be_bytes]; [constructor|].
  apply bytes_ok_app. split; [apply IH|]. constructor; [|constructor]. unfold byte_ok.
  apply N.mod_lt. discriminate.
Qed.

Lemma header_bytes_ok : forall n, bytes_ok (tls_header n).
Proof.
  intros n. unfold tls_header. apply bytes_ok_app. split; [|apply be_bytes_ok].
  repeat constructor.
Qed.

Lemma deliver_lemma : forall msg payload buf, let hdr := tls_header (lenN msg + 16) in
  r_closed r = false -> dir_usable (r_dir r) -> bytes_ok msg -> 1 <= lenN msg <= 16384 + 1 ->
  lenN msg <= lenN buf -> Forall iov_valid payload -> iov_concat payload = dir_seal P (r_dir r) hdr msg ->
  cop_ok (CUnprotect hdr payload buf) /\
  match cstep P lib x (CUnprotect hdr payload buf) [] with
  | Done (x', CUnprotected st n out) =>
    exists r', accept P (([] : faults) <> []) (rx_dir r (dir_next (r_dir r))) msg
      (msg ++ dropN (lenN msg) buf) st n (iov_data out) r' /\
      recv P (([] : faults) <> []) r hdr (iov_concat payload) buf st n (iov_data out) r' /\
      (r_bad r' = false -> exists dout, rx_rel P x' dout r' /\ send_step x x' (r_msgs r') (r_part r') /\
         (st = S_OK -> n <> 0 -> cx_phase x' <> RECEIVING))
  | Done _ => False
  | Undef u => u = UbNegativeShift /\ exists c pad, msg = inner ty_handshake c pad /\ fatal (r_part r ++ c)
  | NoFuel => False
  end.
Proof.
  intros msg payload buf hdr Hcl Hu Hbm Hlen Hbuf Hv Es.
  assert (Hpl : sum_lens payload = lenN msg + 16).
  { rewrite (sum_lens_concat payload Hv), Es. apply lenN_dir_seal. exact HP. }
  assert (Hok : cop_ok (CUnprotect hdr payload buf)).
  { split; [apply header_bytes_ok|]. split; [exact Hv|].
    split; [rewrite Es; apply dir_seal_bytes_ok; exact Hbm|].
    rewrite Hpl. unfold hdr. rewrite lenN_tls_header. unfold two64. lia. }
  split; [exact Hok|].
  assert (Hwf : well_formed hdr (lenN (iov_concat payload))).
  { rewrite <- (sum_lens_concat payload Hv), Hpl. split; [reflexivity|]. lia. }
  pose proof (refine_lemma hdr payload buf [] Hok) as H.
  destruct (cstep P lib x (CUnprotect hdr payload buf) []) as [[x' [?|st n out|?]]|u|]; try exact H.
  - destruct H as (r' & H & K). exists r'. split; [|split; [exact H|exact K]].
    inversion H; subst; try congruence; try contradiction.
    + match goal with Q : _ \/ _ |- _ => destruct Q as [Q|Q] end; [contradiction|].
      exfalso. match goal with Q : forall msg, _ = _ -> _ |- _ => specialize (Q msg Es) end. lia.
    + match goal with Q : iov_concat payload = dir_seal _ _ _ ?m |- _ =>
        rewrite Es in Q; apply dir_seal_inj in Q; [subst m|exact HP] end. assumption.
  - destruct H as (Eu & _ & c & pad & E & Hm). rewrite Es in E. apply dir_seal_inj in E; [|exact HP]. eauto.
Qed.

Lemma R_wait : d_broken (r_dir r) = false ->
  (r_part r = [] -> r_wait r = false) /\
  (r_part r <> [] -> lenN (tickets_of (r_msgs r)) < 5 -> r_wait r = true).
Proof.
  intros Hbr. destruct R_rel as (dout & Hrel).
  pose proof (rx_rel_expecting _ _ _ _ Hrel Hbr) as [He1 He2].
  destruct Hrel as (_ & _ & _ & _ & He). destruct (He Hbr) as [Ew _]. rewrite Ew in *.
  destruct (r_wait r); split; intros; try reflexivity.
  - exfalso. apply He1; auto.
  - exfalso. destruct (He2 eq_refl); [contradiction|lia].
Qed.

(* C17: the result of a record with application data *)
Lemma data_lemma : forall content pad payload buf,
  let msg := inner ty_application_data content pad in
  let hdr := tls_header (lenN msg + 16) in
  r_closed r = false -> dir_usable (r_dir r) -> bytes_ok content ->
  lenN content + pad <= 16384 -> lenN msg <= lenN buf ->
  Forall iov_valid payload -> iov_concat payload = dir_seal P (r_dir r) hdr msg ->
  exists x' out, cstep P lib x (CUnprotect hdr payload buf) [] =
      Done (x', if r_wait r then CUnprotected S_INVALID_RECORD 0 out
                else CUnprotected S_OK (lenN content) out) /\
    (r_wait r = false -> takeN (lenN content) (iov_data out) = content) /\
    rx_run P (rx_start (d_in a)) (ops ++ [(CUnprotect hdr payload buf, [])])
      (rs ++ [if r_wait r then CUnprotected S_INVALID_RECORD 0 out
              else CUnprotected S_OK (lenN content) out])
      (let r1 := rx_dir r (dir_next (r_dir r)) in if r_wait r then r1 else rx_data r1).
Proof.
  intros content pad payload buf msg hdr Hcl Hu Hbc Hlen Hbuf Hv Es.
  assert (Hm : lenN msg = lenN content + 1 + pad) by apply lenN_inner.
  destruct (deliver_lemma msg payload buf Hcl Hu) as [_ H]; auto; try lia.
  { unfold msg, inner. apply bytes_ok_app. split; [exact Hbc|]. constructor; [reflexivity|].
    apply Forall_forall. intros y Hy. apply repeat_spec in Hy. subst y. reflexivity. }
  fold hdr in H.
  assert (T : ty_alert <> 0 /\ ty_handshake <> 0 /\ ty_application_data <> 0) by (repeat split; discriminate).
  destruct T as (T1 & T2 & T3).
  destruct (cstep P lib x (CUnprotect hdr payload buf) []) as [[x' [?|st n out|?]]|u|]; try contradiction.
  - destruct H as (r' & Ha & Hrv & _). exists x', out. unfold msg in Ha.
    assert (Hrun : rx_run P (rx_start (d_in a)) (ops ++ [(CUnprotect hdr payload buf, [])])
      (rs ++ [CUnprotected st n out]) r') by (eapply rx_run_snoc; eauto).
    clear Hrv.
    inversion Ha; subst;
      try match goal with K : inner _ _ _ = zeros _ |- _ => exfalso; revert K; apply inner_not_zero; discriminate end;
      try match goal with K : inner _ _ _ = inner _ _ _ |- _ =>
        apply inner_inj in K; [|assumption|assumption]; destruct K as (K1 & K2 & K3); try discriminate; subst end.
    + congruence.
    + match goal with K : r_wait _ = true |- _ => cbn [rx_dir r_wait] in K; rewrite K in * end.
      split; [reflexivity|]. split; [discriminate|]. exact Hrun.
    + match goal with K : r_wait _ = false |- _ => cbn [rx_dir r_wait] in K; rewrite K in * end.
      split; [reflexivity|]. split; [|exact Hrun]. intros _.
      unfold inner. rewrite <- !app_assoc. apply takeN_app_exact.
  - destruct H as (_ & c & p & E & _). exfalso. apply inner_inj in E; [|assumption|assumption].
    destruct E; discriminate.
Qed.

(* C15 *)
Lemma C15_lemma : forall content pad payload buf,
  let msg := inner ty_application_data content pad in
  let hdr := tls_header (lenN msg + 16) in
  r_closed r = false -> dir_usable (r_dir r) -> r_part r = [] -> bytes_ok content ->
  lenN content + pad <= 16384 -> lenN msg <= lenN buf ->
  Forall iov_valid payload -> iov_concat payload = dir_seal P (r_dir r) hdr msg ->
  exists x' out, cstep P lib x (CUnprotect hdr payload buf) [] =
      Done (x', CUnprotected S_OK (lenN content) out) /\
    takeN (lenN content) (iov_data out) = content.
Proof.
  intros content pad payload buf msg hdr Hcl Hu Hp Hbc Hlen Hbuf Hv Es.
  destruct (data_lemma content pad payload buf Hcl Hu Hbc Hlen Hbuf Hv Es) as (x' & out & E & K & _).
  rewrite (proj1 (R_wait (proj1 Hu)) Hp) in *. exists x', out. auto.
Qed.

Lemma C15_zero_lemma : forall k payload buf,
  let msg := zeros k in
  let hdr := tls_header (k + 16) in
  r_closed r = false -> dir_usable (r_dir r) -> 1 <= k <= 16384 + 1 -> k <= lenN buf ->
  Forall iov_valid payload -> iov_concat payload = dir_seal P (r_dir r) hdr msg ->
  exists x' out, cstep P lib x (CUnprotect hdr payload buf) [] =
      Done (x', CUnprotected S_INVALID_RECORD 0 out).
Proof.
  intros k payload buf msg hdr Hcl Hu Hk Hbuf Hv Es.
  assert (Hm : lenN msg = k) by apply lenN_zeros.
  destruct (deliver_lemma msg payload buf Hcl Hu) as [_ H]; auto; try (rewrite Hm; auto; lia).
  { apply Forall_forall. intros y Hy. apply repeat_spec in Hy. subst y. reflexivity. }
  rewrite Hm in H. fold hdr in H.
  assert (Hno : forall ty c p, ty <> 0 -> msg <> inner ty c p).
  { intros ty c p Ht E. apply (inner_not_zero ty c p Ht). rewrite <- E, Hm. reflexivity. }
  destruct (cstep P lib x (CUnprotect hdr payload buf) []) as [[x' [?|st n out|?]]|u|]; try contradiction.
  - destruct H as (r' & Ha & _). exists x', out.
    clearbody msg.
    inversion Ha; try (exfalso; match goal with K : msg = inner _ _ _ |- _ =>
      revert K; apply Hno; first [discriminate|assumption] end).
    subst. reflexivity.
  - destruct H as (_ & c & p & E & _). exfalso. revert E. apply Hno. discriminate.
Qed.

(* C20: exactly what has been handed over *)
Lemma C20_exact_lemma : map ts_tickets (cx_sent x) = r_sent r.
Proof. destruct R_rel as (dout & _ & _ & _ & E & _). exact E. Qed.

(* C17 *)
Lemma C17_lemma : forall content pad payload buf,
  let msg := inner ty_application_data content pad in
  let hdr := tls_header (lenN msg + 16) in
  r_closed r = false -> dir_usable (r_dir r) -> r_part r <> [] ->
  lenN (tickets_of (r_msgs r)) < 5 -> bytes_ok content ->
  lenN content + pad <= 16384 -> lenN msg <= lenN buf ->
  Forall iov_valid payload -> iov_concat payload = dir_seal P (r_dir r) hdr msg ->
  exists x' out, cstep P lib x (CUnprotect hdr payload buf) [] =
      Done (x', CUnprotected S_INVALID_RECORD 0 out).
Proof.
  intros content pad payload buf msg hdr Hcl Hu Hp H5 Hbc Hlen Hbuf Hv Es.
  destruct (data_lemma content pad payload buf Hcl Hu Hbc Hlen Hbuf Hv Es) as (x' & out & E & _).
  rewrite (proj2 (R_wait (proj1 Hu)) Hp H5) in *. exists x', out. auto.
Qed.
End L.
